(** Specification (not a model): ways of writing a row of fields as a line. *)
From Coq Require Import Ascii List.
From Verif Require Import SplitSpec.
Import ListNotations.

(** Fields separated by the delimiter. *)
Fixpoint join (d : list ascii) (fs : list (list ascii)) : list ascii :=
  match fs with
  | [] => []
  | [f] => f
  | f :: fs' => f ++ d ++ join d fs'
  end.

(** [cut_at d line fs]: cutting [line] at the first occurrence of [d], again and again. *)
Inductive cut_at (d : list ascii) : list ascii -> list (list ascii) -> Prop :=
| cut_last line : (forall a b, line <> a ++ d ++ b) -> cut_at d line [line]
| cut_more f rest fs :
    (forall a b, f ++ d ++ rest = a ++ d ++ b -> length f <= length a) ->
    cut_at d rest fs -> cut_at d (f ++ d ++ rest) (f :: fs).

(** Drop the trailing characters that belong to [cs]. *)
Definition rtrim (cs : list ascii) (s : list ascii) : list ascii := rev (ltrim cs (rev s)).

(** A quoted field with its quotes doubled. *)
Definition double_quotes (q : ascii) (v : list ascii) : list ascii :=
  flat_map (fun x => if ascii_dec x q then [q; q] else [x]) v.
Definition quote_field (q : ascii) (v : list ascii) : list ascii := q :: double_quotes q v ++ [q].

(** A field with its special characters escaped. *)
Definition escape_field (e : ascii) (special : list ascii) (v : list ascii) : list ascii :=
  flat_map (fun x => if in_dec ascii_dec x special then [e; x] else [x]) v.

Section Dialect.
Context (quote : option ascii) (escape triml trimr : list ascii) (d0 : ascii).

(** [inside q v t]: [v] written between quotes. *)
Inductive inside (q : ascii) : list ascii -> list ascii -> Prop :=
| in_nil : inside q [] []
| in_char x v t : x <> q -> ~ In x escape -> inside q v t -> inside q (x :: v) (x :: t)
| in_double v t : inside q v t -> inside q (q :: v) (q :: q :: t)
| in_escape e x v t : In e escape -> inside q v t -> inside q (x :: v) (e :: x :: t).

(** [bare v t]: [v] written without quotes. A character is written as it is unless it is an escape or
    the first character [d0] of the delimiter; trimmed characters must not come last
    or before an escape. *)
Inductive bare : list ascii -> list ascii -> Prop :=
| ba_nil : bare [] []
| ba_char x v t :
    ~ In x escape -> x <> d0 ->
    (In x trimr -> exists y t', t = y :: t' /\ ~ In y escape) ->
    bare v t -> bare (x :: v) (x :: t)
| ba_escape e x v t : In e escape -> bare v t -> bare (x :: v) (e :: x :: t).

(** The ways to write the field [v]. *)
Inductive written (v : list ascii) : list ascii -> Prop :=
| wr_quoted q t : quote = Some q -> inside q v t -> written v (q :: t ++ [q])
| wr_bare t :
    bare v t ->
    (forall x, hd_error t = Some x -> quote <> Some x /\ ~ In x triml) ->
    written v t.

(** [written] surrounded by characters that are trimmed. *)
Definition padded (v cell : list ascii) : Prop :=
  exists lead text trail,
    cell = lead ++ text ++ trail /\ written v text /\
    Forall (fun x => In x triml) lead /\ Forall (fun x => In x trimr) trail.

(** The delimiter does not start with a character that has another meaning. *)
Definition clean_delim : Prop :=
  quote <> Some d0 /\ ~ In d0 escape /\ ~ In d0 triml /\ ~ In d0 trimr.
End Dialect.
