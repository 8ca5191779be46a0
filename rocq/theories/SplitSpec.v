(** Specification (not a model): what it means to read one line of delimited text.
    Independent of the model; uses only lists of characters. *)
From Coq Require Import Ascii List.
Import ListNotations.

(** Drop the leading characters that belong to [cs]. *)
Fixpoint ltrim (cs : list ascii) (s : list ascii) : list ascii :=
  match s with
  | x :: s' => if in_dec ascii_dec x cs then ltrim cs s' else s
  | [] => []
  end.

Inductive break := UnterminatedQuote | MismatchedQuote | UnterminatedEscape.

Section Grammar.
(** The dialect: quote character, escape characters, characters trimmed on the left and
    on the right of a field, delimiter. *)
Context (quote : option ascii) (escape triml trimr : list ascii) (delim : list ascii).
(** A further condition on each unescaped character [x] of an unquoted field and the rest
    of that field's text; [fun _ _ => True] for the plain grammar. *)
Context (char_ok : ascii -> list ascii -> Prop).

(** [field_ends s]: after a (possibly empty) run of right-trimmed characters, [s] is
    exhausted or continues with the delimiter. *)
Definition field_ends (s : list ascii) : Prop :=
  ltrim trimr s = [] \/ exists rest, ltrim trimr s = delim ++ rest.

(** [unquoted v t after]: the text [t], followed by [after], is an unquoted field of value [v].
    The field stops at the first place where [field_ends] holds. *)
Inductive unquoted : list ascii -> list ascii -> list ascii -> Prop :=
| u_end after : field_ends after -> unquoted [] [] after
| u_char x v t after :
    ~ field_ends (x :: t ++ after) -> ~ In x escape -> char_ok x t ->
    unquoted v t after -> unquoted (x :: v) (x :: t) after
| u_escape e x v t after :
    ~ field_ends (e :: x :: t ++ after) -> In e escape ->
    unquoted v t after -> unquoted (x :: v) (e :: x :: t) after.

(** [inquotes q v t after]: [t] is the text between the quotes of a field of value [v], the
    closing quote being followed by [after]. *)
Inductive inquotes (q : ascii) : list ascii -> list ascii -> list ascii -> Prop :=
| q_end after : field_ends after -> inquotes q [] [] after
| q_char x v t after :
    x <> q -> ~ In x escape -> inquotes q v t after -> inquotes q (x :: v) (x :: t) after
| q_double v t after :
    ~ field_ends (q :: t ++ q :: after) ->
    inquotes q v t after -> inquotes q (q :: v) (q :: q :: t) after
| q_escape e x v t after :
    In e escape -> inquotes q v t after -> inquotes q (x :: v) (e :: x :: t) after.

(** One field of value [v] written as [t]. *)
Inductive field_text : list ascii -> list ascii -> list ascii -> Prop :=
| f_plain v t after :
    (forall q, quote = Some q -> hd_error (t ++ after) <> Some q) ->
    unquoted v t after -> field_text v t after
| f_quoted q v t after :
    quote = Some q -> inquotes q v t after -> field_text v (q :: t ++ [q]) after.

(** A line and its fields. *)
Inductive reads_as : list ascii -> list (list ascii) -> Prop :=
| r_last line v t after :
    ltrim triml line = t ++ after -> field_text v t after ->
    ltrim trimr after = [] ->
    reads_as line [v]
| r_more line v t after rest vs :
    ltrim triml line = t ++ after -> field_text v t after ->
    ltrim trimr after = delim ++ rest ->
    reads_as rest vs ->
    reads_as line (v :: vs).

(** ** Malformed lines. *)

(** Unquoted text that runs into an escape character with nothing left to escape. *)
Inductive unquoted_break : list ascii -> Prop :=
| ub_lone e : ~ field_ends [e] -> In e escape -> unquoted_break [e]
| ub_char x t : ~ field_ends (x :: t) -> ~ In x escape -> unquoted_break t -> unquoted_break (x :: t)
| ub_escape e x t : ~ field_ends (e :: x :: t) -> In e escape -> unquoted_break t -> unquoted_break (e :: x :: t).

(** The text after an opening quote that is not the rest of a quoted field: it is never closed;
    a lone escape ends it (inside the quotes or right after the closing quote); or the closing quote
    is followed by something else than a quote, the delimiter or the end. *)
Inductive inquotes_break (q : ascii) : break -> list ascii -> Prop :=
| qb_unterminated : inquotes_break q UnterminatedQuote []
| qb_lone e : In e escape -> inquotes_break q UnterminatedEscape [e]
| qb_lone_after e after :
    ~ field_ends after -> ltrim trimr after = [e] -> In e escape ->
    inquotes_break q UnterminatedEscape (q :: after)
| qb_mismatched after :
    ~ field_ends after -> hd_error after <> Some q -> inquotes_break q MismatchedQuote (q :: after)
| qb_char k x t :
    x <> q -> ~ In x escape -> inquotes_break q k t -> inquotes_break q k (x :: t)
| qb_double k t :
    ~ field_ends (q :: t) -> inquotes_break q k t -> inquotes_break q k (q :: q :: t)
| qb_escape k e x t :
    In e escape -> inquotes_break q k t -> inquotes_break q k (e :: x :: t).

Inductive breaks_as : list ascii -> break -> Prop :=
| b_plain line :
    (forall q, quote = Some q -> hd_error (ltrim triml line) <> Some q) ->
    unquoted_break (ltrim triml line) -> breaks_as line UnterminatedEscape
| b_quoted line q t k :
    quote = Some q -> ltrim triml line = q :: t -> inquotes_break q k t -> breaks_as line k
| b_later line v t after rest k :
    ltrim triml line = t ++ after -> field_text v t after ->
    ltrim trimr after = delim ++ rest ->
    breaks_as rest k -> breaks_as line k.

End Grammar.

(** The grammar itself, and the part of it in which no unescaped right-trimmed character stands
    directly before an escape character. *)
Definition any_char (x : ascii) (t : list ascii) : Prop := True.
Definition no_trim_before_escape (escape trimr : list ascii) (x : ascii) (t : list ascii) : Prop :=
  In x trimr -> forall y t', t = y :: t' -> ~ In y escape.

(** No character of [a] immediately followed by one of [b]. *)
Definition never_adjacent (a b : list ascii) (s : list ascii) : Prop :=
  forall pre x y post, s = pre ++ x :: y :: post -> In x a -> In y b -> False.

(** No occurrence of quote, escape, quote. *)
Definition never_qeq (quote : option ascii) (escape : list ascii) (s : list ascii) : Prop :=
  forall pre q e post, s = pre ++ q :: e :: q :: post -> quote = Some q -> In e escape -> False.
