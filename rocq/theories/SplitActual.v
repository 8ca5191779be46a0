(** Specification (not a model): the reading of one line that the library implements, for every line.  It is the grammar
    of SplitSpec.v with two deviations, [p_trim_escape] and [i_quote_escape_quote].  Each line has exactly one reading or
    exactly one defect. *)
From Coq Require Import Ascii List String.
From Verif Require Import SplitSpec Base.
Import ListNotations.

(** The ways in which a line can be malformed; [from]: the text from the offending closing quote on. *)
Inductive defect :=
| OpenQuote                            (* a quoted field is never closed *)
| LoneEscape                           (* an escape is the last character *)
| StrayQuote (from : list ascii)       (* a closing quote is followed by something else than a delimiter *)
| StrayQuoteEscape (from : list ascii) (* the same, what follows being (after trimming) a lone escape *).

Section Actual.
Context (quote : option ascii) (escape triml trimr : list ascii) (delim : list ascii).
Notation ends := (field_ends trimr delim).
(** The first character that is not trimmed is an escape. *)
Definition meets_escape (s : list ascii) : Prop := exists e r, ltrim trimr s = e :: r /\ In e escape.

(** [plain s v after]: [s] starts with an unquoted field of value [v]; [after] is what follows it. *)
Inductive plain : list ascii -> list ascii -> list ascii -> Prop :=
| p_end s : ends s -> plain s [] s
| p_char x s v after : ~ ends (x :: s) -> ~ meets_escape (x :: s) -> plain s v after -> plain (x :: s) (x :: v) after
| p_escape e x s v after : ~ ends (e :: x :: s) -> In e escape -> plain s v after -> plain (e :: x :: s) (x :: v) after
(** of the trimmed characters before an escape the first is lost instead of the escape. *)
| p_trim_escape h w e x s v after : ~ ends (h :: w ++ e :: x :: s) -> In h trimr -> Forall (fun y => In y trimr) w ->
    In e escape -> plain s v after -> plain (h :: w ++ e :: x :: s) (w ++ e :: x :: v) after.
Inductive plain_defect : list ascii -> Prop :=
| pd_lone w e : ~ ends (w ++ [e]) -> Forall (fun y => In y trimr) w -> In e escape -> plain_defect (w ++ [e])
| pd_char x s : ~ ends (x :: s) -> ~ meets_escape (x :: s) -> plain_defect s -> plain_defect (x :: s)
| pd_escape e x s : ~ ends (e :: x :: s) -> In e escape -> plain_defect s -> plain_defect (e :: x :: s)
| pd_trim_escape h w e x s : ~ ends (h :: w ++ e :: x :: s) -> In h trimr -> Forall (fun y => In y trimr) w ->
    In e escape -> plain_defect s -> plain_defect (h :: w ++ e :: x :: s).

(** [inside q s v after]: [s], standing after an opening quote, is the rest of a quoted field of value [v]. *)
Inductive inside (q : ascii) : list ascii -> list ascii -> list ascii -> Prop :=
| i_end after : ends after -> inside q (q :: after) [] after
| i_char x s v after : x <> q -> ~ In x escape -> inside q s v after -> inside q (x :: s) (x :: v) after
| i_double s v after : ~ ends (q :: s) -> inside q s v after -> inside q (q :: q :: s) (q :: v) after
| i_escape e x s v after : In e escape -> inside q s v after -> inside q (e :: x :: s) (x :: v) after
(** stands for one quote. *)
| i_quote_escape_quote e s v after : ~ ends (e :: q :: s) -> In e escape -> inside q s v after ->
    inside q (q :: e :: q :: s) (q :: v) after.
Inductive inside_defect (q : ascii) : list ascii -> defect -> Prop :=
| id_open : inside_defect q [] OpenQuote
| id_lone e : In e escape -> inside_defect q [e] LoneEscape
| id_stray_lone after e : ~ ends after -> ltrim trimr after = [e] -> In e escape -> inside_defect q (q :: after) (StrayQuoteEscape (q :: after))
| id_stray after x r : ~ ends after -> ltrim trimr after = x :: r -> ~ In x escape -> hd_error after <> Some q -> inside_defect q (q :: after) (StrayQuote (q :: after))
(** the reported place is one further when an escaped character follows. *)
| id_stray_escape after e x r : ~ ends after -> ltrim trimr after = e :: x :: r -> In e escape ->
    ~ (after = e :: x :: r /\ x = q) -> inside_defect q (q :: after) (StrayQuote after)
| id_char x s k : x <> q -> ~ In x escape -> inside_defect q s k -> inside_defect q (x :: s) k
| id_double s k : ~ ends (q :: s) -> inside_defect q s k -> inside_defect q (q :: q :: s) k
| id_escape e x s k : In e escape -> inside_defect q s k -> inside_defect q (e :: x :: s) k
| id_quote_escape_quote e s k : ~ ends (e :: q :: s) -> In e escape -> inside_defect q s k -> inside_defect q (q :: e :: q :: s) k.

Inductive one_field : list ascii -> list ascii -> list ascii -> Prop :=
| o_plain s v after : (forall q, quote = Some q -> hd_error s <> Some q) -> plain s v after -> one_field s v after
| o_quoted q s v after : quote = Some q -> inside q s v after -> one_field (q :: s) v after.
Inductive one_defect : list ascii -> defect -> Prop :=
| od_plain s : (forall q, quote = Some q -> hd_error s <> Some q) -> plain_defect s -> one_defect s LoneEscape
| od_quoted q s k : quote = Some q -> inside_defect q s k -> one_defect (q :: s) k.

(** A line and its columns; *)
Inductive has_columns : list ascii -> list (list ascii) -> Prop :=
| hc_last line v after : one_field (ltrim triml line) v after -> ltrim trimr after = [] -> has_columns line [v]
| hc_more line v after rest vs : one_field (ltrim triml line) v after -> ltrim trimr after = delim ++ rest ->
    has_columns rest vs -> has_columns line (v :: vs).
(** its defect. *)
Inductive has_defect : list ascii -> defect -> Prop :=
| hd_here line k : one_defect (ltrim triml line) k -> has_defect line k
| hd_later line v after rest k : one_field (ltrim triml line) v after -> ltrim trimr after = delim ++ rest ->
    has_defect rest k -> has_defect line k.
End Actual.

(** What is said about a defect of a line of [total] characters; [None]: nothing, the line is to be continued (multiline).
    [throwing]: in exceptions the first complaint wins, in messages the last. *)
Definition said (multiline throwing : bool) (total : nat) (k : defect) : option str :=
  let stray from := (S2 "mismatched quote at position: " ++ dec (total - List.length from))%list in
  let lone := S2 "unterminated escape at the end of the line" in
  match k with
  | OpenQuote => if multiline then None else Some (S2 "unterminated quote")
  | LoneEscape => if multiline then None else Some lone
  | StrayQuote from => Some (stray from)
  | StrayQuoteEscape from => Some (if throwing && negb multiline then lone else stray from)
  end.
