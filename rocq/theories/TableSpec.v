(** Specification (not a model): ways to write a table of strings. *)
From Coq Require Import Ascii List.
From Verif Require Import Base Setup RowSpec.
Import ListNotations.

Section Table.
Context (c : cfg) (d : str) (special : list ascii).

(** [special] has every character with a meaning: quote, escapes, trimmed characters, the first of the delimiter, line ends. *)
Definition covers : Prop := forall x,
  c_quote c = Some x \/ In x (c_escape c) \/ In x (c_triml c) \/ In x (c_trimr c) \/ hd_error d = Some x \/ x = LF \/ x = CR -> In x special.

(** [cell v w]: the field [v] written as [w]: between quotes with quotes doubled (if it has no escape characters), with
    the special characters escaped, or as it is. *)
Inductive cell : str -> str -> Prop :=
| ce_quoted q v : c_quote c = Some q -> (forall x, In x v -> ~ In x (c_escape c)) -> cell v (quote_field q v)
| ce_escaped e v : In e (c_escape c) -> cell v (escape_field e special v)
| ce_plain v : (forall x, In x v -> ~ In x special) -> cell v v.

(** A row: fields, their cells joined by the delimiter; not without any text (such a line is an empty line). *)
Definition row_text (vs : list str) (w : str) : Prop :=
  vs <> [] /\ w <> [] /\ exists cells, Forall2 cell vs cells /\ w = join d cells.
(** Row ends: LF, CRLF, or nothing for the last row.  The text must not run into them. *)
Inductive row_end_ok (w : str) : str -> str -> Prop :=
| re_lf rest : (forall t, w <> t ++ [CR]) -> row_end_ok w [LF] rest
| re_crlf rest : row_end_ok w [CR; LF] rest
| re_none : (forall t, w <> t ++ [LF]) -> row_end_ok w [] [].
(** May the row take as many lines as it has? *)
Definition lines_ok (w : str) : Prop :=
  ~ In LF w \/ c_ml c = true /\ (c_mlsize c = 0 \/ count_occ ascii_dec w LF <= c_mlsize c).

(** [table rows data]: the rows written one after the other. *)
Inductive table : list (list str) -> str -> Prop :=
| tb_nil : table [] []
| tb_row vs w eol rows data : row_text vs w -> lines_ok w -> row_end_ok w eol data -> table rows data ->
    table (vs :: rows) (w ++ eol ++ data).
End Table.
