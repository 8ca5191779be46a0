(** Specification (not a model): the physical lines of a text. *)
From Coq Require Import Ascii List.
From Verif Require Import Base.
Import ListNotations.

(** [physical s ls]: [s] is the lines [ls], each with its contents and its ending: a newline, a carriage return and a
    newline, or nothing (only the last one, if it has contents). *)
Inductive physical : list ascii -> list (list ascii * list ascii) -> Prop :=
| ph_none : physical [] []
| ph_last t : t <> [] -> ~ In LF t -> physical t [(t, [])]
| ph_lf t rest ls : ~ In LF t -> (forall t', t <> t' ++ [CR]) -> physical rest ls ->
    physical (t ++ LF :: rest) ((t, [LF]) :: ls)
| ph_crlf t rest ls : ~ In LF t -> physical rest ls ->
    physical (t ++ CR :: LF :: rest) ((t, [CR; LF]) :: ls).
