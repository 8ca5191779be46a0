(** Specification (not a model): writing values as texts, and picking columns by their names. *)
From Coq Require Import Ascii List ZArith Arith.
From Verif Require Import Base Extract ConvSpec.
Import ListNotations.

(** [printed t v s]: [s] is a text for the value [v] of the type [t]: decimal numbers, 0/1 or false/true, the character, the
    string; the text of the value in an optional, the empty text for an optional without value. *)
Inductive printed : ty -> val -> str -> Prop :=
| pr_int i z : (0 < i_bits i)%nat -> in_range (i_signed i) (i_bits i) z -> printed (TInt i) (VInt z) (decimal z)
| pr_true : printed TBool (VBool true) (S2 "true")
| pr_false : printed TBool (VBool false) (S2 "false")
| pr_one : printed TBool (VBool true) (S2 "1")
| pr_zero : printed TBool (VBool false) (S2 "0")
| pr_char x : x <> NUL -> printed TChar (VChar x) [x]
| pr_string s : ~ In NUL s -> printed TString (VStr s) s
| pr_some t v s : printed t v s -> printed (TOpt t) (VOpt (Some v)) s
| pr_none_int i : (0 < i_bits i)%nat -> printed (TOpt (TInt i)) (VOpt None) []
| pr_none_bool : printed (TOpt TBool) (VOpt None) []
| pr_none_char : printed (TOpt TChar) (VOpt None) [].

(** A record: one value for each type. *)
Inductive record : list ty -> list val -> list str -> Prop :=
| rec_nil : record [] [] []
| rec_cons t v s ts vs ss : printed t v s -> record ts vs ss -> record (t :: ts) (v :: vs) (s :: ss).

(** [picks header fs xs ys]: the columns with the names [fs], of columns [xs] that have the names [header]. *)
Definition picks {A} (header fs : list str) (xs ys : list A) : Prop :=
  Forall2 (fun f y => exists i, nth_error header i = Some f /\ nth_error xs i = Some y) fs ys.
