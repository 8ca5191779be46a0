(** What holds if a step returns, and what if it throws; nothing is said about undefined behaviour and missing fuel. *)
From Verif Require Import Base.

Definition ends {S A} (Q : A -> S -> Prop) (E : S -> Prop) (o : res S A) : Prop := match o with Ok a s => Q a s | Throw _ s => E s | _ => True end.
Lemma ends_bind {S A B} (Q : A -> S -> Prop) (R : B -> S -> Prop) E (m : M S A) (k : A -> M S B) s :
  ends Q E (m s) -> (forall a s', Q a s' -> ends R E (k a s')) -> ends R E (bind m k s).
Proof. unfold bind. intros H K. destruct (m s); try exact H. apply K. exact H. Qed.
Lemma ends_weaken {S A} (Q Q' : A -> S -> Prop) (E E' : S -> Prop) (o : res S A) : ends Q E o -> (forall a s, Q a s -> Q' a s) -> (forall s, E s -> E' s) -> ends Q' E' o.
Proof. destruct o; cbn; auto. Qed.
Lemma ends_catch {S A} (Q : A -> S -> Prop) (E1 E : S -> Prop) (m : M S A) (h : str -> M S A) s :
  ends Q E1 (m s) -> (forall e s', E1 s' -> ends Q E (h e s')) -> ends Q E (catch m h s).
Proof. unfold catch. intros H K. destruct (m s); try exact H. apply K. exact H. Qed.
