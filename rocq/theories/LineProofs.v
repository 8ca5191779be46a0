(** Lines: the function and the specification. *)
From Verif Require Import Base Setup Splitter Extract Converter Reader ListFacts LineSpec.

(** The contents and the ending of a raw line. *)
Definition chomp (raw : str) : str * str :=
  match rev raw with
  | a :: b :: t => if Ascii.eqb a LF then if Ascii.eqb b CR then (rev t, [CR; LF]) else (rev (b :: t), [LF]) else (raw, [])
  | [a] => if Ascii.eqb a LF then ([], [LF]) else (raw, [])
  | [] => ([], [])
  end.

Fixpoint raw_lines (cur s : str) : list str :=
  match s with
  | [] => match cur with [] => [] | _ => [cur] end
  | ch :: s' => if Ascii.eqb ch LF then (cur ++ [ch]) :: raw_lines [] s' else raw_lines (cur ++ [ch]) s'
  end.
Definition lines (s : str) : list (str * str) := map chomp (raw_lines [] s).

Lemma raw_lines_cut : forall s cur, s <> [] ->
  raw_lines cur s = (cur ++ fst (cut_line s)) :: raw_lines [] (snd (cut_line s)).
Proof.
  induction s as [|ch s IH]; intros cur Hne; [congruence|]. cbn [raw_lines cut_line].
  destruct (Ascii.eqb ch LF); [reflexivity|]. destruct s as [|x s].
  - cbn. destruct (cur ++ [ch]) eqn:E; [destruct cur; discriminate|reflexivity].
  - rewrite IH by discriminate. destruct (cut_line (x :: s)) as [a b]. cbn [fst snd]. rewrite <- app_assoc. reflexivity.
Qed.
Lemma lines_nil : lines [] = []. Proof. reflexivity. Qed.
Lemma lines_cons s : s <> [] -> lines s = chomp (fst (cut_line s)) :: lines (snd (cut_line s)).
Proof. intros H. unfold lines. rewrite raw_lines_cut by exact H. reflexivity. Qed.

Lemma cut_line_app s : fst (cut_line s) ++ snd (cut_line s) = s.
Proof.
  induction s as [|ch s IH]; [reflexivity|]. cbn [cut_line]. destruct (Ascii.eqb ch LF); [reflexivity|].
  destruct (cut_line s). cbn in *. congruence.
Qed.
Lemma cut_line_ne s : s <> [] -> fst (cut_line s) <> [].
Proof.
  destruct s as [|ch s]; [congruence|]. intros _. cbn [cut_line]. destruct (Ascii.eqb ch LF); [discriminate|].
  destruct (cut_line s). discriminate.
Qed.
Lemma cut_line_shape s : exists t, ~ In LF t /\ ((fst (cut_line s) = t /\ snd (cut_line s) = []) \/ fst (cut_line s) = t ++ [LF]).
Proof.
  induction s as [|ch s IH].
  - exists []. split; [auto|left; auto].
  - cbn [cut_line]. destruct (Ascii.eqb ch LF) eqn:E.
    + apply Ascii.eqb_eq in E as ->. exists []. split; [auto|right; reflexivity].
    + assert (ch <> LF) by (intros ->; rewrite Ascii.eqb_refl in E; discriminate).
      destruct (cut_line s) as [a b]. cbn [fst snd] in *. destruct IH as (t & Ht & K). exists (ch :: t). split.
      * intros [|]; [congruence|auto].
      * destruct K as [[-> ->]| ->]; [left; auto|right; reflexivity].
Qed.
Lemma cut_line_len s : s <> [] -> length (snd (cut_line s)) < length s.
Proof.
  intros H. pose proof (cut_line_app s) as E. pose proof (cut_line_ne s H) as N.
  rewrite <- E at 2. rewrite app_length. destruct (fst (cut_line s)); [congruence|cbn; lia].
Qed.

Lemma chomp_spec raw t : ~ In LF t ->
  (raw = t -> chomp raw = (t, [])) /\
  (raw = t ++ [LF] -> chomp raw = match rev t with x :: t' => if Ascii.eqb x CR then (rev t', [CR; LF]) else (t, [LF]) | [] => ([], [LF]) end).
Proof.
  intros H. split; intros ->; unfold chomp.
  - assert (K : forall x l, rev t = x :: l -> Ascii.eqb x LF = false).
    { intros x l E. destruct (Ascii.eqb x LF) eqn:Ex; [|reflexivity]. apply Ascii.eqb_eq in Ex as ->. exfalso. apply H.
      apply in_rev. rewrite E. left; reflexivity. }
    destruct (rev t) as [|x [|y l]] eqn:E.
    + destruct t; [reflexivity|]. apply (f_equal (@length _)) in E. rewrite rev_length in E. discriminate.
    + rewrite (K x [] eq_refl). reflexivity.
    + rewrite (K x _ eq_refl). reflexivity.
  - rewrite rev_unit. destruct (rev t) as [|x l] eqn:E; [reflexivity|]. rewrite <- E, rev_involutive.
    change (Ascii.eqb LF LF) with true. reflexivity.
Qed.
Lemma chomp_app raw : fst (chomp raw) ++ snd (chomp raw) = raw.
Proof.
  unfold chomp. destruct (rev raw) as [|a [|b t]] eqn:E; apply (f_equal (@rev _)) in E; rewrite rev_involutive in E.
  - rewrite E. reflexivity.
  - destruct (Ascii.eqb a LF) eqn:Ea; cbn [fst snd]; [|apply app_nil_r].
    apply Ascii.eqb_eq in Ea as ->. rewrite E. reflexivity.
  - destruct (Ascii.eqb a LF) eqn:Ea; [|apply app_nil_r].
    apply Ascii.eqb_eq in Ea as ->. destruct (Ascii.eqb b CR) eqn:Eb; cbn [fst snd]; rewrite E; cbn [rev].
    + apply Ascii.eqb_eq in Eb as ->. rewrite <- app_assoc. reflexivity.
    + reflexivity.
Qed.

Lemma no_cr_end t x l : rev t = x :: l -> Ascii.eqb x CR = false -> forall t', t <> t' ++ [CR].
Proof.
  intros E Ex t' ->. rewrite rev_unit in E. injection E as <- <-. discriminate.
Qed.
Theorem lines_physical s : physical s (lines s).
Proof.
  remember (length s) as n eqn:Hn. revert s Hn. induction n as [n IH] using (well_founded_induction lt_wf). intros s ->.
  destruct s as [|ch s]; [constructor|]. set (s0 := ch :: s) in *. assert (N : s0 <> []) by discriminate.
  rewrite lines_cons by exact N. pose proof (cut_line_len s0 N) as L. specialize (IH _ L _ eq_refl).
  pose proof (cut_line_app s0) as E. destruct (cut_line_shape s0) as (t & Ht & K).
  destruct (chomp_spec (fst (cut_line s0)) t Ht) as [C1 C2].
  destruct K as [[K1 K2]|K1].
  - rewrite (C1 K1), K2. rewrite K1, K2, app_nil_r in E. rewrite <- E. constructor; [|exact Ht]. rewrite E. exact N.
  - rewrite (C2 K1). rewrite K1 in E. rewrite <- app_assoc in E. rewrite <- E at 1. cbn [app].
    destruct (rev t) as [|x l] eqn:Er.
    + assert (t = []) as ->. { rewrite <- (rev_involutive t), Er. reflexivity. } apply (ph_lf []); auto. intros [|] ?; discriminate.
    + destruct (Ascii.eqb x CR) eqn:Ex.
      * apply Ascii.eqb_eq in Ex as ->. assert (t = rev l ++ [CR]) as ->. { rewrite <- (rev_involutive t), Er. reflexivity. }
        rewrite <- app_assoc. apply ph_crlf; [|exact IH]. intros Hi. apply Ht. apply in_app_iff; auto.
      * apply ph_lf; auto. eapply no_cr_end; eauto.
Qed.

Lemma lf_split t1 t2 r1 r2 : ~ In LF t1 -> ~ In LF t2 -> t1 ++ LF :: r1 = t2 ++ LF :: r2 -> t1 = t2 /\ r1 = r2.
Proof.
  revert t2. induction t1 as [|x t1 IH]; intros [|y t2] H1 H2 E; cbn in *; injection E.
  - auto.
  - intros; exfalso; apply H2; left; congruence.
  - intros; exfalso; apply H1; left; congruence.
  - intros E2 ->. destruct (IH t2) as [-> ->]; auto.
Qed.
Lemma crlf_eq t r : t ++ CR :: LF :: r = (t ++ [CR]) ++ LF :: r.
Proof. rewrite <- app_assoc. reflexivity. Qed.
Lemma notin_snoc t : ~ In LF t -> ~ In LF (t ++ [CR]).
Proof. rewrite in_app_iff. intros H [|[|[]]]; [auto|discriminate]. Qed.
Theorem physical_unique s l1 : physical s l1 -> forall l2, physical s l2 -> l1 = l2.
Proof.
  assert (A : forall t r (x : str), ~ In LF x -> x = t ++ LF :: r -> False).
  { intros t r x H ->. apply H, in_app_iff. right; left; reflexivity. }
  induction 1 as [|t Hne Ht|t rest ls Ht Hc P IH|t rest ls Ht P IH]; intros l2 K.
  - inversion K as [E|t Hne Ht E|t rest ls Ht Hc P E|t rest ls Ht P E]; subst; auto; [congruence|destruct t; discriminate|destruct t; discriminate].
  - inversion K as [E|t' Hne' Ht' E|t' rest ls' Ht' Hc' P' E|t' rest ls' Ht' P' E]; subst; auto; try congruence; exfalso.
    + eapply A; [exact Ht|reflexivity].
    + rewrite crlf_eq in Ht. eapply A; [exact Ht|reflexivity].
  - inversion K as [E|t' Hne' Ht' E|t' rest' ls' Ht' Hc' P' E|t' rest' ls' Ht' P' E].
    + destruct t; discriminate.
    + exfalso. eapply A; [exact Ht'|reflexivity].
    + apply lf_split in E as [-> ->]; auto. rewrite (IH _ P'). reflexivity.
    + rewrite crlf_eq in E. apply lf_split in E as [E _]; auto; [|apply notin_snoc; auto]. exfalso. symmetry in E. exact (Hc _ E).
  - inversion K as [E|t' Hne' Ht' E|t' rest' ls' Ht' Hc' P' E|t' rest' ls' Ht' P' E].
    + destruct t; discriminate.
    + exfalso. rewrite crlf_eq in Ht'. eapply A; [exact Ht'|reflexivity].
    + rewrite crlf_eq in E. apply lf_split in E as [E _]; auto; [|apply notin_snoc; auto]. exfalso. exact (Hc' _ E).
    + rewrite !crlf_eq in E. apply lf_split in E as [E ->]; try (apply notin_snoc; auto). apply app_inj_tail in E as [-> _]. rewrite (IH _ P'). reflexivity.
Qed.
