(** Continuing an unterminated quote: splitting a text in two parts equals splitting it at once. *)
From Verif Require Import Base Setup Splitter SplitPure ListFacts SplitSpec SplitRefine SplitSpecProofs.

(** Equal up to the positions carried for messages and resplitting. *)
Definition fsim (r1 r2 : fres) : Prop :=
  match r1, r2 with
  | FMismatch _ e1, FMismatch _ e2 => e1 = e2
  | FMismatch _ _, _ | _, FMismatch _ _ => False
  | _, _ => r1 = r2
  end.
Definition tsim (t1 t2 : ptail) : Prop :=
  match t1, t2 with
  | TUnterm _ a1, TUnterm _ a2 => a1 = a2
  | TMismatch _ e1 _, TMismatch _ e2 _ => e1 = e2
  | TUnterm _ _, _ | _, TUnterm _ _ | TMismatch _ _ _, _ | _, TMismatch _ _ _ => False
  | _, _ => t1 = t2
  end.
Definition psim (x y : list str * ptail) : Prop := fst x = fst y /\ tsim (snd x) (snd y).

Lemma fsim_refl r : fsim r r. Proof. destruct r; cbn; reflexivity. Qed.
Lemma tsim_refl t : tsim t t. Proof. destruct t; cbn; reflexivity. Qed.
Lemma psim_refl x : psim x x. Proof. split; [reflexivity|apply tsim_refl]. Qed.
Lemma tsim_trans a b c : tsim a b -> tsim b c -> tsim a c.
Proof. destruct a, b; cbn; try contradiction; try discriminate; destruct c; cbn; try contradiction; try discriminate; congruence. Qed.
Lemma psim_trans a b c : psim a b -> psim b c -> psim a c.
Proof. intros [A1 A2] [B1 B2]. split; [congruence|eapply tsim_trans; eauto]. Qed.
Lemma tsim_sym a b : tsim a b -> tsim b a.
Proof. destruct a, b; cbn; try contradiction; try discriminate; congruence. Qed.
Lemma psim_sym a b : psim a b -> psim b a.
Proof. intros [A1 A2]. split; [congruence|apply tsim_sym; exact A2]. Qed.

Section C.
Context (c : cfg) (Hc : cfg_ok c) (d : str) (Hd0 : d <> []).

Lemma quoted_pos : forall s dr k p1 p2 acc, fsim (quoted c d dr k p1 acc s) (quoted c d dr k p2 acc s).
Proof.
  induction s as [|h s IH]; intros dr k p1 p2 acc; cbn [quoted]; [reflexivity|].
  destruct dr; [|apply IH]. destruct k; [|apply IH].
  destruct (quote_match c h).
  - destruct (md c d s); try reflexivity.
    destruct (escape_match c x); [destruct r; [reflexivity|]|]; (destruct (_ && _); [apply IH|reflexivity]).
  - destruct (escape_match c h); [destruct s; [reflexivity|]|]; apply IH.
Qed.
Lemma field_pos s p1 p2 : fsim (field c d p1 s) (field c d p2 s).
Proof. unfold field. destruct s; [reflexivity|]. destruct (quote_match c a); [apply quoted_pos|apply fsim_refl]. Qed.

Lemma fields_sim : forall f1 f2 t1 t2 s, length s < f1 -> length s < f2 ->
  psim (fields c d f1 t1 s) (fields c d f2 t2 s).
Proof.
  induction f1 as [|f1 IH]; intros f2 t1 t2 s H1 H2; [lia|]. destruct f2 as [|f2]; [lia|]. cbn [fields].
  pose proof (field_pos s (t1 - length s) (t2 - length s)) as F.
  pose proof (field_len c d Hd0 s (t1 - length s)) as L.
  destruct (field c d (t1 - length s) s) as [a rest|a|a|a| |p e], (field c d (t2 - length s) s) as [a' rest'|a'|a'|a'| |p' e']; cbn [fsim] in F; try contradiction; try discriminate F; try (injection F; intros; subst); try (split; [reflexivity|reflexivity]); try (split; [reflexivity|exact F]).
  specialize (IH f2 t1 t2 rest' ltac:(lia) ltac:(lia)).
  destruct (fields c d f1 t1 rest'), (fields c d f2 t2 rest'). destruct IH as [I1 I2]. cbn in *. split; cbn; [congruence|exact I2].
Qed.
Lemma fields_of_sim f1 f2 t1 t2 b1 b2 r1 r2 : fsim r1 r2 ->
  (forall a rest, r1 = FNext a rest -> length rest < f1 /\ length rest < f2) ->
  psim (fields_of c d f1 t1 b1 r1) (fields_of c d f2 t2 b2 r2).
Proof.
  intros F L. destruct r1 as [a rest|a|a|a| |p e], r2 as [a' rest'|a'|a'|a'| |p' e']; cbn [fsim] in F; try contradiction; try discriminate F;
    try (injection F; intros; subst); try (split; [reflexivity|reflexivity]); try (split; [reflexivity|exact F]).
  destruct (L a' rest' eq_refl) as [L1 L2]. pose proof (fields_sim f1 f2 t1 t2 rest' L1 L2) as [I1 I2].
  cbn [fields_of]. destruct (fields c d f1 t1 rest'), (fields c d f2 t2 rest'). cbn in *. split; cbn; [congruence|exact I2].
Qed.

Section App.
Context (y : ascii) (u' : str) (Hy : ~ In y d).
Let u := y :: u'.

Lemma strip_none_app s : forall e, ~ In y e -> strip e s = None -> strip e (s ++ u) = None.
Proof.
  induction s as [|x s IH]; intros [|z e] Hn E; cbn in *; try discriminate.
  - destruct (Ascii.eqb y z) eqn:Ez; [|reflexivity]. apply Ascii.eqb_eq in Ez. exfalso. apply Hn. left; congruence.
  - destruct (Ascii.eqb x z); [|reflexivity]. apply IH; [tauto|exact E].
Qed.
Lemma span_app cs s t x r : span cs s = (t, x :: r) -> span cs (s ++ u) = (t, x :: r ++ u).
Proof.
  intros E. apply span_spec in E as (-> & F & U). rewrite <- app_assoc. cbn [app]. apply span_intro; auto.
Qed.
Lemma dropc_app cs s : dropc cs s <> [] -> dropc cs (s ++ u) = dropc cs s ++ u.
Proof.
  unfold dropc. destruct (span cs s) as [t [|x r]] eqn:E; cbn; [congruence|]. intros _. rewrite (span_app _ _ _ _ _ E). reflexivity.
Qed.
Lemma md_app_other s t x r : md c d s = MOther t x r -> md c d (s ++ u) = MOther t x (r ++ u).
Proof.
  unfold md. destruct (span (c_trimr c) s) as [t0 [|x0 r0]] eqn:E; [discriminate|].
  destruct (strip d (x0 :: r0)) eqn:Es; [discriminate|]. intros H; injection H as -> -> ->.
  rewrite (span_app _ _ _ _ _ E). change (x :: r ++ u) with ((x :: r) ++ u). rewrite strip_none_app by auto. reflexivity.
Qed.
Lemma md_app_delim s rest : md c d s = MDelim rest -> rest <> [] -> md c d (s ++ u) = MDelim (rest ++ u).
Proof.
  unfold md. destruct (span (c_trimr c) s) as [t0 [|x0 r0]] eqn:E; [discriminate|].
  destruct (strip d (x0 :: r0)) eqn:Es; [|discriminate]. intros H; injection H as <-. intros Hne.
  rewrite (span_app _ _ _ _ _ E). change (x0 :: r0 ++ u) with ((x0 :: r0) ++ u).
  apply strip_spec in Es. rewrite Es, <- app_assoc, strip_app. rewrite dropc_app by exact Hne. reflexivity.
Qed.

Lemma normal_short : forall s k fl acc, length s <= k -> match normal c d k fl acc s with FNext _ _ => False | _ => True end.
Proof.
  induction s as [|h s IH]; intros k fl acc Hk; cbn [normal]; [destruct fl; exact I|].
  destruct k; cbn in Hk; [lia|]. apply IH. lia.
Qed.
Lemma md_other_len s t x r : md c d s = MOther t x r -> length s = length t + S (length r).
Proof.
  unfold md. destruct (span (c_trimr c) s) as [t0 [|x0 r0]] eqn:E; [discriminate|].
  destruct (strip d (x0 :: r0)) eqn:Es; [discriminate|]. intros H; injection H as -> -> ->.
  apply span_spec in E as (-> & _ & _). rewrite app_length. reflexivity.
Qed.

Lemma normal_app : forall s k fl acc a rest, normal c d k fl acc s = FNext a rest -> rest <> [] ->
  normal c d k fl acc (s ++ u) = FNext a (rest ++ u).
Proof.
  induction s as [|h s IH]; intros k fl acc a rest E Hne; [cbn in E; destruct fl; discriminate|].
  cbn [app normal] in *. destruct k; [|apply IH; auto].
  destruct (md c d (h :: s)) as [|rest0|t x r] eqn:Em; [destruct fl; discriminate| |].
  - injection E as -> ->. pose proof (md_app_delim (h :: s) rest Em Hne) as E2. cbn [app] in E2. rewrite E2. reflexivity.
  - pose proof (md_app_other _ _ _ _ Em) as E2. cbn [app] in E2. rewrite E2.
    destruct (escape_match c x); [|apply IH; auto].
    destruct r as [|z r]; cbn [app].
    + exfalso. apply md_other_len in Em. cbn in Em.
      pose proof (normal_short s (length t) true (acc ++ [h]) ltac:(lia)) as K. rewrite E in K. exact K.
    + apply IH; auto.
Qed.

Lemma quoted_app_next : forall s dr k pos acc a rest, quoted c d dr k pos acc s = FNext a rest -> rest <> [] ->
  quoted c d dr k pos acc (s ++ u) = FNext a (rest ++ u).
Proof.
  induction s as [|h s IH]; intros dr k pos acc a rest E Hne; [discriminate|].
  cbn [app quoted] in *. destruct dr; [|apply IH; auto]. destruct k; [|apply IH; auto].
  destruct (quote_match c h).
  - destruct (md c d s) as [|rest0|t x r] eqn:Em; [discriminate| |].
    + injection E as -> ->. rewrite (md_app_delim s rest Em Hne). reflexivity.
    + rewrite (md_app_other _ _ _ _ Em). destruct (escape_match c x).
      * destruct r as [|z r]; [discriminate|]. cbn [app]. destruct (_ && _); [apply IH; auto|discriminate].
      * destruct (_ && _); [apply IH; auto|discriminate].
  - destruct (escape_match c h); [|apply IH; auto].
    destruct s as [|z s]; [discriminate|]. cbn [app] in *. apply (IH 0 1 (S pos) acc a rest E Hne).
Qed.

Lemma quoted_app_unterm : forall s dr k pos acc a, quoted c d dr k pos acc s = FUnterm a -> dr + k <= length s ->
  quoted c d dr k pos acc (s ++ u) = quoted c d 0 0 (pos + length s) a u.
Proof.
  induction s as [|h s IH]; intros dr k pos acc a E Hk.
  - cbn in Hk. assert (dr = 0 /\ k = 0) as [-> ->] by lia. cbn [quoted] in E. injection E as ->.
    cbn [app length]. rewrite Nat.add_0_r. reflexivity.
  - cbn [length] in *. rewrite Nat.add_succ_r, <- Nat.add_succ_l. cbn [app]. cbn [quoted] in E. cbn [quoted].
    destruct dr as [|dr]; [|apply IH; [exact E|lia]]. destruct k as [|k]; [|apply IH; [exact E|lia]].
    destruct (quote_match c h).
    + destruct (md c d s) as [|rest0|t x r] eqn:Em; [discriminate|discriminate|].
      pose proof (md_other_len _ _ _ _ Em) as HL.
      rewrite (md_app_other _ _ _ _ Em). destruct (escape_match c x).
      * destruct r as [|z r]; [discriminate|]. cbn [app]. destruct (_ && _); [|discriminate]. apply IH; [exact E|cbn in HL; lia].
      * destruct (_ && _); [|discriminate]. apply IH; [exact E|lia].
    + destruct (escape_match c h); [|apply IH; [exact E|lia]].
      destruct s as [|z s]; [discriminate|]. cbn [app] in *.
      apply (IH 0 1 (S pos) acc a E). cbn; lia.
Qed.

Lemma field_app_next s pos a rest : field c d pos s = FNext a rest -> rest <> [] ->
  field c d pos (s ++ u) = FNext a (rest ++ u).
Proof.
  unfold field. destruct s as [|h s]; [discriminate|]. cbn [app].
  destruct (quote_match c h); [apply quoted_app_next|]. change (h :: s ++ u) with ((h :: s) ++ u). apply normal_app.
Qed.
Lemma field_app_unterm s pos a : field c d pos s = FUnterm a ->
  field c d pos (s ++ u) = quoted c d 0 0 (pos + length s) a u.
Proof.
  unfold field. destruct s as [|h s]; [discriminate|]. cbn [app].
  destruct (quote_match c h).
  - intros E. rewrite (quoted_app_unterm s 0 0 (S pos) [] a E ltac:(lia)). f_equal. cbn; lia.
  - intros E. exfalso. clear - E. revert E. generalize (h :: s), 0, false, (@nil ascii).
    induction l as [|x l IH]; intros k fl acc; cbn [normal]; [destruct fl; discriminate|].
    destruct k; [|apply IH]. destruct (md c d (x :: l)); [destruct fl; discriminate|discriminate|].
    destruct (escape_match c x0); [destruct r|]; apply IH.
Qed.

Lemma fields_unterm_ne f t s l p a : fields c d f t s = (l, TUnterm p a) -> s <> [].
Proof. destruct f; [discriminate|]. intros E ->. cbn in E. discriminate. Qed.

(** [a] is what the unterminated field has collected; the rest [u] is read as its continuation. *)
Theorem fields_app : forall f t s l p a, fields c d f t s = (l, TUnterm p a) ->
  forall f' t' fo to bo po, length (s ++ u) < f' -> length u <= fo ->
  psim (fields c d f' t' (s ++ u))
       (let r := fields_of c d fo to bo (quoted c d 0 0 po a u) in (l ++ fst r, snd r)).
Proof.
  induction f as [|f IH]; intros t s l p a E f' t' fo to bo po Hf' Hfo; [discriminate|].
  destruct f' as [|f']; [lia|]. cbn [fields] in *.
  destruct (field c d (t - length s) s) as [b rest|b|b|b| |q e] eqn:Ef; try discriminate.
  - destruct (fields c d f t rest) as [l1 t1] eqn:Er. injection E as <- ->.
    pose proof (fields_unterm_ne _ _ _ _ _ _ Er) as Hne.
    pose proof (field_app_next _ _ _ _ Ef Hne) as E2.
    pose proof (field_pos (s ++ u) (t - length s) (t' - length (s ++ u))) as FP. rewrite E2 in FP.
    destruct (field c d (t' - length (s ++ u)) (s ++ u)); cbn in FP; try contradiction; try discriminate FP. injection FP as <- <-.
    pose proof (field_len c d Hd0 s (t - length s)) as L. rewrite Ef in L.
    specialize (IH t rest l1 p a Er f' t' fo to bo po ltac:(rewrite app_length in *; lia) Hfo).
    destruct (fields c d f' t' (rest ++ u)). cbn [fst snd] in *. destruct IH as [I1 I2]. cbn [fst snd] in *.
    split; cbn [fst snd]; [cbn [app]; congruence|exact I2].
  - injection E as <- <- <-.
    pose proof (field_app_unterm _ _ _ Ef) as E2.
    pose proof (field_pos (s ++ u) (t - length s) (t' - length (s ++ u))) as FP. rewrite E2 in FP.
    assert (FS : fsim (field c d (t' - length (s ++ u)) (s ++ u)) (quoted c d 0 0 po b u)).
    { pose proof (quoted_pos u 0 0 (t - length s + length s) po b) as QP.
      revert FP QP. generalize (quoted c d 0 0 (t - length s + length s) b u) (quoted c d 0 0 po b u) (field c d (t' - length (s ++ u)) (s ++ u)).
      intros r1 r2 r3. destruct r1, r3; cbn; try contradiction; try discriminate; destruct r2; cbn; try contradiction; try discriminate; congruence. }
    cbn [app].
    match goal with |- psim ?x _ => change x with (fields_of c d f' t' (S (t' - length (s ++ u))) (field c d (t' - length (s ++ u)) (s ++ u))) end.
    rewrite <- surjective_pairing.
    apply fields_of_sim; [exact FS|].
    intros b2 rest E3. rewrite E3 in FS.
    pose proof (field_len c d Hd0 (s ++ u) (t' - length (s ++ u))) as L1. rewrite E3 in L1.
    pose proof (quoted_len c d Hd0 u 0 0 po b) as L2.
    destruct (quoted c d 0 0 po b u); cbn in FS; try contradiction; try discriminate FS. injection FS as _ <-. lia.
Qed.

Theorem psplit_app full l p a fo to bo po : psplit c d full = (l, TUnterm p a) -> length u <= fo ->
  psim (psplit c d (full ++ u))
       (let r := fields_of c d fo to bo (quoted c d 0 0 po a u) in (l ++ fst r, snd r)).
Proof.
  unfold psplit. intros E Hfo. pose proof (fields_unterm_ne _ _ _ _ _ _ E) as Hne.
  rewrite dropc_app by exact Hne. apply (fields_app _ _ _ _ _ _ E); [|exact Hfo].
  rewrite !app_length. pose proof (dropc_length (c_triml c) full). lia.
Qed.
End App.
End C.
