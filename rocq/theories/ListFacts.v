(** Facts about lists, memory cells and the text functions of SplitPure. *)
From Verif Require Import Base Setup Splitter SplitPure.

Definition nulfree (s : str) : Prop := ~ In NUL s.

Lemma nulfree_cons x s : nulfree (x :: s) <-> x <> NUL /\ nulfree s.
Proof. unfold nulfree; cbn; intuition congruence. Qed.
Lemma nulfree_app a b : nulfree (a ++ b) <-> nulfree a /\ nulfree b.
Proof. unfold nulfree; rewrite in_app_iff; intuition. Qed.
Lemma nulfree_nil : nulfree [].
Proof. intros []. Qed.
Global Hint Resolve nulfree_nil : core.

Lemma mem_In c l : mem c l = true <-> In c l.
Proof.
  unfold mem; rewrite existsb_exists; split.
  - intros (x & Hx & E); apply Ascii.eqb_eq in E; subst; exact Hx.
  - intros H; exists c; split; [exact H|apply Ascii.eqb_refl].
Qed.
Lemma mem_nIn c l : mem c l = false <-> ~ In c l.
Proof. rewrite <- mem_In; destruct (mem c l); intuition congruence. Qed.

Lemma str_eqb_eq a b : str_eqb a b = true <-> a = b.
Proof.
  revert b; induction a as [|x a IH]; intros [|y b]; cbn; try (split; congruence).
  rewrite andb_true_iff, IH, Ascii.eqb_eq; split; [intros []; congruence|intros E; injection E; auto].
Qed.
Lemma str_eqb_refl a : str_eqb a a = true.
Proof. apply str_eqb_eq; reflexivity. Qed.

Lemma rd_app_r m n i : rd (m ++ n) (length m + i) = rd n i.
Proof. unfold rd; rewrite nth_error_app2 by lia; replace (length m + i - length m) with i by lia; reflexivity. Qed.
Lemma rd_app_l m n i : i < length m -> rd (m ++ n) i = rd m i.
Proof. intros; unfold rd; rewrite nth_error_app1 by lia; reflexivity. Qed.
Lemma rd_at P a Y p : p = length P -> rd (P ++ Some a :: Y) p = Some a.
Proof. intros ->; unfold rd; rewrite nth_error_app2, Nat.sub_diag by lia; reflexivity. Qed.

Lemma unopt_map s : unopt (map Some s) = Some s.
Proof. induction s as [|x s IH]; cbn; [reflexivity|rewrite IH; reflexivity]. Qed.

Lemma range_str_mid P s Y b e :
  b = length P -> e = length P + length s ->
  range_str (P ++ map Some s ++ Y) b e = Some s.
Proof.
  intros -> ->; unfold range_str.
  rewrite !app_length, map_length.
  replace ((length P <=? length P + length s) && (length P + length s <=? length P + (length s + length Y))) with true
    by (symmetry; apply andb_true_iff; split; apply Nat.leb_le; lia).
  rewrite skipn_app, skipn_all, Nat.sub_diag; cbn.
  replace (length P + length s - length P) with (length (map Some s)) by (rewrite map_length; lia).
  rewrite firstn_app, Nat.sub_diag, firstn_all; cbn; rewrite app_nil_r.
  apply unopt_map.
Qed.

Lemma range_str_app P Y b e f :
  range_str P b e = Some f -> range_str (P ++ Y) b e = Some f.
Proof.
  unfold range_str; intros H.
  destruct ((b <=? e) && (e <=? length P)) eqn:E; [|discriminate].
  apply andb_true_iff in E; destruct E as [E1 E2].
  apply Nat.leb_le in E1, E2.
  rewrite app_length.
  replace ((b <=? e) && (e <=? length P + length Y)) with true
    by (symmetry; apply andb_true_iff; split; apply Nat.leb_le; lia).
  rewrite skipn_app, firstn_app.
  rewrite skipn_length.
  replace (e - b - (length P - b)) with 0 by lia.
  cbn; rewrite app_nil_r; exact H.
Qed.

Lemma range_str_bound m b e f : range_str m b e = Some f -> b <= e /\ e <= length m /\ length f = e - b.
Proof.
  unfold range_str; destruct ((b <=? e) && (e <=? length m)) eqn:E; [|discriminate].
  apply andb_true_iff in E; destruct E as [E1 E2]; apply Nat.leb_le in E1, E2.
  intros H; split; [lia|split;[lia|]].
  assert (L : forall l s, unopt l = Some s -> length s = length l).
  { induction l as [|[x|] l IH]; cbn; intros s Hs; [injection Hs as <-; reflexivity| |discriminate].
    destruct (unopt l) as [u|] eqn:U; [|discriminate]; injection Hs as <-; cbn; rewrite (IH u); auto. }
  apply L in H; rewrite H, firstn_length, skipn_length; lia.
Qed.

Lemma copyn_mid P A G D Y :
  exists G', length G' = length G /\
    copyn (P ++ A ++ G ++ D ++ Y) (length P + length A + length G) (length D) (length P + length A)
    = Some (P ++ A ++ D ++ G' ++ Y).
Proof.
  exists (skipn (length D) (G ++ D)); split.
  { rewrite skipn_length, app_length; lia. }
  unfold copyn.
  rewrite !app_length.
  match goal with |- (if ?b then _ else _) = _ => replace b with true
    by (symmetry; apply andb_true_iff; split; apply Nat.leb_le; lia) end.
  f_equal.
  assert (E1 : firstn (length P + length A) (P ++ A ++ G ++ D ++ Y) = P ++ A).
  { rewrite app_assoc, firstn_app, app_length, Nat.sub_diag; cbn.
    rewrite app_nil_r, <- app_length, firstn_all; reflexivity. }
  assert (E2 : skipn (length P + length A + length G) (P ++ A ++ G ++ D ++ Y) = D ++ Y).
  { rewrite !app_assoc, <- (app_assoc _ D Y).
    replace (length P + length A + length G) with (length ((P ++ A) ++ G)) by (rewrite !app_length; lia).
    rewrite skipn_app, skipn_all, Nat.sub_diag; reflexivity. }
  assert (E3 : skipn (length P + length A + length D) (P ++ A ++ G ++ D ++ Y) = skipn (length D) (G ++ D) ++ Y).
  { rewrite app_assoc, skipn_app, app_length.
    rewrite skipn_all2 by (rewrite app_length; lia); cbn.
    replace (length P + length A + length D - (length P + length A)) with (length D) by lia.
    rewrite app_assoc, skipn_app.
    rewrite app_length.
    replace (length D - (length G + length D)) with 0 by lia.
    reflexivity. }
  rewrite E1, E2, E3.
  rewrite firstn_app, Nat.sub_diag, firstn_all; cbn; rewrite app_nil_r.
  rewrite <- !app_assoc; reflexivity.
Qed.

(** span / strip *)
Lemma span_app cs s : fst (span cs s) ++ snd (span cs s) = s.
Proof.
  induction s as [|x s IH]; cbn; [reflexivity|].
  destruct (mem x cs); [|reflexivity].
  destruct (span cs s); cbn in *; congruence.
Qed.
Lemma span_spec cs s t u : span cs s = (t, u) ->
  s = t ++ u /\ Forall (fun x => In x cs) t /\ match u with [] => True | x :: _ => ~ In x cs end.
Proof.
  revert t u; induction s as [|x s IH]; cbn; intros t u E.
  - injection E as <- <-; auto.
  - destruct (mem x cs) eqn:Mx.
    + destruct (span cs s) as [a b] eqn:Es; injection E as <- <-.
      destruct (IH _ _ eq_refl) as (-> & F & U).
      repeat split; auto. constructor; auto. apply mem_In; exact Mx.
    + injection E as <- <-. repeat split; auto. apply mem_nIn; exact Mx.
Qed.
Lemma span_intro cs t u :
  Forall (fun x => In x cs) t -> match u with [] => True | x :: _ => ~ In x cs end ->
  span cs (t ++ u) = (t, u).
Proof.
  induction t as [|x t IH]; cbn; intros F U.
  - destruct u as [|y u]; [reflexivity|]. cbn. apply mem_nIn in U; rewrite U; reflexivity.
  - inversion F as [|? ? Hx F']; subst. apply mem_In in Hx; rewrite Hx, IH; auto.
Qed.
Lemma dropc_nil_cs s : dropc [] s = s.
Proof. destruct s; reflexivity. Qed.
Lemma dropc_suffix cs s : exists t, s = t ++ dropc cs s /\ Forall (fun x => In x cs) t.
Proof.
  unfold dropc; destruct (span cs s) as [t u] eqn:E; apply span_spec in E.
  exists t; cbn; intuition.
Qed.
Lemma dropc_length cs s : length (dropc cs s) <= length s.
Proof. destruct (dropc_suffix cs s) as (t & E & _). rewrite E at 2; rewrite app_length; lia. Qed.
Lemma dropc_nulfree cs s : nulfree s -> nulfree (dropc cs s).
Proof. destruct (dropc_suffix cs s) as (t & E & _). rewrite E at 1. rewrite nulfree_app; intuition. Qed.

Lemma strip_spec d s r : strip d s = Some r <-> s = d ++ r.
Proof.
  revert s; induction d as [|x d IH]; cbn; intros s.
  - split; [intros E; injection E; auto|intros ->; reflexivity].
  - destruct s as [|y s]; [split; discriminate|].
    destruct (Ascii.eqb y x) eqn:E.
    + apply Ascii.eqb_eq in E; subst. rewrite IH. split; [intros ->; reflexivity|intros H; injection H; auto].
    + split; [discriminate|]. intros H; injection H as -> _. rewrite Ascii.eqb_refl in E; discriminate.
Qed.
Lemma strip_app d r : strip d (d ++ r) = Some r.
Proof. apply strip_spec; reflexivity. Qed.
