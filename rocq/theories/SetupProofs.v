(** Facts about setup validation. *)
From Verif Require Import Base Setup ListFacts.
From Coq Require Import Permutation.

Lemma norm_pack_spec cs l : norm_pack cs = Some l -> ~ In NUL l.
Proof.
  unfold norm_pack. destruct cs as [|x cs]; [discriminate|].
  destruct (mem NUL (x :: cs)) eqn:E.
  - destruct cs; [intros H; injection H as <-; auto|discriminate].
  - intros H; injection H as <-. apply mem_nIn; exact E.
Qed.
Lemma get_matcher_nonul sel os l : get_matcher sel os = Some l -> ~ In NUL l.
Proof.
  unfold get_matcher. destruct (flat_map _ os) as [|cs [|? ?]]; [|apply norm_pack_spec|discriminate].
  intros H; injection H as <-; auto.
Qed.
Lemma intersect_disjoint a b : intersect a b = false -> disjoint a b.
Proof.
  unfold intersect, disjoint. intros H x Ha Hb.
  assert (existsb (fun c => mem c b) a = true); [|congruence].
  apply existsb_exists. exists x. split; [exact Ha|apply mem_In; exact Hb].
Qed.
Lemma disjoint_intersect a b : disjoint a b -> intersect a b = false.
Proof.
  unfold intersect, disjoint. intros H. destruct (existsb _ a) eqn:E; [|reflexivity].
  apply existsb_exists in E as (x & Hx & Hm). apply mem_In in Hm. destruct (H x Hx Hm).
Qed.

Lemma quote_matcher os l : get_matcher sel_quote os = Some l -> quote_list
   {| c_quote := hd_error l; c_escape := []; c_triml := []; c_trimr := []; c_ml := false; c_mlsize := 0;
      c_mode := EBool; c_ignhdr := false; c_ignempty := false |} = l.
Proof.
  unfold get_matcher. destruct (flat_map _ os) as [|cs [|? ?]] eqn:E; [| |discriminate].
  - intros H; injection H as <-; reflexivity.
  - assert (Hl : exists x, cs = [x]).
    { assert (Hin : In cs (flat_map (fun o => match sel_quote o with Some cs => [cs] | None => [] end) os)) by (rewrite E; left; reflexivity).
      apply in_flat_map in Hin as (o & _ & Ho). destruct o; cbn in Ho; try contradiction.
      destruct Ho as [<-|[]]; eauto. }
    destruct Hl as (x & ->). unfold norm_pack. destruct (mem NUL [x]); intros H; injection H as <-; reflexivity.
Qed.

(** Every setup that compiles satisfies [cfg_ok]. *)
Theorem setup_ok os c : setup os = Some c -> cfg_ok c.
Proof.
  unfold setup.
  destruct (get_matcher sel_quote os) as [q|] eqn:Eq; [|discriminate].
  destruct (get_matcher sel_escape os) as [e|] eqn:Ee; [|discriminate].
  destruct (get_matcher sel_trim os) as [t|] eqn:Et; [|discriminate].
  destruct (get_matcher sel_triml os) as [tl|] eqn:Etl; [|discriminate].
  destruct (get_matcher sel_trimr os) as [tr|] eqn:Etr; [|discriminate].
  destruct (get_multiline os) as [mls mlb].
  match goal with |- (if ?b then _ else _) = _ -> _ => destruct b eqn:B end; [|discriminate].
  intros H; injection H as <-.
  repeat (apply andb_true_iff in B; destruct B as [B ?]).
  repeat match goal with H : negb _ = true |- _ => apply negb_true_iff in H end.
  repeat match goal with H : (_ || _) = false |- _ => apply orb_false_iff in H; destruct H end.
  pose proof (quote_matcher os q Eq) as Hq. unfold quote_list in Hq; cbn in Hq.
  split; cbn [c_quote c_escape c_triml c_trimr c_ml]; unfold quote_list; cbn [c_quote]; rewrite ?Hq;
    try (apply intersect_disjoint; assumption).
  - intros K. apply (get_matcher_nonul _ _ _ Eq). rewrite <- Hq, K. left; reflexivity.
  - eapply get_matcher_nonul; eauto.
  - destruct t; eapply get_matcher_nonul; eauto.
  - destruct t; eapply get_matcher_nonul; eauto.
  - intros ->. cbn in *. destruct q as [|x q]; [|left; discriminate].
    destruct e; [discriminate|right; discriminate].
Qed.

(** Order independence. *)
Lemma perm_small {A} (a b : list A) : Permutation a b -> length a <= 1 -> a = b.
Proof.
  intros P Hl. destruct a as [|x [|y a]]; cbn in Hl; try lia.
  - apply Permutation_nil in P; auto.
  - apply Permutation_length_1_inv in P; auto.
Qed.
Lemma perm_flat_map {A B} (f : A -> list B) a b : Permutation a b -> Permutation (flat_map f a) (flat_map f b).
Proof.
  induction 1; cbn; auto.
  - apply Permutation_app_head; assumption.
  - rewrite !app_assoc. apply Permutation_app_tail, Permutation_app_comm.
  - etransitivity; eauto.
Qed.
Lemma get_matcher_perm sel a b : Permutation a b -> get_matcher sel a = get_matcher sel b.
Proof.
  intros P. unfold get_matcher.
  pose proof (perm_flat_map (fun o => match sel o with Some cs => [cs] | None => [] end) a b P) as PF.
  pose proof (Permutation_length PF) as PL.
  destruct (flat_map _ a) as [|x [|y l]] eqn:E.
  - rewrite <- (perm_small _ _ PF) by (cbn; lia). reflexivity.
  - rewrite <- (perm_small _ _ PF) by (cbn; lia). reflexivity.
  - destruct (flat_map (fun o => match sel o with Some cs => [cs] | None => [] end) b) as [|x' [|y' l']]; cbn in PL; try lia. reflexivity.
Qed.
Lemma count_perm f a b : Permutation a b -> count f a = count f b.
Proof.
  intros P. unfold count. apply Permutation_length.
  induction P; cbn; auto.
  - destruct (f x); auto.
  - destruct (f x), (f y); auto. apply perm_swap.
  - etransitivity; eauto.
Qed.
Lemma find_filter {A} f (l : list A) : find f l = hd_error (filter f l).
Proof. induction l as [|x l IH]; cbn; [reflexivity|]. destruct (f x); auto. Qed.
Lemma get_multiline_perm a b : Permutation a b -> count is_multiline a <= 1 -> get_multiline a = get_multiline b.
Proof.
  intros P Hc. unfold get_multiline. rewrite !find_filter.
  assert (PF : Permutation (filter is_multiline a) (filter is_multiline b)).
  { clear Hc. induction P; cbn; auto.
    - destruct (is_multiline x); auto.
    - destruct (is_multiline x), (is_multiline y); auto. apply perm_swap.
    - etransitivity; eauto. }
  rewrite (perm_small _ _ PF Hc). reflexivity.
Qed.

Theorem setup_perm a b : Permutation a b -> setup a = setup b.
Proof.
  intros P. unfold setup.
  rewrite !(get_matcher_perm _ a b P).
  rewrite !(count_perm _ a b P), (Permutation_length P).
  destruct (get_matcher sel_quote b); [|reflexivity].
  destruct (get_matcher sel_escape b); [|reflexivity].
  destruct (get_matcher sel_trim b); [|reflexivity].
  destruct (get_matcher sel_triml b); [|reflexivity].
  destruct (get_matcher sel_trimr b); [|reflexivity].
  destruct (Nat.le_gt_cases (count is_multiline a) 1) as [Hm|Hm].
  - rewrite (get_multiline_perm a b P Hm). reflexivity.
  - rewrite (count_perm _ a b P) in Hm.
    destruct (get_multiline a) as [s1 b1], (get_multiline b) as [s2 b2].
    replace (count is_multiline b <=? 1) with false by (symmetry; apply Nat.leb_gt; lia).
    rewrite !andb_false_r. cbn. rewrite ?andb_false_r, ?andb_false_l. reflexivity.
Qed.

Lemma header_cfg_ok c : cfg_ok c -> cfg_ok (header_cfg c).
Proof. intros [A1 A2 A3 A4 A5 A6 A7 A8 A9 A10]. split; auto. discriminate. Qed.

(** What the accepted options mean. *)
Lemma get_matcher_In sel os l x : get_matcher sel os = Some l ->
  (In x l <-> exists o cs, In o os /\ sel o = Some cs /\ In x cs /\ x <> NUL).
Proof.
  unfold get_matcher. set (fm := flat_map _ os). intros E.
  assert (K : forall cs, In cs fm <-> exists o, In o os /\ sel o = Some cs).
  { intros cs. unfold fm. rewrite in_flat_map. split.
    - intros (o & Ho & Hi). exists o. destruct (sel o); [destruct Hi as [<-|[]]; auto|destruct Hi].
    - intros (o & Ho & Hs). exists o. rewrite Hs. split; [exact Ho|left; reflexivity]. }
  destruct fm as [|cs [|? ?]]; [| |discriminate].
  - injection E as <-. split; [intros []|]. intros (o & cs & Ho & Hs & _). apply (K cs). eauto.
  - assert (N : In x l <-> In x cs /\ x <> NUL).
    { unfold norm_pack in E. destruct cs as [|y cs]; [discriminate|]. destruct (mem NUL (y :: cs)) eqn:Em.
      - destruct cs; [|discriminate]. injection E as <-. apply mem_In in Em as [->|[]].
        split; [intros []|]. intros [[<-|[]] H]. congruence.
      - injection E as <-. apply mem_nIn in Em. split; [|tauto]. intros H; split; [exact H|]. intros ->. contradiction. }
    rewrite N. split.
    + intros [H1 H2]. destruct (proj1 (K cs) (or_introl eq_refl)) as (o & Ho & Hs). eauto 8.
    + intros (o & cs' & Ho & Hs & H1 & H2).
      destruct (proj2 (K cs') (ex_intro _ o (conj Ho Hs))) as [<-|[]]. auto.
Qed.

Lemma count_pos f os : 0 < count f os <-> exists o, In o os /\ f o = true.
Proof.
  unfold count. split.
  - intros H. destruct (filter f os) as [|o l] eqn:E; [cbn in H; lia|].
    exists o. apply filter_In. rewrite E. left; reflexivity.
  - intros (o & Ho & Hf). assert (H : In o (filter f os)) by (apply filter_In; auto). destruct (filter f os); [destruct H|cbn; lia].
Qed.

Theorem setup_meaning os c : setup os = Some c ->
  (forall x, c_quote c = Some x <-> In (OQuote x) os /\ x <> NUL) /\
  (forall x, In x (c_escape c) <-> exists cs, In (OEscape cs) os /\ In x cs /\ x <> NUL) /\
  (forall x, In x (c_triml c) <-> exists cs, (In (OTrim cs) os \/ In (OTrimLeft cs) os) /\ In x cs /\ x <> NUL) /\
  (forall x, In x (c_trimr c) <-> exists cs, (In (OTrim cs) os \/ In (OTrimRight cs) os) /\ In x cs /\ x <> NUL) /\
  (c_ml c = true <-> exists n, In (OMultiline n true) os) /\
  (forall n, In (OMultiline n true) os -> c_mlsize c = n) /\
  c_mode c = (if existsb is_string_error os then EString else if existsb is_throw os then EThrow else EBool) /\
  ~ (In OStringError os /\ In OThrowOnError os) /\
  ~ In OOther os.
Proof.
  unfold setup.
  destruct (get_matcher sel_quote os) as [q|] eqn:Eq; [|discriminate].
  destruct (get_matcher sel_escape os) as [e|] eqn:Ee; [|discriminate].
  destruct (get_matcher sel_trim os) as [t|] eqn:Et; [|discriminate].
  destruct (get_matcher sel_triml os) as [tl|] eqn:Etl; [|discriminate].
  destruct (get_matcher sel_trimr os) as [tr|] eqn:Etr; [|discriminate].
  destruct (get_multiline os) as [mls mlb] eqn:Eml.
  match goal with |- (if ?b then _ else _) = _ -> _ => destruct b eqn:B end; [|discriminate].
  intros H; injection H as <-. cbn [c_quote c_escape c_triml c_trimr c_ml c_mlsize c_mode].
  repeat (apply andb_true_iff in B; let H := fresh "B" in destruct B as [B H]).
  pose proof (quote_matcher os q Eq) as Hq. unfold quote_list in Hq; cbn in Hq.
  assert (ML : forall n b, In (OMultiline n b) os -> mls = n /\ mlb = b).
  { intros n b Hin. unfold get_multiline in Eml. rewrite find_filter in Eml.
    assert (L : length (filter is_multiline os) <= 1).
    { clear - B4. unfold count in B4. apply Nat.leb_le in B4. exact B4. }
    assert (F : In (OMultiline n b) (filter is_multiline os)) by (apply filter_In; auto).
    destruct (filter is_multiline os) as [|o [|? ?]]; [destruct F| |cbn in L; lia].
    destruct F as [->|[]]. cbn in Eml. injection Eml as <- <-. auto. }
  repeat split.
  - rename H into Hx. rewrite Hx in Hq. assert (Hin : In x q) by (rewrite <- Hq; left; reflexivity).
    apply (get_matcher_In _ _ _ x Eq) in Hin as (o & cs & Ho & Hs & H1 & H2).
    destruct o; cbn in Hs; try discriminate. injection Hs as <-. destruct H1 as [<-|[]]. exact Ho.
  - intros ->. apply (get_matcher_nonul _ _ _ Eq). destruct (hd_error q) eqn:Hh; [injection H as ->|discriminate]. rewrite <- Hq. left; reflexivity.
  - intros [H1 H2]. assert (Hin : In x q) by (apply (get_matcher_In _ _ _ x Eq); exists (OQuote x), [x]; cbn; auto).
    destruct (hd_error q) as [y|]; [|rewrite <- Hq in Hin; destruct Hin].
    rewrite <- Hq in Hin. destruct Hin as [->|[]]. reflexivity.
  - intros Hx. apply (get_matcher_In _ _ _ x Ee) in Hx as (o & cs & Ho & Hs & H1 & H2).
    destruct o; cbn in Hs; try discriminate. injection Hs as <-. eauto.
  - intros (cs & Ho & H1 & H2). apply (get_matcher_In _ _ _ x Ee). exists (OEscape cs), cs. auto.
  - intros Hx. assert (D : In x t \/ In x tl) by (destruct t; auto).
    destruct D as [D|D]; [apply (get_matcher_In _ _ _ x Et) in D|apply (get_matcher_In _ _ _ x Etl) in D];
      destruct D as (o & cs & Ho & Hs & H1 & H2); destruct o; cbn in Hs; try discriminate; injection Hs as <-; eauto.
  - intros (cs & [Ho|Ho] & H1 & H2).
    + assert (D : In x t) by (apply (get_matcher_In _ _ _ x Et); exists (OTrim cs), cs; auto). destruct t; [destruct D|exact D].
    + assert (D : In x tl) by (apply (get_matcher_In _ _ _ x Etl); exists (OTrimLeft cs), cs; auto).
      destruct t as [|y t]; [exact D|]. destruct tl; [destruct D|]. cbn in *. discriminate.
  - intros Hx. assert (D : In x t \/ In x tr) by (destruct t; auto).
    destruct D as [D|D]; [apply (get_matcher_In _ _ _ x Et) in D|apply (get_matcher_In _ _ _ x Etr) in D];
      destruct D as (o & cs & Ho & Hs & H1 & H2); destruct o; cbn in Hs; try discriminate; injection Hs as <-; eauto.
  - intros (cs & [Ho|Ho] & H1 & H2).
    + assert (D : In x t) by (apply (get_matcher_In _ _ _ x Et); exists (OTrim cs), cs; auto). destruct t; [destruct D|exact D].
    + assert (D : In x tr) by (apply (get_matcher_In _ _ _ x Etr); exists (OTrimRight cs), cs; auto).
      destruct t as [|y t]; [exact D|]. destruct tr; [destruct D|]. cbn in *. discriminate.
  - intros ->. unfold get_multiline in Eml. destruct (find is_multiline os) as [o|] eqn:Ef; [|discriminate].
    apply find_some in Ef as [Hin Ho]. destruct o; try discriminate. injection Eml as -> ->. eauto.
  - intros (n & Hin). apply (ML n true Hin).
  - intros n Hin. apply (ML n true Hin).
  - assert (KC : forall f, count f os <= 1 -> (count f os =? 1) = existsb f os).
    { intros f Hf. destruct (existsb f os) eqn:Ex.
      - apply existsb_exists in Ex. apply (count_pos f os) in Ex. apply Nat.eqb_eq. lia.
      - apply Nat.eqb_neq. intros Hn. assert (Hp : 0 < count f os) by lia. apply count_pos, existsb_exists in Hp. congruence. }
    rewrite !KC; [reflexivity|apply Nat.leb_le; assumption|apply Nat.leb_le; assumption].
  - intros [H1 H2].
    assert (P1 : 0 < count is_string_error os) by (apply count_pos; eauto).
    assert (P2 : 0 < count is_throw os) by (apply count_pos; eauto).
    match goal with H : (count is_throw os + count is_string_error os <=? 1) = true |- _ => apply Nat.leb_le in H; lia end.
  - intros Hin.
    match goal with H : (_ =? length os) = true |- _ => apply Nat.eqb_eq in H; rename H into HL end.
    clear - HL Hin. revert HL.
    assert (G : count is_matcher os + count is_multiline os + count is_string_error os + count is_ignore_header os
       + count is_ignore_empty os + count is_throw os < length os); [|lia].
    assert (LE : forall os, count is_matcher os + count is_multiline os + count is_string_error os + count is_ignore_header os
       + count is_ignore_empty os + count is_throw os <= length os).
    { unfold count. induction os0 as [|o os0 IH]; [cbn; lia|]. destruct o; cbn [filter is_matcher is_multiline is_string_error is_ignore_header is_ignore_empty is_throw length] in *; lia. }
    induction os as [|o os IH]; [destruct Hin|]. destruct Hin as [->|Hin].
    + specialize (LE os). unfold count in *. cbn [filter is_matcher is_multiline is_string_error is_ignore_header is_ignore_empty is_throw length] in *. lia.
    + specialize (IH Hin). unfold count in *. destruct o; cbn [filter is_matcher is_multiline is_string_error is_ignore_header is_ignore_empty is_throw length] in *; lia.
Qed.
