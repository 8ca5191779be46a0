(** setup compiles exactly for the option lists that fit together (SetupSpec.v). *)
From Verif Require Import Base Setup SetupSpec ListFacts SetupProofs.

Definition sel_of (k : kind) : opt -> option (list ascii) :=
  match k with KQuote => sel_quote | KEscape => sel_escape | KTrim => sel_trim | KTrimLeft => sel_triml | KTrimRight => sel_trimr end.
Lemma sel_option k o cs : sel_of k o = Some cs <-> option_of k cs o.
Proof. split; [destruct k, o; cbn; intros E; try discriminate; injection E as <-; constructor|intros H; destruct H; reflexivity]. Qed.
Lemma fop_app {A} (R : A -> A -> Prop) a b : ForallOrdPairs R (a ++ b) <-> ForallOrdPairs R a /\ ForallOrdPairs R b /\ (forall x y, In x a -> In y b -> R x y).
Proof.
  induction a as [|x a IH]; cbn; split.
  - intros H. split; [constructor|]. split; [exact H|]. intros ? ? [].
  - intros (_ & H & _). exact H.
  - intros H. inversion H as [|? ? H1 H2]; subst. apply IH in H2 as (I1 & I2 & I3). rewrite Forall_app in H1. destruct H1 as [H1 H3].
    split; [constructor; assumption|]. split; [exact I2|]. intros u v [<-|Hu] Hv; [rewrite Forall_forall in H3; auto|auto].
  - intros (H1 & H2 & H3). inversion H1; subst. constructor; [apply Forall_app; split; [assumption|apply Forall_forall; auto]|]. apply IH. auto.
Qed.
Lemma once_none (P : opt -> Prop) os : (forall o, In o os -> ~ P o) -> once P os.
Proof. induction os as [|o os IH]; intros H; constructor; [apply Forall_forall; intros x _ [K _]; apply (H o); auto; left; reflexivity|]. apply IH. intros; apply H; right; assumption. Qed.
Lemma once_count (f : opt -> bool) (P : opt -> Prop) os : (forall o, f o = true <-> P o) -> (count f os <= 1 <-> once P os).
Proof.
  intros F. unfold count. induction os as [|o os IH]; cbn [filter length]; [split; [constructor|lia]|]. destruct (f o) eqn:Eo.
  - cbn [length]. split.
    + intros H. assert (Z : filter f os = []) by (destruct (filter f os); [reflexivity|cbn in H; lia]).
      constructor; [|apply IH; rewrite Z; cbn; lia]. apply Forall_forall. intros x Hx [_ K]. apply F in K. assert (In x (filter f os)) by (apply filter_In; auto). rewrite Z in *. contradiction.
    + intros H. inversion H as [|? ? H1 H2]; subst. destruct (filter f os) as [|x l] eqn:Z; [cbn; lia|]. exfalso. assert (In x (filter f os)) by (rewrite Z; left; reflexivity).
      apply filter_In in H0 as [Hx Hf]. rewrite Forall_forall in H1. apply (H1 x Hx). split; apply F; assumption.
  - rewrite IH. split; intros H.
    + constructor; [|exact H]. apply Forall_forall. intros x _ [K _]. apply F in K. congruence.
    + inversion H; assumption.
Qed.
Definition packs (k : kind) (os : list opt) : list (list ascii) := flat_map (fun o => match sel_of k o with Some cs => [cs] | None => [] end) os.
Lemma in_packs k os cs : In cs (packs k os) <-> exists o, In o os /\ option_of k cs o.
Proof.
  unfold packs. rewrite in_flat_map. split; intros (o & Ho & H); exists o; (split; [exact Ho|]).
  - apply sel_option. destruct (sel_of k o); [destruct H as [<-|[]]; reflexivity|contradiction].
  - apply sel_option in H. rewrite H. left. reflexivity.
Qed.
Lemma once_packs k os : length (packs k os) <= 1 <-> once (fun o => exists cs, option_of k cs o) os.
Proof.
  rewrite <- (once_count (fun o => match sel_of k o with Some _ => true | None => false end)).
  - unfold packs, count. replace (length (flat_map (fun o => match sel_of k o with Some cs => [cs] | None => [] end) os)) with (length (filter (fun o => match sel_of k o with Some _ => true | None => false end) os)); [reflexivity|].
    induction os as [|o os IH]; cbn; [reflexivity|]. rewrite app_length. destruct (sel_of k o); cbn; rewrite IH; reflexivity.
  - intros o. destruct (sel_of k o) as [cs|] eqn:E.
    + split; [intros _; exists cs; apply sel_option; exact E|reflexivity].
    + split; [discriminate|]. intros (cs & H). apply sel_option in H. congruence.
Qed.
Definition pack_ok (cs : list ascii) : Prop := cs <> [] /\ (In NUL cs -> cs = [NUL]).
Lemma norm_ok cs : (exists l, norm_pack cs = Some l) <-> pack_ok cs.
Proof.
  unfold norm_pack, pack_ok. destruct cs as [|x cs]; [split; [intros [l H]; discriminate|intros [H _]; congruence]|].
  destruct (mem NUL (x :: cs)) eqn:E.
  - apply mem_In in E. split.
    + intros [l H]. destruct cs; [|discriminate]. split; [discriminate|]. intros _. destruct E as [->|[]]. reflexivity.
    + intros [_ H]. specialize (H E). injection H as -> ->. eauto.
  - apply mem_nIn in E. split; [intros _; split; [discriminate|contradiction]|eauto].
Qed.
Lemma matcher_ok k os : (exists l, get_matcher (sel_of k) os = Some l) <->
  once (fun o => exists cs, option_of k cs o) os /\ (forall cs o, In o os -> option_of k cs o -> pack_ok cs).
Proof.
  rewrite <- once_packs. unfold get_matcher. fold (packs k os).
  assert (A : (forall cs o, In o os -> option_of k cs o -> pack_ok cs) <-> Forall pack_ok (packs k os)).
  { rewrite Forall_forall. split; [intros H cs Hc; apply in_packs in Hc as (o & H1 & H2); eauto|intros H cs o H1 H2; apply H; apply in_packs; eauto]. }
  rewrite A. destruct (packs k os) as [|cs [|cs' l]]; cbn [length].
  - split; [intros _; split; [lia|constructor]|eauto].
  - rewrite norm_ok. split; [intros H; split; [lia|constructor; [exact H|constructor]]|intros [_ H]; inversion H; assumption].
  - split; [intros [l' H]; discriminate|intros [H _]; lia].
Qed.
Lemma matcher_has k os l x : get_matcher (sel_of k) os = Some l -> (In x l <-> has os k x).
Proof.
  intros E. rewrite (get_matcher_In _ _ _ x E). unfold has. split; intros (o & cs & H1 & H2 & H3 & H4); exists o, cs; (split; [exact H1|]; split; [apply sel_option; exact H2|auto]).
Qed.
Lemma en_has k os l : get_matcher (sel_of k) os = Some l -> (match l with [] => false | _ :: _ => true end = true <-> exists x, has os k x).
Proof.
  intros E. pose proof (fun x => matcher_has k os l x E) as H. destruct l as [|y l].
  - split; [discriminate|]. intros [x Hx]. apply H in Hx. destruct Hx.
  - split; [intros _; exists y; apply H; left; reflexivity|reflexivity].
Qed.
Lemma intersect_iff a b : intersect a b = false <-> forall x, In x a -> ~ In x b.
Proof. split; [intros H x H1 H2; exact (intersect_disjoint _ _ H x H1 H2)|intros H; apply disjoint_intersect; intros x H1 H2; exact (H x H1 H2)]. Qed.
Lemma known_iff os : count is_matcher os + count is_multiline os + count is_string_error os + count is_ignore_header os + count is_ignore_empty os + count is_throw os = length os <-> ~ In OOther os.
Proof.
  assert (LE : forall os, count is_matcher os + count is_multiline os + count is_string_error os + count is_ignore_header os + count is_ignore_empty os + count is_throw os <= length os).
  { unfold count. induction os0 as [|o os0 IH]; [cbn; lia|]. destruct o; cbn [filter is_matcher is_multiline is_string_error is_ignore_header is_ignore_empty is_throw length] in *; lia. }
  induction os as [|o os IH]; [cbn; split; auto|]. specialize (LE os). unfold count in *.
  destruct o; cbn [filter is_matcher is_multiline is_string_error is_ignore_header is_ignore_empty is_throw length In] in *.
  all: try (split; [intros H; assert (~ In OOther os) by (apply IH; lia); intuition discriminate|intros H; assert (~ In OOther os) by tauto; apply IH in H0; lia]).
  split; [lia|]. intros H. exfalso. apply H. left. reflexivity.
Qed.
Lemma multiline_first os : count is_multiline os <= 1 -> (snd (get_multiline os) = true <-> exists n, In (OMultiline n true) os).
Proof.
  intros C. unfold get_multiline. rewrite find_filter. unfold count in C. destruct (filter is_multiline os) as [|o [|? ?]] eqn:F; cbn in C; [| |lia].
  - cbn. split; [discriminate|]. intros [n H]. assert (In (OMultiline n true) (filter is_multiline os)) by (apply filter_In; auto). rewrite F in *. contradiction.
  - cbn [hd_error]. assert (Ho : In o (filter is_multiline os)) by (rewrite F; left; reflexivity). apply filter_In in Ho as [Ho1 Ho2]. destruct o; try discriminate. cbn. split.
    + intros ->. eauto.
    + intros [n H]. assert (In (OMultiline n true) (filter is_multiline os)) by (apply filter_In; auto). rewrite F in *. destruct H0 as [H0|[]]. congruence.
Qed.
Lemma count_or f g os : (forall o, ~ (f o = true /\ g o = true)) -> count (fun o => f o || g o) os = count f os + count g os.
Proof. intros D. unfold count. induction os as [|o os IH]; cbn; [reflexivity|]. specialize (D o). destruct (f o), (g o); cbn; try lia. Qed.

Theorem setup_accepts os : (exists c, setup os = Some c) <-> acceptable os.
Proof.
  unfold setup.
  assert (M : forall k, (exists l, get_matcher (sel_of k) os = Some l) \/ (~ acceptable os /\ get_matcher (sel_of k) os = None)).
  { intros k. destruct (get_matcher (sel_of k) os) as [l|] eqn:E; [left; eauto|right]. split; [|reflexivity]. intros A.
    destruct (proj2 (matcher_ok k os)) as [l H]; [split; [apply (a_once _ A)|intros cs o; apply (a_packs _ A)]|]. congruence. }
  assert (NO : forall k, ~ acceptable os /\ get_matcher (sel_of k) os = None -> forall (P : Prop), ~ P -> (P <-> acceptable os)) by (intros k [A _] P NP; split; contradiction).
  destruct (M KQuote) as [[q Eq]|K]; [|destruct K as [K1 K2]; cbn [sel_of] in K2; rewrite K2; split; [intros [c H]; discriminate|contradiction]].
  destruct (M KEscape) as [[e Ee]|K]; [|destruct K as [K1 K2]; cbn [sel_of] in K2; rewrite K2; destruct (get_matcher sel_quote os); (split; [intros [c H]; discriminate|contradiction])].
  destruct (M KTrim) as [[t Et]|K]; [|destruct K as [K1 K2]; cbn [sel_of] in K2; rewrite K2; destruct (get_matcher sel_quote os), (get_matcher sel_escape os); (split; [intros [c H]; discriminate|contradiction])].
  destruct (M KTrimLeft) as [[tl Etl]|K]; [|destruct K as [K1 K2]; cbn [sel_of] in K2; rewrite K2; destruct (get_matcher sel_quote os), (get_matcher sel_escape os), (get_matcher sel_trim os); (split; [intros [c H]; discriminate|contradiction])].
  destruct (M KTrimRight) as [[tr Etr]|K]; [|destruct K as [K1 K2]; cbn [sel_of] in K2; rewrite K2; destruct (get_matcher sel_quote os), (get_matcher sel_escape os), (get_matcher sel_trim os), (get_matcher sel_triml os); (split; [intros [c H]; discriminate|contradiction])].
  clear M NO. cbn [sel_of] in *. rewrite Eq, Ee, Et, Etl, Etr.
  pose proof (fun x => matcher_has KQuote os q x Eq) as Hq. pose proof (fun x => matcher_has KEscape os e x Ee) as He. pose proof (fun x => matcher_has KTrim os t x Et) as Ht.
  pose proof (fun x => matcher_has KTrimLeft os tl x Etl) as Htl. pose proof (fun x => matcher_has KTrimRight os tr x Etr) as Htr.
  pose proof (en_has KQuote os q Eq) as Nq. pose proof (en_has KEscape os e Ee) as Ne. pose proof (en_has KTrim os t Et) as Nt. pose proof (en_has KTrimLeft os tl Etl) as Ntl. pose proof (en_has KTrimRight os tr Etr) as Ntr.
  assert (ON : forall k, once (fun o => exists cs, option_of k cs o) os /\ (forall cs o, In o os -> option_of k cs o -> pack_ok cs)).
  { intros k. apply matcher_ok. destruct k; eauto. }
  destruct (get_multiline os) as [mls mlb] eqn:Em.
  set (en := fun l : list ascii => match l with [] => false | _ :: _ => true end) in *.
  change (match q with [] => false | _ :: _ => true end) with (en q) in *. change (match e with [] => false | _ :: _ => true end) with (en e) in *. change (match t with [] => false | _ :: _ => true end) with (en t) in *.
  change (match tl with [] => false | _ :: _ => true end) with (en tl) in *. change (match tr with [] => false | _ :: _ => true end) with (en tr) in *.
  assert (TRL : forall x, In x (if en t then t else tl) -> trims os x).
  { intros x H. unfold trims. destruct (en t); [left; apply Ht; exact H|right; left; apply Htl; exact H]. }
  assert (TRR : forall x, In x (if en t then t else tr) -> trims os x).
  { intros x H. unfold trims. destruct (en t); [left; apply Ht; exact H|right; right; apply Htr; exact H]. }
  assert (TRI : negb (en t && en tl) = true -> negb (en t && en tr) = true -> forall x, trims os x -> In x (if en t then t else tl) \/ In x (if en t then t else tr)).
  { intros N1 N2 x [H|[H|H]].
    - assert (En : en t = true) by (apply Nt; eauto). rewrite En. left. apply Ht. exact H.
    - assert (En : en tl = true) by (apply Ntl; eauto). rewrite En, andb_true_r in N1. apply negb_true_iff in N1. rewrite N1. left. apply Htl. exact H.
    - assert (En : en tr = true) by (apply Ntr; eauto). rewrite En, andb_true_r in N2. apply negb_true_iff in N2. rewrite N2. right. apply Htr. exact H. }
  pose proof (once_count is_multiline (fun o => exists n b, o = OMultiline n b) os) as OM.
  assert (OMf : forall o, is_multiline o = true <-> exists n b, o = OMultiline n b) by (intros o; split; [destruct o; try discriminate; eauto|intros (n & b & ->); reflexivity]). specialize (OM OMf).
  pose proof (once_count (fun o => is_throw o || is_string_error o) (fun o => o = OStringError \/ o = OThrowOnError) os) as OE.
  assert (OEf : forall o, is_throw o || is_string_error o = true <-> o = OStringError \/ o = OThrowOnError) by (intros o; split; [destruct o; try discriminate; auto|intros [-> | ->]; reflexivity]). specialize (OE OEf).
  rewrite count_or in OE by (intros []; cbn; intuition discriminate).
  pose proof (known_iff os) as KN.
  match goal with |- (exists c, (if ?b then _ else _) = _) <-> _ => destruct b eqn:Bo end.
  - split; [intros _|eauto]. repeat (apply andb_true_iff in Bo; let H := fresh "C" in destruct Bo as [Bo H]).
    apply Nat.eqb_eq in C. apply Nat.leb_le in C0, C1, C2, C3. apply negb_true_iff in Bo, C7, C8. apply orb_false_iff in C7 as [C7a C7b]. apply orb_false_iff in C8 as [C8a C8b].
    assert (ML : count is_multiline os <= 1) by assumption.
    constructor.
    + intros k. apply ON.
    + intros k cs o H1 H2. destruct (ON k) as [_ X]. exact (X cs o H1 H2).
    + apply OM. exact ML.
    + apply OE. lia.
    + apply KN. exact C.
    + intros x H1 H2. rewrite intersect_iff in Bo. apply (Bo x); [apply He; exact H2|apply Hq; exact H1].
    + intros x H1 H2. rewrite intersect_iff in C8a, C8b. apply Hq in H1. destruct (TRI C5 C4 x H2) as [H|H]; [exact (C8a x H1 H)|exact (C8b x H1 H)].
    + intros x H1 H2. rewrite intersect_iff in C7a, C7b. apply He in H1. destruct (TRI C5 C4 x H2) as [H|H]; [exact (C7a x H1 H)|exact (C7b x H1 H)].
    + intros x y H1 H2. assert (En : en t = true) by (apply Nt; eauto). rewrite En in C5, C4. apply negb_true_iff in C5, C4. cbn in C5, C4.
      destruct H2 as [H2|H2]; [assert (en tl = true) by (apply Ntl; eauto)|assert (en tr = true) by (apply Ntr; eauto)]; congruence.
    + intros n H. pose proof (proj2 (multiline_first os ML) (ex_intro _ n H)) as X. rewrite Em in X. cbn in X. subst mlb. cbn in C6. apply orb_true_iff in C6 as [X|X]; [apply Nq in X as [x X]|apply Ne in X as [x X]]; eauto.
  - split; [intros [c H]; discriminate|]. intros A. exfalso. apply Bool.not_true_iff_false in Bo. apply Bo. clear Bo.
    assert (ML : count is_multiline os <= 1) by (apply OM; apply (a_multiline _ A)).
    assert (EL : count is_throw os + count is_string_error os <= 1) by (apply OE; apply (a_error _ A)).
    assert (NT1 : negb (en t && en tl) = true).
    { apply negb_true_iff. destruct (en t) eqn:E1; [|reflexivity]. destruct (en tl) eqn:E2; [|reflexivity]. exfalso. destruct (proj1 Nt eq_refl) as [x Hx]. destruct (proj1 Ntl eq_refl) as [y Hy]. exact (a_trims _ A x y Hx (or_introl Hy)). }
    assert (NT2 : negb (en t && en tr) = true).
    { apply negb_true_iff. destruct (en t) eqn:E1; [|reflexivity]. destruct (en tr) eqn:E2; [|reflexivity]. exfalso. destruct (proj1 Nt eq_refl) as [x Hx]. destruct (proj1 Ntr eq_refl) as [y Hy]. exact (a_trims _ A x y Hx (or_intror Hy)). }
    rewrite !andb_true_iff. repeat split; try assumption.
    + apply negb_true_iff, intersect_iff. intros x H1 H2. exact (a_quote_escape _ A x (proj1 (Hq x) H2) (proj1 (He x) H1)).
    + apply negb_true_iff, orb_false_iff. split; apply intersect_iff; intros x H1 H2; apply (a_quote_trim _ A x); [apply Hq; exact H1|apply TRL; exact H2|apply Hq; exact H1|apply TRR; exact H2].
    + apply negb_true_iff, orb_false_iff. split; apply intersect_iff; intros x H1 H2; apply (a_escape_trim _ A x); [apply He; exact H1|apply TRL; exact H2|apply He; exact H1|apply TRR; exact H2].
    + destruct mlb; [|reflexivity]. cbn. assert (X : exists n, In (OMultiline n true) os) by (apply multiline_first; [exact ML|rewrite Em; reflexivity]). destruct X as [n X].
      destruct (a_spanning _ A n X) as [x [H|H]]; apply orb_true_iff; [left; apply Nq|right; apply Ne]; eauto.
    + apply Nat.leb_le. exact ML.
    + apply Nat.leb_le. lia.
    + apply Nat.leb_le. lia.
    + apply Nat.leb_le. exact EL.
    + apply Nat.eqb_eq. apply KN. apply (a_known _ A).
Qed.

Lemma count_once (f : opt -> bool) x os : (forall o, f o = true <-> o = x) -> ((count f os =? 1) = true <-> exactly_once x os).
Proof.
  intros F. assert (Z : forall l, count f l = 0 <-> ~ In x l).
  { intros l. pose proof (count_pos f l) as P. split; [intros C H; assert (0 < count f l) by (apply P; exists x; split; [exact H|apply F; reflexivity]); lia|].
    intros H. destruct (Nat.eq_dec (count f l) 0); [assumption|]. exfalso. apply H. destruct (proj1 P ltac:(lia)) as (o & H1 & H2). apply F in H2. subst o. exact H1. }
  assert (AP : forall a b, count f (a ++ b) = count f a + count f b) by (intros; unfold count; rewrite filter_app, app_length; reflexivity).
  assert (FX : f x = true) by (apply F; reflexivity).
  rewrite Nat.eqb_eq. unfold exactly_once. split.
  - intros C. assert (H : In x os) by (destruct (proj1 (count_pos f os) ltac:(lia)) as (o & H1 & H2); apply F in H2; subst o; exact H1).
    apply in_split in H as (a & b & ->). exists a, b. split; [reflexivity|]. apply Z. rewrite AP in *. change (x :: b) with ([x] ++ b) in C. rewrite AP in C. replace (count f [x]) with 1 in C by (unfold count; cbn; rewrite FX; reflexivity). lia.
  - intros (a & b & -> & H). apply Z in H. rewrite AP in *. change (x :: b) with ([x] ++ b). rewrite AP. replace (count f [x]) with 1 by (unfold count; cbn; rewrite FX; reflexivity). lia.
Qed.
Theorem setup_switches os c : setup os = Some c -> (c_ignhdr c = true <-> exactly_once OIgnoreHeader os) /\ (c_ignempty c = true <-> exactly_once OIgnoreEmpty os) /\
  (c_mode c = EString <-> In OStringError os) /\ (c_mode c = EThrow <-> In OThrowOnError os).
Proof.
  intros E. destruct (setup_meaning _ _ E) as (_ & _ & _ & _ & _ & _ & M & NB & _).
  assert (X1 : c_ignhdr c = (count is_ignore_header os =? 1) /\ c_ignempty c = (count is_ignore_empty os =? 1)).
  { revert E. unfold setup. destruct (get_matcher sel_quote os); [|discriminate]. destruct (get_matcher sel_escape os); [|discriminate]. destruct (get_matcher sel_trim os); [|discriminate].
    destruct (get_matcher sel_triml os); [|discriminate]. destruct (get_matcher sel_trimr os); [|discriminate]. destruct (get_multiline os) as [s b].
    match goal with |- (if ?b then _ else _) = _ -> _ => destruct b end; [|discriminate]. intros H; injection H as <-. split; reflexivity. }
  destruct X1 as [-> ->].
  assert (SE : existsb is_string_error os = true <-> In OStringError os).
  { rewrite existsb_exists. split; [intros (o & H & K); destruct o; try discriminate; exact H|intros H; exists OStringError; auto]. }
  assert (ST : existsb is_throw os = true <-> In OThrowOnError os).
  { rewrite existsb_exists. split; [intros (o & H & K); destruct o; try discriminate; exact H|intros H; exists OThrowOnError; auto]. }
  split; [apply count_once; intros o; split; [destruct o; try discriminate; reflexivity|intros ->; reflexivity]|].
  split; [apply count_once; intros o; split; [destruct o; try discriminate; reflexivity|intros ->; reflexivity]|].
  rewrite M. destruct (existsb is_string_error os).
  - split; [split; [intros _; apply SE; reflexivity|reflexivity]|]. split; [discriminate|]. intros H. exfalso. apply NB. split; [apply SE; reflexivity|exact H].
  - split; [split; [destruct (existsb is_throw os); discriminate|intros H; apply SE in H; discriminate]|]. destruct (existsb is_throw os); [split; [intros _; apply ST; reflexivity|reflexivity]|]. split; [discriminate|intros H; apply ST in H; discriminate].
Qed.
