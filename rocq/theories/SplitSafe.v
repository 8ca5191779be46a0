(** split and resplit on any initialised, terminated line (with or without embedded NULs): what the parser relies on. *)
From Verif Require Import Base Setup Splitter SplitPure ListFacts SplitSpec SplitRefine SplitSpecProofs SplitKeeps SplitModes SplitApi SplitContinue SplitWhole SplitLocal.

Definition whole_post0 (c : cfg) (blk n : nat) (X : cells) (e0 : err) (o : res (sp * list (option ascii)) unit) : Prop :=
  exists l t,
  match report c t with
  | None => exists s' m', o = Ok tt (s', m') /\ whole c blk n X l t s' m' true /\ s_err s' = e0
  | Some (m, mt) =>
      match set_error (c_mode c) m with
      | Some e => exists s' m', o = Ok tt (s', m') /\ whole c blk n X l t s' m' true /\ s_err s' = e
      | None => exists s' m', o = Throw mt (s', m') /\ whole c blk n X l t s' m' false /\ s_err s' = e0
      end
  end.
Lemma whole_post_0 c d full blk n X e0 o : whole_post c d full blk n X e0 o -> whole_post0 c blk n X e0 o.
Proof. intros (l & t & _ & K). exists l, t. exact K. Qed.

(** The line [B] in memory, and nothing else. *)
Definition tm (B : str) : cells := map Some B ++ [Some NUL].
Lemma tm_len B : length (tm B) = S (length B). Proof. unfold tm. rewrite app_length, map_length. cbn. lia. Qed.
Lemma tm_inited B : inited (tm B).
Proof. unfold tm, inited. apply Forall_app. split; [apply inited_map|]. constructor; [discriminate|constructor]. Qed.

Lemma inited_str (m : cells) : inited m -> exists s, m = map Some s.
Proof.
  induction m as [|[x|] m IH]; intros H; [exists []; reflexivity| |inversion H; congruence].
  destruct IH as (s & ->); [inversion H; assumption|]. exists (x :: s). reflexivity.
Qed.
Lemma map_some_inj (a b : str) : map Some a = map Some b -> a = b.
Proof. revert b; induction a as [|x a IH]; intros [|y b] H; cbn in H; try congruence. injection H as -> H. f_equal. auto. Qed.
Lemma tm_inj a b : tm a = tm b -> a = b.
Proof. unfold tm. intros H. apply app_inv_tail in H. apply map_some_inj. exact H. Qed.
Lemma nul_cut (B : str) : exists R X, nulfree R /\ tm B = map Some R ++ Some NUL :: X /\ (nulfree B -> R = B /\ X = []) /\ (exists X', X = map Some X').
Proof.
  induction B as [|x B IH].
  - exists [], []. split; [apply nulfree_nil|]. split; [reflexivity|]. split; [auto|]. exists []. reflexivity.
  - destruct (ascii_dec x NUL) as [->|Hx].
    + exists [], (tm B). split; [apply nulfree_nil|]. split; [reflexivity|]. split.
      * intros H. exfalso. apply H. left. reflexivity.
      * exists (B ++ [NUL]). unfold tm. rewrite map_app. reflexivity.
    + destruct IH as (R & X & H1 & H2 & H3 & H4). exists (x :: R), X. split; [apply nulfree_cons; auto|]. split; [unfold tm in *; cbn; rewrite H2; reflexivity|].
      split; [|exact H4]. intros H. apply nulfree_cons in H as [_ H]. destruct (H3 H) as [-> ->]. auto.
Qed.

(** A text left open inside quotes, in memory [tm B]. *)
Definition qopen (c : cfg) (s : sp) (B : str) : Prop :=
  exists blk n X l p a, whole c blk n X l (TUnterm p a) s (tm B) true.
Definition within (n : nat) (r : nat * nat) : Prop := fst r <= snd r /\ snd r <= n.
Definition errok (c : cfg) (s0 s' : sp) : Prop :=
  (c_mode c = EThrow -> s_err s' = s_err s0) /\ (c_mode c = EBool -> s_err s' = None \/ s_err s' = Some []).
Definition sgood (c : cfg) (blk : nat) (s0 : sp) (n : nat) (o : res (sp * list (option ascii)) unit) : Prop :=
  exists s' B', length B' = n /\ s_resp s' = false /\ s_blk s' = blk /\ errok c s0 s' /\
    ((o = Ok tt (s', tm B') /\ Forall (within n) (s_sd s') /\ (c_ml c = true -> s_uq s' = true -> qopen c s' B')) \/
     (c_mode c = EThrow /\ exists e, o = Throw e (s', tm B') /\ (c_ml c = true -> s_uq s' = false))).

Lemma rstr_within (m : cells) n rs l : length m <= n -> Forall2 (rstr m) rs l -> Forall (within n) rs.
Proof.
  intros Hn F. induction F as [|[b e] f rs l H F IH]; constructor; auto. unfold rstr, range_str in H. cbn in H. unfold within. cbn.
  destruct ((b <=? e) && (e <=? length m)) eqn:E; [|discriminate]. apply andb_true_iff in E as [E1 E2].
  apply Nat.leb_le in E1, E2. lia.
Qed.

Section S.
Context (c : cfg) (Hc : cfg_ok c) (d : str) (Hd : nulfree d).

Lemma whole_ranges blk n X l t s m : whole c blk n X l t s m true -> Forall (within n) (s_sd s).
Proof.
  intros [_ _ Wu (Z & Em & HZ & Hok)]. destruct (Hok eq_refl) as (_ & P1 & Z1 & rs & EZ & Esd & F & Hun & HM).
  assert (LP : length P1 + length Z1 = n) by (rewrite <- HZ, EZ, app_length; reflexivity).
  rewrite Esd. apply Forall_app. split; [eapply rstr_within; [|exact F]; lia|].
  destruct t as [| | |p a|p e b|]; cbn [junk]; constructor; try constructor; unfold within; cbn; try lia.
  - destruct (Hun p a eq_refl) as (Hp & q & G & EZ1 & _). rewrite EZ1 in LP. cbn [length] in LP. lia.
  - specialize (HM p e b eq_refl). lia.
Qed.

(** From the local postcondition to the whole line. *)
Lemma sgood_of blk s0 e0 R X B o : whole_post0 c blk (length R) X e0 o -> tm B = map Some R ++ Some NUL :: X ->
  (c_mode c = EThrow -> e0 = s_err s0) -> (c_mode c <> EThrow -> e0 = None) ->
  (match o with Ok _ (_, m') | Throw _ (_, m') => inited m' | _ => True end) -> sgood c blk s0 (length B) o.
Proof.
  intros (l & t & K) EB He1 He2 HI.
  assert (LB : S (length B) = length R + S (length X)).
  { rewrite <- tm_len, EB, app_length, map_length. reflexivity. }
  assert (HX : exists X0, Some NUL :: X = X0 ++ [Some NUL]).
  { assert (NE : Some NUL :: X <> []) by discriminate. destruct (exists_last NE) as (X0 & z & E). exists X0. rewrite E. f_equal. f_equal.
    rewrite E in EB. unfold tm in EB. rewrite app_assoc in EB. apply app_inj_tail in EB. symmetry. apply EB. }
  destruct HX as (X0 & HX). assert (LX : length X0 = length X).
  { apply (f_equal (@length _)) in HX. rewrite app_length in HX. cbn in HX. lia. }
  assert (Q : forall s' m' ok, whole c blk (length R) X l t s' m' ok -> inited m' -> exists B', m' = tm B' /\ length B' = length B).
  { intros s' m' ok W Hi. destruct (w_mem _ _ _ _ _ _ _ _ _ W) as (Z & Em & HZ & _).
    rewrite HX, app_assoc in Em. rewrite Em in Hi. apply Forall_app in Hi as [Hi _].
    destruct (inited_str _ Hi) as (B' & EB'). exists B'. split; [rewrite Em, EB'; reflexivity|].
    apply (f_equal (@length _)) in EB'. rewrite app_length, map_length in EB'. lia. }
  assert (OKC : forall s' m', o = Ok tt (s', m') -> whole c blk (length R) X l t s' m' true -> errok c s0 s' -> sgood c blk s0 (length B) o).
  { intros s' m' Eo W Ee. rewrite Eo in HI. destruct (Q _ _ _ W HI) as (B' & -> & LB').
    exists s', B'. split; [exact LB'|]. split; [apply (w_resp _ _ _ _ _ _ _ _ _ W)|]. split; [apply (w_blk _ _ _ _ _ _ _ _ _ W)|]. split; [exact Ee|].
    left. split; [exact Eo|]. split.
    - eapply Forall_impl; [|eapply whole_ranges; exact W]. intros x [H1 H2]. split; lia.
    - intros _ Hu. pose proof (w_uq _ _ _ _ _ _ _ _ _ W) as Wu. rewrite Hu in Wu. destruct t; try discriminate. exists blk, (length R), X, l, pos, acc; exact W. }
  assert (E0 : forall s' : sp, s_err s' = e0 -> errok c s0 s').
  { intros s' E. split; intros Hm; rewrite E; [auto|left; apply He2; congruence]. }
  destruct (report c t) as [[m mt]|] eqn:Er.
  - destruct (set_error (c_mode c) m) as [e|] eqn:Es.
    + destruct K as (s' & m' & Eo & W & Ee). apply (OKC s' m' Eo W). split; intros Hm; rewrite Hm in Es; cbn in Es; [discriminate|]. injection Es as <-. auto.
    + destruct K as (s' & m' & Eo & W & Ee). rewrite Eo in HI. destruct (Q _ _ _ W HI) as (B' & -> & LB').
      exists s', B'. split; [exact LB'|]. split; [apply (w_resp _ _ _ _ _ _ _ _ _ W)|]. split; [apply (w_blk _ _ _ _ _ _ _ _ _ W)|]. split; [apply E0; exact Ee|].
      right. split; [destruct (c_mode c); cbn in Es; congruence|]. exists mt. split; [exact Eo|]. intros Hml.
      pose proof (w_uq _ _ _ _ _ _ _ _ _ W) as Wu. rewrite Wu. destruct t; cbn in Er; try reflexivity. rewrite Hml in Er. discriminate.
  - destruct K as (s' & m' & Eo & W & Ee). apply (OKC s' m' Eo W). auto.
Qed.

Lemma err0_ok (s : sp) : (c_mode c = EThrow -> err0 c s = s_err s) /\ (c_mode c <> EThrow -> err0 c s = None).
Proof. unfold err0. destruct (c_mode c); split; congruence. Qed.

Theorem split_tm blk s0 B : s_resp s0 = false -> sgood c blk s0 (length B) (sp_split c blk d (s0, tm B)).
Proof.
  intros Hr. destruct (list_eq_dec ascii_dec d []) as [E|Hd0].
  - rewrite E. unfold sp_split, split_impl_select_delim, sp_clear_error, sp_error, upd, modify, bind. cbn [fst snd].
    destruct (c_mode c) eqn:Em; cbn [set_error].
    + eexists _, B. split; [reflexivity|]. split; [|split; [|split; [|left; split; [reflexivity|split; [constructor|discriminate]]]]]; [exact Hr|reflexivity|].
      split; [congruence|]. intros _. right. reflexivity.
    + eexists _, B. split; [reflexivity|]. split; [|split; [|split; [|left; split; [reflexivity|split; [constructor|discriminate]]]]]; [exact Hr|reflexivity|].
      split; congruence.
    + eexists _, B. split; [reflexivity|]. split; [|split; [|split; [|right; split; [exact Em|eexists; split; reflexivity]]]]; [exact Hr|reflexivity|].
      split; [reflexivity|congruence].
  - destruct (nul_cut B) as (R & X & HR & EB & _ & _). 
    apply sgood_of with (e0 := err0 c s0) (R := R) (X := X); [|exact EB|apply err0_ok|apply err0_ok|].
    + rewrite EB. eapply whole_post_0. apply split_whole; auto.
    + apply split_inited, tm_inited.
Qed.

Lemma resplit_inited blk n s m : inited m ->
  match sp_resplit c blk n d (s, m) with Ok _ (_, m') | Throw _ (_, m') => inited m' | _ => True end.
Proof.
  intros Hr.
  pose proof (keeps_resplit c (fun st => inited (snd st))) as K. cbn [snd] in K.
  specialize (K ltac:(auto) ltac:(auto) ltac:(auto) ltac:(auto) ltac:(auto) ltac:(auto) ltac:(auto) ltac:(auto) ltac:(auto) ltac:(auto) ltac:(auto)).
  specialize (K ltac:(intros; eapply copyn_inited; eauto) blk n d ltac:(auto) (s, m) Hr).
  destruct (sp_resplit c blk n d (s, m)) as [? []|? []| |]; auto.
Qed.

(** After an unterminated quote, whatever follows. *)
Theorem resplit_whole0 blk n X l p a s m blk' U X' new_size : d <> [] ->
  c_ml c = true -> whole c blk n X l (TUnterm p a) s m true ->
  nulfree U -> n - s_esc s + length U <= new_size ->
  whole_post0 c blk' (n - s_esc s + length U) X' (err0 c s)
    (sp_resplit c blk' new_size d (s, firstn (n - s_esc s) m ++ map Some U ++ Some NUL :: X')).
Proof.
  intros Hd0 Hml W HU Hsz. destruct W as [Wr Wb Wu (Z & Em & HZ & Hok)].
  destruct (Hok eq_refl) as (_ & P0 & Z1 & rs & EZ & Esd & F & Hun & _).
  destruct (Hun p a eq_refl) as (Hp & q & G & EZ1 & Hq & L). clear Hok Hun. cbn [junk] in Esd.
  assert (HG : s_esc s = length G) by (destruct L as [_ _ L _ _]; exact L).
  assert (Hk : n - s_esc s = S (length P0 + length a)).
  { rewrite HG, <- HZ, EZ, EZ1. lens. }
  assert (EF : firstn (n - s_esc s) m = P0 ++ Some q :: map Some a).
  { rewrite Em, EZ, EZ1. rewrite <- !app_assoc.
    replace (P0 ++ (Some q :: map Some a ++ G) ++ Some NUL :: X) with ((P0 ++ Some q :: map Some a) ++ G ++ Some NUL :: X) by aapp.
    rewrite Hk. replace (S (length P0 + length a)) with (length (P0 ++ Some q :: map Some a)) by lens.
    rewrite firstn_app, Nat.sub_diag, firstn_all, firstn_O, app_nil_r. reflexivity. }
  rewrite EF. rewrite Hk in Hsz.
  replace ((P0 ++ Some q :: map Some a) ++ map Some U ++ Some NUL :: X') with (P0 ++ Some q :: map Some a ++ map Some U ++ Some NUL :: X') by aapp.
  rewrite <- Hp in Esd.
  destruct (sp_resplit_spec c Hc d Hd Hd0 s blk' P0 q a G rs U X' new_size Wr Wu Hml Hq Esd L ltac:(lia) HU)
    as (s1 & A1 & A2 & A3 & A4 & A5 & K).
  set (r := fields_of c d _ _ _ _) in K. cbv zeta in K.
  exists (l ++ fst r), (snd r).
  assert (Ee : s_err s1 = err0 c s).
  { rewrite A2. unfold cleared, err0. destruct (c_mode c); reflexivity. }
  assert (RW : forall s' m' ok, row_end c s1 P0 (S (length a + length U)) X' (fst r) (snd r) s' m' ok ->
     whole c blk' (S (length P0 + length a) + length U) X' (l ++ fst r) (snd r) s' m' ok).
  { intros s' m' ok [B1 B2 B3 (Z' & Em' & HZ' & Hok')]. rewrite A1 in Hok'.
    split; [congruence|congruence|rewrite B3, A3; reflexivity|].
    exists (P0 ++ Z'). split; [rewrite Em'; aapp|]. split; [lens|]. intros E.
    specialize (Hok' E) as (Dn & P1 & Z2 & rs' & EZ' & Esd' & F' & _ & HP & HU' & HM).
    split; [exact Dn|]. exists P1, Z2, (rs ++ rs'). split; [exact EZ'|].
    split; [rewrite Esd'; aapp|].
    split.
    { apply Forall2_app; [|exact F'].
      destruct (app_prefix P0 Z' P1 Z2 EZ' HP) as (w & -> & _). apply rstr_app. exact F. }
    split; [exact HU'|]. intros p0 e b Et. rewrite EZ', app_length. eauto. }
  unfold row_post in K. rewrite Ee in K. rewrite Hk.
  destruct (report c (snd r)) as [[mm mt]|]; [destruct (set_error (c_mode c) mm)|];
    destruct K as (s' & m' & E & RE & He); exists s', m'; (split; [exact E|]); (split; [apply RW; exact RE|exact He]).
Qed.

Lemma qopen_esc s B : qopen c s B -> s_esc s <= length B.
Proof.
  intros (blk & n & X & l & p & a & W). destruct (w_mem _ _ _ _ _ _ _ _ _ W) as (Z & Em & HZ & Hok).
  destruct (Hok eq_refl) as (_ & P0 & Z1 & rs & EZ & Esd & F & Hun & _).
  destruct (Hun p a eq_refl) as (Hp & q & G & EZ1 & Hq & L).
  assert (HG : s_esc s = length G) by (destruct L as [_ _ L _ _]; exact L).
  apply (f_equal (@length _)) in Em. rewrite tm_len, EZ, EZ1 in Em. rewrite !app_length in Em. cbn [length] in Em. rewrite !app_length in Em. lia.
Qed.

Theorem resplit_tm blk s B w : d <> [] -> c_ml c = true -> qopen c s B ->
  let B2 := firstn (length B - s_esc s) B ++ w in
  sgood c blk s (length B2) (sp_resplit c blk (length B2) d (s, tm B2)).
Proof.
  intros Hd0 Hml Q B2. pose proof (qopen_esc s B Q) as HE. destruct Q as (blk0 & n & X & l & p & a & W).
  destruct (w_mem _ _ _ _ _ _ _ _ _ W) as (Z & Em & HZ & Hok).
  assert (Hn : n <= length B).
  { apply (f_equal (@length _)) in Em. rewrite tm_len, app_length in Em. cbn in Em. lia. }
  set (k := n - s_esc s).
  assert (EK : firstn k (tm B) = map Some (firstn k B2)).
  { unfold tm, B2. rewrite firstn_app, map_length. replace (k - length B) with 0 by (unfold k; lia). rewrite firstn_O, app_nil_r.
    rewrite firstn_app, firstn_firstn, firstn_length.
    replace (min k (length B - s_esc s)) with k by (unfold k; lia).
    replace (k - min (length B - s_esc s) (length B)) with 0 by (unfold k; lia). rewrite firstn_O, app_nil_r, firstn_map. reflexivity. }
  assert (L2 : k <= length B2) by (unfold B2; rewrite app_length, firstn_length; unfold k; lia).
  destruct (nul_cut (skipn k B2)) as (U & X' & HU & EU & _ & _).
  assert (ET : tm B2 = firstn k (tm B) ++ map Some U ++ Some NUL :: X').
  { rewrite EK, <- EU. unfold tm. rewrite app_assoc, <- map_app, firstn_skipn. reflexivity. }
  assert (LU : length U <= length B2 - k).
  { apply (f_equal (@length _)) in EU. rewrite tm_len, app_length, map_length, skipn_length in EU. cbn in EU. lia. }
  apply sgood_of with (e0 := err0 c s) (R := firstn k B2 ++ U) (X := X').
  - rewrite app_length, firstn_length. replace (min k (length B2)) with k by lia. rewrite ET.
    eapply resplit_whole0; eauto. unfold k in *. lia.
  - rewrite ET, EK, map_app, <- app_assoc. reflexivity.
  - apply err0_ok.
  - apply err0_ok.
  - apply resplit_inited, tm_inited.
Qed.
End S.
