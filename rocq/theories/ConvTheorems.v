(** Proofs behind PropConvert.v. *)
From Verif Require Import Base Setup Splitter ListFacts SetupProofs SplitSpec SplitModes SplitApi SplitTheorems Extract Converter ConvSpec ExtractProofs ConvProofs.

(** [in_memory m b e s]: the column [b, e) of the memory holds the text [s]; the byte after an empty column (the
    next delimiter or the terminator) is readable. *)
Definition in_memory (m : cells) (b e : nat) (s : str) : Prop := holds m (b, e) s.
Definition extracts (m : cells) (b e : nat) (t : ty) (v : val) : Prop := extract m (b, e) t = Some (true, Some v).
Definition rejects (m : cells) (b e : nat) (t : ty) : Prop := exists o, extract m (b, e) t = Some (false, o).

Lemma extracts_iff m b e s t : in_memory m b e s -> wfty t -> forall v, extracts m b e t v <-> converts t s v.
Proof.
  intros [H1 H2] W v. cbn [fst snd] in H1. pose proof (extract_decides m b e s H1 H2 t W) as D. unfold extracts.
  destruct (extract m (b, e) t) as [[[] [x|]]|]; cbn [decides] in D; try contradiction.
  - split; [intros E; injection E as <-; exact D|]. intros K. f_equal. f_equal. f_equal. eapply converts_fun; eauto.
  - split; [discriminate|]. intros K. exfalso. eapply D; eauto.
  - split; [discriminate|]. intros K. exfalso. eapply D; eauto.
Qed.
Lemma rejects_iff m b e s t : in_memory m b e s -> wfty t -> rejects m b e t <-> forall v, ~ converts t s v.
Proof.
  intros [H1 H2] W. cbn [fst snd] in H1. pose proof (extract_decides m b e s H1 H2 t W) as D. unfold rejects.
  destruct (extract m (b, e) t) as [[[] [x|]]|]; cbn [decides] in D; try contradiction.
  - split; [intros [o E]; discriminate|]. intros K. exfalso. eapply K; eauto.
  - split; [intros _; exact D|eauto].
  - split; [intros _; exact D|eauto].
Qed.
Lemma extracts_total m b e s t : in_memory m b e s -> wfty t -> (exists v, extracts m b e t v) \/ rejects m b e t.
Proof.
  intros [H1 H2] W. cbn [fst snd] in H1. pose proof (extract_decides m b e s H1 H2 t W) as D. unfold rejects, extracts.
  destruct (extract m (b, e) t) as [[[] [x|]]|]; cbn [decides] in D; try contradiction; eauto.
Qed.

Section L.
Context (os : list opt) (c : cfg) (Hs : setup os = Some c) (d : str) (Hd : nulfree d).

Definition is_cerror (o : cobs) : Prop := match o with CErr _ | CThrown _ => True | _ => False end.

Lemma show_inj o1 o2 : show c o1 = show c o2 -> match o1, o2 with inl a, inl b => a = b | inr _, inr _ => True | _, _ => False end.
Proof.
  destruct o1 as [a|m1], o2 as [b|m2]; cbn; auto.
  - intros H. injection H as H. revert b H. induction a as [|x a IH]; intros [|y b] H; try discriminate; [reflexivity|].
    cbn in H. injection H as -> H. f_equal. auto.
  - unfold errobs. destruct (c_mode c); discriminate.
  - unfold errobs. destruct (c_mode c); discriminate.
Qed.

Theorem row_thm v line rest es cols : vreach c v -> nulfree line -> line <> [] -> Forall wfelem es ->
  split_obs c sp_init d line rest = SFields cols ->
  (exists o, converted (v_map v) (v_ncols v) es cols o) /\
  (forall o, converted (v_map v) (v_ncols v) es cols o -> convert_obs c d v line rest es = show c o) /\
  (forall vs, convert_obs c d v line rest es = CValues (map Some vs) -> converted (v_map v) (v_ncols v) es cols (inl vs)).
Proof.
  intros V HR Hne W E. pose proof (convert_line_thm os c Hs d Hd v line rest es V HR Hne W) as K. rewrite E in K.
  destruct K as (o & C & S). split; [eauto|]. split.
  - intros o' C'. assert (o' = o) by (eapply converted_fun; eauto). subst. exact S.
  - intros vs S'. rewrite S in S'. change (CValues (map Some vs)) with (show c (inl vs)) in S'. apply show_inj in S'.
    destruct o; [subst; exact C|contradiction].
Qed.

Theorem row_bad_split v line rest es : vreach c v -> nulfree line -> line <> [] -> Forall wfelem es ->
  (forall msg, split_obs c sp_init d line rest = SErr msg -> convert_obs c d v line rest es = CErr msg) /\
  (forall msg, split_obs c sp_init d line rest = SThrown msg -> convert_obs c d v line rest es = CThrown msg).
Proof.
  intros V HR Hne W. pose proof (convert_line_thm os c Hs d Hd v line rest es V HR Hne W) as K.
  split; intros msg E; rewrite E in K; exact K.
Qed.

Theorem convert_safe v line rest es : vreach c v -> nulfree line -> Forall wfelem es ->
  convert_obs c d v line rest es <> CCrash.
Proof.
  intros V HR W.
  destruct line as [|a l] eqn:El.
  - destruct (vreach_inv c v V) as [R F].
    unfold convert_obs, convert_call. rewrite cv_convert_line_out, cv_split_out. cbn [map app rd nth_error]. cbv zeta.
    change (Ascii.eqb NUL NUL) with true. cbv iota. unfold after_split, bind, vget, gets. cbn [fst].
    destruct (sp_valid c (v_sp (vup_sp (up_sd [] (v_sp v)) v))) eqn:Ev.
    + destruct (convert_impl_cases c es [] [] (vup_sp (up_sd [] (v_sp v)) v) (Some NUL :: rest) Ev W ltac:(constructor) F) as (o & _ & En).
      apply ends_observe in En. change (cv_convert_data c es (s_sd (v_sp (vup_sp (up_sd [] (v_sp v)) v)))) with (convert_impl c es []).
      rewrite En. destruct o; [discriminate|]. unfold errobs. destruct (c_mode c); discriminate.
    + unfold handle_error_bad_split, bind, vget, gets, vupd, modify, ret, cobserve. cbn [fst snd].
      destruct (c_mode c); destruct (cv_valid _ _); discriminate.
  - rewrite <- El in *. assert (Hne : line <> []) by congruence.
    pose proof (convert_line_thm os c Hs d Hd v line rest es V HR Hne W) as K.
    destruct (split_obs c sp_init d line rest).
    + destruct K as (o & _ & ->). destruct o; [discriminate|]. cbn. unfold errobs. destruct (c_mode c); discriminate.
    + rewrite K; discriminate.
    + rewrite K; discriminate.
    + contradiction.
Qed.

Theorem empty_line v rest es : vreach c v -> Forall wfelem es -> es <> [] -> is_cerror (convert_obs c d v [] rest es).
Proof.
  intros V W He. destruct (vreach_inv c v V) as [R F].
  unfold convert_obs, convert_call. rewrite cv_convert_line_out, cv_split_out. cbn [map app rd nth_error]. cbv zeta.
  change (Ascii.eqb NUL NUL) with true. cbv iota. unfold after_split, bind, vget, gets. cbn [fst].
  destruct (sp_valid c (v_sp (vup_sp (up_sd [] (v_sp v)) v))) eqn:Ev.
  + destruct (convert_impl_cases c es [] [] (vup_sp (up_sd [] (v_sp v)) v) (Some NUL :: rest) Ev W ltac:(constructor) F) as (o & C & En).
    apply ends_observe in En. change (cv_convert_data c es (s_sd (v_sp (vup_sp (up_sd [] (v_sp v)) v)))) with (convert_impl c es []).
    rewrite En. destruct o as [vs|msg]; [|unfold errobs; destruct (c_mode c); exact I].
    exfalso. inversion C as [ps vs' T L Ro|p1 m1 T1 L1 R1|E1 N1|E1 N1|E1 L1 N1]; subst.
    unfold taken in T. destruct (v_map (vup_sp (up_sd [] (v_sp v)) v)) as [|p mp].
    * subst. destruct es; [congruence|discriminate].
    * destruct T as [_ T]. inversion T as [|x y l k H Hr E1 E2]. destruct p; discriminate.
  + unfold handle_error_bad_split, bind, vget, gets, vupd, modify, ret, cobserve, cv_valid, err_valid, sp_valid in *. cbn [fst snd] in *.
    unfold err_valid in Ev. cbn in Ev. destruct (c_mode c) eqn:Em; [exact I| |discriminate].
    cbn. destruct (s_err (v_sp v)); [exact I|discriminate].
Qed.

Theorem convert_history v1 v2 line rest es : vreach c v1 -> vreach c v2 -> nulfree line -> line <> [] -> Forall wfelem es ->
  v_map v1 = v_map v2 -> v_ncols v1 = v_ncols v2 ->
  convert_obs c d v1 line rest es = convert_obs c d v2 line rest es.
Proof.
  intros V1 V2 HR Hne W Em En.
  pose proof (convert_line_thm os c Hs d Hd v1 line rest es V1 HR Hne W) as K1.
  pose proof (convert_line_thm os c Hs d Hd v2 line rest es V2 HR Hne W) as K2.
  destruct (split_obs c sp_init d line rest); [|congruence|congruence|contradiction].
  destruct K1 as (o1 & C1 & ->), K2 as (o2 & C2 & ->). rewrite Em, En in C1. f_equal. eapply converted_fun; eauto.
Qed.

(** void *)
Lemma row_void es1 : forall cs1 s es2 cs2 vs, length es1 = length cs1 ->
  row_ok (es1 ++ EVoid :: es2) (cs1 ++ s :: cs2) vs <-> row_ok (es1 ++ es2) (cs1 ++ cs2) vs.
Proof.
  induction es1 as [|e es1 IH]; intros [|x cs1] s es2 cs2 vs L; try discriminate; cbn [app].
  - split.
    + intros H. inversion H as [|? ? ? ? ? H1|? ? ? ? ? ? H1]; subst; [assumption|inversion H1].
    + intros H. apply ro_skip; [constructor|exact H].
  - injection L as L. split; intros H; inversion H; subst.
    + apply ro_skip; [assumption|]. eapply IH; eauto.
    + apply ro_cons; [assumption|]. eapply IH; eauto.
    + apply ro_skip; [assumption|]. apply IH; eauto.
    + apply ro_cons; [assumption|]. apply IH; eauto.
Qed.
Lemma converted_values es cols vs : converted [] 0 es cols (inl vs) <-> row_ok es cols vs.
Proof.
  split.
  - intros H; inversion H as [ps ? T|ps ? T| | |]; subst. unfold taken in T. subst. assumption.
  - intros H. apply cd_values with cols; [reflexivity|eapply row_ok_length; eauto|exact H].
Qed.
End L.

(** Modes *)
Lemma errobs_error c msg : is_cerror (errobs c msg).
Proof. unfold errobs. destruct (c_mode c); exact I. Qed.


Section Modes.
Context (os1 os2 : list opt) (c : cfg) (m1 m2 : emode).
Let c1 := with_mode m1 c.
Let c2 := with_mode m2 c.
Context (H1 : setup os1 = Some c1) (H2 : setup os2 = Some c2) (d : str) (Hd : nulfree d) (Hd0 : d <> []).

Lemma split_obs_modes line rest : nulfree line ->
  (exists cols, split_obs c1 sp_init d line rest = SFields cols /\ split_obs c2 sp_init d line rest = SFields cols) \/
  (is_error (split_obs c1 sp_init d line rest) /\ is_error (split_obs c2 sp_init d line rest)).
Proof.
  intros HR.
  pose proof (modes_thm os1 c1 d m1 m2 sp_init sp_init line rest H1 Hd Hd0 HR (reach_init _) (reach_init _)) as K.
  pose proof (modes_thm os1 c1 d m2 m1 sp_init sp_init line rest H1 Hd Hd0 HR (reach_init _) (reach_init _)) as K'.
  change (with_mode m1 c1) with c1 in *. change (with_mode m2 c1) with c2 in *.
  destruct K as [[N1 E]|K]; [|right; exact K]. destruct K' as [[N2 _]|[_ K]]; [|contradiction].
  left.
  assert (G : forall os c', setup os = Some c' -> ~ is_error (split_obs c' sp_init d line rest) ->
     exists cols s m, split_call c' sp_init d line rest = Ok tt (s, m) /\ strings_of m (s_sd s) = Some cols /\ split_obs c' sp_init d line rest = SFields cols).
  { intros os c' Hs N. destruct (safe_thm os c' d sp_init line rest Hs Hd HR (reach_init _)) as (s' & Z & _ & [[EE _]|[e EE]]).
    - destruct (split_readable os c' Hs d Hd sp_init line rest s' _ (reach_init _) HR EE) as (cols & F). apply holds_strings in F.
      exists cols, s', (Z ++ Some NUL :: rest). unfold split_obs in *. rewrite EE in *. cbn in *. rewrite F in *.
      destruct (sp_valid c' s'); [auto|]. exfalso; apply N; exact I.
    - exfalso. apply N. unfold split_obs. rewrite EE. exact I. }
  destruct (G _ _ H1 N1) as (cols & s & m & A & B & C). destruct (G _ _ H2 N2) as (cols' & s' & m' & A' & B' & C').
  rewrite E, A' in A. injection A as -> ->. rewrite B in B'. injection B' as <-. eauto.
Qed.

Theorem convert_modes v1 v2 line rest es : vreach c1 v1 -> vreach c2 v2 -> nulfree line -> Forall wfelem es -> es <> [] ->
  v_map v1 = v_map v2 -> v_ncols v1 = v_ncols v2 ->
  (exists vs, convert_obs c1 d v1 line rest es = CValues (map Some vs) /\ convert_obs c2 d v2 line rest es = CValues (map Some vs)) \/
  (is_cerror (convert_obs c1 d v1 line rest es) /\ is_cerror (convert_obs c2 d v2 line rest es)).
Proof.
  intros V1 V2 HR W He Em En.
  assert (D : line = [] \/ line <> []) by (destruct line; [left; reflexivity|right; discriminate]).
  destruct D as [->|Hne].
  { right. split; [eapply empty_line; eauto|eapply empty_line; eauto]. }
  pose proof (convert_line_thm os1 c1 H1 d Hd v1 line rest es V1 HR Hne W) as K1.
  pose proof (convert_line_thm os2 c2 H2 d Hd v2 line rest es V2 HR Hne W) as K2.
  destruct (split_obs_modes line rest HR) as [(cols & E1 & E2)|[E1 E2]].
  - rewrite E1 in K1. rewrite E2 in K2. destruct K1 as (o1 & C1 & ->), K2 as (o2 & C2 & ->).
    rewrite Em, En in C1. assert (o1 = o2) by (eapply converted_fun; eauto). subst o2.
    destruct o1 as [vs|msg]; [left; exists vs; split; reflexivity|right; split; apply errobs_error].
  - right.
    destruct (split_obs c1 sp_init d line rest); try contradiction; destruct (split_obs c2 sp_init d line rest); try contradiction; rewrite K1, K2; split; exact I.
Qed.
End Modes.

(** For rows that split, the message is the same, too. *)
Theorem convert_messages os1 os2 c d v1 v2 line rest es cols m m' :
  setup os1 = Some (with_mode EString c) -> setup os2 = Some (with_mode EThrow c) -> nulfree d -> 
  vreach (with_mode EString c) v1 -> vreach (with_mode EThrow c) v2 -> nulfree line -> line <> [] -> Forall wfelem es ->
  v_map v1 = v_map v2 -> v_ncols v1 = v_ncols v2 ->
  split_obs (with_mode EString c) sp_init d line rest = SFields cols ->
  split_obs (with_mode EThrow c) sp_init d line rest = SFields cols ->
  convert_obs (with_mode EString c) d v1 line rest es = CErr m ->
  convert_obs (with_mode EThrow c) d v2 line rest es = CThrown m' -> m = m'.
Proof.
  intros H1 H2 Hd V1 V2 HR Hne W Em En E1 E2 S1 S2.
  pose proof (convert_line_thm os1 _ H1 d Hd v1 line rest es V1 HR Hne W) as K1.
  pose proof (convert_line_thm os2 _ H2 d Hd v2 line rest es V2 HR Hne W) as K2.
  rewrite E1 in K1. rewrite E2 in K2. destruct K1 as (o1 & C1 & K1), K2 as (o2 & C2 & K2).
  rewrite Em, En in C1. assert (o1 = o2) by (eapply converted_fun; eauto). subst o2.
  rewrite K1 in S1. rewrite K2 in S2. destruct o1; cbn in S1, S2; congruence.
Qed.

(** Forms *)
Definition members (r : result) : list slot := match r with RTuple l | RObject l => l | ROne x => [x] end.
Definition same_values {S} (a b : res S result) : Prop :=
  match a, b with
  | Ok r s, Ok r' s' => members r = members r' /\ s = s'
  | Throw e s, Throw e' s' => e = e' /\ s = s'
  | UB _, UB _ => True
  | OutOfFuel, OutOfFuel => True
  | _, _ => False
  end.
Lemma members_shape es xs : members (shape es xs) = xs.
Proof. unfold shape. destruct xs as [|x [|y xs]]; try reflexivity. destruct (_ =? _); reflexivity. Qed.
Lemma members_object r : (forall l, r <> RObject l) -> members (to_object r) = members r.
Proof. destruct r; cbn; auto. intros H. exfalso. eapply H; reflexivity. Qed.
Lemma shape_no_object es xs l : shape es xs <> RObject l.
Proof. unfold shape. destruct xs as [|x [|y xs]]; try discriminate. destruct (_ =? _); discriminate. Qed.
Lemma all_elems_map es : all_elems (map AElem es) = Some es.
Proof. induction es as [|e es IH]; cbn; [reflexivity|]. rewrite IH. reflexivity. Qed.
Lemma convert_form_pack c es elems : convert_form c (map AElem es) elems = (xs <- convert_impl c es elems ;; ret (shape es xs)).
Proof.
  destruct es as [|e [|e' es]]; [reflexivity|reflexivity|].
  change (convert_form c (map AElem (e :: e' :: es)) elems) with
    (match all_elems (map AElem (e :: e' :: es)) with
         | Some es => xs <- convert_impl c es elems ;; ret (shape es xs)
         | None => ub "converter: does not compile"
         end). rewrite all_elems_map. reflexivity.
Qed.
Theorem forms_thm c es elems st :
  same_values (convert_form c [ATuple es] elems st) (convert_form c (map AElem es) elems st) /\
  same_values (convert_form c [ATied es] elems st) (convert_form c (map AElem es) elems st) /\
  same_values (convert_object c (map AElem es) elems st) (convert_form c (map AElem es) elems st).
Proof.
  unfold convert_object. rewrite convert_form_pack. unfold convert_form, bind, ret, same_values.
  destruct (convert_impl c es elems st) as [xs s|e s|w|]; auto.
  rewrite !members_object by (intros; apply shape_no_object). auto.
Qed.
