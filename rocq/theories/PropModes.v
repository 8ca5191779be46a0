(** C60: the error mode does not change what is read.  [with_mode m c]: the setup [c] with the error mode [m] (EBool,
    EString or EThrow); the other words are those of C25. *)
From Verif Require Import Base Setup Splitter SplitPure ListFacts SetupProofs SplitApi SplitModes SplitRefine SplitSpecProofs Extract Converter ConvSpec ConvProofs Reader LineSpec Parser ParserSpec ParserApi ReaderParse ParserRows ParserOpen ParserSession ParserFacts PropParser PropMulti PropCut PropExamples Roles.

Definition failed (g : gobs) : Prop := match g with GError _ | GThrown _ => True | _ => False end.

Lemma fit_mode m c d : fit c d -> fit (with_mode m c) d.
Proof. intros [H1 H2 H3 H4]. constructor; auto. apply cfg_ok_mode. exact H1. Qed.
Lemma roles_mode m1 m2 c t : same_roles (with_mode m1 c) (with_mode m2 c) t.
Proof. intros x _. unfold same_role. cbn [with_mode c_quote c_escape c_triml c_trimr]. tauto. Qed.

Section M.
Context (c : cfg) (d : str) (F : fit c d) (m1 m2 : emode).
Notation c1 := (with_mode m1 c). Notation c2 := (with_mode m2 c).
Lemma rows_mode data its : nuls_ok c data -> rows_of c1 d data its -> rows_of c2 d data its.
Proof.
  intros N. pose proof (fit_mode m1 c d F) as [H1 Hd Hd0 _]. pose proof (fit_mode m2 c d F) as [H2 _ _ _].
  apply (rows_same c1 c2 d H1 H2 Hd Hd0 eq_refl eq_refl eq_refl eq_refl). split; [apply roles_mode|exact N].
Qed.
(** A line that splits under one mode splits alike under the other; one that does not is an error under both. *)
Lemma obs_mode t : nulfree t -> (c_ml c = true -> qo c d t = false) ->
  (exists cols, split_obs c1 sp_init d t [] = SFields cols /\ split_obs c2 sp_init d t [] = SFields cols) \/
  exists e1 e2, (split_obs c1 sp_init d t [] = SErr e1 \/ split_obs c1 sp_init d t [] = SThrown e1) /\ (split_obs c2 sp_init d t [] = SErr e2 \/ split_obs c2 sp_init d t [] = SThrown e2).
Proof.
  intros N Q. pose proof (fit_mode m1 c d F) as [H1 Hd Hd0 _]. pose proof (fit_mode m2 c d F) as [H2 _ _ _].
  pose proof (split_obs_psplit c1 H1 d Hd Hd0 sp_init t [] _ _ (reach_init c1) N (surjective_pairing _)) as O1.
  pose proof (split_obs_psplit c2 H2 d Hd Hd0 sp_init t [] _ _ (reach_init c2) N (surjective_pairing _)) as O2.
  rewrite psplit_mode in O1, O2. rewrite report_mode in O1, O2. unfold qo in Q.
  destruct (report c (snd (psplit c d t))) as [[x y]|] eqn:Er.
  - right. rewrite O1, O2. destruct (c_mode c1), (c_mode c2); do 2 eexists; eauto.
  - left. exists (fst (psplit c d t)). destruct (snd (psplit c d t)) as [| | |p a|p e b|]; cbn [junk report] in *; auto; try discriminate.
    destruct (c_ml c); [specialize (Q eq_refl)|]; discriminate.
Qed.
Lemma whole_mode out : whole c1 c2 d out -> forall t, out = Complete t -> c_ml c = true -> qo c d (c_string t) = false.
Proof.
  intros W t E M. destruct (W t E) as [[_ N] Q]. specialize (N M). specialize (Q M). rewrite (c_string_nulfree t N). unfold qo in *. rewrite psplit_mode in Q. exact Q.
Qed.
Lemma reading_mode mp n es out o1 o2 : whole c1 c2 d out -> row_reading c1 d mp n es out o1 -> row_reading c2 d mp n es out o2 ->
  match o1, o2 with inl a, inl b => a = b | inr _, inr _ => True | _, _ => False end.
Proof.
  intros W A B. inversion A as [w E1 E2|t msg Ht E1 E2|t cols o Ht Hs Hcv E1 E2|t msg msg' Ht Hs Hm Hm3 E1 E2]; subst.
  - inversion B; subst. exact Logic.I.
  - inversion B as [w E1 E2|t2 msg2 Ht2 E1 E2|t0 cols o Ht0 Hs Hcv E1 E2|t0 msg2 msg' Ht0 Hs Hm Hm3 E1 E2]; subst; try congruence; exact Logic.I.
  - destruct (obs_mode (c_string t) (c_string_free t) (whole_mode _ W t eq_refl)) as [(l & O1 & O2)|(e1 & e2 & O1 & O2)]; [|destruct O1; congruence].
    inversion B as [w E1 E2|t2 msg2 Ht2 E1 E2|t' cols' o' Ht' Hs' Hcv' E1 E2|t' msg2 msg' Ht' Hs' Hm' Hm3' E1 E2]; subst; try congruence.
    + assert (cols' = cols) as -> by congruence. rewrite (converted_fun _ _ _ _ _ _ Hcv Hcv'). destruct o2; auto.
    + destruct Hs'; congruence.
  - destruct (obs_mode (c_string t) (c_string_free t) (whole_mode _ W t eq_refl)) as [(l & O1 & O2)|(e1 & e2 & O1 & O2)]; [destruct Hs; congruence|].
    inversion B as [w E1 E2|t2 msg2 Ht2 E1 E2|t' cols' o' Ht' Hs' Hcv' E1 E2|t' msg2 msg2' Ht' Hs' Hm' Hm3' E1 E2]; subst; try congruence; try exact Logic.I.
    destruct O2; congruence.
Qed.
(** Only the message of a row that cannot be split may differ. *)
Lemma reading_mode_text mp n es out e1 e2 : whole c1 c2 d out -> row_reading c1 d mp n es out (inr e1) -> row_reading c2 d mp n es out (inr e2) -> ~ empty_row out ->
  (forall t, out = Complete t -> exists cols, split_obs c1 sp_init d (c_string t) [] = SFields cols) -> e1 = e2.
Proof.
  intros W A B NE SP. inversion A as [w E1 E2|t msg Ht E1 E2|t cols o Ht Hs Hcv E1 E2|t msg msg' Ht Hs Hm Hm3 E1 E2]; subst.
  - inversion B; subst. reflexivity.
  - exfalso. apply NE. exists t. auto.
  - destruct (obs_mode (c_string t) (c_string_free t) (whole_mode _ W t eq_refl)) as [(l & O1 & O2)|(x1 & x2 & O1 & O2)]; [|destruct O1; congruence].
    inversion B as [w E1 E2|t2 msg2 Ht2 E1 E2|t' cols' o' Ht' Hs' Hcv' E1 E2|t' msg2 msg' Ht' Hs' Hm' Hm3' E1 E2]; subst; try congruence.
    + assert (cols' = cols) as -> by congruence. pose proof (converted_fun _ _ _ _ _ _ Hcv Hcv') as X. congruence.
    + destruct Hs'; congruence.
  - destruct (SP t eq_refl) as (cols & K). destruct Hs; congruence.
Qed.
End M.

(** Whatever the error mode: the same rows; each call gives the same values, or an error in both; the same eof(), line() and
    position(). *)
Theorem C60_modes_read_alike : forall c m1 m2 cap d data its name1 p1 name2 p2 ess,
  fit c d -> enough cap -> nuls_ok c data -> rows_of (with_mode m1 c) d data its -> (c_ignhdr c = true -> its <> []) ->
  opened (with_mode m1 c) cap d data name1 p1 -> opened (with_mode m2 c) cap d data name2 p2 -> Forall types ess ->
  rows_of (with_mode m2 c) d data its /\
  forall i it es, nth_error its i = Some it -> nth_error ess i = Some es ->
  exists sn1 sn2, nth_error (reads (with_mode m1 c) cap p1 ess) i = Some sn1 /\ nth_error (reads (with_mode m2 c) cap p2 ess) i = Some sn2 /\
    ((exists vs, s_what sn1 = GValues vs /\ s_what sn2 = GValues vs) \/ failed (s_what sn1) /\ failed (s_what sn2)) /\
    s_eof sn1 = s_eof sn2 /\ s_line sn1 = s_line sn2 /\ (s_eof sn1 = false \/ settled (it_out it) -> s_pos sn1 = s_pos sn2).
Proof.
  intros c m1 m2 cap d data its name1 p1 name2 p2 ess F Hcap N R Hh O1 O2 W.
  pose proof (rows_mode c d F m1 m2 data its N R) as R2. split; [exact R2|]. intros i it es Hi He.
  pose proof (fit_mode m1 c d F) as F1. pose proof (fit_mode m2 c d F) as F2.
  destruct (open_rows _ cap d Hcap data name1 p1 its O1 N R Hh) as (X1 & M1 & q1 & PS1 & D1 & _).
  destruct (open_rows _ cap d Hcap data name2 p2 its O2 N R2 Hh) as (X2 & M2 & q2 & PS2 & D2 & _).
  destruct (reads_rows _ d F1 cap Hcap ess _ _ _ _ _ _ _ PS1 D1 W i it es Hi He) as (o1 & sn1 & A1 & B1 & C1 & E1 & G1 & K1).
  destruct (reads_rows _ d F2 cap Hcap ess _ _ _ _ _ _ _ PS2 D2 W i it es Hi He) as (o2 & sn2 & A2 & B2 & C2 & E2 & G2 & K2).
  assert (WH : whole (with_mode m1 c) (with_mode m2 c) d (it_out it)).
  { pose proof F1 as [H1 Hd Hd0 _]. pose proof (rows_whole (with_mode m1 c) (with_mode m2 c) d H1 Hd Hd0 data its (conj (roles_mode m1 m2 c data) N) R) as FW.
    rewrite Forall_forall in FW. apply FW. eapply nth_error_In; exact Hi. }
  pose proof (reading_mode c d F m1 m2 _ _ _ _ _ _ WH B1 B2) as RM.
  exists sn1, sn2. split; [exact A1|]. split; [exact A2|]. split.
  - unfold shown in C1, C2. destruct o1 as [v1|e1], o2 as [v2|e2]; try contradiction; [left; exists v1; split; congruence|]. right.
    split; [destruct (c_mode (with_mode m1 c)); rewrite C1; exact Logic.I|destruct (c_mode (with_mode m2 c)); rewrite C2; exact Logic.I].
  - split; [congruence|]. split; [congruence|]. intros K. rewrite K1, K2; [reflexivity| |];
      (destruct K as [K|K]; [left; rewrite E1 in K; apply Nat.eqb_neq in K; intros Y; apply (document_last _ d _ _ _ D1 i it Hi) in Y; lia|right; exact K]).
Qed.
Print Assumptions C60_modes_read_alike.

(** What string_error says, throw_on_error throws, but for the line: the row's last line, or the last of the blank lines
    skipped after it. *)
Theorem C60_what_is_said_is_thrown : forall c cap d data its name p1 p2 ess,
  fit c d -> enough cap -> nuls_ok c data -> rows_of (with_mode EString c) d data its -> (c_ignhdr c = true -> its <> []) ->
  opened (with_mode EString c) cap d data name p1 -> opened (with_mode EThrow c) cap d data name p2 -> Forall types ess ->
  forall i it es, nth_error its i = Some it -> nth_error ess i = Some es -> ~ empty_row (it_out it) ->
  (forall t, it_out it = Complete t -> exists cols, split_obs (with_mode EString c) sp_init d (c_string t) [] = SFields cols) ->
  exists sn1 sn2, nth_error (reads (with_mode EString c) cap p1 ess) i = Some sn1 /\ nth_error (reads (with_mode EThrow c) cap p2 ess) i = Some sn2 /\
    ((exists vs, s_what sn1 = GValues vs /\ s_what sn2 = GValues vs) \/
     exists m, s_what sn1 = GError (name ++ S2 " " ++ dec (it_line it) ++ S2 ": " ++ m) /\ s_what sn2 = GThrown (name ++ S2 " " ++ dec (it_next it) ++ S2 ": " ++ m)).
Proof.
  intros c cap d data its name p1 p2 ess F Hcap N R Hh O1 O2 W i it es Hi He NE SP.
  pose proof (rows_mode c d F EString EThrow data its N R) as R2.
  pose proof (fit_mode EString c d F) as F1. pose proof (fit_mode EThrow c d F) as F2.
  destruct (open_rows _ cap d Hcap data name p1 its O1 N R Hh) as (X1 & M1 & q1 & PS1 & D1 & _).
  destruct (open_rows _ cap d Hcap data name p2 its O2 N R2 Hh) as (X2 & M2 & q2 & PS2 & D2 & _).
  destruct (reads_rows _ d F1 cap Hcap ess _ _ _ _ _ _ _ PS1 D1 W i it es Hi He) as (o1 & sn1 & A1 & B1 & C1 & _).
  destruct (reads_rows _ d F2 cap Hcap ess _ _ _ _ _ _ _ PS2 D2 W i it es Hi He) as (o2 & sn2 & A2 & B2 & C2 & _).
  assert (WH : whole (with_mode EString c) (with_mode EThrow c) d (it_out it)).
  { pose proof F1 as [H1 Hd Hd0 _]. pose proof (rows_whole (with_mode EString c) (with_mode EThrow c) d H1 Hd Hd0 data its (conj (roles_mode EString EThrow c data) N) R) as FW.
    rewrite Forall_forall in FW. apply FW. eapply nth_error_In; exact Hi. }
  pose proof (reading_mode c d F EString EThrow _ _ _ _ _ _ WH B1 B2) as RM. rewrite X1 in C1. rewrite X2 in C2.
  exists sn1, sn2. split; [exact A1|]. split; [exact A2|]. unfold shown in C1, C2. cbn [with_mode c_mode] in C1, C2.
  destruct o1 as [v1|e1], o2 as [v2|e2]; try contradiction; [left; exists v1; split; congruence|]. right.
  rewrite (reading_mode_text c d F EString EThrow _ _ _ _ _ _ WH B1 B2 NE SP) in C1. exists e2. split; assumption.
Qed.
Print Assumptions C60_what_is_said_is_thrown.

(** ** Example: the document of C25 in the three modes *)
Definition hide (g : gobs) : option (list val) := match g with GValues vs => Some vs | _ => None end.
Example C60_example : fit rich (S2 ",") /\ nuls_ok rich rich_data /\ exists its p1 p2 p3, rows_of (with_mode EBool rich) (S2 ",") rich_data its /\ its <> [] /\
  opened (with_mode EBool rich) as_needed (S2 ",") rich_data (S2 "data.csv") p1 /\ opened (with_mode EString rich) as_needed (S2 ",") rich_data (S2 "data.csv") p2 /\
  opened (with_mode EThrow rich) as_needed (S2 ",") rich_data (S2 "data.csv") p3 /\
  map (fun sn => hide (s_what sn)) (reads (with_mode EBool rich) as_needed p1 (repeat [text; int32] 6)) = map hide (firstn 6 rich_rows) /\
  map (fun sn => hide (s_what sn)) (reads (with_mode EThrow rich) as_needed p3 (repeat [text; int32] 6)) = map hide (firstn 6 rich_rows) /\
  map s_what (reads (with_mode EString rich) as_needed p2 (repeat [text; int32] 6)) = firstn 6 rich_rows /\
  nth_error (map s_what (reads (with_mode EThrow rich) as_needed p3 (repeat [text; int32] 6))) 2 =
    Some (GThrown (S2 "data.csv 5: invalid conversion for parameter at column 2: 'x'")).
Proof.
  destruct C25_setup_example as (_ & F & Hc & W & _). assert (N : nuls_ok rich rich_data) by (intros _; vm_compute; intuition discriminate).
  split; [exact F|]. split; [exact N|].
  destruct (C25_documents_have_rows (with_mode EBool rich) as_needed (S2 ",") rich_data (fit_mode _ _ _ F) Hc N) as (its & R & _ & _); [discriminate|].
  assert (O1 : opened (with_mode EBool rich) as_needed (S2 ",") rich_data (S2 "data.csv") _) by (apply op_file; vm_compute; reflexivity).
  exists its. eexists. eexists. eexists. split; [exact R|]. split.
  { intros ->. destruct (C25_each_row_once_in_order (with_mode EBool rich) as_needed (S2 ",") rich_data _ _ [] [] (fit_mode EBool _ _ F) Hc N O1 R ltac:(discriminate) ltac:(constructor)) as [E _].
    pose proof (proj2 E eq_refl) as X. vm_compute in X. discriminate X. }
  split; [exact O1|]. split; [apply op_file; vm_compute; reflexivity|]. split; [apply op_file; vm_compute; reflexivity|].
  split; [|split; [|split]]; vm_compute; reflexivity.
Qed.
Print Assumptions C60_example.
