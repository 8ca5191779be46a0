(** Whole sessions that answer alike: C58 (setups that give the same roles) and C60 (error modes).  Vocabulary: SessionApi.v
    (calls and replies), SessionSpec.v (sessions), SessionAlike.v ([same_answer]: the same but for what error messages say and
    whether an error is thrown). *)
From Verif Require Import Base Setup Splitter SplitPure ListFacts SetupProofs SplitApi SplitModes SplitRefine Extract Converter ConvSpec ConvProofs Reader LineSpec LineProofs Parser ParserSpec ParserApi ParserRows ParserOpen ParserSession ParserGhost ParserFacts SessionApi SessionSpec SessionHeader SessionProofs PropParser PropExamples PropSession PropCovered Roles SessionAlike.
From Verif Require PropModes.

(** Where the parsers are after the calls. *)
Definition same_place (p1 p2 : prs) : Prop := p_eof p1 = p_eof p2 /\ (p_eof p1 = false -> p_line p1 = p_line p2).
Lemma sim_place c d n h total v p : sim c d n h total v p -> p_eof p = w_over v /\ (w_over v = false -> p_line p = w_line v).
Proof.
  intros (_ & _ & _ & K). split; [exact (placed_eof c d _ _ _ K)|]. unfold placed in K.
  destruct v as [k [|[t e] ls] o mp n0 kn]; cbn [w_lines w_map w_ncols w_line w_over] in *; [destruct o; [discriminate|]|].
  - destruct K as [K _]. intros _. unfold p_line. rewrite (gh_line _ _ _ _ _ _ K). lia.
  - destruct K as [-> K]. intros _. exact (pstate_line c d _ _ _ _ _ _ K).
Qed.
Section Begin.
Context (c1 c2 : cfg) (d data : str) (F1 : fit c1 d) (F2 : fit c2 d).
Context (El : c_ml c1 = c_ml c2) (Es : c_mlsize c1 = c_mlsize c2) (Ei : c_ignempty c1 = c_ignempty c2) (Eh : c_ignhdr c1 = c_ignhdr c2).
Context (Ee : escapes_lines c1 <-> escapes_lines c2).
Lemma header_line_same h : header_line c1 data h -> header_line c2 data h.
Proof. intros [ls j t e ls' P B|ls j P B]; [eapply hl_line|eapply hl_none]; eauto; eapply blanks_same; eauto. Qed.
Lemma session_begins cap1 cap2 n1 n2 h p1 p2 v : session c1 cap1 d data n1 h p1 v -> opened c2 cap2 d data n2 p2 -> session c2 cap2 d data n2 h p2 v.
Proof.
  intros S O. pose proof (blanks_same c1 c2 Ei) as BS.
  destruct S as [k L O1 N ST Hh HL|ls j t e ls1 j' O1 N Hi P B B' Hj HL|ls j O1 N Hi P B HL].
  - apply se; auto; [intros M; apply N; congruence|eapply starts_same; eauto|intros X; apply Hh; congruence|apply header_line_same; exact HL].
  - apply (se_header_only c2 cap2 d data n2 h p2 ls j t e ls1 j'); [exact O|intros M; apply N; congruence|congruence|exact P|apply BS; exact B|apply BS; exact B'|destruct Hj; [auto|right; tauto]|apply header_line_same; exact HL].
  - apply (se_nothing c2 cap2 d data n2 h p2 ls j); [exact O|intros M; apply N; congruence|congruence|exact P|apply BS; exact B|apply header_line_same; exact HL].
Qed.
Lemma session_clean cap n h p v : okt c1 c2 data -> session c1 cap d data n h p v -> clean c1 c2 v.
Proof.
  intros OK [k L O1 N ST Hh HL|ls j t e ls1 j' O1 N Hi P B B' Hj HL|ls j O1 N Hi P B HL]; (split; [|constructor]); cbn [w_lines]; try constructor.
  destruct ST as [ls j ls' _ P B|ls j t e ls1 j' ls' _ P B B'].
  - eapply blanks_rest; [exact B|]. eapply physical_ok; eauto.
  - eapply blanks_rest; [exact B'|]. assert (K : Forall (okl c1 c2) ((t, e) :: ls1)) by (eapply blanks_rest; [exact B|]; eapply physical_ok; eauto). inversion K. assumption.
Qed.
Lemma okt_swaps t : okt c1 c2 t -> okt c2 c1 t.
Proof. intros [A B]. split; [apply same_sym; exact A|intros M; apply B; congruence]. Qed.
Lemma outside_alike hc1 hc2 n1 n2 h v k : clean c1 c2 v -> (c_mode c2 = EThrow -> c_mode c1 = EThrow \/ forall es cb lks, k <> CTry es cb lks) ->
  (forall kn k2, asks c2 hc2 d n2 h kn k2 None -> asks c1 hc1 d n1 h kn k2 None) -> outside c2 hc2 d n2 h v k -> outside c1 hc1 d n1 h v k.
Proof.
  intros [CL _] NT AS O. assert (BS : forall ls j ls', blanks c2 ls j ls' -> blanks c1 ls j ls') by (intros ls j ls'; apply (blanks_same c2 c1 (eq_sym Ei))).
  inversion O as [v0 es cb lks M|v0 k0 M K|k0 o mp n kn es cb lks H|k0 t e ls o mp n kn es cb lks w m rest R H|k0 t e ls o mp n kn j B E|t e ls mp n kn kn' fs j B E A S]; subst.
  - destruct (NT M) as [X|X]; [apply ou_try; exact X|destruct (X es cb lks eq_refl)].
  - apply ou_header; [congruence|exact K].
  - apply ou_try_end. assumption.
  - eapply ou_try_incomplete; [|exact H]. cbn [w_lines] in CL. inversion CL as [|? ? [K1 K2] K3]; subst. cbn in K1, K2.
    pose proof F1 as [H1 Hd Hd0 _]. pose proof F2 as [H2 _ _ _]. pose proof okt_swaps as SW.
    apply (row_same c2 c1 d H2 H1 Hd Hd0 (eq_sym El) (eq_sym Es) 0 t t e ls (Incomplete w) m rest R (SW _ K1) (SW _ K1) (SW _ K2)).
    eapply Forall_impl; [|exact K3]. intros l [X Y]. split; apply SW; assumption.
  - apply ou_ignore with j; [apply BS; exact B|tauto].
  - apply ou_use_last with kn' j; auto. tauto.
Qed.
Lemma header_in cap n h p v : session c1 cap d data n h p v -> incl h data.
Proof.
  intros S. assert (HL : header_line c1 data h) by (destruct S; assumption). destruct HL as [ls j t e ls' P B|ls j P B]; [|intros x []].
  assert (K : Forall (fun l => incl (fst l) data) ls) by (apply Forall_forall; intros [t0 e0] I0; eapply physical_incl; eassumption).
  apply (blanks_rest _ _ _ _ _ B) in K. inversion K. assumption.
Qed.
End Begin.

(** ** Error modes *)
Lemma obs_any_mode c d m1 m2 t : cfg_ok c -> nulfree d -> d <> [] -> nulfree t ->
  (exists cols, split_obs (with_mode m1 c) sp_init d t [] = SFields cols /\ split_obs (with_mode m2 c) sp_init d t [] = SFields cols) \/
  exists e1 e2, (split_obs (with_mode m1 c) sp_init d t [] = SErr e1 \/ split_obs (with_mode m1 c) sp_init d t [] = SThrown e1) /\
                (split_obs (with_mode m2 c) sp_init d t [] = SErr e2 \/ split_obs (with_mode m2 c) sp_init d t [] = SThrown e2).
Proof.
  intros Hc Hd Hd0 N.
  pose proof (split_obs_psplit _ (cfg_ok_mode m1 c Hc) d Hd Hd0 sp_init t [] _ _ (reach_init _) N (surjective_pairing _)) as O1.
  pose proof (split_obs_psplit _ (cfg_ok_mode m2 c Hc) d Hd Hd0 sp_init t [] _ _ (reach_init _) N (surjective_pairing _)) as O2.
  pose proof (modes_accept c Hc d Hd Hd0 m1 m2 sp_init sp_init t [] (reach_init _) (reach_init _) N) as A.
  rewrite psplit_mode in O1, O2. rewrite report_mode in O1, O2.
  destruct (report c (snd (psplit c d t))) as [[x y]|] eqn:Er.
  - right. rewrite O1, O2. destruct (c_mode (with_mode m1 c)), (c_mode (with_mode m2 c)); do 2 eexists; eauto.
  - left. specialize (A eq_refl). destruct (junk (snd (psplit c d t))); [exists (fst (psplit c d t)); auto|].
    destruct (O1 ltac:(constructor)) as (j1 & X1). destruct (O2 ltac:(constructor)) as (j2 & X2). exists (fst (psplit c d t) ++ [j1]). split; [exact X1|]. rewrite X2.
    clear O1 O2. generalize dependent (fst (psplit c d t)). intros fl X1 X2. unfold split_obs in X1, X2. rewrite A in X1. destruct (split_call (with_mode m2 c) sp_init d t []) as [u [s m]|e s|w|]; cbn in X1, X2; try discriminate.
    destruct (strings_of m (s_sd s)); [|destruct (sp_valid _ s); discriminate]. destruct (sp_valid (with_mode m1 c) s), (sp_valid (with_mode m2 c) s); congruence.
Qed.
(** C60 for whole sessions: the same calls to two parsers on the same data, in the error modes [m1] and [m2]; the sources, the
    growth policies and the names may differ too.  (try_next does not compile with throw_on_error.  A header with a name twice is remembered differently with
    throw_on_error, see [asks].) *)
Theorem C60_sessions : forall c hc m1 m2 cap1 cap2 d data n1 n2 h p1 p2 v ks,
  fit c d -> enough cap1 -> enough cap2 -> header_setup c hc ->
  session (with_mode m1 c) cap1 d data n1 h p1 v -> opened (with_mode m2 c) cap2 d data n2 p2 -> Forall call_ok ks ->
  covered (with_mode m1 c) (with_mode m1 hc) d n1 h v ks ->
  (m2 = EThrow -> forall es cb lks, ~ In (CTry es cb lks) ks) ->
  (m1 = EThrow <-> m2 = EThrow) \/ (forall cols, names (with_mode m1 hc) d h cols -> NoDup cols) ->
  Forall2 same_answer (replies (with_mode m1 c) (with_mode m1 hc) cap1 p1 ks) (replies (with_mode m2 c) (with_mode m2 hc) cap2 p2 ks) /\
  same_place (later (with_mode m1 c) (with_mode m1 hc) cap1 p1 ks) (later (with_mode m2 c) (with_mode m2 hc) cap2 p2 ks).
Proof.
  intros c hc m1 m2 cap1 cap2 d data n1 n2 h p1 p2 v ks F Hcap1 Hcap2 HS SE1 O2 W C NT TH.
  pose proof (PropModes.fit_mode m1 c d F) as F1. pose proof (PropModes.fit_mode m2 c d F) as F2.
  pose proof (session_begins (with_mode m1 c) (with_mode m2 c) d data eq_refl eq_refl eq_refl ltac:(reflexivity) cap1 cap2 n1 n2 h p1 p2 v SE1 O2) as SE2.
  assert (N : nuls_ok c data) by (destruct SE1; assumption).
  assert (CL : clean (with_mode m1 c) (with_mode m2 c) v) by (eapply session_clean; [split; [apply PropModes.roles_mode|exact N]|exact SE1]).
  assert (HS1 : header_setup (with_mode m1 c) (with_mode m1 hc)) by (destruct HS as [->| ->]; [left|right]; reflexivity).
  assert (HS2 : header_setup (with_mode m2 c) (with_mode m2 hc)) by (destruct HS as [->| ->]; [left|right]; reflexivity).
  destruct (session_sim _ _ _ _ _ _ Hcap1 _ _ SE1) as (S1 & _). destruct (session_sim _ _ _ _ _ _ Hcap2 _ _ SE2) as (S2 & _).
  assert (Hhc : cfg_ok hc) by (pose proof F as [H _ _ _]; destruct HS as [->| ->]; [apply header_cfg_ok|]; exact H).
  pose proof F as [_ Hd Hd0 _]. pose proof (obs_any_mode hc d m1 m2 (c_string h) Hhc Hd Hd0 (c_string_free h)) as HH.
  pose proof (fun mp n es out o1 o2 => PropModes.reading_mode c d F m1 m2 mp n es out o1 o2) as RR.
  assert (C2 : covered (with_mode m2 c) (with_mode m2 hc) d n2 h v ks).
  { eapply (covered_alike (with_mode m1 c) (with_mode m2 c) (with_mode m1 hc) (with_mode m2 hc) d n1 n2 h F1 F2 eq_refl eq_refl eq_refl RR HH TH cap1 Hcap1 HS1); eauto.
    intros v0 k K CL0 O. eapply (outside_alike (with_mode m1 c) (with_mode m2 c) d F1 F2); eauto; try reflexivity; [intros X; right; intros es cb lks ->; exact (NT X es cb lks K)|].
    intros kn k2 A. inversion A as [kn0 X|cols X Y|r X|a f b X Y Z]; subst; [apply as_known; exact X|]. apply as_names; [|exact Y].
    unfold names in *. destruct HH as [(l & A1 & A2)|(e1 & e2 & A1 & [A2|A2])]; congruence. }
  destruct (sessions_alike (with_mode m1 c) (with_mode m2 c) (with_mode m1 hc) (with_mode m2 hc) d n1 n2 h F1 F2 eq_refl eq_refl eq_refl RR HH TH cap1 cap2 Hcap1 Hcap2 HS1 HS2 _ ks v p1 p2 S1 S2 W CL C C2) as (R & v' & T1 & T2).
  split; [exact R|]. destruct (sim_place _ _ _ _ _ _ _ T1) as [A1 A2]. destruct (sim_place _ _ _ _ _ _ _ T2) as [B1 B2].
  split; [congruence|]. intros X. rewrite A2, B2; congruence.
Qed.
Print Assumptions C60_sessions.

(** ** C58 for whole sessions: two setups that differ in options whose characters do not occur in the data answer alike.  (With
    multiline, both or neither allow escaping line ends: a skipped last row depends on it.) *)
Theorem C58_sessions : forall c1 c2 cap1 cap2 d data n1 n2 h p1 p2 v ks,
  fit c1 d -> fit c2 d -> enough cap1 -> enough cap2 -> c_mode c1 = c_mode c2 -> c_ml c1 = c_ml c2 -> c_mlsize c1 = c_mlsize c2 ->
  c_ignempty c1 = c_ignempty c2 -> c_ignhdr c1 = c_ignhdr c2 -> same_roles c1 c2 data -> (c_ml c1 = true -> (c_escape c1 = [] <-> c_escape c2 = [])) ->
  session c1 cap1 d data n1 h p1 v -> opened c2 cap2 d data n2 p2 -> Forall call_ok ks -> covered c1 (header_cfg c1) d n1 h v ks ->
  Forall2 same_answer (replies c1 (header_cfg c1) cap1 p1 ks) (replies c2 (header_cfg c2) cap2 p2 ks) /\
  same_place (later c1 (header_cfg c1) cap1 p1 ks) (later c2 (header_cfg c2) cap2 p2 ks).
Proof.
  intros c1 c2 cap1 cap2 d data n1 n2 h p1 p2 v ks F1 F2 Hcap1 Hcap2 Em El Es Ei Eh SR He SE1 O2 W C.
  assert (Ee : escapes_lines c1 <-> escapes_lines c2) by (unfold escapes_lines; rewrite <- El; destruct (c_ml c1); [|intuition]; specialize (He eq_refl); tauto).
  pose proof (session_begins c1 c2 d data El Ei Eh Ee cap1 cap2 n1 n2 h p1 p2 v SE1 O2) as SE2.
  assert (N : nuls_ok c1 data) by (destruct SE1; assumption).
  assert (CL : clean c1 c2 v) by (eapply session_clean; [split; [exact SR|exact N]|exact SE1]).
  assert (HS1 : header_setup c1 (header_cfg c1)) by (left; reflexivity). assert (HS2 : header_setup c2 (header_cfg c2)) by (left; reflexivity).
  destruct (session_sim _ _ _ _ _ _ Hcap1 _ _ SE1) as (S1 & _). destruct (session_sim _ _ _ _ _ _ Hcap2 _ _ SE2) as (S2 & _).
  pose proof F1 as [H1 Hd Hd0 _]. pose proof F2 as [H2 _ _ _]. change (nulfree d) in Hd.
  assert (HO : split_obs (header_cfg c1) sp_init d (c_string h) [] = split_obs (header_cfg c2) sp_init d (c_string h) []).
  { apply (obs_same (header_cfg c1) (header_cfg c2) d (header_cfg_ok _ H1) (header_cfg_ok _ H2) Hd Hd0 Em eq_refl); try apply reach_init; [apply c_string_free| |discriminate].
    intros x K. apply c_string_incl in K. apply (header_in c1 d data _ _ _ _ _ SE1) in K. exact (SR x K). }
  assert (HH : (exists cols, split_obs (header_cfg c1) sp_init d (c_string h) [] = SFields cols /\ split_obs (header_cfg c2) sp_init d (c_string h) [] = SFields cols) \/
    exists e1 e2, (split_obs (header_cfg c1) sp_init d (c_string h) [] = SErr e1 \/ split_obs (header_cfg c1) sp_init d (c_string h) [] = SThrown e1) /\
                  (split_obs (header_cfg c2) sp_init d (c_string h) [] = SErr e2 \/ split_obs (header_cfg c2) sp_init d (c_string h) [] = SThrown e2)).
  { pose proof (obs_any_mode (header_cfg c1) d (c_mode c1) (c_mode c1) (c_string h) (header_cfg_ok _ H1) Hd Hd0 (c_string_free h)) as K.
    change (with_mode (c_mode c1) (header_cfg c1)) with (header_cfg c1) in K. rewrite <- HO. destruct K as [(cols & A & _)|(e1 & e2 & A & _)]; [left; eauto|right; exists e1, e1; auto]. }
  assert (RR : forall mp n es out o1 o2, whole c1 c2 d out -> row_reading c1 d mp n es out o1 -> row_reading c2 d mp n es out o2 -> agree o1 o2).
  { intros mp n es out o1 o2 WH A B. apply (reading_same c1 c2 d H1 H2 Hd Hd0 Em El mp n es out o1 WH) in A. pose proof (reading_det c2 d mp n es out o1 o2 A B) as K.
    unfold agree. destruct o1, o2; auto. }
  assert (TH : (c_mode c1 = EThrow <-> c_mode c2 = EThrow) \/ forall cols, names (header_cfg c1) d h cols -> NoDup cols) by (left; rewrite Em; reflexivity).
  assert (C2 : covered c2 (header_cfg c2) d n2 h v ks).
  { eapply (covered_alike c1 c2 (header_cfg c1) (header_cfg c2) d n1 n2 h F1 F2 El Es Ei RR HH TH cap1 Hcap1 HS1); eauto.
    intros v0 k K CL0 O. eapply (outside_alike c1 c2 d F1 F2); eauto; [intros X; left; congruence|].
    intros kn k2 A. inversion A as [kn0 X|cols X Y|r X|a f b X Y Z]; subst; [apply as_known; exact X|]. apply as_names; [|exact Y]. unfold names in *. congruence. }
  destruct (sessions_alike c1 c2 (header_cfg c1) (header_cfg c2) d n1 n2 h F1 F2 El Es Ei RR HH TH cap1 cap2 Hcap1 Hcap2 HS1 HS2 _ ks v p1 p2 S1 S2 W CL C C2) as (R & v' & T1 & T2).
  split; [exact R|]. destruct (sim_place _ _ _ _ _ _ _ T1) as [A1 A2]. destruct (sim_place _ _ _ _ _ _ _ T2) as [B1 B2].
  split; [congruence|]. intros X. rewrite A2, B2; congruence.
Qed.
Print Assumptions C58_sessions.

(** ** Example: the session of C44, with string_error on a file; without it, on the same text in memory; and with an escape
    character and trimming that the text does not use. *)
Definition plain_answers : list reply :=
  [ YNames [S2 "id"; S2 "name"; S2 "age"]; YBool true; YBool false; YError []; YError []; YDone; YGet (GValues [VInt 30; VInt 1]);
    YTry [None; Some [VStr (S2 "x"); VInt 2]] [EvError 7 []; EvCall 1 [Some (VStr (S2 "x")); Some (VInt 2)]] true;
    YTry [None; None] [EvCall 2 [Some (VInt 50); Some (VInt 3)]; EvError 9 []] false; YDone; YGet (GValues [VStr (S2 "dan")]) ].
Definition unused_escape : cfg := mkCfg (Some """"%char) ["\"%char] ["~"%char] ["~"%char] false 0 EString false false.
Example C60_sessions_example : fit quotes (S2 ",") /\ fit unused_escape (S2 ",") /\ same_roles quotes unused_escape people /\
  exists p1 p2 p3 v, session quotes as_needed (S2 ",") people (S2 "p.csv") (S2 "id,name,age") p1 v /\
  opened (with_mode EBool quotes) as_needed (S2 ",") people (S2 "CSV data buffer") p2 /\ opened unused_escape as_needed (S2 ",") people (S2 "p.csv") p3 /\
  Forall call_ok session_calls /\ covered quotes (header_cfg quotes) (S2 ",") (S2 "p.csv") (S2 "id,name,age") v session_calls /\
  replies quotes (header_cfg quotes) as_needed p1 session_calls = session_replies /\
  replies (with_mode EBool quotes) (with_mode EBool (header_cfg quotes)) as_needed p2 session_calls = plain_answers /\
  replies unused_escape (header_cfg unused_escape) as_needed p3 session_calls = session_replies.
Proof.
  assert (FQ : fit quotes (S2 ",")).
  { constructor; [exact (setup_ok [OQuote """"%char; OStringError] quotes eq_refl)| | |discriminate]; cbn; [intros [H|[]]; discriminate|discriminate]. }
  assert (FU : fit unused_escape (S2 ",")).
  { constructor; [exact (setup_ok [OQuote """"%char; OEscape ["\"%char]; OTrim ["~"%char]; OStringError] unused_escape eq_refl)| | |discriminate]; cbn; [intros [H|[]]; discriminate|discriminate]. }
  split; [exact FQ|]. split; [exact FU|]. split.
  { intros x K. assert (X : x <> "\"%char /\ x <> "~"%char) by (vm_compute in K; split; intros ->; intuition discriminate). unfold same_role. cbn. intuition congruence. }
  destruct C44_example as (p & v & S & W & M & R). exists p. eexists. eexists. exists v. split; [exact S|].
  split; [apply op_buffer; vm_compute; reflexivity|]. split; [apply op_file; vm_compute; reflexivity|]. split; [exact W|].
  split; [apply plain_covered; [reflexivity|reflexivity|reflexivity|discriminate|exact M]|]. split; [exact R|]. split; vm_compute; reflexivity.
Qed.
Print Assumptions C60_sessions_example.
