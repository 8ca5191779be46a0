(** C61 and C62 for whole sessions.  Vocabulary: SessionApi.v (calls and replies), SessionSpec.v (sessions, what is specified),
    PropLazy.v ([left]: what was not taken from the source), PropWiden.v ([permits], [as_read]), SessionAlike.v ([same_answer]). *)
From Verif Require Import Base Setup Splitter SplitPure ListFacts SetupProofs SplitApi SplitModes SplitRefine Extract Converter ConvSpec ConvProofs Reader LineSpec LineProofs ReaderBase ReaderInv Parser ParserSpec ParserApi ParserRows ParserOpen ParserSession ParserGhost ParserFacts SessionApi SessionSpec SessionHeader SessionProofs PropParser PropExamples PropSession PropCovered Roles SessionAlike PropAlike.
From Verif Require PropLazy PropWiden.
Import PropLazy(left, lines_concat). Import PropWiden(permits, as_read, permits_reading).

(** ** C61: whatever was called, the line read ahead is the first one of the next row. *)
Definition one_ahead (data : str) (next : list (str * str)) (p : prs) : Prop :=
  match next with
  | [] => left p = []
  | (t, e) :: ls => exists before, data = before ++ (t ++ e) ++ left p /\ physical (left p) ls /\ p_position p = Z.of_nat (length before)
  end.
Lemma does_suffix c hc d n h v k y v' : does c hc d n h v k y v' -> exists u, w_lines v = u ++ w_lines v'.
Proof.
  intros D. destruct D; cbn [w_lines]; try (exists []; reflexivity);
    repeat match goal with R : row _ _ _ _ _ _ _ _ _ _ |- _ => destruct (row_lines _ _ _ _ _ _ _ _ _ _ R) as (?u & -> & _); clear R | B : blanks _ _ _ _ |- _ => destruct (blanks_used _ _ _ _ B) as (?w & -> & _); clear B end.
  - exists ((t, e) :: u ++ w). cbn [app]. rewrite app_assoc. reflexivity.
  - exists ((t, e) :: u ++ w). cbn [app]. rewrite app_assoc. reflexivity.
  - exists ((t, e) :: w). reflexivity.
  - exists ((t, e) :: w). reflexivity.
Qed.
Lemma leads_suffix c hc d n h v ks ys v' : leads c hc d n h v ks ys v' -> exists u, w_lines v = u ++ w_lines v'.
Proof.
  induction 1 as [v|v k y v1 ks ys v2 D L (u & E)]; [exists []; reflexivity|]. destruct (does_suffix _ _ _ _ _ _ _ _ _ D) as (w & E').
  exists (w ++ u). rewrite E', E, app_assoc. reflexivity.
Qed.
Lemma session_suffix c cap d data n h p v : session c cap d data n h p v -> exists u, lines data = u ++ w_lines v.
Proof.
  intros [k L O N ST Hh HL|ls j t e ls1 j' O N Hi P B B' Hj HL|ls j O N Hi P B HL]; cbn [w_lines]; [|exists (lines data); rewrite app_nil_r; reflexivity|exists (lines data); rewrite app_nil_r; reflexivity].
  destruct (starts_lines c _ _ _ ST) as (u & E & _). eauto.
Qed.
Theorem C61_sessions : forall c hc cap d data name h p v ks, fit c d -> enough cap -> header_setup c hc ->
  session c cap d data name h p v -> Forall call_ok ks -> covered c hc d name h v ks ->
  exists v', leads c hc d name h v ks (replies c hc cap p ks) v' /\ one_ahead data (w_lines v') (later c hc cap p ks).
Proof.
  intros c hc cap d data name h p v ks F Hcap HS SE W C. destruct (session_sim _ _ _ _ _ _ Hcap _ _ SE) as (S0 & _).
  destruct (covered_sim c hc d name h cap F Hcap HS (Z.of_nat (length data)) ks v p S0 W C) as (v' & L & S1). exists v'. split; [exact L|].
  destruct (session_suffix _ _ _ _ _ _ _ _ SE) as (u0 & E0). destruct (leads_suffix _ _ _ _ _ _ _ _ _ L) as (u1 & E1). rewrite E1, app_assoc in E0.
  destruct S1 as (_ & _ & _ & K). unfold placed in K. unfold one_ahead. destruct (w_lines v') as [|[t e] ls] eqn:EL.
  - destruct (w_over v'); [destruct K as (_ & _ & U); exact U|]. destruct K as [K _]. exact (gh_done _ _ _ _ _ _ K).
  - destruct K as [_ K]. pose proof (PropLazy.pstate_holds c d data _ _ _ _ _ _ E0 K) as H. cbn [PropLazy.holds] in H. destruct H as (b & A1 & A2 & A3 & _). exists b. auto.
Qed.
Print Assumptions C61_sessions.

(** ** C62: asking for more permissive types in a session *)
Inductive wider_call : call -> call -> Prop :=
| wc_same k : wider_call k k
| wc_get es fs : Forall2 permits es fs -> wider_call (CGet es) (CGet fs).
(** The same answer; or the values as the more permissive types show them; or a row where there was an error. *)
Inductive wider_answer : reply -> reply -> Prop :=
| wa_same y1 y2 : same_answer y1 y2 -> wider_answer y1 y2
| wa_values vs ws : Forall2 as_read vs ws -> wider_answer (YGet (GValues vs)) (YGet (GValues ws))
| wa_gained g ws : row_error g -> wider_answer (YGet g) (YGet (GValues ws)).

Section W.
Context (c hc : cfg) (d n1 n2 h : str) (F : fit c d) (HS : header_setup c hc).
Lemma roles_self t : same_roles c c t.
Proof. intros x _. unfold same_role. tauto. Qed.
Lemma rr_self mp n es out o1 o2 : whole c c d out -> row_reading c d mp n es out o1 -> row_reading c d mp n es out o2 -> agree o1 o2.
Proof. intros _ A B. pose proof (reading_det c d mp n es out o1 o2 A B) as K. unfold agree. destruct o1, o2; auto. Qed.
Lemma hh_self : (exists cols, split_obs hc sp_init d (c_string h) [] = SFields cols /\ split_obs hc sp_init d (c_string h) [] = SFields cols) \/
  exists e1 e2, (split_obs hc sp_init d (c_string h) [] = SErr e1 \/ split_obs hc sp_init d (c_string h) [] = SThrown e1) /\
                (split_obs hc sp_init d (c_string h) [] = SErr e2 \/ split_obs hc sp_init d (c_string h) [] = SThrown e2).
Proof.
  pose proof F as [H Hd Hd0 _]. assert (Hhc : cfg_ok hc) by (destruct HS as [->| ->]; [apply header_cfg_ok|]; exact H).
  pose proof (obs_any_mode hc d (c_mode hc) (c_mode hc) (c_string h) Hhc Hd Hd0 (c_string_free h)) as K.
  replace (with_mode (c_mode hc) hc) with hc in K by (destruct hc; reflexivity). exact K.
Qed.
Lemma does_wider v k1 k2 y1 v1 y2 v2 : clean c c v -> wider_call k1 k2 -> call_ok k1 -> call_ok k2 -> does c hc d n1 h v k1 y1 v1 -> does c hc d n2 h v k2 y2 v2 ->
  wider_answer y1 y2 /\ v1 = v2 /\ clean c c v1.
Proof.
  intros CL WC K1 K2 D1 D2. assert (TH : (c_mode c = EThrow <-> c_mode c = EThrow) \/ forall cols, names hc d h cols -> NoDup cols) by (left; tauto).
  destruct WC as [k|es fs P].
  - destruct (does_alike c c hc hc d n1 n2 h F F eq_refl eq_refl eq_refl rr_self hh_self TH v k y1 v1 y2 v2 CL D1 D2) as (A & B & C). split; [apply wa_same; exact A|auto].
  - destruct CL as [CL N]. cbn [call_ok] in K1, K2.
    inversion D1 as [k t e ls mp n kn es0 out m rest j ls' o g R B RD SH|k mp n kn es0 m g SH|k mp n kn es0 msg| | | | | | | | | | | | | |]; subst;
      inversion D2 as [k' t' e' ls0 mp' n' kn' es0' out' m' rest' j' ls0' o' g' R' B' RD' SH'|k' mp' n' kn' es0' m' g' SH'|k' mp' n' kn' es0' msg'| | | | | | | | | | | | | |]; subst; cbn [w_lines w_known] in CL, N.
    + destruct (row_alike c c d F F eq_refl eq_refl _ _ _ _ _ _ _ _ _ CL R R') as (-> & -> & -> & WH & K').
      pose proof (blanks_rest _ (okl c c) _ _ _ B K') as K''. destruct (blanks_alike c c eq_refl _ _ _ _ _ B B') as [-> ->].
      split; [|split; [reflexivity|split; assumption]].
      destruct o as [vs|e1].
      * destruct (permits_reading c d _ _ es fs _ vs P (proj1 K1) (proj1 K2) RD) as (ws & RW & AR). pose proof (reading_det c d _ _ _ _ _ _ RW RD') as X.
        destruct o' as [ws'|]; [|contradiction]. subst ws'. unfold shown in SH, SH'. subst. apply wa_values. exact AR.
      * assert (X : row_error g) by (unfold shown in SH; destruct (c_mode c); subst; exact Logic.I). destruct o' as [ws|e2].
        -- unfold shown in SH'. subst g'. apply wa_gained. exact X.
        -- apply wa_same, sa_failed; [exact X|]. unfold shown in SH'. destruct (c_mode c); subst; exact Logic.I.
    + split; [|split; [reflexivity|split; [constructor|exact N]]]. apply wa_same, sa_failed; [unfold shown in SH; destruct (c_mode c); subst; exact Logic.I|unfold shown in SH'; destruct (c_mode c); subst; exact Logic.I].
    + split; [|split; [reflexivity|split; [constructor|exact N]]]. apply wa_same, sa_failed; destruct (c_mode c); exact Logic.I.
Qed.
Lemma outside_wider v k1 k2 : wider_call k1 k2 -> clean c c v -> outside c hc d n2 h v k2 -> outside c hc d n1 h v k1.
Proof.
  intros [k|es fs P] CL O.
  - refine (outside_alike c c d F F eq_refl eq_refl eq_refl eq_refl ltac:(tauto) hc hc n1 n2 h v k CL _ _ O); [auto|].
    intros kn k0 A. inversion A as [kn0 X|cols X Y|r X|a f b X Y Z]; subst; [apply as_known; exact X|apply as_names; assumption].
  - inversion O as [| v0 k0 M K | | | | ]; subst. destruct K as [K|[K|[(f & K)|(f & K)]]]; discriminate.
Qed.
Context (cap1 cap2 : nat -> nat -> nat) (Hcap1 : enough cap1) (Hcap2 : enough cap2) (total : Z).
Lemma sessions_wider : forall ks1 ks2 v p1 p2, Forall2 wider_call ks1 ks2 -> sim c d n1 h total v p1 -> sim c d n2 h total v p2 -> Forall call_ok ks1 -> Forall call_ok ks2 ->
  clean c c v -> covered c hc d n1 h v ks1 ->
  Forall2 wider_answer (replies c hc cap1 p1 ks1) (replies c hc cap2 p2 ks2) /\
  exists v', sim c d n1 h total v' (later c hc cap1 p1 ks1) /\ sim c d n2 h total v' (later c hc cap2 p2 ks2).
Proof.
  induction ks1 as [|k1 ks1 IH]; intros ks2 v p1 p2 P S1 S2 W1 W2 CL C1; inversion P as [|x k2 y ks2' P1 P2]; subst; [split; [constructor|exists v; auto]|].
  inversion W1; inversion W2; subst. destruct C1 as [O1 C1].
  destruct (sim_step c hc d n1 h cap1 F HS Hcap1 total v p1 k1 S1 ltac:(assumption)) as [O|(y1 & v1 & q1 & D1 & E1 & T1)]; [contradiction|].
  destruct (sim_step c hc d n2 h cap2 F HS Hcap2 total v p2 k2 S2 ltac:(assumption)) as [O|(y2 & v2 & q2 & D2 & E2 & T2)]; [destruct O1; eapply outside_wider; eauto|].
  destruct (does_wider v k1 k2 y1 v1 y2 v2 CL P1 ltac:(assumption) ltac:(assumption) D1 D2) as (SA & EV & CL'). subst v2.
  destruct (IH ks2' v1 q1 q2 P2 T1 T2 ltac:(assumption) ltac:(assumption) CL' (C1 _ _ D1)) as [R R']. cbn [replies later]. rewrite E1, E2. cbn [fst snd]. split; [constructor; assumption|exact R'].
Qed.
End W.
(** Two parsers on the same data, called alike but for more permissive types in calls of get_next: every call is answered
    alike, rows that were read are still read with these values, and the parsers stay at the same place. *)
Theorem C62_sessions : forall c hc cap1 cap2 d data n1 n2 h p1 p2 v ks1 ks2, fit c d -> enough cap1 -> enough cap2 -> header_setup c hc ->
  session c cap1 d data n1 h p1 v -> opened c cap2 d data n2 p2 -> Forall call_ok ks1 -> Forall call_ok ks2 -> Forall2 wider_call ks1 ks2 ->
  covered c hc d n1 h v ks1 ->
  Forall2 wider_answer (replies c hc cap1 p1 ks1) (replies c hc cap2 p2 ks2) /\
  same_place (later c hc cap1 p1 ks1) (later c hc cap2 p2 ks2).
Proof.
  intros c hc cap1 cap2 d data n1 n2 h p1 p2 v ks1 ks2 F Hcap1 Hcap2 HS SE1 O2 W1 W2 P C.
  pose proof (session_begins c c d data eq_refl eq_refl eq_refl ltac:(tauto) cap1 cap2 n1 n2 h p1 p2 v SE1 O2) as SE2.
  assert (N : nuls_ok c data) by (destruct SE1; assumption).
  assert (CL : clean c c v) by (eapply session_clean; [split; [apply roles_self|exact N]|exact SE1]).
  destruct (session_sim _ _ _ _ _ _ Hcap1 _ _ SE1) as (S1 & _). destruct (session_sim _ _ _ _ _ _ Hcap2 _ _ SE2) as (S2 & _).
  destruct (sessions_wider c hc d n1 n2 h F HS cap1 cap2 Hcap1 Hcap2 _ ks1 ks2 v p1 p2 P S1 S2 W1 W2 CL C) as (R & v' & T1 & T2).
  split; [exact R|]. destruct (sim_place _ _ _ _ _ _ _ T1) as [A1 A2]. destruct (sim_place _ _ _ _ _ _ _ T2) as [B1 B2].
  split; [congruence|]. intros X. rewrite A2, B2; congruence.
Qed.
Print Assumptions C62_sessions.

(** ** Example: the parser of the example of C44, asked for ints, and for text and optional longs: the row with the [x] is
    gained; and where it stands then. *)
Definition narrow_calls : list call := [ CHeader; CUse [S2 "age"; S2 "id"]; CGet [int32; int32]; CGet [int32; int32]; CIgnore; CUse [S2 "name"; S2 "id"]; CGet [text; int32] ].
Definition wide_calls : list call :=
  [ CHeader; CUse [S2 "age"; S2 "id"]; CGet [text; PropWiden.long_or_not]; CGet [text; PropWiden.long_or_not]; CIgnore; CUse [S2 "name"; S2 "id"]; CGet [text; PropWiden.long_or_not] ].
Example C62_sessions_example : fit quotes (S2 ",") /\
  exists p p2 v, session quotes as_needed (S2 ",") people (S2 "p.csv") (S2 "id,name,age") p v /\ opened quotes as_needed (S2 ",") people (S2 "CSV data buffer") p2 /\
  Forall call_ok narrow_calls /\ Forall call_ok wide_calls /\ Forall2 wider_call narrow_calls wide_calls /\
  covered quotes (header_cfg quotes) (S2 ",") (S2 "p.csv") (S2 "id,name,age") v narrow_calls /\
  replies quotes (header_cfg quotes) as_needed p narrow_calls =
    [ YNames [S2 "id"; S2 "name"; S2 "age"]; YDone; YGet (GValues [VInt 30; VInt 1]); YGet (GError (S2 "p.csv 3: invalid conversion for parameter at column 1: 'x'"));
      YBool true; YDone; YGet (GValues [VStr (S2 "dan"); VInt 4]) ] /\
  replies quotes (header_cfg quotes) as_needed p2 wide_calls =
    [ YNames [S2 "id"; S2 "name"; S2 "age"]; YDone; YGet (GValues [VStr (S2 "30"); VOpt (Some (VInt 1))]); YGet (GValues [VStr (S2 "x"); VOpt (Some (VInt 2))]);
      YBool true; YDone; YGet (GValues [VStr (S2 "dan"); VOpt (Some (VInt 4))]) ] /\
  one_ahead people (skipn 5 (lines people)) (later quotes (header_cfg quotes) as_needed p narrow_calls).
Proof.
  assert (FQ : fit quotes (S2 ",")).
  { constructor; [exact (setup_ok [OQuote """"%char; OStringError] quotes eq_refl)| | |discriminate]; cbn; [intros [H|[]]; discriminate|discriminate]. }
  split; [exact FQ|].
  assert (B : forall ls, blanks quotes ls 0 ls) by (intros ls; apply bl_none; discriminate).
  eexists. eexists. exists (mkView 0 (lines people) false [] 0 []). split.
  { apply (se quotes as_needed (S2 ",") people (S2 "p.csv") (S2 "id,name,age") _ 0 (lines people)); [apply op_file; vm_compute; reflexivity|vm_compute; intuition discriminate| |discriminate|].
    + eapply st_all; [reflexivity|apply lines_physical|apply B].
    + assert (E : lines people = (S2 "id,name,age", [LF]) :: tl (lines people)) by (vm_compute; reflexivity).
      eapply hl_line; [apply lines_physical|]. rewrite E. apply B. }
  split; [apply op_buffer; vm_compute; reflexivity|].
  split. { repeat (constructor; [cbn [call_ok]; try exact Logic.I; unfold types; repeat (split || constructor || discriminate)|]). constructor. }
  split. { assert (T : types [text; PropWiden.long_or_not]) by (split; [repeat constructor; cbn; lia|discriminate]). repeat first [apply Forall_nil | apply Forall_cons | exact Logic.I | exact T]. }
  split.
  { assert (WL : PropWiden.wider (TInt (mkIty true 32)) (TOpt (TInt (mkIty true 64)))) by (apply PropWiden.wd_opt, PropWiden.wd_int; cbn; split; [reflexivity|lia]).
    assert (WI : permits int32 PropWiden.long_or_not) by (apply PropWiden.pm_val; exact WL).
    assert (WS : forall t, permits (EVal t) text) by (intros t; apply PropWiden.pm_val, PropWiden.wd_string).
    repeat first [apply Forall2_nil | apply Forall2_cons | apply wc_same | apply wc_get | exact WI | apply WS]. }
  split. { apply plain_covered; [reflexivity|reflexivity|reflexivity|discriminate|]. apply Nat.leb_le. vm_compute. reflexivity. }
  split; [vm_compute; reflexivity|]. split; [vm_compute; reflexivity|].
  assert (EL : skipn 5 (lines people) = (S2 "5,e", [LF]) :: skipn 6 (lines people)) by (vm_compute; reflexivity).
  rewrite EL. cbn [one_ahead]. exists (concat (map (fun te => fst te ++ snd te) (firstn 5 (lines people)))).
  split; [vm_compute; reflexivity|]. split; [|vm_compute; reflexivity].
  match goal with |- physical ?l _ => replace (skipn 6 (lines people)) with (lines l); [apply lines_physical|vm_compute; reflexivity] end.
Qed.
Print Assumptions C62_sessions_example.
