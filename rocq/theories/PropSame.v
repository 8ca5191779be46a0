(** C22, C23 for whole sessions: where the bytes come from does not matter, whatever the bytes and whatever is called. *)
From Verif Require Import Base Setup SetupProofs Splitter Extract Converter Reader ListFacts LineProofs ReaderBase ReaderInv Parser ConvProofs ParserApi ParserInv ParserRows ParserOpen SessionApi SessionSpec SafeProofs PropSafe.
From Verif Require Import Sim SimReader SimParse SimParser.

(** A parser constructed on [data] under the given name; the name of a parser on a buffer is fixed. *)
Inductive opened_as (c : cfg) (cap : nat -> nat -> nat) (d data : str) : str -> prs -> Prop :=
| os_file name p : parser_file c cap name d false (Some data) = Ok tt p -> opened_as c cap d data name p
| os_portable name p : ~ In NUL data -> parser_file c cap name d true (Some data) = Ok tt p -> opened_as c cap d data name p
| os_buffer p : parser_buffer c cap d (Some data) (length data) = Ok tt p -> opened_as c cap d data (S2 "CSV data buffer") p.

(** Texts that differ at most in the name they start with; replies that differ at most in such texts. *)
Inductive same_text (n1 n2 : str) : str -> str -> Prop :=
| st_same t : same_text n1 n2 t t
| st_named t : same_text n1 n2 (n1 ++ t) (n2 ++ t).
Inductive same_event (n1 n2 : str) : event -> event -> Prop :=
| se_call k xs : same_event n1 n2 (EvCall k xs) (EvCall k xs)
| se_error k a b : same_text n1 n2 a b -> same_event n1 n2 (EvError k a) (EvError k b).
Inductive same_reply (n1 n2 : str) : reply -> reply -> Prop :=
| sr_values vs : same_reply n1 n2 (YGet (GValues vs)) (YGet (GValues vs))
| sr_gerror a b : same_text n1 n2 a b -> same_reply n1 n2 (YGet (GError a)) (YGet (GError b))
| sr_gthrown a b : same_text n1 n2 a b -> same_reply n1 n2 (YGet (GThrown a)) (YGet (GThrown b))
| sr_try vs l m v : Forall2 (same_event n1 n2) l m -> same_reply n1 n2 (YTry vs l v) (YTry vs m v)
| sr_bool b : same_reply n1 n2 (YBool b) (YBool b)
| sr_text t : same_reply n1 n2 (YText t) (YText t)
| sr_names l : same_reply n1 n2 (YNames l) (YNames l)
| sr_done : same_reply n1 n2 YDone YDone
| sr_error a b : same_text n1 n2 a b -> same_reply n1 n2 (YError a) (YError b)
| sr_thrown a b : same_text n1 n2 a b -> same_reply n1 n2 (YThrown a) (YThrown b).
(** What is said between the calls: eof(), line(), valid(), error_msg(). *)
Definition same_status (c : cfg) (n1 n2 : str) (p q : prs) : Prop :=
  p_eof p = p_eof q /\ p_line p = p_line q /\ p_valid c p = p_valid c q /\ same_text n1 n2 (message (p_err p)) (message (p_err q)).

Section S.
Context (c hc : cfg) (cap : nat -> nat -> nat) (d data : str).
Context (Hc : cfg_ok c) (HS : header_setup c hc) (Hd : ~ In NUL d) (Hcap : enough cap).
Lemma ready n1 n2 p q : prel n1 n2 p q -> pinv c d p -> pinv c d q -> parse_ready c p q.
Proof.
  intros R (I1 & _ & P1) (I2 & _ & P2) E. destruct (P1 E) as (_ & U1 & L1). rewrite (pr_eof _ _ _ _ R) in E. destruct (P2 E) as (_ & U2 & L2).
  assert (Z : forall r, stale0 r -> rd (cells_of (r_nl r)) 0 = Some NUL) by (intros r (b & T & Hb & Hc'); rewrite Hb; cbn; rewrite Hc'; reflexivity).
  assert (U : quoted_multiline c = true -> s_uq (v_sp (r_nconv (p_rdr p))) = false) by (intros Q; apply (U1 Q)).
  destruct L1 as [(B1 & e1 & L1)|[L1 X]]; [|right; split; [exact X|split; [exact U|left; apply Z; exact L1]]].
  destruct L2 as [(B2 & e2 & L2)|[L2 X]]; [|right; split; [exact X|split; [exact U|right; apply Z; exact L2]]].
  left. split; eapply bufline_room; eauto; [apply (i_nl _ _ _ I1)|apply (i_nl _ _ _ I2)].
Qed.
(** What is covered does not depend on the source. *)
Lemma gives_up_same n1 n2 p q : prel n1 n2 p q -> pinv c d p -> pinv c d q -> p_eof p = false -> gives_up c cap p <-> gives_up c cap q.
Proof.
  intros R P Q He. assert (Hd' : nulfree d) by (intros X; apply Hd; exact X). assert (He' : p_eof q = false) by (rewrite <- (pr_eof _ _ _ _ R); exact He).
  pose proof (rs_parse c cap Hcap (p_rdr p) (p_rdr q) (pr_rdr _ _ _ _ R) (ready _ _ _ _ R P Q He)) as SIM.
  destruct P as (I1 & _ & P). destruct (P He) as (_ & U1 & L1). destruct Q as (I2 & _ & Q). destruct (Q He') as (_ & U2 & L2).
  destruct (parse_safe c Hc d Hd' cap Hcap _ I1 U1 L1) as (r1 & S1). destruct (parse_safe c Hc d Hd' cap Hcap _ I2 U2 L2) as (r2 & S2).
  apply safe_out_state in S1. apply safe_out_state in S2. unfold gives_up, osim in *.
  destruct S1 as [E1|(m1 & E1)], S2 as [E2|(m2 & E2)]; rewrite E1, E2 in *; try contradiction.
  - destruct SIM as [_ SIM]. destruct (rr_nconv _ _ SIM) as (_ & V & _). split; intros (r & E & N); injection E as <-; eexists; (split; [reflexivity|congruence]).
  - split; intros (r & E & N); discriminate.
Qed.
Lemma covered_same n1 n2 p q k : prel n1 n2 p q -> pinv c d p -> pinv c d q -> covered_now c cap p k <-> covered_now c cap q k.
Proof.
  intros R P Q. pose proof (gives_up_same _ _ _ _ R P Q) as G. pose proof (pr_eof _ _ _ _ R) as EE. pose proof (rr_un _ _ (pr_rdr _ _ _ _ R)) as EU. pose proof (rr_line _ _ (pr_rdr _ _ _ _ R)) as EL.
  destruct k as [es|es cb ls| | | |f|fs]; cbn; try tauto.
  - rewrite <- EE. split; intros H X; (destruct (H X) as [Y|[Y1 Y2]]; [left; exact Y|right; split; [exact Y1|rewrite ?(G Y1), <- ?(G Y1) in *; exact Y2]]).
  - unfold line_left. rewrite EU. tauto.
  - unfold line_left, p_line. rewrite EU, EL. tauto.
Qed.
Lemma session_same n1 n2 NB : forall ks p q, prel n1 n2 p q -> sinv c d NB p -> sinv c d NB q -> Forall call_ok ks -> all_covered c hc cap p ks \/ all_covered c hc cap q ks ->
  Forall2 (yrel n1 n2) (replies c hc cap p ks) (replies c hc cap q ks) /\ prel n1 n2 (later c hc cap p ks) (later c hc cap q ks) /\
  Forall (fun y => ~ crashed y) (replies c hc cap p ks) /\ Forall (fun y => ~ crashed y) (replies c hc cap q ks) /\
  all_covered c hc cap p ks /\ all_covered c hc cap q ks.
Proof.
  assert (Hd' : nulfree d) by (intros X; apply Hd; exact X).
  induction ks as [|k ks IH]; intros p q R S1' S2' KO KP; [cbn; auto 7|]. inversion KO; subst.
  assert (KN : covered_now c cap p k /\ covered_now c cap q k).
  { pose proof (covered_same _ _ _ _ k R (proj1 S1') (proj1 S2')) as X. cbn [all_covered] in KP. tauto. }
  destruct KN as [K1 K2].
  destruct (call_safe c hc d cap NB Hc Hd' Hcap HS k p) as [A1 B1]; [apply now_permitted; assumption|assumption|exact S1'|].
  destruct (call_safe c hc d cap NB Hc Hd' Hcap HS k q) as [A2 B2]; [apply now_permitted; assumption|assumption|exact S2'|].
  destruct (sim_call c hc cap Hcap n1 n2 k p q R (ready _ _ _ _ R (proj1 S1') (proj1 S2')) A1 A2) as [Y R'].
  cbn [replies later all_covered]. destruct (IH _ _ R' B1 B2) as (F1 & F2 & F3 & F4 & F5 & F6); [assumption|cbn [all_covered] in KP; tauto|].
  split; [constructor; assumption|]. split; [exact F2|]. split; [constructor; assumption|]. split; [constructor; assumption|]. auto.
Qed.
End S.
Lemma named_text n1 n2 a b : named n1 n2 a b -> same_text n1 n2 a b.
Proof. intros [<-|(t & _ & -> & ->)]; constructor. Qed.
Lemma named_self n a b : named n n a b -> a = b. Proof. intros [<-|(t & _ & -> & ->)]; reflexivity. Qed.
Lemma events_text n1 n2 l m : Forall2 (ev_rel n1 n2) l m -> Forall2 (same_event n1 n2) l m.
Proof. induction 1 as [|[] [] l m H F IH]; constructor; auto; try contradiction; destruct H as [-> H]; [subst|]; constructor. apply named_text. exact H. Qed.
Lemma events_self n l m : Forall2 (ev_rel n n) l m -> l = m.
Proof. induction 1 as [|[] [] l m H F IH]; auto; try contradiction; destruct H as [-> H]; [subst|apply named_self in H; subst]; reflexivity. Qed.
Lemma yrel_reply n1 n2 a b : ~ crashed a -> ~ crashed b -> yrel n1 n2 a b -> same_reply n1 n2 a b.
Proof.
  unfold crashed. intros A B H. destruct a as [[]| | | | | | | |], b as [[]| | | | | | | |]; cbn in H; try contradiction; try discriminate H; try (exfalso; apply A; auto; fail); try (exfalso; apply B; auto; fail); try (subst; constructor; fail);
    try (constructor; apply named_text; exact H); try (injection H as ->; constructor).
  destruct H as (-> & H & ->). constructor. apply events_text. exact H.
Qed.
Lemma yrel_self n a b : ~ crashed a -> ~ crashed b -> yrel n n a b -> a = b.
Proof.
  unfold crashed. intros A B H. destruct a as [[]| | | | | | | |], b as [[]| | | | | | | |]; cbn in H; try contradiction; try (exfalso; apply A; auto; fail); try (exfalso; apply B; auto; fail); try congruence;
    try (apply named_self in H; congruence).
  destruct H as (-> & H & ->). apply events_self in H. congruence.
Qed.

(** The two parsers may be any two of: a file read with getline, a file read with the portable replacement, a buffer.
    Values, error texts, thrown texts, what handlers and checks are called with, eof(), line(): all the same but for the
    parser's name.  (position() is left out: at the end of the data it differs, finding 12 of DESIGN.md.)  The full
    statement has no [all_covered]; it is false without (below). *)
Theorem C22_every_session_partial : forall c hc cap d data n1 n2 p q ks,
  cfg_ok c -> header_setup c hc -> ~ In NUL d -> enough cap -> header_ok c data ->
  opened_as c cap d data n1 p -> opened_as c cap d data n2 q -> Forall call_ok ks -> all_covered c hc cap p ks ->
  Forall2 (same_reply n1 n2) (replies c hc cap p ks) (replies c hc cap q ks) /\
  same_status c n1 n2 (later c hc cap p ks) (later c hc cap q ks).
Proof.
  intros c hc cap d data n1 n2 p q ks Hc HS Hd Hcap Hh O1 O2 KO KP.
  pose proof (header_skips _ _ Hh) as MS.
  set (NB := S (length data)).
  assert (SRC : forall n x, opened_as c cap d data n x -> exists s msg, src_okz s 0 /\ unread_of s 0 = data /\ construct c cap true msg (p_init n d s) = Ok tt x).
  { intros n x O. destruct O as [name x E|name x N E|x E].
    - exists (SFile data), msg_not_open. split; [exact Logic.I|]. split; [reflexivity|exact E].
    - exists (SPort data), msg_not_open. split; [intros X; apply N; exact X|]. split; [reflexivity|exact E].
    - exists (SMem data), msg_null_buffer. split; [cbn; lia|]. split; [reflexivity|exact E]. }
  assert (SI : forall s msg n x, src_okz s 0 -> unread_of s 0 = data -> construct c cap true msg (p_init n d s) = Ok tt x -> sinv c d NB x).
  { intros s msg n x SO U E. destruct (construct_safe c d cap NB Hcap s n msg SO) as (x' & E' & SI & _); [|rewrite unread_eq; cbn [rdr_init r_src r_curr]; rewrite U; exact MS|rewrite E in E'; injection E' as ->; exact SI].
    rewrite unread_eq. cbn [rdr_init r_src r_curr]. rewrite U. unfold NB. lia. }
  destruct (construct_safe c d cap NB Hcap (SFile data) n1 msg_not_open Logic.I (le_n _) MS) as (f & Ef & SIf & _).
  assert (PIV : forall n x, opened_as c cap d data n x -> prel n1 n f x /\ sinv c d NB x).
  { intros n x O. destruct (SRC n x O) as (s & msg & SO & U & E). split; [|eapply SI; eassumption].
    pose proof (sim_construct c cap Hcap n1 n d (SFile data) s msg_not_open msg Logic.I SO ltac:(eauto) (eq_sym U)) as H. rewrite Ef, E in H. apply H. }
  destruct (PIV _ _ O1) as [R1 I1]. destruct (PIV _ _ O2) as [R2 I2].
  destruct (session_same c hc cap d Hc HS Hd Hcap n1 n1 NB ks f p R1 SIf I1 KO (or_intror KP)) as (F1 & L1 & N1 & N2 & KF & _).
  destruct (session_same c hc cap d Hc HS Hd Hcap n1 n2 NB ks f q R2 SIf I2 KO (or_introl KF)) as (F2 & L2 & _ & N3 & _).
  assert (EQ : replies c hc cap f ks = replies c hc cap p ks).
  { clear F2 L2 N3. revert F1 N1 N2. generalize (replies c hc cap f ks), (replies c hc cap p ks). induction 1 as [|a b l m H F IH]; intros N1 N2; [reflexivity|]. inversion N1; inversion N2; subst.
    f_equal; [eapply yrel_self; eauto|auto]. }
  split.
  - rewrite <- EQ. revert F2 N1 N3. generalize (replies c hc cap f ks), (replies c hc cap q ks). induction 1 as [|a b l m H F IH]; intros A B; [constructor|]. inversion A; inversion B; subst. constructor; [apply yrel_reply; assumption|auto].
  - unfold same_status. pose proof (message_rel _ _ _ _ (pr_err _ _ _ _ L1)) as M1. apply named_self in M1. rewrite <- M1.
    rewrite <- (pr_eof _ _ _ _ L1), <- (valid_rel c _ _ _ _ L1). unfold p_line. rewrite <- (rr_line _ _ (pr_rdr _ _ _ _ L1)).
    split; [apply (pr_eof _ _ _ _ L2)|]. split; [rewrite (rr_line _ _ (pr_rdr _ _ _ _ L2)); reflexivity|]. split; [apply (valid_rel c _ _ _ _ L2)|]. apply named_text, message_rel, (pr_err _ _ _ _ L2).
Qed.
Print Assumptions C22_every_session_partial.

(** Reading rows without or_else and skipping: all bytes, all setups, every sequence. *)
Theorem C22_reading : forall c hc cap d data n1 n2 p q ks,
  cfg_ok c -> header_setup c hc -> ~ In NUL d -> enough cap -> header_ok c data ->
  opened_as c cap d data n1 p -> opened_as c cap d data n2 q -> Forall call_ok ks -> Forall only_reads ks ->
  Forall2 (same_reply n1 n2) (replies c hc cap p ks) (replies c hc cap q ks) /\
  same_status c n1 n2 (later c hc cap p ks) (later c hc cap q ks).
Proof. intros c hc cap d data n1 n2 p q ks Hc HS Hd Hcap Hh O1 O2 KO KR. eapply C22_every_session_partial; eauto. apply reads_covered. exact KR. Qed.
Print Assumptions C22_reading.

(** Where a call is not covered the two can part: after skipping the last row with ignore_empty, the next row is made of
    bytes that memory parsing finds in its buffer and getline never wrote. *)
Theorem C22_failed_skip_refuted : exists p q, let ks := [CIgnore; CGet [EVal TString]] in let data := S2 "abc" ++ [LF; LF] in
  opened_as esc_ml tight (S2 ",") data (S2 "f") p /\ opened_as esc_ml tight (S2 ",") data (S2 "CSV data buffer") q /\
  replies esc_ml (header_cfg esc_ml) tight p ks = [YBool false; YGet GCrash] /\
  exists msg, replies esc_ml (header_cfg esc_ml) tight q ks = [YBool false; YGet (GError msg)].
Proof.
  eexists _, _. split; [apply os_file; vm_compute; reflexivity|]. split; [apply os_buffer; vm_compute; reflexivity|].
  split; [vm_compute; reflexivity|]. eexists. vm_compute. reflexivity.
Qed.
Print Assumptions C22_failed_skip_refuted.

(** The same session from a file, through the portable reader, and from memory: the hypotheses are met, and this is what
    the replies look like. *)
Example C22_session_example : exists c p q r ks, setup [OQuote """"%char; OMultiline 0 true; OStringError] = Some c /\ cfg_ok c /\
  let data := S2 "a,b" ++ [LF] ++ S2 """x" ++ [LF] ++ S2 "y"",1" ++ [CR; LF] ++ S2 "z,w" ++ [LF] ++ S2 """q,2" in
  opened_as c tight (S2 ",") data (S2 "f") p /\ opened_as c tight (S2 ",") data (S2 "g") q /\ opened_as c tight (S2 ",") data (S2 "CSV data buffer") r /\
  Forall call_ok ks /\ Forall (covered_call c) ks /\
  let all n := [YNames [S2 "a"; S2 "b"]; YDone; YTry [Some [VInt 1]] [] true; YGet (GError (n ++ S2 " 4: invalid conversion for parameter at column 1: 'w'"));
                YGet (GError (n ++ S2 " 5: unterminated quote")); YGet (GError (n ++ S2 ": read on end of file"))] in
  replies c (header_cfg c) tight p ks = all (S2 "f") /\ replies c (header_cfg c) tight q ks = all (S2 "g") /\
  replies c (header_cfg c) tight r ks = all (S2 "CSV data buffer").
Proof.
  set (c := mkCfg (Some """"%char) [] [] [] true 0 EString false false).
  set (i := EVal (TInt (mkIty true 32))). exists c.
  set (ks := [CHeader; CUse [S2 "b"]; CTry [i] CbNone []; CGet [i]; CGet [i]; CGet [i]]).
  assert (ST : setup [OQuote """"%char; OMultiline 0 true; OStringError] = Some c) by reflexivity.
  eexists _, _, _, ks. split; [exact ST|]. split; [exact (setup_ok _ _ ST)|]. cbv zeta.
  split; [apply os_file; vm_compute; reflexivity|].
  split; [apply os_portable; [vm_compute; intuition discriminate|vm_compute; reflexivity]|].
  split; [apply os_buffer; vm_compute; reflexivity|].
  assert (T : types [i]) by (split; [repeat constructor; cbn; lia|discriminate]).
  split; [unfold ks; repeat apply Forall_cons; try apply Forall_nil; cbn; auto|].
  split; [|split; [vm_compute; reflexivity|split; vm_compute; reflexivity]].
  assert (K : skipping_ok c) by (intros _ X; exfalso; apply X; reflexivity).
  unfold ks; repeat apply Forall_cons; try apply Forall_nil; cbn; auto. intros (es & cb & []).
Qed.
Print Assumptions C22_session_example.
