(** Every call past the end: the two converters are swapped by each call, and the next one is only cleared when a line is
    read; so the error of the last row comes back every second time. *)
From Verif Require Import Base Setup Splitter SplitPure ListFacts SplitApi Extract Converter ConvSpec ConvProofs Reader LineSpec LineProofs GetLineProofs ReaderBase ReaderInv ReaderLines ReaderEscape ReaderParse Parser ParserSpec ParserApi ParserInv ParserRows ParserOpen ParserSession ParserGhost.

Section G.
Context (c : cfg) (d : str) (cap : nat -> nat -> nat) (Hcap : enough cap).

(** At the end, [x] in the converter that holds the last row, or in the other one. *)
Record past (x y : err) (k : nat) (p : prs) : Prop := {
  pa_end : pend c d p;
  pa_conv : c_mode c <> EThrow -> v_err (r_conv (p_rdr p)) = x;
  pa_next : c_mode c <> EThrow -> v_err (r_nconv (p_rdr p)) = y;
  pa_line : r_line (p_rdr p) = S k
}.

Lemma past_step p es x y k : past x y k p ->
  exists p', after p (get_next c cap es p) = p' /\ p_name p' = p_name p /\
   match c_mode c with
   | EThrow => get_obs c (get_next c cap es p) = GThrown (msg_eof p) /\ past y x k p'
   | EBool => get_obs c (get_next c cap es p) = GError [] /\ match y with None => past None x k p' | Some m => past (Some m) None (S k) p' end
   | EString => match y with
                | None => get_obs c (get_next c cap es p) = GError (msg_eof p) /\ past None x k p'
                | Some m => get_obs c (get_next c cap es p) = GError (p_name p ++ S2 " " ++ dec (S k) ++ S2 ": " ++ m) /\ past (Some m) None (S k) p'
                end
   end.
Proof.
  intros [(I & He & HU) Hx Hy HL]. set (r := p_rdr p) in *.
  pose proof (rinv_swapped _ _ _ I) as I2.
  destruct (read_next_spec c d cap Hcap (swapped r) I2) as (r' & E & I' & ST & NC & LN & REST).
  change (unread (swapped r)) with (unread r) in *. rewrite HU in *. rewrite lines_nil in *. cbn [skip_blank fst snd] in *.
  remember (get_next c cap es p) as g eqn:Eg. unfold get_next in Eg. unfold bind at 1, get at 1 in Eg. rewrite He in Eg.
  unfold bind at 1, ret at 1 in Eg. unfold bind at 1 in Eg. unfold on_rdr at 1, zoom at 1 in Eg. fold r in Eg. rewrite update_eq in Eg.
  unfold bind at 1, get at 1 in Eg. cbn [p_rdr pset_rdr p_eof] in Eg. rewrite He in Eg.
  assert (PE : forall e, pend c d (pset_err e (pset_rdr (swapped r) p))).
  { intros e. split; [exact I2|]. split; [exact He|exact HU]. }
  assert (PA : forall e, past y x k (pset_err e (pset_rdr (swapped r) p))).
  { intros e. split; [apply PE|exact Hy|exact Hx|exact HL]. }
  destruct (cv_valid c (r_conv (swapped r))) eqn:Ev; cbn [negb] in Eg.
  - assert (Eg' : g = match c_mode c with
        | EThrow => Throw (msg_eof p) (pset_err None (pset_rdr (swapped r) p))
        | EString => Ok (defaults es) (pset_err (Some (msg_eof p)) (pset_rdr (swapped r) p))
        | EBool => Ok (defaults es) (pset_err (Some []) (pset_rdr (swapped r) p)) end).
    { rewrite Eg. unfold p_clear_error, p_error, pupd, bind, modify, get, throw, ret, msg_eof. destruct (c_mode c); cbn -[S2]; try reflexivity.
      destruct (p_name p ++ S2 ": read on end of file") eqn:X; [|reflexivity]. exfalso. destruct (p_name p); discriminate X. }
    assert (Y : c_mode c <> EThrow -> y = None).
    { intros Hm. specialize (Hy Hm). unfold cv_valid, err_valid in Ev. change (r_conv (swapped r)) with (r_nconv r) in Ev. rewrite Hy in Ev. destruct (c_mode c), y; congruence. }
    rewrite Eg'. destruct (c_mode c) eqn:Em.
    + rewrite Y in * by discriminate. eexists. split; [reflexivity|]. split; [reflexivity|]. split; [|apply PA]. cbn. unfold p_valid. rewrite Em. reflexivity.
    + rewrite Y in * by discriminate. eexists. split; [reflexivity|]. split; [reflexivity|]. split; [|apply PA]. cbn. unfold p_valid. rewrite Em. reflexivity.
    + eexists. split; [reflexivity|]. split; [reflexivity|]. split; [reflexivity|apply PA].
  - assert (Em : c_mode c <> EThrow) by (intros Em; unfold cv_valid in Ev; rewrite Em in Ev; discriminate).
    assert (VE : exists m, y = Some m).
    { specialize (Hy Em). unfold cv_valid, err_valid in Ev. change (r_conv (swapped r)) with (r_nconv r) in Ev. rewrite Hy in Ev. destruct y as [m|]; [eauto|]. destruct (c_mode c); discriminate. }
    destruct VE as (m & ->). destruct ST as (S1 & S2' & S3).
    assert (PE' : forall q, p_rdr q = swapped r -> p_eof q = true -> read_line c cap q = Ok tt (pset_eof true (pset_rdr r' q))).
    { intros q Hq _. rewrite (read_line_eq c cap q false r'); [reflexivity|]. rewrite Hq. exact E. }
    assert (PN : forall q, past (Some m) None (S k) (pset_eof true (pset_rdr r' q))).
    { intros q. split.
      - split; [exact I'|split; [reflexivity|apply REST]].
      - intros _. cbn [p_rdr pset_eof pset_rdr]. rewrite S3. apply Hy. exact Em.
      - intros _. cbn [p_rdr pset_eof pset_rdr]. rewrite NC. reflexivity.
      - cbn [p_rdr pset_eof pset_rdr]. rewrite LN. change (r_line (swapped r)) with (r_line r). rewrite HL. lia. }
    unfold handle_error_invalid_conversion in Eg. unfold bind at 1 2, get at 1 in Eg.
    destruct (c_mode c) eqn:Em'; [| |congruence].
    + unfold pupd, modify in Eg. unfold bind at 1 in Eg. rewrite PE' in Eg by auto. unfold ret in Eg. rewrite Eg.
      eexists. split; [reflexivity|]. split; [reflexivity|]. split; [|apply PN]. cbn. unfold p_valid. rewrite Em'. reflexivity.
    + unfold pupd, modify in Eg. unfold bind at 1 in Eg. rewrite PE' in Eg by auto. unfold ret in Eg. rewrite Eg.
      eexists. split; [reflexivity|]. split; [reflexivity|]. split; [|apply PN].
      cbn [p_rdr pset_rdr]. change (v_err (r_conv (swapped r))) with (v_err (r_nconv r)). change (r_line (swapped r)) with (r_line r). rewrite (Hy Em), HL.
      cbn [get_obs]. unfold p_valid. rewrite Em'. cbn [p_err pset_err pset_eof pset_rdr err_valid message]. reflexivity.
Qed.

(** The other converter starts without an error: what the [i]-th call shows.  Then: the other one has it. *)
Lemma half_next i : S (S i) / 2 = S (i / 2).
Proof. replace (S (S i)) with (i + 1 * 2) by lia. rewrite Nat.div_add by lia. lia. Qed.
Lemma reads_past : forall extra,
  (forall x k p i es, past x None k p -> nth_error extra i = Some es -> exists sn, nth_error (reads c cap p extra) i = Some sn /\
    s_what sn = past_end c (p_name p) k x i /\ s_eof sn = true /\ s_line sn = past_line c k x i) /\
  (forall x k p i es, past None x k p -> nth_error extra i = Some es -> exists sn, nth_error (reads c cap p extra) i = Some sn /\
    s_what sn = past_end c (p_name p) k x (S i) /\ s_eof sn = true /\ s_line sn = past_line c k x (S i)).
Proof.
  induction extra as [|es0 extra [IH1 IH2]]; (split; intros x k p i es P Hi).
  1,2: destruct i; discriminate Hi.
  - destruct (past_step p es0 _ _ _ P) as (p' & E & EN & K). cbn [reads]. cbv zeta. rewrite E.
    assert (K' : get_obs c (get_next c cap es0 p) = past_end c (p_name p) k x 0 /\ past None x k p').
    { unfold past_end. unfold msg_eof in K. destruct (c_mode c), x; cbn [Nat.odd Nat.even negb]; exact K. }
    destruct K' as [K1 K2]. destruct i as [|i].
    + eexists. split; [reflexivity|]. cbn [see s_what s_eof s_line]. split; [exact K1|]. split; [apply K2|].
      unfold p_line. rewrite (pa_line _ _ _ _ K2). unfold past_line. destruct (c_mode c), x; cbn [Nat.div Nat.divmod fst]; lia.
    + destruct (IH2 x k p' i es K2 Hi) as (sn & S1 & S2 & S3). exists sn. rewrite EN in S2. auto.
  - destruct (past_step p es0 _ _ _ P) as (p' & E & EN & K). cbn [reads]. cbv zeta. rewrite E.
    destruct x as [m|].
    + assert (K' : get_obs c (get_next c cap es0 p) = past_end c (p_name p) k (Some m) 1 /\ (c_mode c = EThrow /\ past None None k p' \/ c_mode c <> EThrow /\ past (Some m) None (S k) p')).
      { unfold past_end. unfold msg_eof in K. destruct (c_mode c) eqn:Em; cbn [Nat.odd Nat.even negb Nat.div Nat.divmod fst]; rewrite ?Nat.add_0_r; destruct K as [K1 K2]; (split; [exact K1|]).
        - right. split; [discriminate|exact K2].
        - right. split; [discriminate|exact K2].
        - left. split; [reflexivity|]. destruct K2 as [Q1 Q2 Q3 Q4]. split; [exact Q1|congruence|congruence|exact Q4]. }
      destruct K' as [K1 K2]. destruct i as [|i].
      * eexists. split; [reflexivity|]. cbn [see s_what s_eof s_line]. split; [exact K1|]. split; [destruct K2 as [[_ K2]|[_ K2]]; apply K2|].
        unfold p_line, past_line. destruct K2 as [[Em K2]|[Em K2]]; rewrite (pa_line _ _ _ _ K2).
        -- rewrite Em. lia.
        -- destruct (c_mode c); [| |congruence]; cbn [Nat.div Nat.divmod fst]; lia.
      * destruct K2 as [[Em K2]|[Em K2]].
        -- destruct (IH1 None k p' i es K2 Hi) as (sn & S1 & S2 & S3 & S4). exists sn. rewrite EN in S2. unfold past_end, past_line in *. rewrite Em in *. auto.
        -- destruct (IH1 (Some m) (S k) p' i es K2 Hi) as (sn & S1 & S2 & S3 & S4). exists sn. rewrite EN in S2. split; [exact S1|]. rewrite S2, S3, S4.
           unfold past_end, past_line. change (Nat.odd (S (S i))) with (Nat.odd i). rewrite !half_next.
           destruct (c_mode c); [| |congruence]; (split; [|split; [reflexivity|lia]]); [reflexivity|].
           destruct (Nat.odd i); [|reflexivity]. replace (S (S k) + i / 2) with (S k + S (i / 2)) by lia. reflexivity.
    + assert (K' : get_obs c (get_next c cap es0 p) = past_end c (p_name p) k None 1 /\ past None None k p').
      { unfold past_end. unfold msg_eof in K. destruct (c_mode c); exact K. }
      destruct K' as [K1 K2]. destruct i as [|i].
      * eexists. split; [reflexivity|]. cbn [see s_what s_eof s_line]. split; [exact K1|]. split; [apply K2|].
        unfold p_line. rewrite (pa_line _ _ _ _ K2). unfold past_line. destruct (c_mode c); lia.
      * destruct (IH1 None k p' i es K2 Hi) as (sn & S1 & S2 & S3). exists sn. rewrite EN in S2.
        replace (past_end c (p_name p) k None (S (S i))) with (past_end c (p_name p) k None i) by (unfold past_end; destruct (c_mode c); reflexivity).
        replace (past_line c k None (S (S i))) with (past_line c k None i) by (unfold past_line; destruct (c_mode c); reflexivity). auto.
Qed.

(** A parser that was just constructed has not used its converters. *)
Lemma opened_conv data name p : opened c cap d data name p -> nuls_ok c data -> r_conv (p_rdr p) = conv_init.
Proof.
  intros O N.
  assert (G : forall nm src u, src_okz src 0 -> construct c cap true u (p_init nm d src) = Ok tt p -> r_conv (p_rdr p) = conv_init).
  { intros nm src u SO E. pose proof (rinv_init c d src SO) as I.
    destruct (read_next_spec c d cap Hcap _ I) as (r' & E1 & I' & (_ & _ & S3) & _). unfold construct in E. unfold bind at 1 in E.
    rewrite (read_line_eq c cap (p_init nm d src) _ r' E1) in E. destruct (c_ignhdr c).
    - destruct (read_next_spec c d cap Hcap _ I') as (r2 & E2 & _ & (_ & _ & S4) & _). unfold bind, ignore_next, on_rdr, zoom in E. cbn [p_rdr pset_eof pset_rdr] in E. rewrite E2 in E. unfold ret in E.
      injection E as <-. cbn [p_rdr pset_eof pset_rdr]. rewrite S4, S3. reflexivity.
    - unfold bind, on_rdr, zoom, get_buffer in E. unfold bind, get in E. cbn [p_rdr pset_eof pset_rdr] in E. 
      assert (X : r_conv r' = conv_init) by (rewrite S3; reflexivity).
destruct (range_str _ _ _); [|discriminate E]. cbn in E. injection E as <-. exact X. }
  inversion O as [nm p0 E H1 H2|nm p0 N' E H1 H2|p0 E H1 H2].
  - exact (G _ (SFile data) msg_not_open Logic.I E).
  - exact (G _ (SPort data) msg_not_open N' E).
  - exact (G _ (SMem data) msg_null_buffer ltac:(cbn; lia) E).
Qed.
End G.

Section L.
Context (c : cfg) (d : str) (F : fit c d) (cap : nat -> nat -> nat) (Hcap : enough cap).

Definition error_of {A} (o : A + str) : option str := match o with inl _ => None | inr m => Some m end.
Lemma kept_end name k (o : list val + str) i : past_end c name k (kept_error c o) i = past_end c name k (error_of o) i.
Proof. unfold past_end, kept_error, after_error, error_of. destruct o; [reflexivity|]. destruct (c_mode c); reflexivity. Qed.
Lemma kept_line k (o : list val + str) i : past_line c k (kept_error c o) i = past_line c k (error_of o) i.
Proof. unfold past_line, kept_error, after_error, error_of. destruct o; [reflexivity|]. destruct (c_mode c); reflexivity. Qed.

Lemma pstate_past mp nc total p k x : pstate c d mp nc total p [] k -> (c_mode c <> EThrow -> v_err (r_conv (p_rdr p)) = x) -> past c d x None k p.
Proof. intros PS X. destruct (pstate_pend c d _ _ _ _ _ PS) as [P E]. destruct PS as [_ _ _ L _]. split; auto. Qed.

(** After the last row. *)
Lemma last_past : forall ess mp nc total p L k its, pstate c d mp nc total p L k -> document c d k L its -> Forall types ess -> length ess = length its -> its <> [] ->
  exists it es sn o, nth_error its (length its - 1) = Some it /\ nth_error ess (length its - 1) = Some es /\ nth_error (reads c cap p ess) (length its - 1) = Some sn /\
    row_reading c d mp nc es (it_out it) o /\ shown c (p_name p) (it_line it) (it_next it) o (s_what sn) /\
    past c d (kept_error c o) None (it_next it) (last_state c cap p ess) /\ p_name (last_state c cap p ess) = p_name p.
Proof.
  induction ess as [|es0 ess IH]; intros mp nc total p L k its PS D W Hn Hne; [destruct its; [congruence|discriminate Hn]|].
  inversion W as [|? ? W1 W2]; subst. destruct its as [|it0 its]; [congruence|].
  destruct (step_doc c d F cap Hcap _ _ _ _ _ _ _ _ _ PS D W1) as (o & p' & A1 & A2 & A3 & A4 & A5 & A6 & A7 & A8 & A9 & A10).
  destruct (told_obs c _ _ _ _ _ p _ A2) as [B1 B2]. cbn [reads last_state]. cbv zeta. rewrite B2. cbn [length] in Hn |- *.
  replace (S (length its) - 1) with (length its) by lia.
  destruct its as [|it1 its].
  - destruct ess; [|discriminate Hn]. cbn [length nth_error last_state].
    assert (X : it_rest it0 = []) by (apply (document_nil c d _ _ _ A4); reflexivity). rewrite X in A3.
    exists it0, es0, (see c (get_obs c (get_next c cap es0 p)) p'), o. split; [reflexivity|]. split; [reflexivity|]. split; [reflexivity|]. split; [exact A1|]. split; [exact B1|]. split; [|exact A5].
    eapply pstate_past; [exact A3|exact A10].
  - destruct (IH _ _ _ _ _ _ (it1 :: its) A3 A4 W2 ltac:(lia) ltac:(discriminate)) as (it & es & sn & o' & C1 & C2 & C3 & C4 & C5 & C6 & C7).
    replace (length (it1 :: its) - 1) with (length its) in * by (cbn; lia). cbn [length nth_error].
    rewrite A5 in C5, C7. exists it, es, sn, o'. auto 10.
Qed.
End L.
