(** parse: assembling a row from physical lines and splitting it. *)
From Verif Require Import Base Setup Splitter SplitPure Extract Converter Reader ListFacts SplitSpec SplitRefine SplitSpecProofs SplitKeeps SplitModes SplitApi SplitContinue SplitWhole SplitLocal SplitSafe.
From Verif Require Import ConvProofs LineProofs GetLineProofs ReaderBase ReaderInv ReaderLines ReaderEscape.

(** ** Assembling, on texts *)
Inductive gres := GRow (T : str) (n : nat) (more : list (str * str)) | GStop (s : stop) (n : nat) (more : list (str * str)).

Section G.
Context (c : cfg) (d : str).
Definition qo (T : str) : bool := match snd (psplit c d T) with TUnterm _ _ => true | _ => false end.
(** [T] so far, consisting of [S n] lines the last of which is [last] and ended in [e]; [more] lines follow. *)
Fixpoint gather (more : list (str * str)) (n : nat) (T last e : str) : gres :=
  if escaped_multiline c && Nat.odd (esc_tail c last) then
    if hit c n then GStop StLimit n more
    else match more with [] => GStop StEscape n [] | (t, e') :: more' => gather more' (S n) (T ++ e ++ t) t e' end
  else if quoted_multiline c && qo T then
    if hit c n then GStop StLimit n more
    else match more with [] => GStop StQuote n [] | (t, e') :: more' => gather more' (S n) (T ++ e ++ t) t e' end
  else GRow T n more.
Definition gquote (more : list (str * str)) (n : nat) (T e : str) : gres :=
  if quoted_multiline c && qo T then
    if hit c n then GStop StLimit n more
    else match more with [] => GStop StQuote n [] | (t, e') :: more' => gather more' (S n) (T ++ e ++ t) t e' end
  else GRow T n more.

Fixpoint lines_wf (e : str) (more : list (str * str)) : Prop :=
  match more with [] => True | (t, e') :: more' => (e = [LF] \/ e = [CR; LF]) /\ lines_wf e' more' end.

(** Line ends are not used as delimiters or escapes. *)
Definition clean : Prop := c_ml c = true -> forall x, x = LF \/ x = CR -> ~ In x d /\ escape_match c x = false.

Lemma esc_run_app l x l' : escape_match c x = false -> esc_run c (l ++ x :: l') = esc_run c l.
Proof. intros H. induction l as [|y l IH]; cbn; [rewrite H; reflexivity|]. destruct (escape_match c y); congruence. Qed.
Lemma esc_tail_app B e t : escape_match c LF = false -> (e = [LF] \/ e = [CR; LF]) -> esc_tail c (B ++ e ++ t) = esc_tail c t.
Proof.
  intros H He. unfold esc_tail. rewrite !rev_app_distr, <- app_assoc.
  destruct He as [->| ->]; cbn [rev app]; apply esc_run_app; exact H.
Qed.

Lemma gather_egather : clean -> forall more n B T last e, esc_tail c B = esc_tail c last -> lines_wf e more ->
  match egather_if c more n B e with
  | EGo B' e' n' more' => exists w, B' = B ++ w /\ gather more n T last e = gquote more' n' (T ++ w) e'
  | EStop s n' more' => gather more n T last e = GStop s n' more'
  end.
Proof.
  intros HC. unfold egather_if. destruct (escaped_multiline c) eqn:Em.
  - assert (HL : escape_match c LF = false).
    { unfold escaped_multiline in Em. apply andb_true_iff in Em as [Em _]. apply (HC Em LF). auto. }
    assert (GE : forall more n T last e, gather more n T last e = if Nat.odd (esc_tail c last) then
      if hit c n then GStop StLimit n more
      else match more with [] => GStop StEscape n [] | (t, e') :: more' => gather more' (S n) (T ++ e ++ t) t e' end
      else gquote more n T e).
    { intros [|[? ?] ?] ? ? ? ?; cbn [gather]; rewrite Em; reflexivity. }
    induction more as [|[t e1] more IH]; intros n B T last e HB HW; rewrite GE; cbn [egather]; rewrite HB; destruct (Nat.odd (esc_tail c last)) eqn:Eo.
    + destruct (hit c n); reflexivity.
    + exists []. rewrite !app_nil_r. auto.
    + destruct (hit c n); [reflexivity|]. destruct HW as [He HW].
      specialize (IH (S n) (B ++ e ++ t) (T ++ e ++ t) t e1 (esc_tail_app B e t HL He) HW).
      destruct (egather c more (S n) (B ++ e ++ t) e1); [|exact IH].
      destruct IH as (w & -> & E). exists ((e ++ t) ++ w). rewrite E, <- !app_assoc. auto.
    + exists []. rewrite !app_nil_r. auto.
  - intros more n B T last e _ _. exists []. rewrite !app_nil_r. split; [reflexivity|]. destruct more as [|[? ?] ?]; cbn [gather]; rewrite Em; reflexivity.
Qed.
End G.

Lemma wf_lines u : forall t e more, lines u = (t, e) :: more -> lines_wf e more.
Proof.
  remember (length u) as k eqn:Ek. revert u Ek. induction k as [k IH] using lt_wf_ind. intros u -> t e more E.
  destruct (list_eq_dec ascii_dec u []) as [->|Hu]; [discriminate|].
  rewrite lines_cons in E by exact Hu. injection E as E1 E2.
  pose proof (chomp_cut u Hu) as CC. rewrite E1 in CC. cbn [snd] in CC.
  destruct (lines (snd (cut_line u))) as [|[t' e'] more'] eqn:El; rewrite <- E2; [exact I|].
  split.
  - destruct CC as [[_ C]|C]; [rewrite C in El; discriminate|exact C].
  - apply (IH (length (snd (cut_line u))) (cut_line_len u Hu) _ eq_refl t'). exact El.
Qed.
Lemma wf_bufline r B e : bufline r B e -> lines_wf e (lines (unread r)).
Proof.
  intros (b & X & _ & _ & _ & He & _). destruct (lines (unread r)) as [|[t' e'] more] eqn:El; [exact I|].
  split; [|eapply wf_lines; exact El]. destruct He as [(_ & _ & H)|[(-> & _)|(-> & _)]]; auto. rewrite H in El. discriminate.
Qed.

(** ** The outcome of parse *)
(** The columns of the next-line converter can be read. *)
Definition rowok (r : rdr) : Prop :=
  exists b B X, r_nl r = Some b /\ b_cells b = tm B ++ X /\
    (s_sd (v_sp (r_nconv r)) = [] \/ s_blk (v_sp (r_nconv r)) = b_id b) /\ Forall (within (length B)) (s_sd (v_sp (r_nconv r))).
Definition safe_out (c : cfg) (d : str) (r : rdr) (o : res rdr unit) (r' : rdr) : Prop :=
  rinv c d r' /\ stable r r' /\ length (unread r') <= length (unread r) /\ (nulfree (unread r) -> nulfree (unread r')) /\
  ((v_err (r_nconv r') = v_err (r_nconv r) /\ (quoted_multiline c = true -> s_uq (v_sp (r_nconv r')) = false) /\
    (o = Ok tt r' /\ rowok r' \/ c_mode c = EThrow /\ exists m, o = Throw m r')) \/
   (exists s r1, r' = rset_nconv (fail_conv c s (r_nconv r1)) r1 /\ o = stopped c s tt r1 /\ (s = StLimit \/ unread r1 = []))).

(** The text [T] has been split. *)
Definition fun_row (c : cfg) (d T : str) (o : res rdr unit) (r' : rdr) : Prop :=
  exists b B X l t, r_nl r' = Some b /\ b_cells b = tm B ++ X /\ r_nlsize r' = length B /\ psimc c (psplit c d T) (l, t) /\
    match report c t with
    | None => o = Ok tt r' /\ whole c (b_id b) (length B) [] l t (v_sp (r_nconv r')) (tm B) true /\ s_err (v_sp (r_nconv r')) = None
    | Some (m, mt) =>
        match set_error (c_mode c) m with
        | Some e => o = Ok tt r' /\ whole c (b_id b) (length B) [] l t (v_sp (r_nconv r')) (tm B) true /\ s_err (v_sp (r_nconv r')) = e
        | None => o = Throw mt r'
        end
    end.
Definition fun_out (c : cfg) (d : str) (g : gres) (r : rdr) (n : nat) (o : res rdr unit) (r' : rdr) : Prop :=
  match g with
  | GRow T n' more => fun_row c d T o r' /\ lines (unread r') = more /\ n <= n' /\ r_line r' = r_line r + (n' - n) /\ pos r' = pos r /\
      v_err (r_nconv r') = v_err (r_nconv r)
  | GStop s n' more => (exists r1, r' = rset_nconv (fail_conv c s (r_nconv r1)) r1 /\ o = stopped c s tt r1) /\
      lines (unread r') = more /\ n <= n' /\ r_line r' = r_line r + (n' - n) /\ (s = StLimit -> pos r' = pos r)
  end.

(** Running a splitter operation on the buffered line. *)
Definition put_sp (r : rdr) (b : blk) (s : sp) (m : list (option ascii)) : rdr :=
  rset_nl (Some (mkB (b_id b) m)) (r_nlsz r) (r_fresh r) (rset_nconv (vup_sp s (r_nconv r)) r).
Lemma on_next_lift c op r b B X : r_nl r = Some b -> b_cells b = tm B ++ X -> local (op (b_id b)) (op (b_id b)) ->
  forall n s0, sgood c (b_id b) s0 n (op (b_id b) (v_sp (r_nconv r), tm B)) ->
  exists s' B', length B' = n /\ s_resp s' = false /\ s_blk s' = b_id b /\ errok c s0 s' /\
   ((op (b_id b) (v_sp (r_nconv r), tm B) = Ok tt (s', tm B') /\ on_next (fun id => on_sp (op id)) r = Ok tt (put_sp r b s' (tm B' ++ X)) /\ Forall (within n) (s_sd s') /\ (c_ml c = true -> s_uq s' = true -> qopen c s' B')) \/
    (c_mode c = EThrow /\ exists e, op (b_id b) (v_sp (r_nconv r), tm B) = Throw e (s', tm B') /\ on_next (fun id => on_sp (op id)) r = Throw e (put_sp r b s' (tm B' ++ X)) /\ (c_ml c = true -> s_uq s' = false))).
Proof.
  intros Hb Hc HL n s0 (s' & B' & H1 & H2 & H3 & H4 & H5). exists s', B'. split; [exact H1|]. split; [exact H2|]. split; [exact H3|]. split; [exact H4|].
  unfold on_next. rewrite Hb. unfold on_sp, zoom. cbn [fst snd]. rewrite Hc.
  specialize (HL (v_sp (r_nconv r)) (tm B) X). destruct H5 as [(E & A1 & A2)|(Em & e & E & A)]; rewrite E in HL; destruct HL as [HL _].
  - left. split; [exact E|]. rewrite HL. auto.
  - right. split; [exact Em|]. exists e. split; [exact E|]. rewrite HL. auto.
Qed.

Lemma tm_app B X : map Some B ++ Some NUL :: X = tm B ++ X.
Proof. unfold tm. rewrite <- app_assoc. reflexivity. Qed.
Lemma tm_pre a b X Y : tm a ++ X = tm b ++ Y -> length a = length b -> a = b.
Proof.
  intros E L. apply tm_inj. assert (L' : length (tm a) = length (tm b)) by (rewrite !tm_len; congruence).
  apply (f_equal (firstn (length (tm a)))) in E. rewrite L' in E at 2.
  rewrite !firstn_app, !Nat.sub_diag, !firstn_all in E. cbn [firstn] in E. rewrite !app_nil_r in E. exact E.
Qed.
Lemma rinv_put_sp c d r b s m s0 : rinv c d r -> r_nl r = Some b -> length m = length (b_cells b) -> s_resp s = false ->
  (s0 = v_sp (r_nconv r)) -> errok c s0 s -> rinv c d (put_sp r b s m).
Proof.
  intros I Hb HL Hr -> [E1 E2]. unfold put_sp.
  assert (I1 : rinv c d (rset_nconv (vup_sp s (r_nconv r)) r)).
  { apply rinv_nconv; auto. destruct (i_nconv _ _ _ I) as (A & B & C & D). repeat split; cbn; auto. intros Hm. rewrite (E1 Hm). auto. }
  apply (rinv_lp0 c d NextLine (rset_nconv (vup_sp s (r_nconv r)) r) (mkLp (Some (mkB (b_id b) m)) (r_nlsz r) (r_fresh r))); [exact I1| |].
  - pose proof (i_nl _ _ _ I) as K. unfold bok in K. rewrite Hb in K. destruct K as [K1 K2]. split; cbn; congruence.
  - cbn [lp_of]. change (r_nl (rset_nconv (vup_sp s (r_nconv r)) r)) with (r_nl r). rewrite Hb. apply succ_same. reflexivity.
Qed.
Lemma bufline_put_sp r b s B' X e : length e <= length X -> eol r e -> r_nlsize r = length B' -> bufline (put_sp r b s (tm B' ++ X)) B' e.
Proof. intros H1 H2 H3. exists (mkB (b_id b) (tm B' ++ X)), X. split; [reflexivity|]. split; [symmetry; apply tm_app|]. split; [exact H3|]. split; [exact H2|exact H1]. Qed.

Section P.
Context (c : cfg) (Hc : cfg_ok c) (d : str) (Hd : nulfree d) (cap : nat -> nat -> nat) (Hcap : forall n need, need <= cap n need).

Lemma quiet_stop_safe s r r1 : rinv c d r1 -> quiet r r1 -> length (unread r1) <= length (unread r) -> (nulfree (unread r) -> nulfree (unread r1)) ->
  (s = StLimit \/ unread r1 = []) -> safe_out c d r (stopped c s tt r1) (rset_nconv (fail_conv c s (r_nconv r1)) r1).
Proof.
  intros I [Q1 Q2] L N H. split; [apply rinv_stop; exact I|]. split; [exact Q1|]. split; [exact L|]. split; [exact N|]. right. exists s, r1. auto.
Qed.
Lemma stopped_bind {A B} s (a : A) (b : B) r (k : A -> M rdr B) : (forall r, k a r = Ok b r) ->
  match stopped c s a r with Ok x r' => k x r' | Throw e r' => Throw e r' | UB w => UB w | OutOfFuel => OutOfFuel end = stopped c s b r.
Proof. intros H. unfold stopped. destruct (c_mode c); auto. Qed.

Lemma quote_loop_spec : quoted_multiline c = true -> forall fuel r B e n, rinv c d r -> bufline r B e ->
  (forall b, r_nl r = Some b -> s_blk (v_sp (r_nconv r)) = b_id b) -> Forall (within (length B)) (s_sd (v_sp (r_nconv r))) ->
  (s_uq (v_sp (r_nconv r)) = true -> d <> [] /\ qopen c (v_sp (r_nconv r)) B) -> length (unread r) < fuel ->
  exists r', safe_out c d r (quote_loop c cap fuel (lim c n) r) r' /\
    (clean c d -> nulfree (unread r) -> forall T, nulfree T -> fun_row c d T (Ok tt r) r ->
       fun_out c d (gquote c d (lines (unread r)) n T e) r n (quote_loop c cap fuel (lim c n) r) r').
Proof.
  intros Hqm. assert (Hml : c_ml c = true) by (unfold quoted_multiline in Hqm; apply andb_true_iff in Hqm; apply Hqm).
  induction fuel as [|f IH]; intros r B e n I HB Hblk Hsd Hq Hf; [lia|].
  pose proof (wf_bufline _ _ _ HB) as HW.
  remember (quote_loop c cap (S f) (lim c n) r) as o eqn:Eo. cbn [quote_loop] in Eo.
  unfold bind at 1, get at 1 in Eo. unfold cv_unterminated_quote in Eo.
  assert (QO : forall T, fun_row c d T (Ok tt r) r -> qo c d T = s_uq (v_sp (r_nconv r))).
  { intros T (b & B1 & X & l & t & _ & _ & _ & [[_ Ps2] _] & K).
    assert (Wu : s_uq (v_sp (r_nconv r)) = match t with TUnterm _ _ => true | _ => false end).
    { destruct (report c t) as [[m mt]|]; [destruct (set_error (c_mode c) m); [|discriminate]|]; destruct K as (_ & W & _); apply (w_uq _ _ _ _ _ _ _ _ _ W). }
    rewrite Wu. unfold qo. cbn [snd] in Ps2. destruct (snd (psplit c d T)), t; cbn in Ps2; try contradiction; try discriminate; reflexivity. }
  destruct (s_uq (v_sp (r_nconv r))) eqn:Euq.
  2:{ exists r. split.
      - split; [exact I|]. split; [apply stable_refl|]. split; [lia|]. split; [auto|]. left. split; [reflexivity|]. split; [auto|]. left. split; [exact Eo|].
        destruct HB as (b & X & Hb & Hcl & Hn & _). exists b, B, X. split; [exact Hb|]. split; [rewrite Hcl; apply tm_app|]. split; [right; auto|exact Hsd].
      - intros HC HN T HT HF. unfold gquote. rewrite Hqm, (QO T HF). cbn [andb]. rewrite Eo.
        split; [exact HF|]. split; [reflexivity|]. split; [lia|]. split; [lia|auto]. }
  destruct (Hq eq_refl) as [Hd0 Hqo]. pose proof (qopen_esc c _ _ Hqo) as HE.
  assert (HnB : r_nlsize r = length B) by (destruct HB as (? & ? & _ & _ & H & _); exact H).
  unfold cv_size_shifted in Eo. rewrite HnB in Eo.
  assert (length B <? s_esc (v_sp (r_nconv r)) = false) as Elt by (apply Nat.ltb_ge; lia). rewrite Elt in Eo. clear Elt.
  unfold bind at 1, ret at 1 in Eo. unfold bind at 1, rupd at 1, modify at 1 in Eo.
  set (k := length B - s_esc (v_sp (r_nconv r))) in *. set (r1 := rset_nlsize k r) in *.
  assert (I1 : rinv c d r1) by (apply rinv_nlsize; exact I).
  set (K := firstn k B) in *.
  assert (LK : length K = k) by (unfold K; rewrite firstn_length; unfold k; lia).
  destruct HB as (b & X & Hb & Hcl & _ & He & HX).
  assert (NLB : nlbuf r1 K (map Some (skipn k B) ++ Some NUL :: X)).
  { exists b. split; [exact Hb|]. split; [|symmetry; exact LK]. rewrite Hcl. unfold K. rewrite app_assoc, <- map_app, firstn_skipn. reflexivity. }
  assert (HY : length e <= length (map Some (skipn k B) ++ Some NUL :: X)) by (rewrite app_length; cbn [length]; lia).
  unfold bind at 1 in Eo. rewrite limit_spec in Eo. destruct (hit c n) eqn:Eh.
  { rewrite (stopped_bind _ _ tt) in Eo by reflexivity.
    exists (rset_nconv (fail_conv c StLimit (r_nconv r1)) r1). rewrite Eo. split.
    - apply quiet_stop_safe; [exact I1|apply (quiet_refl r)|apply le_n|auto|auto].
    - intros HC HN T HT HF. unfold gquote. rewrite Hqm, (QO T HF), Eh. cbn [andb]. split; [exists r1; auto|]. split; [reflexivity|]. split; [lia|]. split; [cbn; lia|reflexivity]. }
  unfold bind at 1 in Eo.
  pose proof (append_spec c d cap Hcap r1 K _ e I1 NLB He HY) as A. change (unread r1) with (unread r) in A.
  destruct (lines (unread r)) as [|[t e'] more] eqn:El.
  { destruct A as (r2 & A1 & A2 & A3 & A4 & A5 & A6). rewrite A1 in Eo. rewrite stop_quote_eq in Eo.
    exists (rset_nconv (fail_conv c StQuote (r_nconv r2)) r2). rewrite Eo. split.
    - apply quiet_stop_safe; auto; rewrite ?A4; cbn; auto; lia.
    - intros HC HN T HT HF. unfold gquote. rewrite Hqm, (QO T HF), Eh. cbn [andb]. split; [exists r2; auto|].
      split; [change (lines (unread r2) = []); rewrite A4; reflexivity|]. split; [lia|]. split; [|discriminate].
      change (r_line r2 = r_line r + (n - n)). rewrite A5. cbn. lia. }
  destruct A as (r2 & A1 & A2 & A3 & A4 & A5 & A6 & A7 & A8 & (y & w & A9 & A9') & A10 & _). rewrite A1 in Eo.
  assert (Q2 : stable r r2 /\ r_nconv r2 = r_nconv r) by exact A3. clear A3.
  change (unread r1) with (unread r) in *.
  unfold bind at 1 in Eo.
  pose proof (escape_part_spec c d cap Hcap r2 (K ++ e ++ t) e' (S n) A2 A5) as P. rewrite A6 in P.
  assert (HW2 : lines_wf e' more) by (destruct HW as [_ HW]; exact HW).
  assert (GG : clean c d -> forall T, match egather_if c more (S n) (K ++ e ++ t) e' with
      | EGo B' e2 n2 more2 => exists w, B' = (K ++ e ++ t) ++ w /\ gather c d more (S n) (T ++ e ++ t) t e' = gquote c d more2 n2 ((T ++ e ++ t) ++ w) e2
      | EStop s n2 more2 => gather c d more (S n) (T ++ e ++ t) t e' = GStop s n2 more2
      end).
  { intros HC T. apply gather_egather; auto. apply esc_tail_app; [apply (HC Hml LF); auto|]. destruct HW as [HW _]. exact HW. }
  assert (POS : pos r2 = pos r) by exact A10.
  destruct (egather_if c more (S n) (K ++ e ++ t) e') as [B2 e2 n2 more2|s n2 more2].
  2:{ destruct P as (r3 & l & P1 & P2 & P3 & P4 & P5 & P6 & P7 & P8 & P9 & P10 & P11). rewrite P1 in Eo.
      rewrite (stopped_bind _ _ tt) in Eo by reflexivity.
      exists (rset_nconv (fail_conv c s (r_nconv r3)) r3). rewrite Eo.
      assert (Q3 : quiet r r3) by (eapply quiet_trans; [exact Q2|exact P3]).
      assert (LE : s = StLimit \/ unread r3 = []).
      { destruct s; [auto| |congruence]. right. rewrite (P9 eq_refl) in P4. apply lines_nil_inv. exact P4. }
      assert (LL : length (unread r3) <= length (unread r)) by lia.
      split.
      - apply quiet_stop_safe; auto. intros N. apply P10. apply A7 in N. rewrite !nulfree_app in N. tauto.
      - intros HC HN T HT HF. unfold gquote. rewrite Hqm, (QO T HF), Eh. cbn [andb]. rewrite (GG HC T). split; [exists r3; auto|].
        split; [exact P4|]. split; [lia|]. split; [change (r_line r3 = r_line r + (n2 - n)); rewrite P6, A4; cbn; lia|].
        intros Es. change (pos r3 = pos r). rewrite (P7 Es). exact POS. }
  destruct P as (r3 & P1 & P2 & P3 & P4 & P5 & P6 & P7 & P8 & P9 & P10 & P11). rewrite P1 in Eo.
  assert (Q3 : quiet r r3) by (eapply quiet_trans; [exact Q2|exact P3]).
  unfold bind at 1, get at 1 in Eo. unfold bind at 1 in Eo.
  destruct P4 as (b3 & X3 & Hb3 & Hcl3 & Hn3 & He3 & HX3). rewrite Hn3 in Eo. rewrite (i_delim _ _ _ P2) in Eo.
  assert (EB2 : exists w2, B2 = K ++ (e ++ t) ++ w2).
  { destruct P10 as [->|(y2 & w2 & -> & _)]; [exists []|exists (y2 :: w2)]; rewrite ?app_nil_r, <- ?app_assoc; reflexivity. }
  destruct EB2 as (w2 & EB2).
  assert (SP3 : v_sp (r_nconv r3) = v_sp (r_nconv r)) by (destruct Q3 as [_ ->]; reflexivity).
  assert (SG : sgood c (b_id b3) (v_sp (r_nconv r3)) (length B2) (sp_resplit c (b_id b3) (length B2) d (v_sp (r_nconv r3), tm B2))).
  { rewrite SP3, EB2. apply resplit_tm; auto. }
  rewrite tm_app in Hcl3.
  destruct (on_next_lift c (fun id => sp_resplit c id (length B2) d) r3 b3 B2 X3 Hb3 Hcl3 (lo_resplit c _ _ _) _ _ SG)
    as (s' & B' & L1 & L2 & L3 & L4 & L5).
  assert (I4 : rinv c d (put_sp r3 b3 s' (tm B' ++ X3))).
  { eapply rinv_put_sp; eauto. rewrite Hcl3, !app_length, !tm_len. lia. }
  assert (FUN : clean c d -> nulfree (unread r) -> forall T, nulfree T -> fun_row c d T (Ok tt r) r ->
     whole_post c d (T ++ (e ++ t) ++ w2) (b_id b3) (length B2) [] None (sp_resplit c (b_id b3) (length B2) d (v_sp (r_nconv r3), tm B2)) /\ nulfree (T ++ (e ++ t) ++ w2)
     /\ nulfree (unread r3)).
  { intros HC HN T HT (b0 & B0 & X0 & l & tt0 & F1 & F2 & F2' & [F3 _] & F4).
    rewrite Hb in F1. injection F1 as <-.
    assert (B0 = B) as ->.
    { rewrite Hcl, tm_app in F2. symmetry. eapply tm_pre; [exact F2|congruence]. }
    assert (W : exists p a, whole c (b_id b) (length B) [] l (TUnterm p a) (v_sp (r_nconv r)) (tm B) true /\ tt0 = TUnterm p a).
    { assert (W : whole c (b_id b) (length B) [] l tt0 (v_sp (r_nconv r)) (tm B) true).
      { destruct (report c tt0) as [[m mt]|]; [destruct (set_error (c_mode c) m); [|discriminate]|]; apply F4. }
      pose proof (w_uq _ _ _ _ _ _ _ _ _ W) as Wu. rewrite Euq in Wu. destruct tt0; try discriminate. exists pos, acc. auto. }
    destruct W as (p & a & W & ->).
    assert (NU : nulfree ((e ++ t) ++ w2) /\ nulfree (unread r3)).
    { pose proof (A7 HN) as N. rewrite !nulfree_app in N. destruct N as (N1 & N2 & N3). destruct (P9 N3) as (N4 & w3 & E3 & N5).
      assert (w3 = w2) as ->.
      { rewrite E3, <- !app_assoc in EB2. apply app_inv_head, app_inv_head, app_inv_head in EB2. exact EB2. }
      rewrite !nulfree_app. auto. }
    destruct NU as [NU1 NU2].
    split; [|split; [rewrite nulfree_app; auto|exact NU2]].
    rewrite A9 in *. cbn [app] in *. rewrite SP3.
    pose proof (resplit_whole c Hc d Hd Hd0 T (b_id b) (length B) [] l p a (v_sp (r_nconv r)) (tm B) (b_id b3) y ((w ++ t) ++ w2) [] (length B2) Hml F3 W) as RW.
    assert (LB2 : k + length (y :: (w ++ t) ++ w2) = length B2) by (rewrite EB2, app_length, LK; reflexivity).
    fold k in RW. rewrite LB2 in RW.
    assert (EM : firstn k (tm B) ++ map Some (y :: (w ++ t) ++ w2) ++ [Some NUL] = tm B2).
    { rewrite EB2. unfold tm. rewrite !map_app, <- !app_assoc. f_equal.
      rewrite firstn_app, map_length. replace (k - length B) with 0 by (unfold k; lia). cbn [firstn]. rewrite app_nil_r. unfold K. apply firstn_map. }
    rewrite EM in RW.
    assert (EE : err0 c (v_sp (r_nconv r)) = None).
    { unfold err0. destruct (c_mode c) eqn:Em; auto. destruct (i_nconv _ _ _ I) as (_ & Q & _). auto. }
    rewrite EE in RW. apply RW; auto.
    apply (HC Hml y). exact A9'. }
  set (r4 := put_sp r3 b3 s' (tm B' ++ X3)) in *.
  unfold cv_resplit in Eo.
  destruct L5 as [(L5 & L6 & L7 & L8)|(Em & e3 & L5 & L6 & L7)].
  - rewrite L6 in Eo.
    assert (B4 : bufline r4 B' e2) by (apply bufline_put_sp; [exact HX3|exact He3|congruence]).
    assert (U4 : unread r4 = unread r3) by reflexivity.
    destruct (IH r4 B' e2 n2 I4 B4) as (r' & S1 & F1).
    + intros b4 Hb4. injection Hb4 as <-. exact L3.
    + rewrite L1. exact L7.
    + intros Hu. split; [exact Hd0|]. apply L8; auto.
    + rewrite U4. lia.
    + exists r'. rewrite <- Eo in S1, F1. split.
      * destruct S1 as (S1 & S2 & S3 & S4 & S5). split; [exact S1|].
        split; [eapply stable_trans; [apply Q3|]; exact S2|].
        rewrite U4 in S3, S4. split; [lia|].
        split. { intros N. apply S4. apply A7 in N. rewrite !nulfree_app in N. apply P9. tauto. }
        destruct S5 as [(S5 & S6)|S5]; [left|right; exact S5]. split; [|exact S6].
        rewrite S5. change (v_err (r_nconv r4)) with (v_err (r_nconv r3)). destruct Q3 as [_ ->]. reflexivity.
      * intros HC HN T HT HF. unfold gquote. rewrite Hqm, (QO T HF), Eh. cbn [andb].
        destruct (GG HC T) as (w3 & E3 & E4). rewrite E4.
        assert (w3 = w2) as ->.
        { rewrite E3, <- !app_assoc in EB2. apply app_inv_head, app_inv_head, app_inv_head in EB2. exact EB2. }
        destruct (FUN HC HN T HT HF) as (W & M1 & M2).
        rewrite L5 in W. destruct W as (l & t4 & W1 & W2).
        assert (FR : fun_row c d (T ++ (e ++ t) ++ w2) (Ok tt r4) r4).
        { exists (mkB (b_id b3) (tm B' ++ X3)), B', X3, l, t4. split; [reflexivity|]. split; [reflexivity|]. split; [transitivity (length B2); [exact Hn3|symmetry; exact L1]|]. split; [exact W1|].
          destruct (report c t4) as [[m mt]|]; [destruct (set_error (c_mode c) m)|]; destruct W2 as (s5 & m5 & W2 & W3 & W4); try discriminate;
            injection W2 as <- <-; (split; [reflexivity|]); rewrite L1; auto. }
        rewrite <- !app_assoc in *.
        specialize (F1 HC M2 _ M1 FR). rewrite U4, P5 in F1.
        unfold fun_out in *. destruct (gquote c d more2 n2 (T ++ e ++ t ++ w2) e2) as [T' n' more'|s n' more'].
        -- destruct F1 as (F1 & F2 & F3 & F4 & F5 & F6). split; [exact F1|]. split; [exact F2|]. split; [lia|].
           change (r_line r4) with (r_line r3) in F4. change (pos r4) with (pos r3) in F5. change (r_line r1) with (r_line r) in A4. split; [lia|]. split; [congruence|].
           rewrite F6. change (v_err (r_nconv r4)) with (v_err (r_nconv r3)). destruct Q3 as [_ ->]. reflexivity.
        -- destruct F1 as (F1 & F2 & F3 & F4 & F5). split; [exact F1|]. split; [exact F2|]. split; [lia|].
           change (r_line r4) with (r_line r3) in F4. change (pos r4) with (pos r3) in F5. change (r_line r1) with (r_line r) in A4. split; [lia|]. intros Es. rewrite (F5 Es). congruence.
  - rewrite L6 in Eo. exists r4. rewrite Eo. split.
    + split; [exact I4|]. split; [apply Q3|]. split; [change (unread r4) with (unread r3); lia|].
      split. { intros N. change (unread r4) with (unread r3). apply A7 in N. rewrite !nulfree_app in N. apply P9. tauto. }
      left. split; [change (v_err (r_nconv r4)) with (v_err (r_nconv r3)); destruct Q3 as [_ ->]; reflexivity|]. split; [intros _; apply L7; exact Hml|].
      right. split; [exact Em|]. exists e3. reflexivity.
    + intros HC HN T HT HF. unfold gquote. rewrite Hqm, (QO T HF), Eh. cbn [andb].
      destruct (GG HC T) as (w3 & E3 & E4). rewrite E4.
      assert (w3 = w2) as ->.
      { rewrite E3, <- !app_assoc in EB2. apply app_inv_head, app_inv_head, app_inv_head in EB2. exact EB2. }
      destruct (FUN HC HN T HT HF) as (W & M1 & M2).
      rewrite L5 in W. destruct W as (l & t4 & W1 & W2).
      assert (HR : exists m, report c t4 = Some (m, e3) /\ set_error (c_mode c) m = None).
      { destruct (report c t4) as [[m mt]|]; [destruct (set_error (c_mode c) m) eqn:Es|]; destruct W2 as (s5 & m5 & W2 & _); try discriminate.
        injection W2 as -> _ _. exists m. auto. }
      destruct HR as (m & HR & Es).
      assert (FR : fun_row c d (T ++ (e ++ t) ++ w2) (Throw e3 r4) r4).
      { exists (mkB (b_id b3) (tm B' ++ X3)), B', X3, l, t4. split; [reflexivity|]. split; [reflexivity|]. split; [transitivity (length B2); [exact Hn3|symmetry; exact L1]|]. split; [exact W1|].
        rewrite HR, Es. reflexivity. }
      assert (GQ : qo c d (T ++ (e ++ t) ++ w2) = false).
      { unfold qo. destruct W1 as [[_ W1] _]. cbn [snd] in W1. destruct (snd (psplit c d (T ++ (e ++ t) ++ w2))), t4; cbn in W1; try contradiction; try reflexivity.
        cbn [report] in HR. rewrite Hml in HR. discriminate. }
      rewrite <- !app_assoc in *. unfold gquote. rewrite GQ, andb_false_r. change (r_line r1) with (r_line r) in A4.
      split; [exact FR|]. split; [exact P5|]. split; [lia|]. split; [change (r_line r4) with (r_line r3); lia|].
      split; [change (pos r4) with (pos r3); congruence|]. change (v_err (r_nconv r4)) with (v_err (r_nconv r3)). destruct Q3 as [_ ->]. reflexivity.
Qed.

(** *** parse *)
Definition parse_out (g : gres) (r : rdr) (o : res rdr unit) (r' : rdr) : Prop :=
  match g with
  | GRow [] n' more => o = Ok tt r' /\ s_sd (v_sp (r_nconv r')) = [] /\ lines (unread r') = more /\ r_line r' = r_line r + n' /\ pos r' = pos r /\
      v_err (r_nconv r') = v_err (r_nconv r)
  | _ => fun_out c d g r 0 o r'
  end.
Lemma gather_ne : forall more n T last e T' n' more', T <> [] -> gather c d more n T last e = GRow T' n' more' -> T' <> [].
Proof.
  induction more as [|[t e1] more IH]; intros n T last e T' n' more' HT; cbn [gather];
    repeat match goal with |- context [if ?b then _ else _] => destruct b end; intros E; try discriminate; try (injection E as <- _ _; exact HT);
    (eapply IH; [|exact E]; destruct T; [congruence|discriminate]).
Qed.
Lemma fun_parse more T last e r o r' : T <> [] -> fun_out c d (gather c d more 0 T last e) r 0 o r' -> parse_out (gather c d more 0 T last e) r o r'.
Proof.
  intros HT. destruct (gather c d more 0 T last e) as [[|x T'] n' more'|] eqn:E; auto. intros _. exfalso.
  eapply gather_ne in E; [apply E; reflexivity|exact HT].
Qed.
Lemma dropc_nil t : dropc t [] = []. Proof. destruct t; reflexivity. Qed.
Lemma gather_nil more e : gather c d more 0 [] [] e = GRow [] 0 more.
Proof.
  assert (Q : qo c d [] = false) by (unfold qo, psplit; rewrite dropc_nil; reflexivity).
  destruct more as [|[t e1] more]; cbn [gather]; rewrite Q, !andb_false_r; reflexivity.
Qed.

Lemma sp_split_sd blk s m : sp_split c blk d (up_sd [] s, m) = sp_split c blk d (s, m).
Proof. reflexivity. Qed.
(** The first byte decides. *)
Lemma on_split_nul r b Y : r_nl r = Some b -> b_cells b = Some NUL :: Y ->
  on_next (fun id => cv_split c id (r_delim r)) r = Ok tt (put_sp r b (up_sd [] (v_sp (r_nconv r))) (b_cells b)).
Proof. intros Hb Hc'. unfold on_next. rewrite Hb, ConvProofs.cv_split_out, Hc'. reflexivity. Qed.
Lemma on_split_text r b x Y : r_nl r = Some b -> b_cells b = Some x :: Y -> x <> NUL ->
  on_next (fun id => cv_split c id (r_delim r)) r = on_next (fun id => on_sp (sp_split c id (r_delim r))) r.
Proof.
  intros Hb Hc' Hx. unfold on_next. rewrite Hb, ConvProofs.cv_split_out, Hc'. cbn [rd nth_error]. rewrite (proj2 (Ascii.eqb_neq x NUL) Hx). cbv zeta.
  unfold on_sp, zoom. cbn [fst snd]. change (sp_split c (b_id b) (r_delim r) (up_sd [] (v_sp (r_nconv r)), Some x :: Y)) with (sp_split c (b_id b) (r_delim r) (v_sp (r_nconv r), Some x :: Y)).
  destruct (sp_split _ _ _ _) as [[] [? ?]|? [? ?]| |]; reflexivity.
Qed.

Lemma egather_nil more e : egather_if c more 0 [] e = EGo [] e 0 more.
Proof. unfold egather_if. destruct (escaped_multiline c); [|reflexivity]. destruct more as [|[? ?] ?]; reflexivity. Qed.

(** A line that starts with NUL (or is empty). *)
Lemma parse_nul r b Y : rinv c d r -> r_nl r = Some b -> b_cells b = Some NUL :: Y -> (quoted_multiline c = true -> s_uq (v_sp (r_nconv r)) = false) ->
  (exists B X, b_cells b = tm B ++ X) ->
  let r' := put_sp r b (up_sd [] (v_sp (r_nconv r))) (b_cells b) in
  forall k, (on_next (fun id => cv_split c id (r_delim r)) ;;
    if quoted_multiline c then r0 <- get ;; quote_loop c cap (S (length (unread r0))) k else ret tt) r = Ok tt r' /\
    safe_out c d r (Ok tt r') r'.
Proof.
  intros I Hb Hc' Hu (B & X & HB) r' k. unfold bind at 1. rewrite (on_split_nul r b Y Hb Hc'). fold r'. split.
  - destruct (quoted_multiline c) eqn:Eq; [|reflexivity]. unfold bind at 1, get at 1. cbn [quote_loop]. unfold bind at 1, get at 1.
    unfold cv_unterminated_quote. change (s_uq (v_sp (r_nconv r'))) with (s_uq (v_sp (r_nconv r))). rewrite (Hu eq_refl). reflexivity.
  - split.
    { unfold r', put_sp.
      assert (I1 : rinv c d (rset_nconv (vup_sp (up_sd [] (v_sp (r_nconv r))) (r_nconv r)) r)).
      { apply rinv_nconv; auto. exact (i_nconv _ _ _ I). }
      apply (rinv_lp0 c d NextLine (rset_nconv (vup_sp (up_sd [] (v_sp (r_nconv r))) (r_nconv r)) r) (mkLp (Some (mkB (b_id b) (b_cells b))) (r_nlsz r) (r_fresh r))); [exact I1| |].
      - pose proof (i_nl _ _ _ I) as K. unfold bok in K. rewrite Hb in K. exact K.
      - cbn [lp_of]. change (r_nl (rset_nconv (vup_sp (up_sd [] (v_sp (r_nconv r))) (r_nconv r)) r)) with (r_nl r). rewrite Hb. apply succ_same. reflexivity. }
    split; [repeat split|]. split; [apply le_n|]. split; [auto|]. left. split; [reflexivity|]. split; [exact Hu|]. left. split; [reflexivity|].
    exists (mkB (b_id b) (b_cells b)), B, X. split; [reflexivity|]. split; [exact HB|]. split; [left; reflexivity|constructor].
Qed.

Theorem parse_spec r T e : rinv c d r -> bufline r T e -> (quoted_multiline c = true -> s_uq (v_sp (r_nconv r)) = false) ->
  exists r', safe_out c d r (parse c cap r) r' /\
    (clean c d -> d <> [] -> nulfree T -> nulfree (unread r) -> parse_out (gather c d (lines (unread r)) 0 T T e) r (parse c cap r) r').
Proof.
  intros I HB Hu. pose proof (wf_bufline _ _ _ HB) as HW.
  remember (parse c cap r) as o eqn:Eo. unfold parse in Eo. unfold bind at 1 in Eo.
  pose proof (escape_part_spec c d cap Hcap r T e 0 I HB) as P. change (lim c 0) with (if 0 <? c_mlsize c then 0 else 0) in P.
  replace (if 0 <? c_mlsize c then 0 else 0) with 0 in P by (destruct (0 <? c_mlsize c); reflexivity).
  assert (GG : clean c d -> match egather_if c (lines (unread r)) 0 T e with
      | EGo B' e2 n2 more2 => exists w, B' = T ++ w /\ gather c d (lines (unread r)) 0 T T e = gquote c d more2 n2 (T ++ w) e2
      | EStop s n2 more2 => gather c d (lines (unread r)) 0 T T e = GStop s n2 more2
      end) by (intros HC; apply gather_egather; auto).
  assert (HTB : T = [] -> egather_if c (lines (unread r)) 0 T e = EGo [] e 0 (lines (unread r))) by (intros ->; apply egather_nil).
  destruct (egather_if c (lines (unread r)) 0 T e) as [B e2 n2 more2|s n2 more2].
  2:{ destruct P as (r3 & l & P1 & P2 & P3 & P4 & P5 & P6 & P7 & P8 & P9 & P10 & P11). rewrite P1 in Eo.
      rewrite (stopped_bind _ _ tt) in Eo by reflexivity.
      exists (rset_nconv (fail_conv c s (r_nconv r3)) r3). rewrite Eo. split.
      - apply quiet_stop_safe; auto. destruct s; [auto| |congruence]. right. rewrite (P9 eq_refl) in P4. apply lines_nil_inv. exact P4.
      - intros HC Hd0 HT HN. rewrite (GG HC). split; [exists r3; auto|]. split; [exact P4|]. split; [lia|]. split; [exact P6|exact P7]. }
  destruct P as (r3 & P1 & P2 & P3 & P4 & P5 & P6 & P7 & P8 & P9 & P10 & P11). rewrite P1 in Eo.
  unfold bind at 1, get at 1 in Eo.
  assert (Hu3 : quoted_multiline c = true -> s_uq (v_sp (r_nconv r3)) = false) by (destruct P3 as [_ ->]; exact Hu).
  assert (LIFT : forall o' r', safe_out c d r3 o' r' -> safe_out c d r o' r').
  { intros o' r' (S1 & S2 & S3 & S4 & S5). split; [exact S1|]. split; [eapply stable_trans; [apply P3|exact S2]|]. split; [lia|].
    split; [intros N; apply S4, P9, N|]. destruct S5 as [(S5 & S6)|S5]; [left|right; exact S5]. split; [|exact S6]. rewrite S5. destruct P3 as [_ ->]. reflexivity. }
  assert (P4' := P4). destruct P4' as (b3 & X3 & Hb3 & Hcl3 & Hn3 & He3 & HX3). rewrite tm_app in Hcl3.
  assert (NUL1 : forall Y, b_cells b3 = Some NUL :: Y -> nulfree T -> T <> [] -> False).
  { intros Y EY HT HT0. destruct T as [|x T]; [congruence|]. apply nulfree_cons in HT as [HT _].
    assert (exists w, B = x :: w) as (w & ->).
    { destruct P10 as [->|(y & w & -> & _)]; [exists T; reflexivity|exists (T ++ y :: w); reflexivity]. }
    rewrite Hcl3 in EY. cbn in EY. injection EY as EY _. congruence. }
  assert (exists x Y, b_cells b3 = Some x :: Y) as (x & Y & EY).
  { rewrite Hcl3. destruct B as [|x B]; [exists NUL, X3|exists x, (tm B ++ X3)]; reflexivity. }
  destruct (ascii_dec x NUL) as [->|Hx].
  { destruct (parse_nul r3 b3 Y P2 Hb3 EY Hu3 ltac:(eauto) (lim c n2)) as [E1 E2].
    rewrite E1 in Eo. eexists. rewrite Eo. split; [apply LIFT; exact E2|].
    intros HC Hd0 HT HN. destruct T as [|x0 T0]; [|exfalso; eapply NUL1; eauto; discriminate].
    specialize (HTB eq_refl). injection HTB as -> -> -> ->. rewrite gather_nil.
    split; [reflexivity|]. split; [reflexivity|]. split; [exact P5|]. split; [exact P7|]. split; [exact P8|].
    cbn. destruct P3 as [_ ->]. reflexivity. }
  assert (T <> []) as HT0.
  { intros HT. specialize (HTB HT). injection HTB as HTB _ _ _. rewrite HTB in Hcl3. rewrite Hcl3 in EY. cbn in EY. congruence. }
  unfold bind at 1 in Eo. rewrite (on_split_text r3 b3 x Y Hb3 EY Hx) in Eo. rewrite (i_delim _ _ _ P2) in Eo.
  pose proof (split_tm c Hc d Hd (b_id b3) (v_sp (r_nconv r3)) B (proj1 (i_nconv _ _ _ P2))) as SG.
  destruct (on_next_lift c (fun id => sp_split c id d) r3 b3 B X3 Hb3 Hcl3 (lo_split c _ _) _ _ SG) as (s' & B' & L1 & L2 & L3 & L4 & L5).
  assert (I4 : rinv c d (put_sp r3 b3 s' (tm B' ++ X3))).
  { eapply rinv_put_sp; eauto. rewrite Hcl3, !app_length, !tm_len. lia. }
  set (r4 := put_sp r3 b3 s' (tm B' ++ X3)) in *.
  assert (FUN : clean c d -> d <> [] -> nulfree T -> nulfree (unread r) ->
     exists w, B = T ++ w /\ gather c d (lines (unread r)) 0 T T e = gquote c d more2 n2 B e2 /\ nulfree B /\ nulfree (unread r3) /\
       whole_post c d B (b_id b3) (length B) [] None (sp_split c (b_id b3) d (v_sp (r_nconv r3), tm B))).
  { intros HC Hd0 HT HN. destruct (GG HC) as (w & E3 & E4). destruct (P9 HN) as (N1 & w' & E5 & N2). exists w. rewrite <- E3 in E4.
    split; [exact E3|]. split; [exact E4|]. assert (NB : nulfree B) by (rewrite E5, nulfree_app; auto). split; [exact NB|]. split; [exact N1|].
    pose proof (split_whole c Hc d Hd Hd0 (v_sp (r_nconv r3)) (b_id b3) B [] (proj1 (i_nconv _ _ _ P2)) NB) as W.
    replace (err0 c (v_sp (r_nconv r3))) with (@None str) in W; [exact W|].
    unfold err0. destruct (c_mode c) eqn:Em; auto. destruct (i_nconv _ _ _ P2) as (_ & Q & _). symmetry. auto. }
  destruct L5 as [(L5 & L6 & L7 & L8)|(Em & e3 & L5 & L6 & L7)]; rewrite L6 in Eo.
  - assert (FR : clean c d -> d <> [] -> nulfree T -> nulfree (unread r) -> fun_row c d B (Ok tt r4) r4).
    { intros HC Hd0 HT HN. destruct (FUN HC Hd0 HT HN) as (w & _ & _ & _ & _ & W). rewrite L5 in W. destruct W as (l & t4 & W1 & W2).
      exists (mkB (b_id b3) (tm B' ++ X3)), B', X3, l, t4. split; [reflexivity|]. split; [reflexivity|].
      split; [transitivity (length B); [exact Hn3|symmetry; exact L1]|]. split; [exact W1|].
      destruct (report c t4) as [[m mt]|]; [destruct (set_error (c_mode c) m)|]; destruct W2 as (s5 & m5 & W2 & W3 & W4); try discriminate;
        injection W2 as <- <-; (split; [reflexivity|]); rewrite L1; auto. }
    destruct (quoted_multiline c) eqn:Eq.
    + unfold bind at 1, get at 1 in Eo.
      assert (B4 : bufline r4 B' e2) by (apply bufline_put_sp; [exact HX3|exact He3|congruence]).
      assert (Hml : c_ml c = true) by (unfold quoted_multiline in Eq; apply andb_true_iff in Eq; apply Eq).
      destruct (quote_loop_spec Eq (S (length (unread r4))) r4 B' e2 n2 I4 B4) as (r' & S1 & F1).
      * intros b4 Hb4. injection Hb4 as <-. exact L3.
      * rewrite L1. exact L7.
      * intros Hq. split; [|apply L8; auto]. intros E0. change (s_uq (v_sp (r_nconv r4))) with (s_uq s') in Hq. rewrite E0 in L5. unfold sp_split, split_impl_select_delim, sp_clear_error, sp_error, upd, modify, bind in L5. cbn [fst snd] in L5.
        destruct (c_mode c); cbn [set_error] in L5; try discriminate; injection L5 as <- _; discriminate.
      * lia.
      * exists r'. rewrite <- Eo in S1, F1. split.
        { apply LIFT. exact S1. }
        intros HC Hd0 HT HN. destruct (FUN HC Hd0 HT HN) as (w & _ & E4 & NB & N3 & _).
        apply fun_parse; [exact HT0|]. rewrite E4. specialize (F1 HC N3 B NB (FR HC Hd0 HT HN)). change (unread r4) with (unread r3) in F1. rewrite P5 in F1.
        unfold fun_out in *. destruct (gquote c d more2 n2 B e2) as [T' n' more'|s n' more'];
          destruct F1 as (F1 & F2 & F3 & F4 & F5); (split; [exact F1|]); (split; [exact F2|]); (split; [lia|]);
          change (r_line r4) with (r_line r3) in F4; change (pos r4) with (pos r3) in F5; (split; [lia|]).
        { destruct F5 as [F5 F6]. split; [congruence|]. rewrite F6. change (v_err (r_nconv r4)) with (v_err (r_nconv r3)). destruct P3 as [_ ->]. reflexivity. }
        intros Es. rewrite (F5 Es). exact P8.
    + exists r4. rewrite Eo. split.
      * apply LIFT. split; [exact I4|]. split; [repeat split|]. split; [apply le_n|]. split; [auto|]. left. split; [reflexivity|]. split; [congruence|].
        left. split; [reflexivity|]. exists (mkB (b_id b3) (tm B' ++ X3)), B', X3. split; [reflexivity|]. split; [reflexivity|]. split; [right; exact L3|]. rewrite L1. exact L7.
      * intros HC Hd0 HT HN. destruct (FUN HC Hd0 HT HN) as (w & _ & E4 & _). apply fun_parse; [exact HT0|]. rewrite E4. unfold gquote. rewrite Eq. cbn [andb].
        split; [apply FR; auto|]. split; [exact P5|]. split; [lia|]. split; [exact P7|]. split; [exact P8|].
        change (v_err (r_nconv r4)) with (v_err (r_nconv r3)). destruct P3 as [_ ->]. reflexivity.
  - exists r4. rewrite Eo. split.
    + apply LIFT. split; [exact I4|]. split; [repeat split|]. split; [apply le_n|]. split; [auto|]. left. split; [reflexivity|].
      split; [intros Eq; apply L7; unfold quoted_multiline in Eq; apply andb_true_iff in Eq; apply Eq|]. right. split; [exact Em|]. exists e3. reflexivity.
    + intros HC Hd0 HT HN. destruct (FUN HC Hd0 HT HN) as (w & _ & E4 & _ & _ & W). apply fun_parse; [exact HT0|]. rewrite E4.
      rewrite L5 in W. destruct W as (l & t4 & W1 & W2).
      assert (HR : exists m, report c t4 = Some (m, e3) /\ set_error (c_mode c) m = None).
      { destruct (report c t4) as [[m mt]|]; [destruct (set_error (c_mode c) m) eqn:Es|]; destruct W2 as (s5 & m5 & W2 & _); try discriminate.
        injection W2 as -> _ _. exists m. auto. }
      destruct HR as (m & HR & Es).
      assert (GQ : quoted_multiline c && qo c d B = false).
      { destruct (quoted_multiline c) eqn:Eq; [|reflexivity]. unfold qo. destruct W1 as [[_ W1] _]. cbn [snd] in W1. destruct (snd (psplit c d B)), t4; cbn in W1; try contradiction; try reflexivity.
        cbn [report] in HR. unfold quoted_multiline in Eq; apply andb_true_iff in Eq. rewrite (proj1 Eq) in HR. discriminate. }
      unfold gquote. rewrite GQ.
      split; [|split; [exact P5|]; split; [lia|]; split; [exact P7|]; split; [exact P8|];
        change (v_err (r_nconv r4)) with (v_err (r_nconv r3)); destruct P3 as [_ ->]; reflexivity].
      exists (mkB (b_id b3) (tm B' ++ X3)), B', X3, l, t4. split; [reflexivity|]. split; [reflexivity|]. split; [transitivity (length B); [exact Hn3|symmetry; exact L1]|]. split; [exact W1|].
      rewrite HR, Es. reflexivity.
Qed.
End P.
