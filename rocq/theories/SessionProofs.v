(** A session with a parser is as specified. *)
From Verif Require Import Base Setup Splitter SplitPure ListFacts SplitApi SplitRefine Extract Converter ConvSpec ConvProofs Reader LineSpec LineProofs GetLineProofs ReaderBase ReaderInv ReaderEscape ReaderParse Parser ParserSpec ParserApi ParserInv ParserRows ParserOpen ParserSession ParserGhost SessionApi SessionSpec SessionHeader.

(** The parser after an alternative: another error, and the converter's error. *)
Definition kept (e x : option str) (p : prs) : prs := pset_err e (pset_rdr (rset_conv (vup_err x (r_conv (p_rdr p))) (p_rdr p)) p).
Lemma kept_id p : p = kept (p_err p) (v_err (r_conv (p_rdr p))) p.
Proof. destruct p as [? ? [? ? ? [] ? ? ? ? ? ? ? ? ? ? ? ?] ? ? ?]. reflexivity. Qed.

Section S.
Context (c hc : cfg) (d name h : str) (cap : nat -> nat -> nat).
Context (F : fit c d) (HS : header_setup c hc) (Hcap : enough cap).

Lemma pstate_kept mp n total p L k e x hd : pstate c d mp n total p L k -> pstate c d mp n total (pset_header hd (kept e x p)) L k.
Proof.
  intros [I M1 M2 Hl K]. split; cbn [p_rdr pset_header pset_err pset_rdr kept p_eof]; auto.
  apply rinv_conv; auto. exact (i_conv _ _ _ I).
Qed.
Lemma pstate_same mp n total p q L k : pstate c d mp n total p L k -> p_rdr q = p_rdr p -> p_eof q = p_eof p -> pstate c d mp n total q L k.
Proof. intros [I M1 M2 Hl K] E1 E2. split; rewrite ?E1; auto. rewrite E2. exact K. Qed.
Lemma pend_kept p e x : pend c d p -> pend c d (kept e x p).
Proof. intros (I & E & U). split; [|split; [exact E|exact U]]. cbn. apply rinv_conv; auto. exact (i_conv _ _ _ I). Qed.
Lemma pend_same p q : pend c d p -> p_rdr q = p_rdr p -> p_eof q = p_eof p -> pend c d q.
Proof. intros (I & E & U) E1 E2. split; rewrite ?E1; auto. rewrite E2. auto. Qed.

Lemma pghost_kept mp n p k e x : pghost c d mp n p k -> pghost c d mp n (kept e x p) k.
Proof.
  intros [(I & P1 & P2) M1 M2 Hl He HU NU]. split; auto. split; [apply rinv_conv; auto; exact (i_conv _ _ _ I)|]. split; [exact P1|exact P2].
Qed.
Lemma pghost_same mp n p q k : pghost c d mp n p k -> p_rdr q = p_rdr p -> p_eof q = p_eof p -> pghost c d mp n q k.
Proof. intros [(I & P1 & P2) M1 M2 Hl He HU NU] E1 E2. split; rewrite ?E1, ?E2; auto. unfold pinv. rewrite E1, E2. auto. Qed.
Lemma pend_line p r : pend c d p -> rinv c d r -> unread r = [] -> pend c d (pset_rdr r p).
Proof. intros (I & E & U) I' U'. split; auto. Qed.

(** ** Chains *)
Definition now (s : status) (e : option str) : Prop := match s with Found => e = None | Failed m => e = Some m end.

Lemma try_same_spec mp n out p e x es : c_mode c <> EThrow -> remembers c d mp n p out -> types es -> p_name p = name ->
  exists o xs e' x', row_reading c d mp n es out o /\ try_same c es (kept e x p) = Ok xs (kept e' x' p) /\
   match o with inl vs => xs = map Some vs /\ e' = None | inr m => e' = Some (error_text c (at_line name (r_line (p_rdr p)) m)) end.
Proof.
  intros Hm R [W Hes] En. destruct (R es W Hes) as (o & RR & E). exists o.
  assert (E0 : forall e1, on_rdr (on_conv (cv_convert c es)) (kept e1 x p) =
     match on_conv (cv_convert c es) (p_rdr p) with
     | Ok a r => Ok a (pset_rdr r (kept e1 x p)) | Throw m r => Throw m (pset_rdr r (kept e1 x p)) | UB w => UB w | OutOfFuel => OutOfFuel end).
  { intros e1. unfold on_rdr, zoom. change (p_rdr (kept e1 x p)) with (rset_conv (vup_err x (r_conv (p_rdr p))) (p_rdr p)). unfold on_conv.
    change (r_conv (rset_conv (vup_err x (r_conv (p_rdr p))) (p_rdr p))) with (vup_err x (r_conv (p_rdr p))).
    change (seen_by (vup_err x (r_conv (p_rdr p))) (r_buf (rset_conv (vup_err x (r_conv (p_rdr p))) (p_rdr p)))) with (seen_by (r_conv (p_rdr p)) (r_buf (p_rdr p))).
    change (cv_convert c es (vup_err x (r_conv (p_rdr p)), seen_by (r_conv (p_rdr p)) (r_buf (p_rdr p)))) with (cv_convert c es (r_conv (p_rdr p), seen_by (r_conv (p_rdr p)) (r_buf (p_rdr p)))).
    destruct (cv_convert c es (r_conv (p_rdr p), _)) as [a [v m]|m0 [v m]|w|]; reflexivity. }
  remember (try_same c es (kept e x p)) as t eqn:Et. unfold try_same in Et. unfold bind at 1, p_clear_error, pupd, modify in Et.
  change (pset_err None (kept e x p)) with (kept None x p) in Et. unfold bind at 1 in Et. rewrite E0 in Et.
  destruct o as [vs|m].
  - rewrite E in Et. unfold bind at 1, get at 1 in Et. change (pset_rdr (rset_conv (vup_err None (r_conv (p_rdr p))) (p_rdr p)) (kept None x p)) with (kept None None p) in Et.
    replace (cv_valid c (r_conv (p_rdr (kept None None p)))) with true in Et by (unfold cv_valid, err_valid; destruct (c_mode c); reflexivity). cbn [negb] in Et.
    exists (map Some vs), None, None. split; [exact RR|]. split; [rewrite Et; reflexivity|auto].
  - assert (EX : exists xs, on_conv (cv_convert c es) (p_rdr p) = Ok xs (rset_conv (vup_err (after_error c m) (r_conv (p_rdr p))) (p_rdr p))) by (destruct (c_mode c); [exact E|exact E|congruence]).
    destruct EX as (xs & EX). rewrite EX in Et. unfold bind at 1, get at 1 in Et.
    change (pset_rdr (rset_conv (vup_err (after_error c m) (r_conv (p_rdr p))) (p_rdr p)) (kept None x p)) with (kept None (after_error c m) p) in Et.
    replace (cv_valid c (r_conv (p_rdr (kept None (after_error c m) p)))) with false in Et by (unfold cv_valid, err_valid, after_error; destruct (c_mode c); [reflexivity|reflexivity|congruence]). cbn [negb] in Et.
    exists xs, (Some (error_text c (at_line name (r_line (p_rdr p)) m))), (after_error c m). split; [exact RR|]. split; [|reflexivity]. rewrite Et.
    unfold bind, handle_error_invalid_conversion, get, pupd, modify, error_text, at_line, ret. unfold bind. cbn [p_name kept pset_err pset_rdr p_rdr]. rewrite En.
    unfold after_error. destruct (c_mode c); [reflexivity|reflexivity|congruence].
Qed.

Lemma invoke_spec cb vs p e x l : c_mode c <> EThrow -> p_name p = name -> e = None ->
  exists ev b e', invoked cb vs ev b /\ try_invoke c (map Some vs) cb (kept e x p, l) = Ok tt (kept e' x p, l ++ ev) /\
    (if b then e' = None else e' = Some (error_text c (name ++ S2 ": failed check"))).
Proof.
  intros Hm En ->. destruct cb as [|i|i f]; cbn [try_invoke].
  - exists [], true, None. split; [constructor|]. rewrite app_nil_r. split; reflexivity.
  - exists [EvCall i (map Some vs)], true, None. split; [constructor|]. split; reflexivity.
  - exists [EvCall i (map Some vs)], (f (map Some vs)). unfold bind at 1, log, modify. cbn [fst snd].
    destruct (f (map Some vs)) eqn:Ef.
    + exists None. split; [rewrite <- Ef; constructor|]. split; reflexivity.
    + exists (Some (error_text c (name ++ S2 ": failed check"))). split; [rewrite <- Ef; constructor|]. split; [|reflexivity].
      unfold on_p, zoom, p_error, bind, get, msg_failed_check. cbn [fst snd p_name kept pset_err pset_rdr]. rewrite En.
      unfold error_text. destruct (c_mode c); [reflexivity| |congruence]. destruct (name ++ S2 ": failed check") eqn:X; [exfalso; destruct name; discriminate X|]. reflexivity.
Qed.

Lemma now_valid s e x p : c_mode c <> EThrow -> now s e -> p_valid c (kept e x p) = found s.
Proof. intros Hm N. destruct s; cbn in N; rewrite N; unfold p_valid, err_valid; cbn; destruct (c_mode c); try reflexivity; congruence. Qed.

Lemma or_else_spec mp n out p e x values l es cb m : c_mode c <> EThrow -> remembers c d mp n p out -> types es -> p_name p = name -> now (Failed m) e ->
  exists v ev s e' x', alternative c d name mp n (r_line (p_rdr p)) out es cb v ev s /\ now s e' /\
    or_else c values es cb (kept e x p, l) = Ok (values ++ [option_map (map Some) v]) (kept e' x' p, l ++ ev).
Proof.
  intros Hm R W En N. destruct (try_same_spec mp n out p e x es Hm R W En) as (o & xs & e1 & x1 & RR & E & K).
  remember (or_else c values es cb (kept e x p, l)) as t eqn:Et. unfold or_else in Et. unfold bind at 1, get at 1 in Et. cbn [fst] in Et.
  rewrite (now_valid (Failed m) e x p Hm N) in Et. cbn [found] in Et.
  unfold bind at 1 in Et. unfold bind at 1 in Et. unfold on_p at 1, zoom at 1 in Et. cbn [fst snd] in Et. rewrite E in Et. cbn [fst snd] in Et.
  unfold bind at 1, get at 1 in Et. cbn [fst snd] in Et. destruct o as [vs|m1].
  - destruct K as [-> ->]. rewrite (now_valid Found None x1 p Hm eq_refl) in Et. cbn [found negb] in Et.
    destruct (invoke_spec cb vs p None x1 l Hm En eq_refl) as (ev & b & e' & IN & EI & KB).
    unfold bind at 1 in Et. rewrite EI in Et. unfold ret at 1 in Et. unfold bind at 1, get at 1 in Et. cbn [fst snd] in Et.
    destruct b; subst e'.
    + exists (Some vs), ev, Found, None, x1. split; [eapply al_good; eauto|]. split; [reflexivity|]. rewrite Et. rewrite (now_valid Found None x1 p Hm eq_refl). reflexivity.
    + exists None, ev, (Failed (error_text c (name ++ S2 ": failed check"))), (Some (error_text c (name ++ S2 ": failed check"))), x1.
      split; [eapply al_refused; eauto|]. split; [reflexivity|]. rewrite Et. rewrite (now_valid (Failed (error_text c (name ++ S2 ": failed check"))) _ x1 p Hm eq_refl). reflexivity.
  - subst e1. set (mm := error_text c (at_line name (r_line (p_rdr p)) m1)) in *.
    rewrite (now_valid (Failed mm) (Some mm) x1 p Hm eq_refl) in Et. cbn [found negb] in Et. unfold ret at 1 in Et. unfold bind at 1, get at 1 in Et. cbn [fst snd] in Et.
    exists None, [], (Failed mm), (Some mm), x1. split; [apply al_bad; exact RR|]. split; [reflexivity|]. rewrite Et, app_nil_r.
    rewrite (now_valid (Failed mm) (Some mm) x1 p Hm eq_refl). reflexivity.
Qed.

Lemma follow_spec mp n out p : c_mode c <> EThrow -> p_name p = name ->
  forall lks s e x values l, (has_else lks -> s = Found \/ remembers c d mp n p out) -> Forall (fun l => match l with LElse es' _ => types es' | LOnError _ => True end) lks -> now s e ->
  exists vs ev s' e' x', followed c d name mp n (r_line (p_rdr p)) out s lks vs ev s' /\ now s' e' /\
    follow_links c values lks (kept e x p, l) = Ok (values ++ map (option_map (map Some)) vs) (kept e' x' p, l ++ ev).
Proof.
  intros Hm En. induction lks as [|lk lks IH]; intros s e x values l HE W N.
  - exists [], [], s, e, x. split; [constructor|]. split; [exact N|]. rewrite !app_nil_r. reflexivity.
  - pose proof (Forall_inv W) as W1. pose proof (Forall_inv_tail W) as W2. cbn in W1.
    assert (HE' : has_else lks -> s = Found \/ remembers c d mp n p out) by (intros (es & cb & X); apply HE; exists es, cb; right; exact X).
    destruct lk as [es cb|i]; cbn [follow_links].
    + destruct s as [|m].
      * destruct (IH Found e x (values ++ [None]) l HE' W2 N) as (vs & ev & s' & e' & x' & A & B & C).
        exists (None :: vs), ev, s', e', x'. split; [apply fo_found_else; exact A|]. split; [exact B|]. unfold bind at 1.
        assert (EO : or_else c values es cb (kept e x p, l) = Ok (values ++ [None]) (kept e x p, l)).
        { unfold or_else. unfold bind at 1, get at 1. cbn [fst]. rewrite (now_valid Found e x p Hm N). cbn [found]. unfold bind, ret, get. cbn [fst snd]. rewrite (now_valid Found e x p Hm N). reflexivity. }
        rewrite EO, C, <- app_assoc. reflexivity.
      * assert (RM : remembers c d mp n p out).
        { destruct HE as [X|X]; [exists es, cb; left; reflexivity|discriminate|exact X]. }
        destruct (or_else_spec mp n out p e x values l es cb m Hm RM W1 En N) as (v & ev0 & s0 & e0 & x0 & A0 & N0 & E0).
        destruct (IH s0 e0 x0 (values ++ [option_map (map Some) v]) (l ++ ev0)) as (vs & ev & s' & e' & x' & A & B & C); auto.
        exists (v :: vs), (ev0 ++ ev), s', e', x'. split; [eapply fo_else; eauto|]. split; [exact B|]. unfold bind at 1. rewrite E0, C, <- !app_assoc. reflexivity.
    + assert (EO : on_error c i (kept e x p, l) = Ok tt (kept e x p, l ++ match s with Found => [] | Failed m => [EvError i m] end)).
      { unfold on_error, bind, get. cbn [fst snd]. rewrite (now_valid s e x p Hm N). destruct s as [|m]; cbn [found]; [unfold ret; rewrite app_nil_r; reflexivity|].
        unfold log, modify. cbn [fst snd]. change (p_err (kept e x p)) with e. rewrite N. reflexivity. }
      destruct (IH s e x values (l ++ match s with Found => [] | Failed m => [EvError i m] end) HE' W2 N) as (vs & ev & s' & e' & x' & A & B & C).
      exists vs. destruct s as [|m].
      * exists ev, s', e', x'. split; [apply fo_found_error; exact A|]. split; [exact B|]. unfold bind. rewrite EO, C, app_nil_r. reflexivity.
      * exists (EvError i m :: ev), s', e', x'. split; [apply fo_error; exact A|]. split; [exact B|]. unfold bind. rewrite EO, C, <- app_assoc. reflexivity.
Qed.
Lemma all_given_some : forall vs, all_given (map (option_map (map (@Some val))) vs) = Some vs.
Proof. induction vs as [|[v|] vs IH]; [reflexivity| |]; cbn; rewrite ?given_some, IH; reflexivity. Qed.

Lemma try_next_spec mp n out p p' k1 es cb o xs : c_mode c <> EThrow -> p_name p' = name -> row_reading c d mp n es out o -> get_next c cap es p = Ok xs p' ->
  match o with inl vs => xs = map Some vs /\ p_err p' = None | inr m => p_err p' = Some (error_text c (at_line name k1 m)) end ->
  exists v ev s e' x', alternative c d name mp n k1 out es cb v ev s /\ now s e' /\
    try_next c cap es cb (p, []) = Ok [option_map (map Some) v] (kept e' x' p', ev).
Proof.
  intros Hm En RR E K. remember (try_next c cap es cb (p, [])) as t eqn:Et. unfold try_next in Et. unfold bind at 1 in Et.
  unfold on_p at 1, zoom at 1 in Et. cbn [fst snd] in Et. rewrite E in Et. unfold bind at 1, get at 1 in Et. cbn [fst snd] in Et.
  rewrite (kept_id p') in Et. set (e := p_err p') in *. set (x := v_err (r_conv (p_rdr p'))) in *.
  destruct o as [vs|m].
  - destruct K as [-> K]. rewrite (now_valid Found e x p' Hm K) in Et. cbn [found] in Et.
    destruct (invoke_spec cb vs p' e x [] Hm En K) as (ev & b & e' & IN & EI & KB). unfold bind at 1 in Et. rewrite EI in Et. unfold bind at 1, get at 1 in Et. cbn [fst snd app] in Et.
    destruct b; subst e'.
    + exists (Some vs), ev, Found, None, x. split; [eapply al_good; eauto|]. split; [reflexivity|]. rewrite Et. rewrite (now_valid Found None x p' Hm eq_refl). reflexivity.
    + exists None, ev, (Failed (error_text c (name ++ S2 ": failed check"))), (Some (error_text c (name ++ S2 ": failed check"))), x.
      split; [eapply al_refused; eauto|]. split; [reflexivity|]. rewrite Et. rewrite (now_valid (Failed (error_text c (name ++ S2 ": failed check"))) _ x p' Hm eq_refl). reflexivity.
  - set (mm := error_text c (at_line name k1 m)) in *. rewrite (now_valid (Failed mm) e x p' Hm K) in Et. cbn [found] in Et. unfold bind, ret, get in Et. cbn [fst snd] in Et.
    rewrite (now_valid (Failed mm) e x p' Hm K) in Et. exists None, [], (Failed mm), e, x. split; [apply al_bad; exact RR|]. split; [exact K|]. rewrite Et. reflexivity.
Qed.

(** ** Invariant *)
Lemma pstate_mapped mp0 n0 total p L k mp n : pstate c d mp0 n0 total p L k -> Forall (fun i => i < n) mp -> pstate c d mp n total (mapped mp n p) L k.
Proof.
  intros [I M1 M2 Hl K] B. assert (I' : rinv c d (p_rdr (mapped mp n p))).
  { destruct I. split; cbn; try assumption; auto.
    - destruct i_conv as (A1 & A2 & A3 & A4). split; [exact A1|]. split; [exact A2|]. split; [exact B|exact A4].
    - destruct i_nconv as (A1 & A2 & A3 & A4). split; [exact A1|]. split; [exact A2|]. split; [exact B|exact A4]. }
  split; [exact I'|reflexivity|reflexivity|exact Hl|]. exact K.
Qed.
Lemma positions_bound cols fs mp : positions cols fs mp -> Forall (fun i => i < length cols) mp.
Proof. induction 1; constructor; auto. eapply nth_error_Some. congruence. Qed.

Lemma rinv_mapped r mp n : rinv c d r -> Forall (fun i => i < n) mp -> rinv c d (rset_nconv (vup_map mp n (r_nconv r)) (rset_conv (vup_map mp n (r_conv r)) r)).
Proof.
  intros I B. destruct I. split; cbn; try assumption; auto.
  - destruct i_conv as (A1 & A2 & A3 & A4). split; [exact A1|]. split; [exact A2|]. split; [exact B|exact A4].
  - destruct i_nconv as (A1 & A2 & A3 & A4). split; [exact A1|]. split; [exact A2|]. split; [exact B|exact A4].
Qed.
Lemma pend_mapped p mp n : pend c d p -> Forall (fun i => i < n) mp -> pend c d (mapped mp n p).
Proof. intros (I & He & HU) B. split; [apply rinv_mapped; auto|]. split; [exact He|exact HU]. Qed.
Lemma pghost_mapped mp0 n0 p k mp n : pghost c d mp0 n0 p k -> Forall (fun i => i < n) mp -> pghost c d mp n (mapped mp n p) k.
Proof. intros [(I & P1 & P2) M1 M2 Hl He HU NU] B. split; auto. split; [apply rinv_mapped; auto|]. split; [exact P1|exact P2]. Qed.
Lemma pend_ignore p : pend c d p -> exists p', ignore_next c cap p = Ok false p' /\ pend c d p' /\ p' = pset_rdr (p_rdr p') p.
Proof.
  intros (I & He & HU). destruct (read_next_spec c d cap Hcap _ I) as (r' & E & I' & ST & NC & LN & REST). rewrite HU in *. rewrite lines_nil in *. cbn [skip_blank fst snd] in *.
  exists (pset_rdr r' p). split; [unfold ignore_next, on_rdr, zoom; rewrite E; reflexivity|]. split; [|reflexivity]. split; [exact I'|]. split; [exact He|apply REST].
Qed.

(** Where the parser is. *)
Definition placed (total : Z) (v : view) (p : prs) : Prop :=
  match w_lines v with
  | [] => if w_over v then pend c d p else pghost c d (w_map v) (w_ncols v) p (w_line v) /\ w_line v <> 0
  | _ => w_over v = false /\ pstate c d (w_map v) (w_ncols v) total p (w_lines v) (w_line v)
  end.
Definition sim (total : Z) (v : view) (p : prs) : Prop :=
  p_name p = name /\ (c_ignhdr c = false -> p_raw p = h) /\ p_header p = w_known v /\ placed total v p.

Lemma placed_rinv total v p : placed total v p -> rinv c d (p_rdr p).
Proof. unfold placed. destruct (w_lines v); [destruct (w_over v); [intros K; apply K|intros [[(K & _)] _]; exact K]|intros [_ K]; apply K]. Qed.
Lemma sim_rinv total v p : sim total v p -> rinv c d (p_rdr p).
Proof. intros (_ & _ & _ & K). eapply placed_rinv. exact K. Qed.
Lemma sim_headed total v p : c_ignhdr c = false -> sim total v p -> headed d name h p.
Proof. intros Hi S0. split; [apply S0|]. split; [apply S0; exact Hi|]. exact (i_delim _ _ _ (sim_rinv _ _ _ S0)). Qed.
Lemma placed_eof total v p : placed total v p -> p_eof p = w_over v.
Proof.
  unfold placed. destruct (w_lines v) as [|l L] eqn:EL; [destruct (w_over v); [intros (_ & K & _); exact K|intros [[] _]; assumption]|]. intros [-> [_ _ _ _ K]]. destruct l. apply K.
Qed.
Lemma placed_same total v p q : placed total v p -> p_rdr q = p_rdr p -> p_eof q = p_eof p -> placed total v q.
Proof.
  unfold placed. intros K E1 E2. destruct (w_lines v); [destruct (w_over v); [eapply pend_same; eauto|destruct K; split; [eapply pghost_same; eauto|assumption]]|]. destruct K. split; [assumption|eapply pstate_same; eauto].
Qed.
Lemma sim_same total k L o mp n kn kn' p q : sim total (mkView k L o mp n kn) p -> q = pset_err (p_err q) (pset_header kn' p) -> sim total (mkView k L o mp n kn') q.
Proof.
  intros (A1 & A2 & A3 & A4) Eq. split; [rewrite Eq; exact A1|]. split; [intros Hi; rewrite Eq; apply A2; exact Hi|]. split; [rewrite Eq; reflexivity|].
  eapply placed_same; [exact A4|rewrite Eq; reflexivity|rewrite Eq; reflexivity].
Qed.
Lemma sim_err total v p e : sim total v p -> sim total v (pset_err e p).
Proof.
  intros (A1 & A2 & A3 & A4). split; [exact A1|]. split; [exact A2|]. split; [exact A3|]. eapply placed_same; [exact A4|reflexivity|reflexivity].
Qed.
(** After a row was read. *)
Lemma placed_read total L mp n p k kn : pstate c d mp n total p L k -> placed total (mkView k L (over L) mp n kn) p.
Proof. intros K. unfold placed. cbn [w_lines w_over w_map w_ncols w_line]. destruct L; cbn [over]; [apply (pstate_pend c d mp n total p _ K)|auto]. Qed.
Lemma placed_kept total v p e x : placed total v p -> placed total v (kept e x p).
Proof.
  unfold placed. destruct (w_lines v); [destruct (w_over v); [apply pend_kept|intros [K1 K2]; split; [apply pghost_kept; exact K1|exact K2]]|].
  intros [K1 K2]. split; [exact K1|]. eapply pstate_same; [exact (pstate_kept _ _ _ _ _ _ e x [] K2)|reflexivity|reflexivity].
Qed.
Lemma ml_escapes : escapes_lines c \/ escaped_multiline c = false.
Proof. unfold escapes_lines, escaped_multiline, escape_enabled. destruct (c_ml c); [|auto]. destruct (c_escape c); [right; reflexivity|left; split; [reflexivity|discriminate]]. Qed.
Lemma ml_not_escapes : ~ escapes_lines c -> escaped_multiline c = false.
Proof. destruct ml_escapes; [contradiction|auto]. Qed.
(** After a row was skipped. *)
Lemma skip_step total p t e ls k mp n : pstate c d mp n total p ((t, e) :: ls) k ->
  (exists j, blanks c ls (S j) [] /\ escapes_lines c) \/
  exists j L p', blanks c ls j L /\ (L <> [] \/ j = 0 \/ ~ escapes_lines c) /\ ignore_next c cap p = Ok (negb (over L)) p' /\ p' = pset_rdr (p_rdr p') p /\
    forall kn, placed total (mkView (k + S j) L false mp n kn) p'.
Proof.
  intros PS. pose proof (skip_blanks c ls) as B. set (j := fst (skip_blank (c_ignempty c) ls)) in *.
  destruct (snd (skip_blank (c_ignempty c) ls)) as [|l L] eqn:EL.
  - assert (G : j = 0 \/ escaped_multiline c = false -> exists j0 L0 p', blanks c ls j0 L0 /\ (L0 <> [] \/ j0 = 0 \/ ~ escapes_lines c) /\ ignore_next c cap p = Ok (negb (over L0)) p' /\ p' = pset_rdr (p_rdr p') p /\
       forall kn, placed total (mkView (k + S j0) L0 false mp n kn) p').
    { intros Hj. destruct (ghost_skip c d cap Hcap mp n total p t e ls k PS EL Hj) as (p' & E1 & E2 & E3). fold j in E2.
      exists j, [], p'. split; [exact B|]. split; [right; destruct Hj as [->|X]; [auto|right; intros [X1 X2]; unfold escaped_multiline, escape_enabled in X; rewrite X1 in X; destruct (c_escape c); [congruence|discriminate]]|].
      split; [exact E1|]. split; [exact E3|]. intros kn. split; [exact E2|]. cbn. lia. }
    destruct ml_escapes as [X|X]; [|right; auto]. destruct j as [|j'] eqn:Ej; [right; auto|left; eauto].
  - right. destruct (ignore_state c d cap Hcap mp n total p t e ls k PS) as (p' & E1 & E2 & E3). rewrite EL in E1, E2. exists j, (l :: L), p'.
    split; [exact B|]. split; [left; discriminate|]. split; [exact E1|]. split; [exact E3|]. intros kn. split; [reflexivity|]. apply E2. discriminate.
Qed.

Lemma has_else_dec lks : has_else lks \/ ~ has_else lks.
Proof.
  induction lks as [|[es cb|i] lks IH].
  - right. intros (? & ? & []).
  - left. exists es, cb. left. reflexivity.
  - destruct IH as [(es & cb & IH)|IH]; [left; exists es, cb; right; exact IH|]. right. intros (es & cb & [X|X]); [discriminate|]. apply IH. exists es, cb. exact X.
Qed.
Lemma followed_plain mp n k k' out out' s lks vs ev s' : ~ has_else lks -> followed c d name mp n k out s lks vs ev s' -> followed c d name mp n k' out' s lks vs ev s'.
Proof.
  intros NE. induction 1 as [s|es cb ls vs ev s K IH|i ls vs ev s K IH|m es cb v ev0 s0 ls vs ev s A K IH|m i ls vs ev s K IH].
  - constructor.
  - exfalso. apply NE. exists es, cb. left. reflexivity.
  - constructor. apply IH. intros (es & cb & X). apply NE. exists es, cb. right. exact X.
  - exfalso. apply NE. exists es, cb. left. reflexivity.
  - constructor. apply IH. intros (es & cb & X). apply NE. exists es, cb. right. exact X.
Qed.
Lemma followed_failed mp n k out m lks vs ev s : ~ has_else lks -> followed c d name mp n k out (Failed m) lks vs ev s -> s = Failed m.
Proof.
  intros NE K. remember (Failed m) as s0 eqn:E0. revert E0. induction K as [s|es cb ls vs ev s K IH|i ls vs ev s K IH|m0 es cb v ev0 s0 ls vs ev s A K IH|m0 i ls vs ev s K IH]; intros E0.
  - reflexivity.
  - discriminate.
  - discriminate.
  - exfalso. apply NE. exists es, cb. left. reflexivity.
  - apply IH; [|exact E0]. intros (es & cb & X). apply NE. exists es, cb. right. exact X.
Qed.

(** ** One call *)
Lemma get_step total v p es : sim total v p -> types es ->
  exists y v' p', does c hc d name h v (CGet es) y v' /\ do_call c hc cap p (CGet es) = (y, p') /\ sim total v' p'.
Proof.
  intros S0 W. pose proof S0 as (A1 & A2 & A3 & A4). destruct v as [k [|[t e] ls] o mp n kn]; unfold placed in A4; cbn [w_lines w_over w_map w_ncols w_line w_known] in *; [destruct o|].
  - destruct (pend_next c d cap Hcap p es A4) as (p' & E1 & E2 & E3 & E4 & E5 & E6).
    set (g := get_obs c (get_next c cap es p)) in *.
    assert (EG : exists msg, g = match c_mode c with EThrow => GThrown (name ++ S2 ": read on end of file") | _ => GError (error_text c msg) end).
    { unfold error_text. destruct (c_mode c); [exists []; exact E6|destruct E6 as (m & E6 & _); exists m; exact E6|exists []; rewrite E6; unfold msg_eof; rewrite A1; reflexivity]. }
    destruct EG as (msg & EG). exists (YGet g), (mkView k [] true mp n kn), p'. split; [rewrite EG; constructor|]. split; [unfold do_call; rewrite E1; reflexivity|].
    split; [congruence|]. split; [rewrite E5; exact A2|]. split; [cbn; congruence|exact E2].
  - destruct A4 as [A4 Hk]. destruct (ghost_next c d F cap Hcap mp n p k es A4 W) as (m & p' & T & PE & E3 & E4 & E5 & _).
    destruct (told_obs _ _ _ _ _ _ p _ T) as [C1 C2]. rewrite A1 in C1.
    eexists (YGet (get_obs c (get_next c cap es p))), _, p'. split; [eapply do_get_none; exact C1|]. split; [unfold do_call; rewrite C2; reflexivity|].
    split; [congruence|]. split; [rewrite E5; exact A2|]. split; [cbn; congruence|exact PE].
  - destruct A4 as [-> A4]. destruct (pstate_shape c d mp n total p t e ls k A4) as (H1 & H2 & H3).
    pose proof (gather_row c (fit_cfg _ _ F) d (fit_nul _ _ F) (fit_delim _ _ F) ls 0 t t e H1 H2 H3) as R. cbv zeta in R.
    destruct W as [W Hes].
    destruct (step c (fit_cfg _ _ F) d (fit_nul _ _ F) (fit_delim _ _ F) (fit_clean_ok _ _ F) cap Hcap mp n total p t e ls k es A4 W Hes) as (o & p' & B1 & B2 & B3 & B4 & B5 & B6 & B7 & B8 & _).
    set (g := gather c d ls 0 t t e) in *. destruct (told_obs _ _ _ _ _ _ p _ B2) as [C1 C2]. rewrite A1 in C1.
    eexists (YGet (get_obs c (get_next c cap es p))), _, p'. split; [eapply do_get; [exact R|apply skip_blanks|exact B1|exact C1]|].
    split; [unfold do_call; rewrite C2; reflexivity|]. split; [congruence|]. split; [rewrite B6; exact A2|]. split; [cbn; congruence|].
    apply placed_read. exact B3.
Qed.

(** try_next when get_next reports an error. *)
Lemma try_failed p p' es cb xs m lks : c_mode c <> EThrow -> get_next c cap es p = Ok xs p' -> p_err p' = Some m -> p_name p' = name -> ~ has_else lks ->
  Forall (fun l => match l with LElse es' _ => types es' | LOnError _ => True end) lks ->
  forall mp n k, exists vs ev e' x', followed c d name mp n k (Complete []) (Failed m) lks vs ev (Failed m) /\
    do_call c hc cap p (CTry es cb lks) = (YTry (None :: vs) ev false, kept e' x' p').
Proof.
  intros Em G PE En HE WL mp n k.
  assert (ET : try_next c cap es cb (p, []) = Ok [None] (kept (p_err p') (v_err (r_conv (p_rdr p'))) p', [])).
  { rewrite <- kept_id. unfold try_next. unfold bind at 1. unfold on_p at 1, zoom at 1. cbn [fst snd]. rewrite G. unfold bind, get, ret. cbn [fst snd].
    assert (V : p_valid c p' = false) by (unfold p_valid, err_valid; rewrite PE; destruct (c_mode c); [reflexivity|reflexivity|congruence]). rewrite V. cbn [fst snd]. rewrite V. reflexivity. }
  destruct (follow_spec mp n (Complete []) p' Em En lks (Failed m) (p_err p') (v_err (r_conv (p_rdr p'))) [None] []) as (vs & ev & s' & e' & x' & B1 & B2 & B3); [intros X; contradiction|exact WL|exact PE|].
  pose proof (followed_failed _ _ _ _ _ _ _ _ _ HE B1) as Es. subst s'. eapply followed_plain in B1; [|exact HE].
  exists vs, ev, e', x'. split; [exact B1|].
  unfold do_call, chain_call, bind. rewrite ET, B3. change ([None] ++ map (option_map (map (@Some val))) vs) with (map (option_map (map (@Some val))) (None :: vs)). rewrite all_given_some.
  rewrite (now_valid (Failed m) e' x' p' Em B2). reflexivity.
Qed.

Lemma try_step total v p es cb lks : sim total v p -> call_ok (CTry es cb lks) -> outside c hc d name h v (CTry es cb lks) \/
  exists y v' p', does c hc d name h v (CTry es cb lks) y v' /\ do_call c hc cap p (CTry es cb lks) = (y, p') /\ sim total v' p'.
Proof.
  intros S0 [W WL]. pose proof S0 as (A1 & A2 & A3 & A4). assert (EMD : c_mode c = EThrow \/ c_mode c <> EThrow) by (destruct (c_mode c); [right|right|left]; congruence); destruct EMD as [Em|Em]; [left; constructor; exact Em|].
  destruct v as [k [|[t e] ls] o mp n kn]; unfold placed in A4; cbn [w_lines w_over w_map w_ncols w_line w_known] in *.
  - destruct (has_else_dec lks) as [HE|HE]; [left; constructor; exact HE|]. right. destruct o.
    + destruct (pend_next c d cap Hcap p es A4) as (p' & E1 & E2 & E3 & E4 & E5 & E6).
      assert (G : exists xs m, get_next c cap es p = Ok xs p' /\ p_err p' = Some (error_text c m)).
      { assert (G : exists m, get_obs c (get_next c cap es p) = GError (error_text c m)).
        { unfold error_text. destruct (c_mode c); [exists []; exact E6|destruct E6 as (m & E6 & _); exists m; exact E6|congruence]. }
        destruct G as (m & G). destruct (get_next c cap es p) as [xs q|m0 q|w|]; cbn in G, E1; try discriminate. subst q. destruct (p_valid c p') eqn:V; [destruct (given xs); discriminate|].
        exists xs, m. split; [reflexivity|]. unfold p_valid, err_valid in V. injection G as G. destruct (p_err p') as [x|]; [cbn in G; congruence|]. destruct (c_mode c); discriminate. }
      destruct G as (xs & m & G & PE).
      destruct (try_failed p p' es cb xs _ lks Em G PE (eq_trans E3 A1) HE WL mp n k) as (vs & ev & e' & x' & B1 & B2).
      eexists _, _, _. split; [eapply do_try_end; [exact HE|exact B1]|]. split; [exact B2|].
      split; [exact (eq_trans E3 A1)|]. split; [cbn; rewrite E5; exact A2|]. split; [cbn; congruence|]. apply (pend_kept _ e' x'). exact E2.
    + destruct A4 as [A4 Hk]. destruct (ghost_next c d F cap Hcap mp n p k es A4 W) as (m & p' & T & PE & E3 & E4 & E5 & _). rewrite A1 in T.
      assert (G : exists xs, get_next c cap es p = Ok xs p' /\ p_err p' = Some (error_text c (at_line name (S k) m))).
      { unfold told in T. unfold error_text, at_line. destruct (c_mode c); [exact T|exact T|congruence]. }
      destruct G as (xs & G & GE).
      destruct (try_failed p p' es cb xs _ lks Em G GE (eq_trans E3 A1) HE WL mp n k) as (vs & ev & e' & x' & B1 & B2).
      eexists _, _, _. split; [eapply do_try_none; [exact HE|exact B1]|]. split; [exact B2|].
      split; [exact (eq_trans E3 A1)|]. split; [cbn; rewrite E5; exact A2|]. split; [cbn; congruence|]. apply (pend_kept _ e' x'). exact PE.
  - destruct A4 as [-> A4]. destruct (pstate_shape c d mp n total p t e ls k A4) as (H1 & H2 & H3).
    pose proof (gather_row c (fit_cfg _ _ F) d (fit_nul _ _ F) (fit_delim _ _ F) ls 0 t t e H1 H2 H3) as R. cbv zeta in R.
    pose proof W as [W0 Hes].
    destruct (step c (fit_cfg _ _ F) d (fit_nul _ _ F) (fit_delim _ _ F) (fit_clean_ok _ _ F) cap Hcap mp n total p t e ls k es A4 W0 Hes) as (o & p' & B1 & B2 & B3 & B4 & B5 & B6 & B7 & B8 & _).
    set (g := gather c d ls 0 t t e) in *.
    assert (RM : has_else lks -> (exists w, g_out g = Incomplete w) \/ remembers c d mp n p' (g_out g)).
    { intros _. destruct (g_out g) as [T|w] eqn:Eo; [right|left; eauto]. destruct B8 as [[_ X]|X]; [congruence|exact X]. }
    destruct (has_else_dec lks) as [HE|HE].
    1: destruct (RM HE) as [(w & Eo)|RM']; [rewrite Eo in R; left; eapply ou_try_incomplete; [exact R|exact HE]|].
    all: right.
    all: assert (G : exists xs, get_next c cap es p = Ok xs p' /\ match o with inl vs => xs = map Some vs /\ p_err p' = None | inr m => p_err p' = Some (error_text c (at_line name (k + S (g_n g)) m)) end)
      by (unfold told in B2; destruct o as [vs|m]; [destruct B2; eauto|]; unfold error_text, at_line; rewrite <- A1; destruct (c_mode c); [exact B2|exact B2|congruence]).
    all: destruct G as (xs & G & GE).
    all: destruct (try_next_spec mp n (g_out g) p p' _ es cb o xs Em (eq_trans B4 A1) B1 G GE) as (v & ev0 & s0 & e0 & x0 & C1 & C2 & C3).
    all: assert (RL : has_else lks -> s0 = Found \/ remembers c d mp n p' (g_out g)) by (intros X; try (contradiction (HE X)); right; exact RM').
    all: destruct (follow_spec mp n (g_out g) p' Em (eq_trans B4 A1) lks s0 e0 x0 [option_map (map Some) v] ev0 RL WL C2) as (vs & ev & s' & e' & x' & D1 & D2 & D3).
    all: rewrite (ps_line _ _ _ _ _ _ _ _ B3) in D1.
    all: eexists (YTry (v :: vs) (ev0 ++ ev) (SessionSpec.found s')), _, (kept e' x' p').
    all: split; [eapply do_try; [exact R|apply skip_blanks|exact C1|exact D1]|].
    all: split; [unfold do_call, chain_call, bind; rewrite C3, D3; change ([option_map (map Some) v] ++ map (option_map (map (@Some val))) vs) with (map (option_map (map (@Some val))) (v :: vs)); rewrite all_given_some;
        rewrite (now_valid s' e' x' p' Em D2); reflexivity|].
    all: split; [exact (eq_trans B4 A1)|]; split; [cbn; rewrite B6; exact A2|]; split; [cbn; congruence|].
    all: apply placed_kept, placed_read; exact B3.
Qed.

Lemma ignore_step total v p : sim total v p -> outside c hc d name h v CIgnore \/
  exists y v' p', does c hc d name h v CIgnore y v' /\ do_call c hc cap p CIgnore = (y, p') /\ sim total v' p'.
Proof.
  intros (A1 & A2 & A3 & A4). destruct v as [k [|[t e] ls] o mp n kn]; unfold placed in A4; cbn [w_lines w_over w_map w_ncols w_line w_known] in *; [destruct o|].
  - right. destruct (pend_ignore p A4) as (p' & E & PE & EQ). exists (YBool false), (mkView (S k) [] true mp n kn), p'. split; [constructor|]. split; [unfold do_call; rewrite E; reflexivity|].
    split; [rewrite EQ; exact A1|]. split; [rewrite EQ; exact A2|]. split; [rewrite EQ; exact A3|exact PE].
  - right. destruct A4 as [A4 Hk]. destruct (ghost_again c d cap Hcap mp n p k A4) as (p' & E & PG & EQ). exists (YBool false), (mkView (S k) [] false mp n kn), p'. split; [constructor|].
    split; [unfold do_call; rewrite E; reflexivity|]. split; [rewrite EQ; exact A1|]. split; [rewrite EQ; exact A2|]. split; [rewrite EQ; exact A3|]. split; [exact PG|]. cbn. lia.
  - destruct A4 as [-> A4]. destruct (skip_step total p t e ls k mp n A4) as [(j & B & X)|(j & L & p' & B & X & E & EQ & PL)]; [left; eapply ou_ignore; eauto|right].
    eexists (YBool (negb (over L))), _, p'. split; [eapply do_ignore; [exact B|exact X]|]. split; [unfold do_call; rewrite E; reflexivity|].
    split; [rewrite EQ; exact A1|]. split; [rewrite EQ; exact A2|]. split; [rewrite EQ; exact A3|apply PL].
Qed.

Lemma names_step total v p k0 : sim total v p -> (k0 = CRaw \/ k0 = CHeader \/ (exists f, k0 = CField f) \/ exists fs, k0 = CUse fs) -> outside c hc d name h v k0 \/
  exists y v' p', does c hc d name h v k0 y v' /\ do_call c hc cap p k0 = (y, p') /\ sim total v' p'.
Proof.
  intros S0 Hk. destruct (c_ignhdr c) eqn:Hi; [left; apply ou_header; auto|].
  pose proof (sim_headed total v p Hi S0) as HH. pose proof S0 as (A1 & A2 & A3 & A4).
  destruct Hk as [->|[->|[(f & ->)|(fs & ->)]]].
  - right. exists (YText h), v, p. split; [constructor|]. split; [unfold do_call; rewrite (raw_spec d name h p HH); reflexivity|exact S0].
  - right. destruct (header_spec c hc d name h (fit_cfg _ _ F) (fit_nul _ _ F) (fit_delim _ _ F) HS p HH) as (p' & E1 & (e & E2) & K).
    assert (S1 : sim total v p') by (rewrite E2; apply sim_err; exact S0).
    destruct K as [(cols & N & E & Ee)|B].
    + exists (YNames cols), v, p'. split; [constructor; exact N|]. split; [|exact S1]. unfold do_call. rewrite E. cbn [answer after]. rewrite (valid_none c p' Ee). reflexivity.
    + exists (answer c YNames (header c hc p)), v, p'. split; [apply do_header_bad; exact B|]. split; [|exact S1]. unfold do_call. rewrite E1. reflexivity.
  - right. destruct v as [k L o mp n kn]. cbn [w_known] in A3.
    destruct (field_spec c hc d name h (fit_cfg _ _ F) (fit_nul _ _ F) (fit_delim _ _ F) HS p f HH) as (kn' & y & AS & p' & E1 & E2 & K). rewrite A3 in AS.
    assert (S1 : sim total (mkView k L o mp n kn') p') by (eapply sim_same; eauto).
    destruct y as [r|].
    + eexists _, _, p'. split; [eapply do_field_bad; exact AS|]. split; [|exact S1]. unfold do_call. rewrite E1, K. reflexivity.
    + destruct K as [Ee K]. eexists _, _, p'. split; [eapply do_field; exact AS|]. split; [|exact S1]. unfold do_call. rewrite K. cbn [answer after]. rewrite (valid_none c p' Ee). reflexivity.
  - destruct v as [k L o mp n kn]. cbn [w_known] in A3.
    destruct (use_spec c hc d name h cap (fit_cfg _ _ F) (fit_nul _ _ F) (fit_delim _ _ F) HS p fs HH) as (kn' & y & AS & K).
    pose proof (placed_eof _ _ _ A4) as EO. cbn [w_over] in EO. rewrite EO, A3 in AS. destruct K as [(p' & E1 & E2 & E3 & K)|(-> & mp' & SE & P & E)].
    + right. assert (S1 : sim total (mkView k L o mp n kn') p') by (eapply sim_same; eauto).
      exists (answer c (fun _ => YDone) (use_fields c hc cap fs p)), (mkView k L o mp n kn'), p'.
      split; [|split; [unfold do_call; rewrite E1; reflexivity|exact S1]].
      destruct y as [r|]; [rewrite K; apply do_use_refused; exact AS|]. destruct K as (msg & B & K). rewrite K. eapply do_use_bad; eauto.
    + set (q := mapped mp' (length kn') (pset_header kn' (pset_err None p))) in *. pose proof (positions_bound _ _ _ P) as PB.
      assert (DONE : forall b p' k' L' o', ignore_next c cap q = Ok b p' -> p_line p = 0 -> p' = pset_rdr (p_rdr p') q ->
         does c hc d name h (mkView k L o mp n kn) (CUse fs) YDone (mkView k' L' o' mp' (length kn') kn') -> placed total (mkView k' L' o' mp' (length kn') kn') p' ->
         exists y v' p', does c hc d name h (mkView k L o mp n kn) (CUse fs) y v' /\ do_call c hc cap p (CUse fs) = (y, p') /\ sim total v' p').
      { intros b p' k' L' o' EI EZ EQ D PL. rewrite EZ in E. cbn [Nat.eqb] in E. unfold bind in E. rewrite EI in E. unfold ret in E.
        eexists _, _, p'. split; [exact D|]. split; [unfold do_call; rewrite E; cbn [answer after]; rewrite valid_none by (rewrite EQ; reflexivity); reflexivity|].
        split; [rewrite EQ; exact A1|]. split; [rewrite EQ; exact A2|]. split; [rewrite EQ; reflexivity|exact PL]. }
      assert (STAY : p_line p <> 0 -> does c hc d name h (mkView k L o mp n kn) (CUse fs) YDone (mkView k L o mp' (length kn') kn') -> placed total (mkView k L o mp' (length kn') kn') q ->
         exists y v' p', does c hc d name h (mkView k L o mp n kn) (CUse fs) y v' /\ do_call c hc cap p (CUse fs) = (y, p') /\ sim total v' p').
      { intros EZ D PL. apply Nat.eqb_neq in EZ. rewrite EZ in E. unfold ret in E.
        eexists _, _, q. split; [exact D|]. split; [unfold do_call; rewrite E; cbn [answer after]; rewrite valid_none by reflexivity; reflexivity|].
        split; [exact A1|]. split; [exact A2|]. split; [reflexivity|exact PL]. }
      unfold placed in A4; destruct L as [|[t e] ls]; [destruct o|]; cbn [w_lines w_over w_map w_ncols w_line w_known] in *.
      * right. assert (PQ : pend c d q) by (apply pend_mapped; [eapply pend_same; [exact A4|reflexivity|reflexivity]|exact PB]).
        assert (D : does c hc d name h (mkView k [] true mp n kn) (CUse fs) YDone (mkView k [] true mp' (length kn') kn')) by (eapply do_use_later; auto).
        destruct (Nat.eq_dec (p_line p) 0) as [EZ|EZ]; [|apply STAY; auto].
        destruct (pend_ignore q PQ) as (p' & EI & PE & EQ). eapply DONE; [exact EI|exact EZ|exact EQ|exact D|exact PE].
      * right. destruct A4 as [A4 Hk]. assert (EZ : p_line p <> 0) by (unfold p_line; rewrite (gh_line _ _ _ _ _ _ A4); lia).
        apply STAY; [exact EZ|eapply do_use_later; auto|]. split; [eapply pghost_mapped; [eapply pghost_same; [exact A4|reflexivity|reflexivity]|exact PB]|exact Hk].
      * destruct A4 as [-> A4].
        assert (PQ : pstate c d mp' (length kn') total q ((t, e) :: ls) k).
        { apply pstate_mapped with (mp0 := mp) (n0 := n); [eapply pstate_same; [exact A4|reflexivity|reflexivity]|exact PB]. }
        pose proof (pstate_line c d mp n total p _ k A4) as EL. destruct k as [|k].
        -- destruct (skip_step total q t e ls 0 _ _ PQ) as [(j & B & X)|(j & L & p' & B & X & EI & EQ & PL)]; [left; eapply ou_use_last; eauto|right].
           eapply DONE; [exact EI|exact EL|exact EQ|eapply do_use_first; [exact AS|exact SE|exact P|exact B|exact X]|apply PL].
        -- right. apply STAY; [lia|eapply do_use_later; auto|]. split; [reflexivity|exact PQ].
Qed.

Theorem sim_step total v p k : sim total v p -> call_ok k -> outside c hc d name h v k \/
  exists y v' p', does c hc d name h v k y v' /\ do_call c hc cap p k = (y, p') /\ sim total v' p'.
Proof.
  intros S0 W. destruct k as [es|es cb lks| | | |f|fs].
  - right. apply get_step; auto.
  - apply try_step; auto.
  - apply ignore_step; auto.
  - apply names_step; auto.
  - apply names_step; auto.
  - apply names_step; auto. right. right. left. eauto.
  - apply names_step; auto. right. right. right. eauto.
Qed.

Theorem sim_conforms total : forall ks v p, sim total v p -> Forall call_ok ks -> conforms c hc d name h v ks (replies c hc cap p ks).
Proof.
  induction ks as [|k ks IH]; intros v p S0 W; [constructor|]. inversion W as [|? ? W1 W2]; subst.
  destruct (sim_step total v p k S0 W1) as [O|(y & v' & p' & D & E & S1)]; [apply cf_outside; exact O|].
  cbn [replies]. rewrite E. cbn [fst snd]. eapply cf_step; [exact D|]. apply IH; auto.
Qed.
End S.
