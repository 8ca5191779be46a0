(** Properties of chains try_next(...).or_else(...).on_error(...): C37, C38.  Vocabulary: SessionApi.v, SessionSpec.v. *)
From Verif Require Import Base Setup Splitter SplitPure ListFacts SplitApi SplitRefine Extract Converter ConvSpec ConvProofs Reader LineSpec LineProofs GetLineProofs ReaderBase ReaderInv ReaderEscape ReaderParse Parser ParserSpec ParserApi ParserInv ParserRows ParserOpen ParserSession ParserFacts SessionApi SessionSpec SessionHeader SessionProofs PropSession.

Section C.
Context (c : cfg) (d name : str) (mp : list nat) (n k : nat) (out : outcome).

Lemma invoked_called es cb vs ev b : row_reading c d mp n es out (inl vs) -> invoked cb vs ev b ->
  called c d mp n out (es, cb) ev /\ filter is_call ev = ev /\ (b = true <-> accepts cb vs).
Proof.
  intros R H. inversion H; subst.
  - split; [eapply ca_none; [exact R|reflexivity]|]. split; [reflexivity|]. cbn. tauto.
  - split; [eapply ca_void; [exact R|reflexivity]|]. split; [reflexivity|]. cbn. tauto.
  - split; [eapply ca_check; [exact R|reflexivity]|]. split; [reflexivity|]. cbn. tauto.
Qed.
Lemma alternative_called k0 es cb v ev s : alternative c d name mp n k0 out es cb v ev s ->
  called c d mp n out (es, cb) ev /\ filter is_call ev = ev /\
  ((exists vs, v = Some vs /\ s = Found /\ succeeds c d mp n out (es, cb) vs) \/ (v = None /\ (exists m, s = Failed m) /\ fails c d mp n out (es, cb))).
Proof.
  intros [m R|vs ev0 R I|vs ev0 R I].
  - split; [eapply ca_bad; eauto|]. split; [reflexivity|]. right. split; [reflexivity|]. split; [eauto|]. left. eauto.
  - destruct (invoked_called _ _ _ _ _ R I) as (A & B & Q). split; [exact A|]. split; [exact B|]. left. exists vs. split; [reflexivity|]. split; [reflexivity|]. split; [exact R|]. apply Q. reflexivity.
  - destruct (invoked_called _ _ _ _ _ R I) as (A & B & Q). split; [exact A|]. split; [exact B|]. right. split; [reflexivity|]. split; [eauto|]. right. exists vs. split; [exact R|]. intros X. apply Q in X. discriminate.
Qed.
Lemma followed_found lks vs ev s : followed c d name mp n k out Found lks vs ev s ->
  s = Found /\ vs = repeat None (length (alternatives lks)) /\ ev = [].
Proof.
  intros H. remember Found as s0 eqn:E0. revert E0. induction H as [s|es cb ls vs ev s K IH|i ls vs ev s K IH|m es cb v ev0 s0 ls vs ev s A K IH|m i ls vs ev s K IH]; intros E0; try discriminate.
  - auto.
  - destruct (IH E0) as (-> & -> & ->). auto.
  - destruct (IH E0) as (-> & -> & ->). auto.
Qed.
Lemma followed_chosen s lks vs ev s' : followed c d name mp n k out s lks vs ev s' -> forall m, s = Failed m ->
  chosen c d mp n out (alternatives lks) vs (filter is_call ev) (found s').
Proof.
  induction 1 as [s|es cb ls vs ev s K IH|i ls vs ev s K IH|m es cb v ev0 s0 ls vs ev s A K IH|m i ls vs ev s K IH]; intros m' E; try discriminate.
  - subst s. cbn. apply (ch_none c d mp n out [] []); constructor.
  - destruct (alternative_called _ _ _ _ _ _ A) as (CA & FC & [(ws & -> & -> & SU)|(-> & (m2 & ->) & FA)]).
    + destruct (followed_found _ _ _ _ K) as (-> & -> & ->). rewrite app_nil_r, FC. cbn [alternatives flat_map app found].
      change (flat_map _ ls) with (alternatives ls). rewrite <- (app_nil_r ev0). change (ev0 ++ []) with (concat [ev0]).
      apply (ch_first c d mp n out ((es, cb) :: alternatives ls) [] (es, cb) (alternatives ls) ws [ev0]); [reflexivity|constructor|exact SU|repeat constructor; exact CA].
    + specialize (IH m2 eq_refl). rewrite filter_app, FC. cbn [alternatives flat_map app]. change (flat_map _ ls) with (alternatives ls).
      inversion IH as [evs FAS F2 E1 E2 E3|pre a post ws evs EA FAS SU F2 E1 E2 E3].
      * change (ev0 ++ concat evs) with (concat (ev0 :: evs)). apply (ch_none c d mp n out ((es, cb) :: alternatives ls) (ev0 :: evs)); constructor; assumption.
      * rewrite EA. change (ev0 ++ concat evs) with (concat (ev0 :: evs)).
        apply (ch_first c d mp n out ((es, cb) :: pre ++ a :: post) ((es, cb) :: pre) a post ws (ev0 :: evs)); [reflexivity|constructor; assumption|exact SU|constructor; assumption].
  - cbn [filter is_call]. apply (IH m'). exact E.
Qed.
Lemma chain_chosen k1 es cb v ev0 s0 lks vs ev s : alternative c d name mp n k1 out es cb v ev0 s0 -> followed c d name mp n k out s0 lks vs ev s ->
  chosen c d mp n out ((es, cb) :: alternatives lks) (v :: vs) (filter is_call (ev0 ++ ev)) (found s).
Proof.
  intros A K. assert (FO : forall m, followed c d name mp n k out (Failed m) (LElse es cb :: lks) (v :: vs) (ev0 ++ ev) s \/ True) by auto.
  destruct (alternative_called _ _ _ _ _ _ A) as (CA & FC & [(ws & -> & -> & SU)|(-> & (m2 & ->) & FA)]).
  - destruct (followed_found _ _ _ _ K) as (-> & -> & ->). rewrite app_nil_r, FC. rewrite <- (app_nil_r ev0). change (ev0 ++ []) with (concat [ev0]).
    apply (ch_first c d mp n out ((es, cb) :: alternatives lks) [] (es, cb) (alternatives lks) ws [ev0]); [reflexivity|constructor|exact SU|repeat constructor; exact CA].
  - pose proof (followed_chosen _ _ _ _ _ K m2 eq_refl) as IH. rewrite filter_app, FC.
    inversion IH as [evs FAS F2 E1 E2 E3|pre a post ws evs EA FAS SU F2 E1 E2 E3].
    + change (ev0 ++ concat evs) with (concat (ev0 :: evs)). apply (ch_none c d mp n out ((es, cb) :: alternatives lks) (ev0 :: evs)); constructor; assumption.
    + rewrite EA. change (ev0 ++ concat evs) with (concat (ev0 :: evs)).
      apply (ch_first c d mp n out ((es, cb) :: pre ++ a :: post) ((es, cb) :: pre) a post ws (ev0 :: evs)); [reflexivity|constructor; assumption|exact SU|constructor; assumption].
Qed.
End C.

(** C37.  A chain in front of a row: the first alternative that succeeds on that row gives the values; the alternatives after
    it are not tried; the row, and nothing else, is consumed. *)
Theorem C37_first_alternative_wins_partial : forall c hc cap d data name h p v ks, fit c d -> enough cap -> header_setup c hc ->
  session c cap d data name h p v -> Forall call_ok ks -> covered c hc d name h v ks ->
  let q := later c hc cap p ks in
  exists v', leads c hc d name h v ks (replies c hc cap p ks) v' /\
  forall es cb lks t e ls, call_ok (CTry es cb lks) -> w_lines v' = (t, e) :: ls -> ~ outside c hc d name h v' (CTry es cb lks) ->
  exists out m rest j L vals log valid q',
    row c d 0 t t e ls out m rest /\ blanks c rest j L /\
    do_call c hc cap q (CTry es cb lks) = (YTry vals log valid, q') /\
    chosen c d (w_map v') (w_ncols v') out ((es, cb) :: alternatives lks) vals (filter is_call log) valid /\
    (p_eof q' = true <-> L = []) /\ (L <> [] -> p_line q' = w_line v' + S m + j) /\
    forall its ess, document c d (w_line v' + S m + j) L its -> Forall types ess ->
      forall i it es', nth_error its i = Some it -> nth_error ess i = Some es' ->
      exists o sn, nth_error (reads c cap q' ess) i = Some sn /\ row_reading c d (w_map v') (w_ncols v') es' (it_out it) o /\
        shown c name (it_line it) (it_next it) o (s_what sn) /\ (s_eof sn = true <-> S i = length its).
Proof.
  intros c hc cap d data name h p v ks F Hcap HS SE W C q. destruct (session_sim c d name h cap data Hcap p v SE) as (S0 & _ & EA).
  destruct (covered_sim c hc d name h cap F Hcap HS (Z.of_nat (length data)) ks v p S0 W C) as (v' & L & S1). fold q in S1. exists v'. split; [exact L|].
  intros es cb lks t e ls Wk HL NO. destruct (sim_step c hc d name h cap F HS Hcap _ v' q (CTry es cb lks) S1 Wk) as [O|(y & v'' & p'' & D & E & S2)]; [contradiction|].
  inversion D as [| | |k t0 e0 ls0 mp n kn es0 cb0 lks0 out m rest j ls' v1 ev0 s0 vs ev s R B A FO E1 E2 E3|k mp n kn es0 cb0 lks0 msg vs ev s NE FO E1 E2 E3|k mp n kn es0 cb0 lks0 msg vs ev s NE FO E1 E2 E3| | | | | | | | | | | ].
  - rewrite <- E1 in HL. cbn in HL. injection HL as -> -> ->. cbn [w_map w_ncols w_line].
    exists out, m, rest, j, ls', (v1 :: vs), (ev0 ++ ev), (found s), p''. split; [exact R|]. split; [exact B|]. split; [congruence|].
    split; [eapply chain_chosen; eauto|]. rewrite <- H2 in S2. destruct S2 as (A1 & _ & _ & A4). pose proof (placed_eof c d _ _ _ A4) as EOF. cbn [w_over] in EOF.
    split; [rewrite EOF; destruct ls'; cbn; intuition congruence|]. unfold placed in A4. cbn [w_lines w_map w_ncols w_line w_over] in A4.
    split; [intros X; destruct ls'; [congruence|]; destruct A4 as [_ A4]; exact (pstate_line c d _ _ _ _ _ _ A4)|].
    intros its ess DC Wt i it es' Hi He. destruct ls' as [|l0 ls']; [inversion DC; subst; destruct i; discriminate|]. destruct A4 as [_ A4].
    destruct (reads_rows c d F cap Hcap ess _ _ _ _ _ _ _ A4 DC Wt i it es' Hi He) as (o & sn & B1 & B2 & B3 & B4 & _).
    exists o, sn. split; [exact B1|]. split; [exact B2|]. rewrite A1 in B3. split; [exact B3|]. rewrite B4, Nat.eqb_eq. reflexivity.
  - rewrite <- E1 in HL. discriminate.
  - rewrite <- E1 in HL. discriminate.
Qed.
Print Assumptions C37_first_alternative_wins_partial.

(** In any state whatever: at most one value; one exactly if the parser is valid after the chain. *)
Definition values_of (l : list (option (list val))) : nat := length (filter (fun x => match x with Some _ => true | None => false end) l).
Theorem C37_at_most_one_value : forall c hc cap p es cb lks vals log valid p',
  do_call c hc cap p (CTry es cb lks) = (YTry vals log valid, p') ->
  length vals = S (length (alternatives lks)) /\ values_of vals = (if valid then 1 else 0).
Proof.
  intros c hc cap p es cb lks vals log valid p' E.
  set (cnt := fun l : list (option (list slot)) => length (filter (fun x => match x with Some _ => true | None => false end) l)).
  assert (TN : forall vs st, try_next c cap es cb (p, []) = Ok vs st -> length vs = 1 /\ cnt vs = if p_valid c (fst st) then 1 else 0).
  { intros vs st T. unfold try_next, bind, get, ret in T. destruct (on_p (get_next c cap es) (p, [])) as [xs s1|m s1|w|]; try discriminate.
    destruct ((if p_valid c (fst s1) then try_invoke c xs cb else fun s => Ok tt s) s1) as [u s2|m s2|w|]; try discriminate. injection T as <- <-.
    split; [reflexivity|]. unfold cnt. destruct (p_valid c (fst s2)); reflexivity. }
  assert (OE : forall vs es' cb' st vs' st', or_else c vs es' cb' st = Ok vs' st' -> cnt vs = (if p_valid c (fst st) then 1 else 0) ->
     length vs' = S (length vs) /\ cnt vs' = if p_valid c (fst st') then 1 else 0).
  { intros vs es' cb' st vs' st' T HC. unfold or_else, bind, get, ret in T. destruct (p_valid c (fst st)) eqn:V.
    - injection T as <- <-. rewrite V. unfold cnt in *. rewrite app_length, filter_app, app_length, HC. cbn. split; lia.
    - destruct (on_p (try_same c es') st) as [xs s1|m s1|w|]; try discriminate. destruct (p_valid c (fst s1)) eqn:V1; cbn [negb] in T.
      + destruct (try_invoke c xs cb' s1) as [u s2|m s2|w|]; try discriminate. injection T as <- <-. unfold cnt in *. rewrite app_length, filter_app, app_length, HC.
        destruct (p_valid c (fst s2)); cbn; split; lia.
      + injection T as <- <-. rewrite V1. unfold cnt in *. rewrite app_length, filter_app, app_length, HC. cbn. split; lia. }
  assert (FL : forall lks vs st vs' st', follow_links c vs lks st = Ok vs' st' -> cnt vs = (if p_valid c (fst st) then 1 else 0) ->
     length vs' = length vs + length (alternatives lks) /\ cnt vs' = if p_valid c (fst st') then 1 else 0).
  { clear - OE. induction lks as [|[es' cb'|i] lks IH]; intros vs st vs' st' T HC; cbn [follow_links] in T.
    - unfold ret in T. injection T as <- <-. cbn. split; [lia|exact HC].
    - unfold bind in T. destruct (or_else c vs es' cb' st) as [v1 s1|m s1|w|] eqn:E1; try discriminate. destruct (OE _ _ _ _ _ _ E1 HC) as [L1 C1].
      destruct (IH _ _ _ _ T C1) as [L2 C2]. split; [|exact C2]. cbn [alternatives flat_map app length]. change (flat_map _ lks) with (alternatives lks). lia.
    - unfold bind in T. destruct (on_error c i st) as [u s1|m s1|w|] eqn:E1; try discriminate.
      assert (V : p_valid c (fst s1) = p_valid c (fst st)).
      { unfold on_error, bind, get in E1. destruct (p_valid c (fst st)) eqn:V; [unfold ret in E1; injection E1 as _ <-; exact V|]. unfold log, modify in E1. injection E1 as _ <-. exact V. }
      rewrite <- V in HC. exact (IH _ _ _ _ T HC). }
  assert (AG : forall l r, all_given l = Some r -> length r = length l /\ values_of r = cnt l).
  { clear. induction l as [|[xs|] l IH]; intros r E; cbn in E; [injection E as <-; auto| |].
    - destruct (given xs); [|discriminate]. destruct (all_given l) as [r0|]; [|discriminate]. injection E as <-. destruct (IH _ eq_refl) as [A B]. unfold values_of, cnt in *. cbn. split; lia.
    - destruct (all_given l) as [r0|]; [|discriminate]. injection E as <-. destruct (IH _ eq_refl) as [A B]. unfold values_of, cnt in *. cbn. split; lia. }
  unfold do_call, chain_call, bind in E. destruct (try_next c cap es cb (p, [])) as [v0 s0|m [s0 l0]|w|] eqn:E0; try discriminate.
  destruct (TN _ _ eq_refl) as [L0 C0]. destruct (follow_links c v0 lks s0) as [v1 [s1 l1]|m [s1 l1]|w|] eqn:E1; try discriminate.
  destruct (FL _ _ _ _ _ E1 C0) as [L1 C1]. destruct (all_given v1) as [r|] eqn:Er; [|discriminate]. injection E as -> -> <- ->. destruct (AG _ _ Er) as [A1 A2].
  cbn [fst] in C1. rewrite A1, A2, C1, L1, L0. split; reflexivity.
Qed.
Print Assumptions C37_at_most_one_value.

(** C38.  In any state whatever: a handler in a chain runs exactly if the parser is invalid after the links before it, and is
    given the error message. *)
Theorem C38_on_error : forall c hc cap p es cb lks1 i lks2 vals1 log1 valid1 p1 vals log valid p2,
  do_call c hc cap p (CTry es cb lks1) = (YTry vals1 log1 valid1, p1) ->
  do_call c hc cap p (CTry es cb (lks1 ++ LOnError i :: lks2)) = (YTry vals log valid, p2) ->
  valid1 = p_valid c p1 /\
  exists log2, log = log1 ++ (if valid1 then [] else [EvError i (message (p_err p1))]) ++ log2.
Proof.
  intros c hc cap p es cb lks1 i lks2 vals1 log1 valid1 p1 vals log valid p2 E1 E2.
  assert (FA : forall l1 l2 vs st, follow_links c vs (l1 ++ l2) st = (' w <- follow_links c vs l1 ;; follow_links c w l2) st).
  { induction l1 as [|[es' cb'|k] l1 IH]; intros l2 vs st; cbn [app follow_links]; [reflexivity| |]; unfold bind in *.
    - destruct (or_else c vs es' cb' st); try reflexivity. apply IH.
    - destruct (on_error c k st); try reflexivity. apply IH. }
  assert (GR : forall lks vs st vs' st', follow_links c vs lks st = Ok vs' st' -> exists l, snd st' = snd st ++ l).
  { assert (TI : forall xs cb' st u st', try_invoke c xs cb' st = Ok u st' -> exists l, snd st' = snd st ++ l).
    { intros xs [|k|k f] st u st' T; cbn [try_invoke] in T.
      - injection T as _ <-. exists []. rewrite app_nil_r. reflexivity.
      - injection T as _ <-. eexists. reflexivity.
      - unfold bind, Parser.log, modify in T. cbn [fst snd] in T. destruct (f xs); [injection T as _ <-; eexists; reflexivity|].
        unfold on_p, zoom in T. cbn [fst snd] in T. destruct (p_error c msg_failed_check (fst st)); try discriminate. injection T as _ <-. eexists. reflexivity. }
    induction lks as [|[es' cb'|k] lks IH]; intros vs st vs' st' T; cbn [follow_links] in T.
    - injection T as _ <-. exists []. rewrite app_nil_r. reflexivity.
    - unfold bind in T. destruct (or_else c vs es' cb' st) as [v1 s1|m s1|w|] eqn:EO; try discriminate. destruct (IH _ _ _ _ T) as (l & ->).
      assert (X : exists l0, snd s1 = snd st ++ l0).
      { unfold or_else, bind, get, ret in EO. destruct (p_valid c (fst st)) eqn:V; [injection EO as _ <-; exists []; rewrite app_nil_r; reflexivity|].
        unfold on_p, zoom in EO. destruct (try_same c es' (fst st)) as [xs s2|m s2|w|]; try discriminate. cbn [fst snd] in EO. destruct (p_valid c s2); cbn [negb] in EO.
        - destruct (try_invoke c xs cb' (s2, snd st)) as [u s3|m s3|w|] eqn:ET; try discriminate. injection EO as _ <-. exact (TI _ _ _ _ _ ET).
        - injection EO as _ <-. exists []. rewrite app_nil_r. reflexivity. }
      destruct X as (l0 & ->). exists (l0 ++ l). rewrite <- app_assoc. reflexivity.
    - unfold bind in T. destruct (on_error c k st) as [u s1|m s1|w|] eqn:EO; try discriminate. destruct (IH _ _ _ _ T) as (l & ->).
      unfold on_error, bind, get in EO. destruct (p_valid c (fst st)); [injection EO as _ <-; eauto|]. unfold Parser.log, modify in EO. injection EO as _ <-. cbn [snd]. eexists. rewrite <- app_assoc. reflexivity. }
  unfold do_call, chain_call, bind in E1, E2. destruct (try_next c cap es cb (p, [])) as [v0 s0|m [s0 l0]|w|] eqn:E0; try discriminate. rewrite FA in E2. unfold bind in E2.
  destruct (follow_links c v0 lks1 s0) as [v1 [s1 l1]|m [s1 l1]|w|] eqn:F1; try discriminate. destruct (all_given v1); [|discriminate]. injection E1 as <- <- <- <-.
  split; [reflexivity|]. cbn [follow_links] in E2. unfold bind in E2.
  assert (EO : on_error c i (s1, l1) = Ok tt (s1, l1 ++ if p_valid c s1 then [] else [EvError i (message (p_err s1))])).
  { unfold on_error, bind, get. cbn [fst snd]. destruct (p_valid c s1); [rewrite app_nil_r; reflexivity|]. reflexivity. }
  rewrite EO in E2. destruct (follow_links c v1 lks2 _) as [v2 [s2 l2]|m [s2 l2]|w|] eqn:F2; try discriminate. destruct (all_given v2); [|discriminate]. injection E2 as <- <- <- <-.
  destruct (GR _ _ _ _ _ F2) as (lx & X). cbn [snd] in X. exists lx. rewrite X, <- app_assoc. reflexivity.
Qed.
Print Assumptions C38_on_error.

(** A check decides: with one that refuses the values there is no value, and the parser is invalid. *)
Theorem C38_checks : forall c hc cap d data name h p v ks, fit c d -> enough cap -> header_setup c hc -> c_mode c <> EThrow ->
  session c cap d data name h p v -> Forall call_ok ks -> covered c hc d name h v ks ->
  let q := later c hc cap p ks in
  exists v', leads c hc d name h v ks (replies c hc cap p ks) v' /\
  forall es t e ls out m rest, types es -> w_lines v' = (t, e) :: ls -> row c d 0 t t e ls out m rest ->
  exists o, row_reading c d (w_map v') (w_ncols v') es out o /\ forall i f,
    fst (do_call c hc cap q (CTry es (CbCheck i f) [])) =
      match o with
      | inl vs => if f (map Some vs) then YTry [Some vs] [EvCall i (map Some vs)] true else YTry [None] [EvCall i (map Some vs)] false
      | inr _ => YTry [None] [] false
      end /\
    fst (do_call c hc cap q (CTry es (CbVoid i) [])) =
      match o with inl vs => YTry [Some vs] [EvCall i (map Some vs)] true | inr _ => YTry [None] [] false end.
Proof.
  intros c hc cap d data name h p v ks F Hcap HS Hm SE W C q. destruct (session_sim c d name h cap data Hcap p v SE) as (S0 & _ & EA).
  destruct (covered_sim c hc d name h cap F Hcap HS (Z.of_nat (length data)) ks v p S0 W C) as (v' & L & S1). fold q in S1. exists v'. split; [exact L|].
  intros es t e ls out m rest Wt HL R.
  assert (NO : forall cb, ~ outside c hc d name h v' (CTry es cb [])).
  { intros cb O. inversion O; subst; try congruence.
    all: try (match goal with H : has_else [] |- _ => destruct H as (? & ? & []) end).
    all: try (match goal with H : _ \/ _ |- _ => decompose [or ex] H; discriminate end).
    all: fail. }
  assert (DO : forall cb, exists y v'', does c hc d name h v' (CTry es cb []) y v'' /\ fst (do_call c hc cap q (CTry es cb [])) = y).
  { intros cb. destruct (sim_step c hc d name h cap F HS Hcap _ v' q (CTry es cb []) S1 (conj Wt (Forall_nil _))) as [O|(y & v'' & p'' & D & E & S2)]; [exfalso; exact (NO cb O)|].
    exists y, v''. rewrite E. auto. }
  assert (EX : exists o, row_reading c d (w_map v') (w_ncols v') es out o /\ forall o', row_reading c d (w_map v') (w_ncols v') es out o' -> match o, o' with inl a, inl b => a = b | inr _, inr _ => True | _, _ => False end).
  { destruct (DO CbNone) as (y & v'' & D & _). inversion D as [| | |k t0 e0 ls0 mp n kn es0 cb0 lks0 out0 m0 rest0 j ls' v1 ev0 s0 vs ev s R0 B A FO E1 E2 E3|k mp n kn es0 cb0 lks0 msg vs ev s NE FO E1 E2 E3|k mp n kn es0 cb0 lks0 msg vs ev s NE FO E1 E2 E3| | | | | | | | | | | ];
      [|rewrite <- E1 in HL; discriminate|rewrite <- E1 in HL; discriminate]. rewrite <- E1 in HL. cbn in HL. injection HL as -> -> ->. cbn [w_map w_ncols w_line]. destruct (row_fun c d _ _ _ _ _ _ _ _ R _ _ _ R0) as (<- & _ & _).
    assert (RR : exists o, row_reading c d mp n es out o) by (inversion A; eauto). destruct RR as (o & RR). exists o. split; [exact RR|].
    intros o' RR'. pose proof (reading_det c d _ _ _ _ _ _ RR RR') as X. destruct o, o'; auto. }
  destruct EX as (o & RR & DET). exists o. split; [exact RR|]. intros i f.
  assert (G : forall cb, exists v1 ev s, alternative c d name (w_map v') (w_ncols v') (w_line v' + S m) out es cb v1 ev s /\ fst (do_call c hc cap q (CTry es cb [])) = YTry [v1] ev (found s)).
  { intros cb. destruct (DO cb) as (y & v'' & D & ->). inversion D as [| | |k t0 e0 ls0 mp n kn es0 cb0 lks0 out0 m0 rest0 j ls' v1 ev0 s0 vs ev s R0 B A FO E1 E2 E3|k mp n kn es0 cb0 lks0 msg vs ev s NE FO E1 E2 E3|k mp n kn es0 cb0 lks0 msg vs ev s NE FO E1 E2 E3| | | | | | | | | | | ];
      [|rewrite <- E1 in HL; discriminate|rewrite <- E1 in HL; discriminate]. rewrite <- E1 in HL. cbn in HL. injection HL as -> -> ->. cbn [w_map w_ncols w_line]. destruct (row_fun c d _ _ _ _ _ _ _ _ R _ _ _ R0) as (<- & <- & _).
    clear E1. inversion FO; subst. exists v1, ev0, s. split; [exact A|]. rewrite app_nil_r. reflexivity. }
  split.
  - destruct (G (CbCheck i f)) as (v1 & ev & s & A & ->). inversion A as [m1 R1 E1 E2 E3|vs ev1 R1 I1 E1 E2 E3|vs ev1 R1 I1 E1 E2 E3]; subst; pose proof (DET _ R1) as DT; destruct o as [ws|mm]; try contradiction; cbn [found].
    + reflexivity.
    + subst ws. inversion I1 as [| |? ? ? E1 E2 E3]; subst. match goal with H : f _ = true |- _ => rewrite H end. reflexivity.
    + subst ws. inversion I1 as [| |? ? ? E1 E2 E3]; subst. match goal with H : f _ = false |- _ => rewrite H end. reflexivity.
  - destruct (G (CbVoid i)) as (v1 & ev & s & A & ->). inversion A as [m1 R1 E1 E2 E3|vs ev1 R1 I1 E1 E2 E3|vs ev1 R1 I1 E1 E2 E3]; subst; pose proof (DET _ R1) as DT; destruct o as [ws|mm]; try contradiction; cbn [found].
    + reflexivity.
    + subst ws. inversion I1; subst. reflexivity.
    + subst ws. inversion I1.
Qed.
Print Assumptions C38_checks.

(** Why chains at the end of the data and on incomplete rows are left out: there the alternatives are tried on something
    else, an earlier row or a part of the incomplete one. *)
Definition str_cfg : cfg := mkCfg None [] [] [] false 0 EString false false.
Definition exact_cap (_ need : nat) : nat := need.
Theorem C37_end_of_data_refuted : exists p, opened str_cfg exact_cap (S2 ",") (S2 "a,1" ++ [LF] ++ S2 "b,2") (S2 "f") p /\
  let ts := [EVal TString; EVal (TInt (mkIty true 32))] in
  replies str_cfg (header_cfg str_cfg) exact_cap p [CGet ts; CGet ts; CTry ts CbNone [LElse ts CbNone]] =
    [YGet (GValues [VStr (S2 "a"); VInt 1]); YGet (GValues [VStr (S2 "b"); VInt 2]);
     YTry [None; Some [VStr [NUL]; VInt 1]] [] true].
Proof. eexists. split; [apply op_file; vm_compute; reflexivity|]. vm_compute. reflexivity. Qed.
Print Assumptions C37_end_of_data_refuted.
Definition ml_cfg : cfg := mkCfg (Some """"%char) [] [] [] true 1 EString false false.
Theorem C37_incomplete_row_refuted : exists p, opened ml_cfg exact_cap (S2 ",") (S2 "a,""b" ++ [LF] ++ S2 "c" ++ [LF] ++ S2 "d") (S2 "f") p /\
  let ts := [EVal TString; EVal TString] in
  replies ml_cfg (header_cfg ml_cfg) exact_cap p [CTry ts CbNone [LElse ts CbNone]] =
    [YTry [None; Some [VStr (S2 "a"); VStr (S2 "a,""")]] [] true].
Proof. eexists. split; [apply op_file; vm_compute; reflexivity|]. vm_compute. reflexivity. Qed.
Print Assumptions C37_incomplete_row_refuted.
