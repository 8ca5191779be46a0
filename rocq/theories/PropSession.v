(** Properties of sessions: C34-C38, C44.  Vocabulary: SessionApi.v (calls and replies), SessionSpec.v (what is expected). *)
From Verif Require Import Base Setup Splitter SplitPure ListFacts SplitApi SplitRefine Extract Converter ConvSpec ConvProofs Reader LineSpec LineProofs GetLineProofs ReaderBase ReaderInv ReaderEscape ReaderParse Parser ParserSpec ParserApi ParserInv ParserRows ParserOpen ParserSession ParserGhost ParserFacts SessionApi SessionSpec SessionHeader SessionProofs.

Lemma starts_header c data k L : starts c data k L -> c_ignhdr c = false -> forall h, header_line c data h -> h = first_line L.
Proof.
  intros ST Hi h HL. destruct ST as [ls j L _ P B|]; [|congruence].
  destruct HL as [ls0 j0 t e ls' P0 B0|ls0 j0 P0 B0]; pose proof (blanks_lines c _ _ _ _ P B) as E; rewrite (blanks_lines c _ _ _ _ P0 B0) in E; injection E as _ <-; reflexivity.
Qed.
Section P.
Context (c hc : cfg) (d name h : str) (cap : nat -> nat -> nat) (data : str).
Context (F : fit c d) (Hcap : enough cap) (HS : header_setup c hc).

Lemma session_sim p v : session c cap d data name h p v -> sim c d name h (Z.of_nat (length data)) v p /\ w_map v = [] /\ w_known v = [].
Proof.
  intros [k L O N ST Hh HL|ls j t e ls1 j' O N Hi P B B' Hj HL|ls j O N Hi P B HL]; (split; [|auto]).
  - destruct (opened_state c d cap Hcap data name p k L O N ST Hh) as (PS & E1 & E2 & E3 & E4 & E5 & E6).
    split; [exact E1|]. split; [intros Hi; rewrite (starts_header _ _ _ _ ST Hi _ HL); auto|]. split; [exact E3|]. apply placed_read. exact PS.
  - assert (Hj' : j' = 0 \/ escaped_multiline c = false) by (destruct Hj as [X|X]; [auto|right; apply ml_not_escapes; exact X]).
    destruct (opened_ghost c d cap Hcap data name p ls j t e ls1 j' O N Hi P B B' Hj') as (PG & E1 & E2 & E3 & E4).
    split; [exact E1|]. split; [congruence|]. split; [exact E3|]. split; [exact PG|]. cbn. lia.
  - destruct (opened_nothing c d cap Hcap data name p ls j O N Hi P B) as (PE & E1 & E2 & E3 & E4 & _).
    split; [exact E1|]. split; [congruence|]. split; [exact E3|]. exact PE.
Qed.
Lemma covered_sim total : forall ks v p, sim c d name h total v p -> Forall call_ok ks -> covered c hc d name h v ks ->
  exists v', leads c hc d name h v ks (replies c hc cap p ks) v' /\ sim c d name h total v' (later c hc cap p ks).
Proof.
  induction ks as [|k ks IH]; intros v p S0 W C; [exists v; split; [constructor|exact S0]|]. inversion W as [|? ? W1 W2]; subst. destruct C as [C1 C2].
  destruct (sim_step c hc d name h cap F HS Hcap total v p k S0 W1) as [O|(y & v' & p' & D & E & S1)]; [contradiction|].
  destruct (IH v' p' S1 W2 (C2 y v' D)) as (v'' & L & S2). exists v''. cbn [replies later]. rewrite E. cbn [fst snd]. split; [econstructor; eauto|exact S2].
Qed.
End P.

(** C44.  Any calls, in any order: each reply is as specified, up to the first call the specification leaves open. *)
Theorem C44_sessions_conform : forall c hc cap d data name h p v ks, fit c d -> enough cap -> header_setup c hc ->
  session c cap d data name h p v -> Forall call_ok ks ->
  conforms c hc d name h v ks (replies c hc cap p ks).
Proof.
  intros c hc cap d data name h p v ks F Hcap HS SE W. destruct (session_sim c d name h cap data Hcap p v SE) as (S0 & _).
  eapply sim_conforms; eauto.
Qed.
Print Assumptions C44_sessions_conform.
(** After a covered history the parser is where the specification says; nothing crashes on the way. *)
Theorem C44_covered_histories : forall c hc cap d data name h p v ks, fit c d -> enough cap -> header_setup c hc ->
  session c cap d data name h p v -> Forall call_ok ks -> covered c hc d name h v ks ->
  (exists v', leads c hc d name h v ks (replies c hc cap p ks) v' /\
    p_eof (later c hc cap p ks) = w_over v' /\ (w_lines v' <> [] -> w_over v' = false) /\
    (w_over v' = false -> p_line (later c hc cap p ks) = w_line v') /\
    (w_lines v' <> [] -> p_position (later c hc cap p ks) = (Z.of_nat (length data) - Z.of_nat (bytes (w_lines v')))%Z)) /\
  ~ In YCrash (replies c hc cap p ks) /\ ~ In (YGet GCrash) (replies c hc cap p ks).
Proof.
  intros c hc cap d data name h p v ks F Hcap HS SE W C. destruct (session_sim c d name h cap data Hcap p v SE) as (S0 & _).
  destruct (covered_sim c hc d name h cap F Hcap HS (Z.of_nat (length data)) ks v p S0 W C) as (v' & L & S1). split.
  - exists v'. split; [exact L|]. destruct S1 as (_ & _ & _ & K). split; [apply (placed_eof c d _ _ _ K)|].
    unfold placed in K. destruct v' as [k [|[t e] ls] o mp n kn]; cbn [w_lines w_map w_ncols w_line w_over] in *; [destruct o|].
    + split; [congruence|]. split; [discriminate|congruence].
    + destruct K as [K _]. split; [congruence|]. split; [intros _; unfold p_line; rewrite (gh_line _ _ _ _ _ _ K); lia|congruence].
    + destruct K as [-> K]. split; [auto|]. split; [intros _; exact (pstate_line c d _ _ _ _ _ _ K)|]. intros _. eapply pstate_pos; [exact K|discriminate].
  - assert (G : forall v0 ks ys v1, leads c hc d name h v0 ks ys v1 -> ~ In YCrash ys /\ ~ In (YGet GCrash) ys).
    { induction 1 as [v0|v0 k y v1 ks0 ys v2 D L0 [IH1 IH2]]; [split; intros []|].
      assert (D0 : y <> YCrash /\ y <> YGet GCrash).
      { assert (NB : forall r, bad_header c hc d name h r -> r <> YCrash /\ r <> YGet GCrash) by (intros r [m X|m X]; split; discriminate).
        assert (NR : forall m, refusal c m <> YCrash /\ refusal c m <> YGet GCrash) by (intros m; unfold refusal; destruct (c_mode c); split; discriminate).
        assert (NN : forall kn kn' r, asks c hc d name h kn kn' (Some r) -> r <> YCrash /\ r <> YGet GCrash) by (intros kn kn' r X; inversion X; subst; auto).
        destruct D; try (split; discriminate); auto.
        - split; [discriminate|]. match goal with H : shown _ _ _ _ _ _ |- _ => pose proof (shown_not_crash c _ _ _ _ _ H) as X end. congruence.
        - split; [discriminate|]. match goal with H : shown _ _ _ _ _ _ |- _ => pose proof (shown_not_crash c _ _ _ _ _ H) as X end. congruence.
        - split; [discriminate|]. destruct (c_mode c); discriminate.
        - eapply NN; eassumption.
        - match goal with H : use_asks _ _ _ _ _ ?o _ _ _ |- _ => destruct o; cbn in H; [destruct H as [_ H]; discriminate|eapply NN; eassumption] end. }
      destruct D0 as [D1 D2]. split; intros [X|X]; auto. }
    eapply G. exact L.
Qed.
Print Assumptions C44_covered_histories.

(** *** C34 *)
Lemma repeated_cut (a a2 : list str) (f g : str) b b2 : NoDup a -> In f a -> NoDup a2 -> In g a2 -> a ++ f :: b = a2 ++ g :: b2 -> a = a2 /\ f = g.
Proof.
  assert (G : forall (a a2 : list str) (f g : str) b b2, a ++ f :: b = a2 ++ g :: b2 -> (exists l, a = a2 ++ g :: l) \/ (exists l, a2 = a ++ f :: l) \/ (a = a2 /\ f = g)).
  { clear. induction a as [|x a IH]; intros [|y a2] f g b b2 E; cbn in E; injection E as E0 E; subst; [auto|right; left; eexists; reflexivity|left; eexists; reflexivity|].
    destruct (IH _ _ _ _ _ E) as [(l & ->)|[(l & ->)|[-> ->]]]; [left; exists l; reflexivity|right; left; exists l; reflexivity|auto]. }
  intros N1 I1 N2 I2 E. destruct (G _ _ _ _ _ _ E) as [(l & ->)|[(l & ->)|X]]; [| |exact X]; exfalso.
  - apply NoDup_remove_2 in N1. apply N1. apply in_or_app. auto.
  - apply NoDup_remove_2 in N2. apply N2. apply in_or_app. auto.
Qed.
Definition msg_repeated (name f : str) : str := name ++ S2 ": header contains duplicate: " ++ f.
Lemma bad_selection_msg name cols fs msg f : bad_selection name cols fs msg -> msg <> msg_repeated name f.
Proof.
  intros B E. unfold msg_repeated in E. destruct B as [|fs fs1 g fs2 E1 E2 E3|fs fs1 g fs2 E1 E2 E3 E4].
  - assert (X : In ":"%char (S2 "received invalid argument for 'use_fields'")) by (rewrite E; apply in_or_app; right; left; reflexivity).
    vm_compute in X. intuition discriminate.
  - apply app_inv_head in E. discriminate.
  - apply app_inv_head in E. discriminate.
Qed.
(** What the names learned by a history are. *)
Lemma does_known c hc d name h v k y v' : does c hc d name h v k y v' ->
  (w_known v' = w_known v /\ ((exists r, bad_header c hc d name h r /\ y = r) \/ (exists cols fs msg, bad_selection name cols fs msg /\ y = refusal c msg) \/ forall m, y <> YThrown m)) \/
  exists r, asks c hc d name h (w_known v) (w_known v') r /\
    match r with Some z => y = z | None => (forall m, y <> YThrown m) \/ exists cols fs msg, bad_selection name cols fs msg /\ y = refusal c msg end.
Proof.
  intros D. destruct D; cbn [w_known]; try (left; split; [reflexivity|]; right; right; intros ? X; discriminate X).
  - left. split; [reflexivity|]. left. eauto.
  - right. exists None. split; [assumption|]. left. intros ? X; discriminate X.
  - right. exists (Some r). auto.
  - destruct o; cbn in H; [destruct H; discriminate|]. right. exists (Some r). auto.
  - destruct o; cbn in H; [destruct H as [-> _]; left; split; [reflexivity|right; left; eauto 8]|]. right. exists None. split; [assumption|]. right. eauto 8.
  - right. exists None. split; [assumption|]. left. intros ? X; discriminate X.
  - destruct o; cbn in H0; [destruct H0 as [-> _]; left; split; [reflexivity|]; right; right; intros ? X; discriminate X|]. right. exists None. split; [assumption|]. left. intros ? X; discriminate X.
Qed.
Section K.
Context (c hc : cfg) (d name h : str).
Notation sob := (split_obs hc sp_init d (c_string h) []).
Lemma known_ok cols : names hc d h cols -> NoDup cols -> forall v ks ys v', leads c hc d name h v ks ys v' -> w_known v = [] \/ w_known v = cols -> w_known v' = [] \/ w_known v' = cols.
Proof.
  intros NA ND. unfold names in NA. induction 1 as [v|v k y v1 ks ys v2 D L IH]; intros K; [exact K|]. apply IH.
  destruct (does_known _ _ _ _ _ _ _ _ _ D) as [[-> _]|(r & A & _)]; [exact K|].
  inversion A as [kn Hn E1 E2|cols' N' D' E1 E2|r' B E1 E2|a f b N' Na If E1 E2]; subst; auto.
  - right. unfold names in N'. congruence.
  - exfalso. unfold names in N'. assert (cols = a ++ f :: b) as EC by congruence. subst cols. apply NoDup_remove_2 in ND. apply ND. apply in_or_app. auto.
Qed.
Lemma known_bad : (forall cols, ~ names hc d h cols) -> forall v ks ys v', leads c hc d name h v ks ys v' -> w_known v = [] -> w_known v' = [].
Proof.
  intros NA. induction 1 as [v|v k y v1 ks ys v2 D L IH]; intros K; [exact K|]. apply IH.
  destruct (does_known _ _ _ _ _ _ _ _ _ D) as [[-> _]|(r & A & _)]; [exact K|].
  inversion A as [kn Hn E1 E2|cols' N' D' E1 E2|r' B E1 E2|a f b N' Na If E1 E2]; subst; auto; exfalso; eapply NA; eassumption.
Qed.
Lemma known_dup a f b : names hc d h (a ++ f :: b) -> NoDup a -> In f a -> forall v ks ys v', leads c hc d name h v ks ys v' -> w_known v = [] ->
  (w_known v' = [] /\ ~ In (YThrown (msg_repeated name f)) ys) \/ (c_mode c = EThrow /\ w_known v' = a /\ In (YThrown (msg_repeated name f)) ys).
Proof.
  intros NA Na If. assert (Ha : a <> []) by (intros ->; destruct If).
  assert (G : forall v ks ys v', leads c hc d name h v ks ys v' -> forall pre,
     (w_known v = [] /\ ~ In (YThrown (msg_repeated name f)) pre) \/ (c_mode c = EThrow /\ w_known v = a /\ In (YThrown (msg_repeated name f)) pre) ->
     (w_known v' = [] /\ ~ In (YThrown (msg_repeated name f)) (pre ++ ys)) \/ (c_mode c = EThrow /\ w_known v' = a /\ In (YThrown (msg_repeated name f)) (pre ++ ys))).
  { induction 1 as [v|v k y v1 ks ys v2 D L IH]; intros pre K; [rewrite app_nil_r; exact K|].
    replace (pre ++ y :: ys) with ((pre ++ [y]) ++ ys) by (rewrite <- app_assoc; reflexivity). apply IH. clear IH L.
    assert (SAME : w_known v1 = w_known v -> y <> YThrown (msg_repeated name f) ->
       (w_known v1 = [] /\ ~ In (YThrown (msg_repeated name f)) (pre ++ [y])) \/ (c_mode c = EThrow /\ w_known v1 = a /\ In (YThrown (msg_repeated name f)) (pre ++ [y]))).
    { intros -> Hy. destruct K as [[K1 K2]|(K1 & K2 & K3)]; [left|right].
      - split; [exact K1|]. intros X. apply in_app_or in X. destruct X as [X|[X|[]]]; auto.
      - split; [exact K1|]. split; [exact K2|]. apply in_or_app. auto. }
    assert (NB : forall r, ~ bad_header c hc d name h r) by (intros r B; unfold names in NA; inversion B; congruence).
    assert (NS : forall cols fs msg, bad_selection name cols fs msg -> refusal c msg <> YThrown (msg_repeated name f)).
    { intros cols fs msg B X. unfold refusal in X. destruct (c_mode c); try discriminate. injection X as X. eapply bad_selection_msg; eauto. }
    destruct (does_known _ _ _ _ _ _ _ _ _ D) as [[E [(r & B & ->)|[(cols & fs & msg & B & ->)|Hy]]]|(r & A & Hy)].
    - destruct (NB r B).
    - apply SAME; [exact E|]. eapply NS; eauto.
    - apply SAME; auto.
    - assert (NY : match r with None => y <> YThrown (msg_repeated name f) | _ => True end).
      { destruct r; [exact Logic.I|]. destruct Hy as [Hy|(cols & fs & msg & B & ->)]; [apply Hy|eapply NS; eauto]. }
      inversion A as [kn Hn E1 E2|cols' N' D' E1 E2|r' B E1 E2|a' f' b' N' Na' If' E1 E2]; subst r.
      + rewrite E2. apply SAME; [congruence|exact NY].
      + exfalso. unfold names in *. assert (EC : w_known v1 = a ++ f :: b) by congruence. rewrite ?E2, EC in D'. apply NoDup_remove_2 in D'. apply D'. apply in_or_app. auto.
      + destruct (NB r' B).
      + unfold names in *. assert (E : a ++ f :: b = a' ++ f' :: b') by congruence. destruct (repeated_cut _ _ _ _ _ _ Na If Na' If' E) as [<- <-].
        subst y. fold (msg_repeated name f). unfold refusal. destruct (c_mode c) eqn:Em; cbn.
        * left. split; [reflexivity|]. destruct K as [[K1 K2]|(K1 & _)]; [|congruence]. intros X. apply in_app_or in X. destruct X as [X|[X|[]]]; [auto|discriminate].
        * left. split; [reflexivity|]. destruct K as [[K1 K2]|(K1 & _)]; [|congruence]. intros X. apply in_app_or in X. destruct X as [X|[X|[]]]; [auto|discriminate].
        * right. split; [reflexivity|]. split; [reflexivity|]. apply in_or_app. right. left. reflexivity. }
  intros v ks ys v' L K. apply (G v ks ys v' L []). left. split; [exact K|intros []].
Qed.
End K.

(** C34.  The header functions, after any covered history.  If a name is repeated, asking whether a name exists is refused;
    with throw_on_error just the first time, from then on the names before the repeated one are taken for the header. *)
Theorem C34_header_functions : forall c hc cap d data name h p v ks, fit c d -> enough cap -> header_setup c hc -> c_ignhdr c = false ->
  session c cap d data name h p v -> Forall call_ok ks -> covered c hc d name h v ks ->
  let q := later c hc cap p ks in let says k := fst (do_call c hc cap q k) in
  let is_in f cols := YBool (if in_dec (list_eq_dec ascii_dec) f cols then true else false) in
  says CRaw = YText h /\
  match split_obs hc sp_init d (c_string h) [] with
  | SFields cols => says CHeader = YNames cols /\
      (NoDup cols -> forall f, says (CField f) = is_in f cols) /\
      (forall a g b, cols = a ++ g :: b -> NoDup a -> In g a -> let msg := name ++ S2 ": header contains duplicate: " ++ g in forall f,
         (~ In (YThrown msg) (replies c hc cap p ks) -> says (CField f) = refusal c msg) /\
         (In (YThrown msg) (replies c hc cap p ks) -> c_mode c = EThrow /\ says (CField f) = is_in f a))
  | SErr m => c_mode c <> EThrow /\ says CHeader = YError (error_text c (msg_bad_header name m)) /\ forall f, says (CField f) = YError (error_text c (msg_bad_header name m))
  | SThrown m => c_mode c = EThrow /\ says CHeader = YThrown (msg_bad_header name m) /\ forall f, says (CField f) = YThrown (msg_bad_header name m)
  | SCrash => False
  end.
Proof.
  intros c hc cap d data name h p v ks F Hcap HS Hi SE W C q says is_in. destruct (session_sim c d name h cap data Hcap p v SE) as (S0 & _ & EK).
  destruct (covered_sim c hc d name h cap F Hcap HS (Z.of_nat (length data)) ks v p S0 W C) as (v' & L & S1). fold q in S1.
  assert (ST : forall k, (k = CRaw \/ k = CHeader \/ exists f, k = CField f) -> exists v'', does c hc d name h v' k (says k) v'').
  { intros k Hk. destruct (sim_step c hc d name h cap F HS Hcap _ v' q k S1) as [O|(y & v'' & p'' & D & E & _)].
    - destruct Hk as [->|[->|(f & ->)]]; exact Logic.I.
    - exfalso. inversion O; subst; try (destruct Hk as [Hk|[Hk|(? & Hk)]]; discriminate); congruence.
    - exists v''. unfold says. rewrite E. exact D. }
  split.
  { destruct (ST CRaw ltac:(auto)) as (v'' & D). inversion D; reflexivity. }
  destruct (ST CHeader ltac:(auto)) as (v'' & HD).
  assert (HD' : (exists cols, names hc d h cols /\ says CHeader = YNames cols) \/ bad_header c hc d name h (says CHeader)) by (remember (says CHeader) as y eqn:Ey; clear Ey; inversion HD; subst; eauto). clear HD v''.
  assert (FD : forall f, exists kn', (asks c hc d name h (w_known v') kn' None /\ says (CField f) = is_in f kn') \/ exists r, asks c hc d name h (w_known v') kn' (Some r) /\ says (CField f) = r).
  { intros f. destruct (ST (CField f) ltac:(eauto)) as (v3 & D). remember (says (CField f)) as y eqn:Ey; clear Ey. inversion D; subst; cbn [w_known]; eexists; [left|right]; eauto. }
  pose proof (sob_cases c hc d h (fit_cfg _ _ F) (fit_nul _ _ F) (fit_delim _ _ F) HS) as SC.
  destruct (split_obs hc sp_init d (c_string h) []) as [cols|m|m|] eqn:Es.
  - assert (NM : forall cols', names hc d h cols' -> cols' = cols) by (intros cols' X; unfold names in X; congruence).
    assert (NC : names hc d h cols) by exact Es.
    assert (NB : forall r, ~ bad_header c hc d name h r) by (intros r B; inversion B; congruence). split; [|split].
    + destruct HD' as [(cols' & N' & ->)|B]; [rewrite (NM _ N'); reflexivity|destruct (NB _ B)].
    + intros ND f. pose proof (known_ok c hc d name h cols NC ND _ _ _ _ L (or_introl EK)) as KN.
      destruct (FD f) as (kn' & [[A ->]|(r & A & ->)]).
      * assert (kn' = cols) as ->; [|reflexivity]. inversion A; subst; [destruct KN; congruence|apply NM; assumption].
      * exfalso. inversion A as [| |r' B E1 E2|a f' b N' Na If E1 E2]; subst; [destruct (NB _ B)|]. apply NM in N'. rewrite <- N' in ND. apply NoDup_remove_2 in ND. apply ND. apply in_or_app. auto.
    + intros a g b -> Na Ig msg f. fold (msg_repeated name g) in msg.
      assert (KEY : (w_known v' = [] -> says (CField f) = refusal c msg) /\ (w_known v' = a -> says (CField f) = is_in f a)).
      { assert (Ha : a <> []) by (intros ->; destruct Ig). split; intros KN; destruct (FD f) as (kn' & [[A E]|(r & A & E)]); rewrite KN in A; rewrite E; inversion A as [kn Hn E1 E2|cols' N' D' E1 E2|r' B E1 E2|a' f' b' N' Na' If' E1 E2]; subst; try congruence; try (destruct (NB _ B)).
        - exfalso. apply NM in N'. subst kn'. apply NoDup_remove_2 in D'. apply D'. apply in_or_app. auto.
        - apply NM in N'. destruct (repeated_cut _ _ _ _ _ _ Na' If' Na Ig N') as [_ ->]. reflexivity. }
      destruct (known_dup c hc d name h a g b NC Na Ig _ _ _ _ L EK) as [[K1 K2]|(K1 & K2 & K3)]; split; intros X; try contradiction; [apply KEY; exact K1|]. split; [exact K1|apply KEY; exact K2].
  - destruct SC as [(? & X)|[(? & X & Xm)|(? & X & _)]]; try congruence. split; [exact Xm|].
    assert (NA : forall cols, ~ names hc d h cols) by (intros cols N'; unfold names in N'; congruence).
    assert (BH : forall r, bad_header c hc d name h r -> r = YError (error_text c (msg_bad_header name m))) by (intros r B; inversion B; congruence).
    pose proof (known_bad c hc d name h NA _ _ _ _ L EK) as KN. split.
    + destruct HD' as [(cols' & N' & _)|B]; [destruct (NA _ N')|auto].
    + intros f. destruct (FD f) as (kn' & [[A ->]|(r & A & ->)]); rewrite KN in A; inversion A; subst; try congruence; try (exfalso; eapply NA; eassumption). auto.
  - destruct SC as [(? & X)|[(? & X & _)|(? & X & Xm)]]; try congruence. split; [exact Xm|].
    assert (NA : forall cols, ~ names hc d h cols) by (intros cols N'; unfold names in N'; congruence).
    assert (BH : forall r, bad_header c hc d name h r -> r = YThrown (msg_bad_header name m)) by (intros r B; inversion B; congruence).
    pose proof (known_bad c hc d name h NA _ _ _ _ L EK) as KN. split.
    + destruct HD' as [(cols' & N' & _)|B]; [destruct (NA _ N')|auto].
    + intros f. destruct (FD f) as (kn' & [[A ->]|(r & A & ->)]); rewrite KN in A; inversion A; subst; try congruence; try (exfalso; eapply NA; eassumption). auto.
  - destruct SC as [(? & X)|[(? & X & _)|(? & X & _)]]; congruence.
Qed.
Print Assumptions C34_header_functions.

(** With throw_on_error, a refused header is accepted when it is asked for again: header_ keeps the names before the
    repeated one. *)
Definition thrown_cfg : cfg := mkCfg None [] [] [] false 0 EThrow false false.
Theorem C34_asked_twice_refuted : exists p, opened thrown_cfg (fun _ need => need) (S2 ",") (S2 "a,b,a" ++ [LF] ++ S2 "1,2,3") (S2 "f") p /\
  replies thrown_cfg (header_cfg thrown_cfg) (fun _ need => need) p [CField (S2 "a"); CField (S2 "a"); CUse [S2 "b"]] =
    [YThrown (S2 "f: header contains duplicate: a"); YBool true; YDone].
Proof. eexists. split; [apply op_file; vm_compute; reflexivity|]. vm_compute. reflexivity. Qed.
Print Assumptions C34_asked_twice_refuted.
(** Every document has one header line. *)
Theorem C34_header_line : forall c data, exists h, header_line c data h /\ forall h', header_line c data h' -> h' = h.
Proof.
  intros c data. pose proof (skip_blanks c (lines data)) as B. pose proof (lines_physical data) as P.
  assert (U : forall h', header_line c data h' -> h' = first_line (snd (skip_blank (c_ignempty c) (lines data)))).
  { intros h' [ls j t e ls' P' B'|ls j P' B']; rewrite (blanks_lines c _ _ _ _ P' B'); reflexivity. }
  destruct (snd (skip_blank (c_ignempty c) (lines data))) as [|[t e] ls] eqn:E; eexists; (split; [|exact U]); [eapply hl_none|eapply hl_line]; eauto.
Qed.
Print Assumptions C34_header_line.
(** Where header() or field_exists() report an error they return no names, and false. *)
Theorem C34_nothing_on_error : forall c hc f p,
  (forall b q, field_exists c hc f p = Ok b q -> p_valid c q = false -> b = false) /\
  (forall ns q, header c hc p = Ok ns q -> p_valid c q = false -> ns = []).
Proof.
  intros c hc f p. split.
  - intros b q H V. unfold field_exists in H. unfold bind in H. destruct (p_clear_error p) as [u p1| | |]; try discriminate. cbn [get] in H.
    destruct ((match p_header p1 with [] => split_header_data c hc | _ => ret tt end) p1) as [u' p2| | |]; try discriminate.
    cbn [get] in H. destruct (p_valid c p2) eqn:Ev; cbn in H; injection H as <- <-; [congruence|reflexivity].
  - intros ns q H V. unfold header, bind in H. cbn in H. destruct (strict_split c hc (pset_err None p)) as [[sm|] p2| | |] eqn:E; try discriminate; [|injection H as <- _; reflexivity].
    exfalso. unfold texts_of in H. destruct (texts _ _); [|discriminate]. injection H as _ <-. revert V. enough (p2 = pset_err None p) as -> by (unfold p_valid, err_valid; destruct (c_mode c); cbn; discriminate).
    unfold strict_split in E. destruct (sp_split _ _ _ _) as [u [s m]| | |]; try discriminate. destruct (sp_valid hc s); [injection E as _ <-; reflexivity|].
    unfold p_error, bind in E. destruct (c_mode c); cbn in E; discriminate.
Qed.
Print Assumptions C34_nothing_on_error.
Definition nothing_cfg : cfg := mkCfg None [] [] [] false 0 EString false false.
Example C34_nothing_on_error_example :
  match parser_buffer nothing_cfg (fun _ need => need) (S2 ",") (Some (S2 "a,b,a" ++ [LF])) 6 with
  | Ok _ p => match field_exists nothing_cfg (header_cfg nothing_cfg) (S2 "a") p with Ok b q => (b, p_valid nothing_cfg q) | _ => (true, true) end
  | _ => (true, true)
  end = (false, false).
Proof. vm_compute. reflexivity. Qed.

(** *** C35 *)
Lemma reading_selected c d cols fs mp es out o : positions cols fs mp -> fs <> [] -> row_reading c d mp (length cols) es out o -> selected c d cols fs es out o.
Proof.
  intros P Hf R. assert (Lm : length mp = length fs) by (symmetry; eapply Forall2_length; exact P).
  assert (Hm : mp <> []) by (intros ->; destruct fs; [congruence|discriminate]).
  assert (SEL : forall xs ps, taken mp (length cols) xs ps -> length xs = length cols /\ Forall2 (fun f y => exists i, nth_error cols i = Some f /\ nth_error xs i = Some y) fs ps).
  { intros xs ps T. unfold taken in T. destruct mp as [|i0 mp0] eqn:Em; [congruence|]. rewrite <- Em in *. destruct T as [E T]. split; [congruence|].
    clear - P T. revert ps T. induction P as [|f i fs mp H P IH]; intros ps T; inversion T; subst; constructor; eauto. }
  inversion R as [w E1 E2|t msg Ht E1 E2|t xs o' Ht Hs Hc E1 E2|t msg msg' Ht Hs Ht2 Ht3 E1 E2]; subst; try (constructor; assumption).
  - inversion Hc as [ps vs T Le RO E|ps msg T Le RB E|Hm' _ E|_ Le E|_ Le Lx E]; subst; try congruence.
    + destruct (SEL _ _ T) as [Lx F2]. eapply sl_row; eauto; [rewrite Le; symmetry; eapply Forall2_length; exact F2|]. eapply cd_values; [reflexivity|exact Le|exact RO].
    + destruct (SEL _ _ T) as [Lx F2]. eapply sl_row; eauto; [rewrite Le; symmetry; eapply Forall2_length; exact F2|]. eapply cd_column; [reflexivity|exact Le|exact RB].
    + rewrite Lm in *. eapply sl_arguments; eauto.
    + eapply sl_count; eauto. congruence.
  - eapply sl_bad; eauto.
Qed.

Lemma good_selection name cols fs msg : selection cols fs -> ~ bad_selection name cols fs msg.
Proof.
  intros (SL1 & SL2 & SL3) B. inversion B as [E1 E2|fs0 fs1 f fs2 E1 E2 E3 E4 E5|fs0 fs1 f fs2 E1 E2 E3 E4 E5]; subst; [congruence| |].
  - rewrite (NoDup_count_occ' (list_eq_dec ascii_dec)) in SL2. unfold occurrences in E3. rewrite SL2 in E3; [lia|]. apply in_or_app. right. left. reflexivity.
  - apply E4. apply SL3. apply in_or_app. right. left. reflexivity.
Qed.
Lemma asks_ok c hc d name h cols kn kn' y : names hc d h cols -> NoDup cols -> kn = [] \/ kn = cols -> asks c hc d name h kn kn' y -> y = None /\ kn' = cols.
Proof.
  intros NA ND K A. unfold names in NA. inversion A as [k Hn E1 E2|cols' N' D' E1 E2|r' B E1 E2|a f b N' Na If E1 E2]; subst.
  - split; [reflexivity|]. destruct K; congruence.
  - unfold names in N'. split; congruence.
  - exfalso. inversion B; congruence.
  - exfalso. unfold names in N'. assert (cols = a ++ f :: b) as -> by congruence. apply NoDup_remove_2 in ND. apply ND. apply in_or_app. auto.
Qed.

(** A selection made at any time (before the end) concerns the rows from there on; before the first row, the header is
    skipped.  If no row is left, eof() is false until get_next was called. *)
Theorem C35_selection_at_any_time : forall c hc cap d data name h p v ks fs cols, fit c d -> enough cap -> header_setup c hc ->
  session c cap d data name h p v -> Forall call_ok ks -> covered c hc d name h v ks ->
  names hc d h cols -> NoDup cols -> selection cols fs ->
  let q := later c hc cap p ks in p_eof q = false ->
  exists v', leads c hc d name h v ks (replies c hc cap p ks) v' /\ (~ outside c hc d name h v' (CUse fs) ->
    let q' := snd (do_call c hc cap q (CUse fs)) in
    fst (do_call c hc cap q (CUse fs)) = YDone /\ p_eof q' = false /\
    exists L k, (if w_line v' =? 0 then exists t e ls j, w_lines v' = (t, e) :: ls /\ blanks c ls j L /\ k = S j else L = w_lines v' /\ k = w_line v') /\
    p_line q' = k /\
    forall its ess, document c d k L its -> Forall types ess -> forall i it es, nth_error its i = Some it -> nth_error ess i = Some es ->
    exists o sn, nth_error (reads c cap q' ess) i = Some sn /\
      selected c d cols fs es (it_out it) o /\ shown c name (it_line it) (it_next it) o (s_what sn) /\
      (s_eof sn = true <-> S i = length its) /\ s_line sn = it_next it).
Proof.
  intros c hc cap d data name h p v ks fs cols F Hcap HS SE W C NA ND SL q EF. destruct (session_sim c d name h cap data Hcap p v SE) as (S0 & _ & EK).
  destruct (covered_sim c hc d name h cap F Hcap HS (Z.of_nat (length data)) ks v p S0 W C) as (v' & L & S1). fold q in S1. exists v'. split; [exact L|]. intros NO.
  pose proof (known_ok c hc d name h cols NA ND _ _ _ _ L (or_introl EK)) as KN.
  assert (EO : w_over v' = false) by (destruct S1 as (_ & _ & _ & K); rewrite <- (placed_eof c d _ _ _ K); exact EF).
  destruct (sim_step c hc d name h cap F HS Hcap _ v' q (CUse fs) S1 Logic.I) as [O|(y & v'' & p'' & D & E & S2)]; [contradiction|]. rewrite E. cbn [fst snd]. cbv zeta.
  assert (G : forall mp L0 k, positions cols fs mp -> v'' = mkView k L0 false mp (length cols) cols -> p_eof p'' = false /\ p_line p'' = k /\
     forall its ess, document c d k L0 its -> Forall types ess -> forall i it es, nth_error its i = Some it -> nth_error ess i = Some es ->
    exists o sn, nth_error (reads c cap p'' ess) i = Some sn /\ selected c d cols fs es (it_out it) o /\ shown c name (it_line it) (it_next it) o (s_what sn) /\
      (s_eof sn = true <-> S i = length its) /\ s_line sn = it_next it).
  { intros mp L0 k P Ev. rewrite Ev in S2. destruct S2 as (A1 & _ & _ & A4). split; [exact (placed_eof c d _ _ _ A4)|]. unfold placed in A4. cbn [w_lines w_map w_ncols w_line w_over] in A4.
    destruct L0 as [|l0 L0]; [split; [destruct A4 as [A4 _]; unfold p_line; rewrite (gh_line _ _ _ _ _ _ A4); lia|intros its ess DC Wt i it es Hi He; inversion DC; subst; destruct i; discriminate]|]. destruct A4 as [_ A4].
    split; [exact (pstate_line c d _ _ _ _ _ _ A4)|]. intros its ess DC Wt i it es Hi He.
    destruct (reads_rows c d F cap Hcap ess _ _ _ _ _ _ _ A4 DC Wt i it es Hi He) as (o & sn & B1 & B2 & B3 & B4 & B5 & _).
    exists o, sn. split; [exact B1|]. split; [eapply reading_selected; [exact P|apply SL|exact B2]|]. rewrite A1 in B3. split; [exact B3|]. split; [rewrite B4, Nat.eqb_eq; reflexivity|exact B5]. }
  inversion D as [| | | | | | | | | | | | |k1 L1 o1 mp1 n1 kn kn' fs1 r A E1 E2 E3|k1 L1 o1 mp1 n1 kn kn' fs1 msg A B E1 E2 E3
    |t e ls mp0 n0 kn kn' fs1 mp j ls' A SL1 P B HL E1 E2 E3|k1 L1 o1 mp0 n0 kn kn' fs1 mp Hk A SL1 P E1 E2 E3]; rewrite <- E1 in *; cbn [w_over w_known w_line w_lines] in *; try rewrite EO in *; cbn [use_asks] in *.
  - exfalso. destruct (asks_ok _ _ _ _ _ _ _ _ _ NA ND KN A). discriminate.
  - exfalso. destruct (asks_ok _ _ _ _ _ _ _ _ _ NA ND KN A) as [_ ->]. eapply good_selection; eauto.
  - destruct (asks_ok _ _ _ _ _ _ _ _ _ NA ND KN A) as [_ ->]. destruct (G mp ls' (S j) P) as (G1 & G2 & G3); [congruence|]. split; [reflexivity|]. split; [exact G1|]. exists ls', (S j). split; [cbn; exists t, e, ls, j; auto|]. split; [exact G2|exact G3].
  - destruct (asks_ok _ _ _ _ _ _ _ _ _ NA ND KN A) as [_ ->]. assert (Hk' : k1 <> 0) by (destruct Hk; [assumption|discriminate]).
    destruct (G mp L1 k1 P) as (G1 & G2 & G3); [congruence|]. split; [reflexivity|]. split; [exact G1|]. exists L1, k1. rewrite (proj2 (Nat.eqb_neq k1 0) Hk'). split; [auto|]. split; [exact G2|exact G3].
Qed.
Print Assumptions C35_selection_at_any_time.

(** The usual case: use_fields first, perhaps after some queries.  The header is not delivered. *)
Definition query (k : call) : Prop := k = CRaw \/ k = CHeader \/ exists f, k = CField f.
Lemma queries_covered c hc d name h : c_ignhdr c = false -> forall ks v, Forall query ks -> covered c hc d name h v ks /\
  forall ys v', leads c hc d name h v ks ys v' -> w_line v' = w_line v /\ w_lines v' = w_lines v /\ w_over v' = w_over v.
Proof.
  intros Hi. induction ks as [|k ks IH]; intros v Q; [split; [exact Logic.I|intros ys v' L; inversion L; auto]|]. inversion Q as [|? ? Q1 Q2]; subst.
  assert (ST : forall y v', does c hc d name h v k y v' -> w_line v' = w_line v /\ w_lines v' = w_lines v /\ w_over v' = w_over v).
  { intros y v' D. destruct Q1 as [->|[->|(f & ->)]]; inversion D; subst; auto. }
  split.
  - split.
    + intros O. inversion O; subst; try (destruct Q1 as [Q1|[Q1|(? & Q1)]]; discriminate); congruence.
    + intros y v' D. apply (IH v' Q2).
  - intros ys v' L. inversion L as [|v0 k0 y v1 ks0 ys0 v2 D L']; subst. destruct (ST _ _ D) as (A1 & A2 & A3). destruct (proj2 (IH v1 Q2) _ _ L') as (B1 & B2 & B3). repeat split; congruence.
Qed.
Theorem C35_use_fields : forall c hc cap d data name p h e ls j L cols fs ks its, fit c d -> enough cap -> header_setup c hc -> c_ignhdr c = false ->
  opened c cap d data name p -> nuls_ok c data ->
  physical data ((h, e) :: ls) -> (c_ignempty c = true -> h <> []) -> blanks c ls j L -> L <> [] \/ j = 0 \/ ~ escapes_lines c -> document c d (S j) L its ->
  names hc d h cols -> NoDup cols -> selection cols fs -> Forall query ks ->
  let q := later c hc cap p ks in let q' := snd (do_call c hc cap q (CUse fs)) in
  fst (do_call c hc cap q (CUse fs)) = YDone /\ p_eof q' = false /\ p_line q' = S j /\
  forall ess, Forall types ess -> forall i it es, nth_error its i = Some it -> nth_error ess i = Some es ->
  exists o sn, nth_error (reads c cap q' ess) i = Some sn /\
    selected c d cols fs es (it_out it) o /\ shown c name (it_line it) (it_next it) o (s_what sn) /\
    (s_eof sn = true <-> S i = length its) /\ s_line sn = it_next it.
Proof.
  intros c hc cap d data name p h e ls j L cols fs ks its F Hcap HS Hi O N PH HE B HL DC NA ND SL Q q q'.
  assert (B0 : blanks c ((h, e) :: ls) 0 ((h, e) :: ls)) by (constructor; intros e0 ls0 HI X; injection X as X _ _; apply HE; auto).
  assert (SE : session c cap d data name h p (mkView 0 ((h, e) :: ls) false [] 0 [])).
  { apply (se c cap d data name h p 0 ((h, e) :: ls)); [exact O|exact N|eapply st_all; eauto|discriminate|eapply hl_line; eauto]. }
  destruct (queries_covered c hc d name h Hi ks (mkView 0 ((h, e) :: ls) false [] 0 []) Q) as [C1 C2].
  assert (W : Forall call_ok ks) by (eapply Forall_impl; [|exact Q]; intros k [->|[->|(f & ->)]]; exact Logic.I).
  assert (EF : p_eof q = false).
  { destruct (C44_covered_histories c hc cap d data name h p _ ks F Hcap HS SE W C1) as ((v1 & L1 & E1 & _) & _). fold q in E1. rewrite E1. destruct (C2 _ _ L1) as (_ & _ & ->). reflexivity. }
  destruct (C35_selection_at_any_time c hc cap d data name h p _ ks fs cols F Hcap HS SE W C1 NA ND SL EF) as (v' & LD & K). fold q in K. fold q' in K.
  destruct (C2 _ _ LD) as (V1 & V2 & V3). cbn [w_line w_lines w_over] in V1, V2, V3. destruct K as (K1 & K5 & L0 & k & K2 & K3 & K4).
  - destruct v' as [k0 L0 o0 mp n kn]. cbn in V1, V2, V3. subst k0 L0 o0. intros OU. inversion OU; subst; try congruence.
    match goal with H : blanks c ls _ [] |- _ => pose proof (blanks_fun c _ _ _ H) as X2 end. pose proof (blanks_fun c _ _ _ B) as X1.
    rewrite X1 in X2. injection X2 as -> ->. destruct HL as [X|[X|X]]; [congruence|discriminate|contradiction].
  - split; [exact K1|]. split; [exact K5|]. rewrite V1 in K2. cbn in K2. destruct K2 as (t0 & e0 & ls0 & j0 & X1 & X2 & ->). rewrite V2 in X1. injection X1 as <- <- <-.
    pose proof (blanks_fun c _ _ _ B) as Y1. rewrite (blanks_fun c _ _ _ X2) in Y1. injection Y1 as -> ->.
    split; [exact K3|]. intros ess Wt i it es Hit Hes. eapply K4; eauto.
Qed.
Print Assumptions C35_use_fields.
(** Not so if blank lines before the header were skipped (ignore_empty): line() is not 0 then, and the header is delivered as a row. *)
Definition blank_cfg : cfg := mkCfg None [] [] [] false 0 EString false true.
Theorem C35_leading_blanks_refuted : exists p, opened blank_cfg (fun _ need => need) (S2 ",") ([LF] ++ S2 "a,b" ++ [LF] ++ S2 "1,2") (S2 "f") p /\
  replies blank_cfg (header_cfg blank_cfg) (fun _ need => need) p [CUse [S2 "b"]; CGet [EVal TString]] = [YDone; YGet (GValues [VStr (S2 "b")])].
Proof. eexists. split; [apply op_file; vm_compute; reflexivity|]. vm_compute. reflexivity. Qed.
Print Assumptions C35_leading_blanks_refuted.

(** *** C36 *)
(** get_next looks at the name, the reader and eof only. *)
Definition same_core (p q : prs) : Prop := p_name q = p_name p /\ p_rdr q = p_rdr p /\ p_eof q = p_eof p.
Definition same_res (a b : res prs (list slot)) : Prop :=
  match a, b with
  | Ok x p, Ok y q => x = y /\ same_core p q /\ p_err p = p_err q
  | Throw m p, Throw m' q => m = m' /\ same_core p q
  | UB w, UB w' => w = w'
  | OutOfFuel, OutOfFuel => True
  | _, _ => False
  end.
Lemma get_next_same c cap es p q : same_core p q -> same_res (get_next c cap es p) (get_next c cap es q).
Proof.
  destruct p as [n e r hd raw f], q as [n' e' r' hd' raw' f']. intros (E1 & E2 & E3). cbn in E1, E2, E3. subst n' r' f'.
  assert (VT : forall v, c_mode c = EThrow -> cv_valid c v = true) by (intros v X; unfold cv_valid; rewrite X; reflexivity).
  unfold get_next, handle_error_invalid_conversion, read_line, decorate_rethrow, p_clear_error, p_error, pupd, catch, bind, get, ret, modify, throw, on_rdr, zoom, same_res, same_core.
  destruct (c_mode c) eqn:Em; destruct f; cbn -[parse update read_next on_conv cv_valid S2 dec];
  repeat first [ progress (rewrite VT by reflexivity; cbn -[parse update read_next on_conv cv_valid S2 dec])
    | match goal with |- context [match ?o with Ok _ _ => _ | Throw _ _ => _ | UB _ => _ | OutOfFuel => _ end] =>
        lazymatch o with context [match _ with _ => _ end] => fail | _ => destruct o end end; cbn -[parse update read_next on_conv cv_valid S2 dec]
    | match goal with |- context [cv_valid c ?v] => destruct (cv_valid c v) end; cbn -[parse update read_next on_conv cv_valid S2 dec]
    | match goal with |- context [p_name _ ++ _] => idtac end; cbn -[parse update read_next on_conv cv_valid S2 dec] ]; auto 10.
Qed.
Lemma reads_same c cap : forall ess p q, same_core p q -> reads c cap p ess = reads c cap q ess.
Proof.
  induction ess as [|es ess IH]; intros p q SC; [reflexivity|]. cbn [reads]. cbv zeta. pose proof (get_next_same c cap es p q SC) as K.
  assert (G : get_obs c (get_next c cap es p) = get_obs c (get_next c cap es q) /\ same_core (after p (get_next c cap es p)) (after q (get_next c cap es q))).
  { unfold same_res in K. destruct (get_next c cap es p), (get_next c cap es q); try contradiction; cbn.
    - destruct K as (-> & K1 & K2). unfold p_valid. rewrite K2. split; [reflexivity|exact K1].
    - destruct K as (-> & K1). auto.
    - auto.
    - auto. }
  destruct G as [G1 G2]. f_equal; [|apply IH; exact G2]. destruct G2 as (G2 & G3 & G4). unfold see, p_line, p_position. rewrite G1, G3, G4. reflexivity.
Qed.

(** use_fields after any covered history: it succeeds or is refused.  If it is refused, everything that is read later, and
    line(), position() and eof(), are as if it had not been called.  Before the end, it succeeds exactly for valid selections
    from a header without repetitions. *)
Theorem C36_no_effect_on_errors : forall c hc cap d data name h p v ks, fit c d -> enough cap -> header_setup c hc -> c_ignhdr c = false ->
  session c cap d data name h p v -> Forall call_ok ks -> covered c hc d name h v ks ->
  let q := later c hc cap p ks in
  forall fs, let '(y, q') := do_call c hc cap q (CUse fs) in
  (y = YDone \/
   ((exists m, y = refusal c m) /\ p_eof q' = p_eof q /\ p_line q' = p_line q /\ p_position q' = p_position q /\ forall ess, reads c cap q' ess = reads c cap q ess)) /\
  (p_eof q = false -> (forall cols g, names hc d h cols -> first_repeated cols g -> ~ In (YThrown (name ++ S2 ": header contains duplicate: " ++ g)) (replies c hc cap p ks)) ->
   (y = YDone <-> exists cols, names hc d h cols /\ NoDup cols /\ selection cols fs)).
Proof.
  intros c hc cap d data name h p v ks F Hcap HS Hi SE W C q fs. destruct (session_sim c d name h cap data Hcap p v SE) as (S0 & _ & EK).
  destruct (covered_sim c hc d name h cap F Hcap HS (Z.of_nat (length data)) ks v p S0 W C) as (v' & L & S1). fold q in S1.
  pose proof (sim_headed c d name h _ v' q Hi S1) as HH. pose proof S1 as (A1 & A2 & A3 & A4).
  destruct (use_spec c hc d name h cap (fit_cfg _ _ F) (fit_nul _ _ F) (fit_delim _ _ F) HS q fs HH) as (kn' & y0 & AS & K).
  assert (NRD : forall m, refusal c m <> YDone) by (intros m; unfold refusal; destruct (c_mode c); discriminate).
  rewrite A3 in AS.
  (* before the end, without an earlier exception for a repeated name *)
  assert (KN : p_eof q = false -> (forall cols g, names hc d h cols -> first_repeated cols g -> ~ In (YThrown (name ++ S2 ": header contains duplicate: " ++ g)) (replies c hc cap p ks)) ->
     (y0 = None -> names hc d h kn' /\ NoDup kn') /\ (forall cols, names hc d h cols -> NoDup cols -> y0 = None /\ kn' = cols)).
  { intros EF NR. rewrite EF in AS. cbn in AS. split.
    - intros ->. destruct (sob_cases c hc d h (fit_cfg _ _ F) (fit_nul _ _ F) (fit_delim _ _ F) HS) as [(cols & X)|HB].
      + destruct (dup_cases cols) as [ND|(f & R)].
        * destruct (asks_ok c hc d name h cols _ _ _ X ND (known_ok c hc d name h cols X ND _ _ _ _ L (or_introl EK)) AS) as [_ ->]. auto.
        * exfalso. pose proof (NR cols f X R) as NI. destruct R as [a f b Na If].
          destruct (known_dup c hc d name h a f b X Na If _ _ _ _ L EK) as [[K1 _]|(_ & _ & K3)]; [|exact (NI K3)].
          rewrite K1 in AS. inversion AS as [kn Hn E1 E2|cols' N' D' E1 E2|r' B E1 E2|a' f' b' N' Na' If' E1 E2]; [congruence|].
          unfold names in N', X. rewrite X in N'. assert (EC : kn' = a ++ f :: b) by congruence. rewrite EC in D'. apply NoDup_remove_2 in D'. apply D'. apply in_or_app. auto.
      + assert (NN : forall cols, ~ names hc d h cols) by (intros cols N'; unfold names in N'; destruct HB as [(? & X & _)|(? & X & _)]; congruence).
        exfalso. rewrite (known_bad c hc d name h NN _ _ _ _ L EK) in AS. inversion AS; [congruence|eapply NN; eauto].
    - intros cols NA ND. exact (asks_ok c hc d name h cols _ _ _ NA ND (known_ok c hc d name h cols NA ND _ _ _ _ L (or_introl EK)) AS). }
  destruct K as [(p' & E1 & E2 & E3 & K)|(-> & mp' & SL & P & E)].
  - unfold do_call. rewrite E1.
    assert (RF : exists m, answer c (fun _ => YDone) (use_fields c hc cap fs q) = refusal c m).
    { destruct y0 as [r|]; [|destruct K as (msg & _ & ->); eauto]. rewrite K. destruct (p_eof q); cbn in AS; [destruct AS; discriminate|].
      inversion AS as [| |r' B X1 X2|a f b N' Na If X1 X2]; [|eauto].
      unfold refusal. destruct B as [m Es|m Es];
      destruct (sob_cases c hc d h (fit_cfg _ _ F) (fit_nul _ _ F) (fit_delim _ _ F) HS) as [(? & X)|[(? & X & Xm)|(? & X & Xm)]]; try congruence.
      * exists (msg_bad_header name m). destruct (c_mode c); [reflexivity|reflexivity|congruence].
      * exists (msg_bad_header name m). rewrite Xm. reflexivity. }
    split.
    + right. split; [exact RF|]. assert (SC : same_core q p') by (rewrite E2; repeat split). pose proof SC as (C1 & C2 & C3). unfold p_line, p_position. rewrite C2, C3. repeat split; auto.
      intros ess. symmetry. apply reads_same. exact SC.
    + intros EF NR. destruct (KN EF NR) as [_ K2]. split; [intros X; destruct RF as (m & RF); rewrite RF in X; destruct (NRD m X)|].
      intros (cols & NA & ND & SL). exfalso. destruct (K2 cols NA ND) as [-> ->]. destruct K as (msg & B & _). eapply good_selection; eauto.
  - assert (PQ : exists b p', ignore_next c cap (mapped mp' (length kn') (pset_header kn' (pset_err None q))) = Ok b p' /\ p_err p' = None).
    { pose proof (rinv_mapped c d _ mp' (length kn') (placed_rinv c d _ _ _ A4) (positions_bound _ _ _ P)) as I.
      destruct (read_next_spec c d cap Hcap _ I) as (r' & ER & _). eexists _, _. split; [unfold ignore_next, on_rdr, zoom; cbn [p_rdr mapped pset_rdr pset_header pset_err]; rewrite ER; reflexivity|]. reflexivity. }
    destruct PQ as (b & p' & I1 & I2). unfold do_call.
    assert (ED : answer c (fun _ => YDone) (use_fields c hc cap fs q) = YDone).
    { rewrite E. destruct (p_line q =? 0); cbn [answer after].
      - unfold bind. rewrite I1. unfold ret. cbn [answer]. rewrite (valid_none c p' I2). reflexivity.
      - unfold ret. cbn [answer]. rewrite valid_none by reflexivity. reflexivity. }
    rewrite ED. split; [left; reflexivity|]. intros EF NR. destruct (KN EF NR) as [K1 _]. split; [|reflexivity]. intros _. exists kn'. destruct (K1 eq_refl). auto.
Qed.
Print Assumptions C36_no_effect_on_errors.
(** The message names the first name at fault. *)
Theorem C36_messages : forall c hc cap d data name h p v ks cols fs msg, fit c d -> enough cap -> header_setup c hc -> c_ignhdr c = false ->
  session c cap d data name h p v -> Forall call_ok ks -> covered c hc d name h v ks ->
  names hc d h cols -> NoDup cols -> bad_selection name cols fs msg -> p_eof (later c hc cap p ks) = false ->
  fst (do_call c hc cap (later c hc cap p ks) (CUse fs)) = refusal c msg.
Proof.
  intros c hc cap d data name h p v ks cols fs msg F Hcap HS Hi SE W C NA ND B He. destruct (session_sim c d name h cap data Hcap p v SE) as (S0 & _ & EK).
  destruct (covered_sim c hc d name h cap F Hcap HS (Z.of_nat (length data)) ks v p S0 W C) as (v' & L & S1). set (q := later c hc cap p ks) in *.
  pose proof (sim_headed c d name h _ v' q Hi S1) as HH. pose proof S1 as (A1 & A2 & A3 & A4).
  assert (DET : forall fs m1 m2, bad_selection name cols fs m1 -> bad_selection name cols fs m2 -> m1 = m2).
  { clear. intros fs m1 m2 B1 B2.
    assert (G : forall (a a2 : list str) (f g : str) b b2, a ++ f :: b = a2 ++ g :: b2 -> (exists l, a = a2 ++ g :: l) \/ (exists l, a2 = a ++ f :: l) \/ f = g).
    { clear. induction a as [|x a IH]; intros [|y a2] f g b b2 E; cbn in E; injection E as E0 E; subst; [auto|right; left; eexists; reflexivity|left; eexists; reflexivity|].
      destruct (IH _ _ _ _ _ E) as [(l & ->)|[(l & ->)| ->]]; [left; exists l; reflexivity|right; left; exists l; reflexivity|auto]. }
    assert (BADF : forall fs f, 1 < occurrences fs f \/ ~ In f cols -> ~ (In f cols /\ occurrences fs f = 1)) by (intros fs0 f0 [X|X] [Y Z]; [lia|contradiction]).
    assert (KEY : forall fs1 f fs2 gs1 g gs2, fs1 ++ f :: fs2 = gs1 ++ g :: gs2 -> Forall (fun x => In x cols /\ occurrences fs x = 1) fs1 -> Forall (fun x => In x cols /\ occurrences fs x = 1) gs1 ->
       (1 < occurrences fs f \/ ~ In f cols) -> (1 < occurrences fs g \/ ~ In g cols) -> f = g).
    { intros fs1 f fs2 gs1 g gs2 E H1 H2 H3 H4. destruct (G _ _ _ _ _ _ E) as [(l & ->)|[(l & ->)|X]]; [| |exact X]; exfalso.
      - rewrite Forall_app in H1. destruct H1 as [_ H1]. apply Forall_inv in H1. exact (BADF _ _ H4 H1).
      - rewrite Forall_app in H2. destruct H2 as [_ H2]. apply Forall_inv in H2. exact (BADF _ _ H3 H2). }
    inversion B1 as [X1 X2|fs0 fs1 f fs2 X1 X2 X3 X4 X5|fs0 fs1 f fs2 X1 X2 X3 X4 X5]; inversion B2 as [Y1 Y2|gs0 gs1 g gs2 Y1 Y2 Y3 Y4 Y5|gs0 gs1 g gs2 Y1 Y2 Y3 Y4 Y5]; try reflexivity;
      try (exfalso; rewrite <- ?X1, <- ?Y1 in *; destruct fs1; discriminate); try (exfalso; rewrite <- ?X1, <- ?Y1 in *; destruct gs1; discriminate).
    - assert (f = g) as -> by (eapply KEY; [rewrite <- X1; exact Y1|exact X2|exact Y2|auto|auto]). reflexivity.
    - assert (f = g) as -> by (eapply KEY; [rewrite <- X1; exact Y1|exact X2|exact Y2|auto|auto]). lia.
    - assert (f = g) as -> by (eapply KEY; [rewrite <- X1; exact Y1|exact X2|exact Y2|auto|auto]). lia.
    - assert (f = g) as -> by (eapply KEY; [rewrite <- X1; exact Y1|exact X2|exact Y2|auto|auto]). reflexivity. }
  destruct (use_spec c hc d name h cap (fit_cfg _ _ F) (fit_nul _ _ F) (fit_delim _ _ F) HS q fs HH) as (kn' & y0 & AS & K). rewrite He, A3 in AS. cbn in AS.
  destruct (asks_ok c hc d name h cols _ _ _ NA ND (known_ok c hc d name h cols NA ND _ _ _ _ L (or_introl EK)) AS) as [-> ->].
  destruct K as [(p' & E1 & E2 & E3 & msg' & B' & K)|(_ & mp' & SL & P & E)].
  - unfold do_call. cbn [fst]. rewrite K. rewrite (DET _ _ _ B B'). reflexivity.
  - exfalso. eapply good_selection; eauto.
Qed.
Print Assumptions C36_messages.
