(** Sequences of calls of get_next. *)
From Verif Require Import Base Setup Splitter SplitPure ListFacts SplitApi Extract Converter ConvSpec ConvProofs Reader LineSpec LineProofs GetLineProofs ReaderBase ReaderInv ReaderEscape ReaderParse Parser ParserSpec ParserApi ParserInv ParserRows ParserOpen.

Lemma told_obs c name k1 k2 o res p p' : told c name k1 k2 o res p' -> shown c name k1 k2 o (get_obs c res) /\ after p res = p'.
Proof.
  unfold told, shown. destruct o as [vs|m].
  - intros [-> E]. cbn. unfold p_valid. rewrite E, given_some. destruct (c_mode c); auto.
  - destruct (c_mode c) eqn:Em.
    + intros (xs & -> & E). cbn. unfold p_valid. rewrite E, Em. cbn. auto.
    + intros (xs & -> & E). cbn. unfold p_valid. rewrite E, Em. cbn. auto.
    + intros ->. cbn. auto.
Qed.

Section S.
Context (c : cfg) (d : str) (F : fit c d) (cap : nat -> nat -> nat) (Hcap : enough cap).

Lemma document_gather k t e ls its : tame c t -> lines_wf e ls -> Forall (fun l => tame c (fst l)) ls ->
  document c d k ((t, e) :: ls) its -> let g := gather c d ls 0 t t e in
  let L' := snd (skip_blank (c_ignempty c) (g_more g)) in let j := fst (skip_blank (c_ignempty c) (g_more g)) in
  exists its', its = mkItem (g_out g) (k + S (g_n g)) (k + S (g_n g) + j) L' :: its' /\ document c d (k + S (g_n g) + j) L' its'.
Proof.
  intros HT HW HN D g L' j. pose proof (gather_row c (fit_cfg _ _ F) d (fit_nul _ _ F) (fit_delim _ _ F) ls 0 t t e HT HW HN) as R. cbv zeta in R. fold g in R.
  inversion D as [|k0 t0 e0 ls0 out m rest j0 ls' its0 R0 B0 D0]; subst.
  destruct (row_fun _ _ _ _ _ _ _ _ _ _ R _ _ _ R0) as (E1 & E2 & E3). pose proof (blanks_fun _ _ _ _ B0) as EB.
  unfold L', j. rewrite E3, EB. cbn [fst snd]. rewrite E1, E2. eauto.
Qed.

(** One call, against the items of the document. *)
Theorem step_doc mp nc total p L k it its es : pstate c d mp nc total p L k -> document c d k L (it :: its) -> types es ->
  exists o p', row_reading c d mp nc es (it_out it) o /\
    told c (p_name p) (it_line it) (it_next it) o (get_next c cap es p) p' /\
    pstate c d mp nc total p' (it_rest it) (it_next it) /\ document c d (it_next it) (it_rest it) its /\
    p_name p' = p_name p /\ p_header p' = p_header p /\ p_raw p' = p_raw p /\
    (it_rest it = [] -> match it_out it with Complete _ | Incomplete TooManyLines => p_position p' = total | _ => True end) /\
    (match it_out it with Complete T => (exists m, o = inr m) /\ c_mode c = EThrow \/ remembers c d mp nc p' (Complete T) | _ => True end) /\
    (c_mode c <> EThrow -> v_err (r_conv (p_rdr p')) = kept_error c o).
Proof.
  intros PS D [W Hes]. destruct L as [|[t e] ls]; [inversion D|].
  assert (K : tame c t /\ lines_wf e ls /\ Forall (fun l => tame c (fst l)) ls).
  { destruct PS as [I _ _ _ (He & Hv & U & HB & HL & HT & HN & _)]. split; [exact HT|]. rewrite <- HL. split; [eapply wf_bufline; exact HB|apply lines_tame; exact HN]. }
  destruct K as (HT & HW & HN). destruct (document_gather _ _ _ _ _ HT HW HN D) as (its' & Ei & D').
  destruct (step c (fit_cfg _ _ F) d (fit_nul _ _ F) (fit_delim _ _ F) (fit_clean_ok _ _ F) cap Hcap mp nc total p t e ls k es PS W Hes) as (o & p' & A1 & A2 & A3 & A4 & A5 & A6 & A7 & A8 & A9).
  injection Ei as -> ->. cbn [it_out it_line it_next it_rest]. exists o, p'. auto 10.
Qed.

Lemma document_rest k L it its : document c d k L (it :: its) -> document c d (it_next it) (it_rest it) its.
Proof. intros D. inversion D; subst. cbn. assumption. Qed.
Lemma document_nil k L its : document c d k L its -> (L = [] <-> its = []).
Proof. intros D. inversion D; subst; split; congruence. Qed.

Lemma pstate_eof mp nc total p L k : pstate c d mp nc total p L k -> (p_eof p = true <-> L = []).
Proof. intros [_ _ _ _ K]. destruct L as [|[t e] ls]; destruct K as (-> & _); split; congruence. Qed.
Lemma pstate_line mp nc total p L k : pstate c d mp nc total p L k -> p_line p = k.
Proof. intros [_ _ _ K _]. unfold p_line. lia. Qed.
Lemma pstate_pos mp nc total p L k : pstate c d mp nc total p L k -> L <> [] -> p_position p = (total - Z.of_nat (bytes L))%Z.
Proof. intros [_ _ _ _ K] HL. destruct L as [|[t e] ls]; [congruence|]. apply K. Qed.

(** After the calls [ess], what the [i]-th call showed. *)
Theorem reads_rows : forall ess mp nc total p L k its, pstate c d mp nc total p L k -> document c d k L its -> Forall types ess ->
  forall i it es, nth_error its i = Some it -> nth_error ess i = Some es ->
  exists o sn, nth_error (reads c cap p ess) i = Some sn /\ row_reading c d mp nc es (it_out it) o /\
    shown c (p_name p) (it_line it) (it_next it) o (s_what sn) /\
    s_eof sn = (S i =? length its) /\ s_line sn = it_next it /\
    (it_rest it <> [] \/ it_out it <> Incomplete EscapeAtEnd /\ it_out it <> Incomplete QuoteAtEnd -> s_pos sn = (total - Z.of_nat (bytes (it_rest it)))%Z).
Proof.
  induction ess as [|es0 ess IH]; intros mp nc total p L k its PS D W i it es Hi He; [destruct i; discriminate|].
  inversion W as [|? ? W1 W2]; subst. destruct its as [|it0 its]; [destruct i; discriminate|].
  destruct (step_doc _ _ _ _ _ _ _ _ _ PS D W1) as (o & p' & A1 & A2 & A3 & A4 & A5 & A6 & A7 & A8 & A9).
  destruct (told_obs _ _ _ _ _ _ p _ A2) as [B1 B2]. cbn [reads]. cbv zeta. rewrite B2.
  destruct i as [|i].
  - injection Hi as <-. injection He as <-. eexists o, _. split; [reflexivity|]. split; [exact A1|]. split; [exact B1|]. cbn [see s_eof s_line s_pos].
    split.
    { pose proof (pstate_eof _ _ _ _ _ _ A3) as E. rewrite (document_nil _ _ _ A4) in E. cbn [length].
      destruct its as [|x its]; [apply E; reflexivity|]. cbn. destruct (p_eof p'); [|reflexivity]. destruct E as [E _]. discriminate E. reflexivity. }
    split; [exact (pstate_line _ _ _ _ _ _ A3)|]. intros K.
    destruct (it_rest it0) as [|l ls] eqn:Er.
    + cbn. rewrite Z.sub_0_r. specialize (A8 eq_refl). destruct K as [K|[K1 K2]]; [congruence|].
      destruct (it_out it0) as [T|[]]; try congruence; exact A8.
    + eapply pstate_pos; [exact A3|discriminate].
  - destruct (IH _ _ _ _ _ _ _ A3 A4 W2 i it es Hi He) as (o' & sn & C1 & C2 & C3 & C4 & C5). rewrite A5 in C3.
    exists o', sn. split; [exact C1|]. split; [exact C2|]. split; [exact C3|]. split; [exact C4|exact C5].
Qed.

(** The state after delivering some rows. *)
Definition ahead (mp : list nat) (nc : nat) (data : str) (p : prs) (its : list item) : Prop :=
  exists L k, pstate c d mp nc (Z.of_nat (length data)) p L k /\ document c d k L its.

(** ** At the end *)
Definition pend (p : prs) : Prop := rinv c d (p_rdr p) /\ p_eof p = true /\ unread (p_rdr p) = [].


Lemma pend_next p es : pend p ->
  exists p', after p (get_next c cap es p) = p' /\ pend p' /\ p_name p' = p_name p /\ p_header p' = p_header p /\ p_raw p' = p_raw p /\
   match c_mode c with
   | EThrow => get_obs c (get_next c cap es p) = GThrown (msg_eof p)
   | EBool => get_obs c (get_next c cap es p) = GError []
   | EString => exists m, get_obs c (get_next c cap es p) = GError m /\ (v_err (r_nconv (p_rdr p)) = None -> m = msg_eof p)
   end.
Proof.
  intros (I & He & HU). set (r := p_rdr p) in *.
  pose proof (rinv_swapped _ _ _ I) as I2.
  destruct (read_next_spec c d cap Hcap (swapped r) I2) as (r' & E & I' & ST & NC & LN & REST).
  change (unread (swapped r)) with (unread r) in *. rewrite HU in *. rewrite lines_nil in *. cbn [skip_blank fst snd] in *.
  remember (get_next c cap es p) as g eqn:Eg. unfold get_next in Eg. unfold bind at 1, get at 1 in Eg. rewrite He in Eg.
  unfold bind at 1, ret at 1 in Eg. unfold bind at 1 in Eg. unfold on_rdr at 1, zoom at 1 in Eg. fold r in Eg. rewrite update_eq in Eg.
  unfold bind at 1, get at 1 in Eg. cbn [p_rdr pset_rdr p_eof] in Eg. rewrite He in Eg.
  assert (PE : forall e, pend (pset_err e (pset_rdr (swapped r) p))).
  { intros e. split; [exact I2|]. split; [exact He|exact HU]. }
  destruct (cv_valid c (r_conv (swapped r))) eqn:Ev; cbn [negb] in Eg.
  - assert (Eg' : g = match c_mode c with
        | EThrow => Throw (msg_eof p) (pset_err None (pset_rdr (swapped r) p))
        | EString => Ok (defaults es) (pset_err (Some (msg_eof p)) (pset_rdr (swapped r) p))
        | EBool => Ok (defaults es) (pset_err (Some []) (pset_rdr (swapped r) p)) end).
    { rewrite Eg. unfold p_clear_error, p_error, pupd, bind, modify, get, throw, ret, msg_eof. destruct (c_mode c); cbn -[S2]; try reflexivity.
      destruct (p_name p ++ S2 ": read on end of file") eqn:X; [|reflexivity]. exfalso. destruct (p_name p); discriminate X. }
    rewrite Eg'. destruct (c_mode c) eqn:Em.
    + eexists. split; [reflexivity|]. split; [apply PE|]. do 3 (split; [reflexivity|]). cbn. unfold p_valid. rewrite Em. reflexivity.
    + eexists. split; [reflexivity|]. split; [apply PE|]. do 3 (split; [reflexivity|]). exists (msg_eof p). split; [|auto]. cbn. unfold p_valid. rewrite Em. reflexivity.
    + eexists. split; [reflexivity|]. split; [apply PE|]. do 3 (split; [reflexivity|]). reflexivity.
  - assert (Em : c_mode c <> EThrow) by (intros Em; unfold cv_valid in Ev; rewrite Em in Ev; discriminate).
    assert (VE : v_err (r_nconv r) <> None).
    { intros X. unfold cv_valid, err_valid in Ev. change (r_conv (swapped r)) with (r_nconv r) in Ev. rewrite X in Ev. destruct (c_mode c); discriminate. }
    assert (PE' : forall q, p_rdr q = swapped r -> p_eof q = true -> read_line c cap q = Ok tt (pset_eof true (pset_rdr r' q))).
    { intros q Hq _. rewrite (read_line_eq c cap q false r'); [reflexivity|]. rewrite Hq. exact E. }
    assert (PN : forall q, pend (pset_eof true (pset_rdr r' q))) by (intros q; split; [exact I'|split; [reflexivity|apply REST]]).
    unfold handle_error_invalid_conversion in Eg. unfold bind at 1 2, get at 1 in Eg.
    destruct (c_mode c) eqn:Em'; [| |congruence].
    + unfold pupd, modify in Eg. unfold bind at 1 in Eg. rewrite PE' in Eg by auto. unfold ret in Eg. rewrite Eg.
      eexists. split; [reflexivity|]. split; [apply PN|]. do 3 (split; [reflexivity|]). cbn. unfold p_valid. rewrite Em'. reflexivity.
    + unfold pupd, modify in Eg. unfold bind at 1 in Eg. rewrite PE' in Eg by auto. unfold ret in Eg. rewrite Eg.
      eexists. split; [reflexivity|]. split; [apply PN|]. do 3 (split; [reflexivity|]). eexists. split; [|intros X; congruence].
      cbn -[S2 dec]. unfold p_valid. rewrite Em'. reflexivity.
Qed.

Lemma reads_end : forall ess p, pend p -> Forall (fun sn => s_eof sn = true /\ (forall vs, s_what sn <> GValues vs) /\ s_what sn <> GCrash) (reads c cap p ess).
Proof.
  induction ess as [|es ess IH]; intros p P; [constructor|]. cbn [reads]. cbv zeta.
  destruct (pend_next p es P) as (p' & E & P' & _ & _ & _ & K). rewrite E. constructor; [|apply IH; exact P'].
  cbn [see s_eof s_what]. split; [apply P'|]. destruct (c_mode c); [|destruct K as (m & K & _)|]; rewrite K; split; congruence.
Qed.

(** The state after as many calls as there are rows. *)
Fixpoint last_state (p : prs) (ess : list (list elem)) : prs :=
  match ess with [] => p | es :: ess' => last_state (after p (get_next c cap es p)) ess' end.
Lemma reads_split : forall es1 p es2, reads c cap p (es1 ++ es2) = reads c cap p es1 ++ reads c cap (last_state p es1) es2.
Proof. induction es1 as [|e es1 IH]; intros p es2; [reflexivity|]. cbn [reads app last_state]. cbv zeta. rewrite IH. reflexivity. Qed.
Lemma reads_length : forall ess p, length (reads c cap p ess) = length ess.
Proof. induction ess as [|e ess IH]; intros p; [reflexivity|]. cbn [reads length]. cbv zeta. cbn [length]. rewrite IH. reflexivity. Qed.

Lemma last_state_rows : forall ess mp nc total p L k its, pstate c d mp nc total p L k -> document c d k L its -> Forall types ess ->
  length ess <= length its -> exists L' k', pstate c d mp nc total (last_state p ess) L' k' /\ document c d k' L' (skipn (length ess) its) /\ p_name (last_state p ess) = p_name p.
Proof.
  induction ess as [|es0 ess IH]; intros mp nc total p L k its PS D W Hn; [cbn; eauto|].
  inversion W as [|? ? W1 W2]; subst. destruct its as [|it0 its]; [cbn in Hn; lia|].
  destruct (step_doc _ _ _ _ _ _ _ _ _ PS D W1) as (o & p' & A1 & A2 & A3 & A4 & A5 & A6).
  destruct (told_obs _ _ _ _ _ _ p _ A2) as [B1 B2]. cbn [last_state length skipn]. rewrite B2.
  destruct (IH _ _ _ _ _ _ _ A3 A4 W2) as (L' & k' & C1 & C2 & C3); [cbn in Hn; lia|]. exists L', k'. split; [exact C1|]. split; [exact C2|congruence].
Qed.
Lemma pstate_pend mp nc total p k : pstate c d mp nc total p [] k -> pend p /\ v_err (r_nconv (p_rdr p)) = None.
Proof. intros [I _ _ _ (A & B & C)]. split; [split; auto|exact C]. Qed.
Lemma pstate_shape mp nc total p t e ls k : pstate c d mp nc total p ((t, e) :: ls) k -> tame c t /\ lines_wf e ls /\ Forall (fun l => tame c (fst l)) ls.
Proof.
  intros [I _ _ _ (He & Hv & U & HB & HL & HT & HN & _)]. split; [exact HT|]. rewrite <- HL. split; [eapply wf_bufline; exact HB|apply lines_tame; exact HN].
Qed.
End S.

(** ** The rows of a document exist *)
Section E.
Context (c : cfg) (d : str) (F : fit c d).

Lemma skip_suffix ie : forall ls, exists a, ls = a ++ snd (skip_blank ie ls).
Proof.
  induction ls as [|[t e] ls (a & IH)]; [exists []; reflexivity|]. cbn. destruct (ie && _); [|exists []; reflexivity].
  destruct (skip_blank ie ls). cbn in *. exists ((t, e) :: a). rewrite IH. reflexivity.
Qed.
Lemma gather_suffix : forall more n T last e, exists a, more = a ++ g_more (gather c d more n T last e).
Proof.
  induction more as [|[t e] more IH]; intros n T last e0; cbn [gather].
  - repeat (match goal with |- context [if ?b then _ else _] => destruct b end; cbn [g_more]); exists []; reflexivity.
  - destruct (IH (S n) (T ++ e0 ++ t) t e) as (a & E).
    repeat (match goal with |- context [if ?b then _ else _] => destruct b end; cbn [g_more]); first [exists []; reflexivity|exists ((t, e) :: a); cbn; rewrite <- E; reflexivity].
Qed.
Lemma lines_wf_app : forall a e t e' ls, lines_wf e (a ++ (t, e') :: ls) -> lines_wf e' ls.
Proof. induction a as [|[t0 e0] a IH]; intros e t e' ls H; cbn in H; [apply H|]. eapply IH. apply H. Qed.

Definition fine (L : list (str * str)) : Prop := match L with [] => True | (t, e) :: ls => tame c t /\ lines_wf e ls /\ Forall (fun l => tame c (fst l)) ls end.
Lemma fine_suffix : forall a L, fine (a ++ L) -> fine L.
Proof.
  intros [|[t e] a] L H; [exact H|]. destruct H as (H1 & H2 & H3). destruct L as [|[t' e'] ls]; [exact Logic.I|].
  rewrite Forall_app in H3. destruct H3 as [_ H3]. inversion H3; subst. split; [assumption|]. split; [eapply lines_wf_app; exact H2|assumption].
Qed.
Lemma document_exists_n : forall n L k, length L < n -> fine L -> exists its, document c d k L its.
Proof.
  induction n as [|n IH]; intros L k Hn H; [lia|]. destruct L as [|[t e] ls]; [exists []; constructor|].
  destruct H as (H1 & H2 & H3). pose proof (gather_row c (fit_cfg _ _ F) d (fit_nul _ _ F) (fit_delim _ _ F) ls 0 t t e H1 H2 H3) as R. cbv zeta in R.
  set (g := gather c d ls 0 t t e) in *. destruct (gather_suffix ls 0 t t e) as (a & Ea). fold g in Ea. destruct (skip_suffix (c_ignempty c) (g_more g)) as (b & Eb).
  pose proof (skip_blanks c (g_more g)) as B.
  destruct (IH (snd (skip_blank (c_ignempty c) (g_more g))) (k + S (g_n g) + fst (skip_blank (c_ignempty c) (g_more g)))) as (its & D).
  - apply (f_equal (@length _)) in Ea, Eb. rewrite app_length in Ea, Eb. cbn in Hn. lia.
  - apply (fine_suffix ((t, e) :: a ++ b)). cbn [app]. rewrite <- app_assoc, <- Eb, <- Ea. cbn. auto.
  - eexists. eapply doc_row; eauto.
Qed.
Lemma fine_lines data : nuls_ok c data -> fine (lines data).
Proof.
  intros N. destruct (lines data) as [|[t e] ls] eqn:E; [exact Logic.I|]. pose proof (lines_tame c _ N) as X. rewrite E in X. inversion X; subst.
  split; [assumption|]. split; [eapply wf_lines; exact E|assumption].
Qed.
(** With ignore_header: if there is a first line. *)
Theorem rows_exist data : nuls_ok c data -> (c_ignhdr c = true -> exists x, In x data /\ x <> LF /\ x <> CR) -> exists its, rows_of c d data its.
Proof.
  intros N Hh. pose proof (fine_lines data N) as FL. pose proof (skip_blanks c (lines data)) as B.
  destruct (skip_suffix (c_ignempty c) (lines data)) as (a & Ea). rewrite Ea in FL. apply fine_suffix in FL.
  destruct (c_ignhdr c) eqn:Eh.
  - destruct (snd (skip_blank (c_ignempty c) (lines data))) as [|[t e] ls] eqn:El.
    + exfalso. destruct (Hh eq_refl) as (x & Hx & X1 & X2).
      assert (K : Forall (fun l => fst l = [] /\ (snd l = [] \/ snd l = [LF] \/ snd l = [CR; LF])) (lines data)).
      { clear Ea. assert (G : forall ls, snd (skip_blank (c_ignempty c) ls) = [] -> Forall (fun l : str * str => fst l = []) ls).
        { induction ls as [|[t e] ls IH]; intros G; [constructor|]. cbn in G. destruct t; [|rewrite andb_false_r in G; discriminate].
          destruct (c_ignempty c); [|discriminate]. cbn in G. destruct (skip_blank true ls). cbn in *. constructor; auto. }
        specialize (G _ El). pose proof (lines_physical data) as P. revert G. clear - P. induction P as [|t H1 H2|t rest ls H1 H2 P IH|t rest ls H1 P IH]; intros G; [constructor| | |];
        inversion G; subst; constructor; cbn; auto. }
      assert (X : data = concat (map (fun l => fst l ++ snd l) (lines data))).
      { pose proof (lines_physical data) as P. clear - P. induction P as [|t H1 H2|t rest ls H1 H2 P IH|t rest ls H1 P IH]; cbn.
        - reflexivity.
        - rewrite !app_nil_r. reflexivity.
        - rewrite IH at 1. rewrite <- app_assoc. reflexivity.
        - rewrite IH at 1. rewrite <- app_assoc. reflexivity. }
      rewrite X in Hx. apply in_concat in Hx. destruct Hx as (l & Hl & Hx). apply in_map_iff in Hl. destruct Hl as ([t e] & <- & Hl).
      rewrite Forall_forall in K. specialize (K _ Hl). cbn in *. destruct K as [-> [->|[->| ->]]]; cbn in Hx; intuition congruence.
    + pose proof (skip_blanks c ls) as B2. destruct (skip_suffix (c_ignempty c) ls) as (b & Eb).
      destruct (document_exists_n (S (length (snd (skip_blank (c_ignempty c) ls)))) (snd (skip_blank (c_ignempty c) ls)) (fst (skip_blank (c_ignempty c) (lines data)) + S (fst (skip_blank (c_ignempty c) ls)))) as (its & D); [lia| |].
      { apply (fine_suffix ((t, e) :: b)). cbn [app]. rewrite <- Eb. exact FL. }
      exists its. do 2 eexists. split; [|exact D]. eapply st_header; [exact Eh|apply lines_physical|exact B|exact B2].
  - destruct (document_exists_n (S (length (snd (skip_blank (c_ignempty c) (lines data))))) (snd (skip_blank (c_ignempty c) (lines data))) (fst (skip_blank (c_ignempty c) (lines data)))) as (its & D); [lia|exact FL|].
    exists its. do 2 eexists. split; [|exact D]. eapply st_all; [exact Eh|apply lines_physical|exact B].
Qed.
End E.
