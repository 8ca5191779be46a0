(** The property theorems of the splitter; restated in PropSplit.v. *)
From Verif Require Import Base Setup Splitter SplitPure ListFacts SetupProofs SplitSpec SplitRefine
  SplitSpecProofs SplitKeeps SplitModes RowSpec RowProofs SplitApi.

(** The grammar of SplitSpec.v for the dialect of a setup. *)
Definition reading (c : cfg) (d line : str) (vs : list str) : Prop :=
  reads_as (c_quote c) (c_escape c) (c_triml c) (c_trimr c) d any_char line vs.
Definition breaking (c : cfg) (d line : str) (k : break) : Prop :=
  breaks_as (c_quote c) (c_escape c) (c_triml c) (c_trimr c) d any_char line k.

(** The lines on which findings F1 and F2 do not show. *)
Definition regular (c : cfg) (line : str) : Prop :=
  never_adjacent (c_trimr c) (c_escape c) line /\ never_qeq (c_quote c) (c_escape c) line.

(** Message texts. *)
Definition names (k : break) (msg : str) : Prop :=
  match k with
  | UnterminatedQuote => msg = S2 "unterminated quote"
  | UnterminatedEscape => msg = S2 "unterminated escape at the end of the line"
  | MismatchedQuote => exists n, msg = S2 "mismatched quote at position: " ++ dec n
  end.

Definition is_error (o : sobs) : Prop := match o with SErr _ | SThrown _ => True | _ => False end.

Section T.
Context (os : list opt) (c : cfg) (Hs : setup os = Some c) (d : str) (Hd : nulfree d) (Hd0 : d <> []).
Let Hc : cfg_ok c := setup_ok os c Hs.

Theorem complete_thm s line rest vs : reach c s -> nulfree line ->
  never_adjacent (c_trimr c) (c_escape c) line -> reading c d line vs ->
  split_obs c s d line rest = SFields vs.
Proof.
  intros Hr HR Hn H. apply (reads_split c Hc d Hd Hd0); auto. apply reads_nte; auto.
Qed.

Lemma tail_cases line l t : regular c line -> psplit c d line = (l, t) ->
  match t with
  | TOk => reading c d line l
  | TFuel => False
  | _ => Forall (breaking c d line) (tail_breaks t)
  end.
Proof.
  intros [Hn Hq] E. pose proof (psplit_nofuel c d Hd0 line) as NF. rewrite E in NF.
  pose proof (fun k => proj2 (psplit_breaks c Hc d Hd0 line k Hn Hq)) as K. rewrite E in K. cbn [snd] in *.
  assert (F : Forall (breaking c d line) (tail_breaks t)).
  { apply Forall_forall. intros k Hk. apply brk_any, K; auto. }
  destruct t; try exact F; [|congruence].
  apply reads_any, psplit_sound; auto.
Qed.

Theorem sound_thm s line rest vs : reach c s -> nulfree line -> regular c line ->
  split_obs c s d line rest = SFields vs ->
  reading c d line vs \/
  c_ml c = true /\ (breaking c d line UnterminatedQuote \/ breaking c d line UnterminatedEscape).
Proof.
  intros Hr HR Hreg E.
  destruct (psplit c d line) as [l t] eqn:Ep.
  pose proof (tail_cases line l t Hreg Ep) as K.
  pose proof (split_obs_psplit c Hc d Hd Hd0 s line rest l t Hr HR Ep) as O.
  assert (F : forall m, match c_mode c with EBool => SErr [] | EString => SErr m | EThrow => SThrown m end <> SFields vs)
    by (intros m; destruct (c_mode c); discriminate).
  destruct t; cbn [report junk] in O; cbn [tail_breaks] in K.
  - left. rewrite O in E. injection E as <-. exact K.
  - right. apply Forall_inv in K. destruct (c_ml c); [auto|]. rewrite O in E. destruct (c_mode c); discriminate.
  - right. apply Forall_inv in K. destruct (c_ml c); [auto|]. rewrite O in E. destruct (c_mode c); discriminate.
  - right. apply Forall_inv in K. destruct (c_ml c); [auto|]. rewrite O in E. destruct (c_mode c); discriminate.
  - rewrite O in E. destruct (c_mode c); discriminate.
  - contradiction.
Qed.

Theorem malformed_thm s line rest : reach c s -> nulfree line -> regular c line ->
  (is_error (split_obs c s d line rest) <->
   exists k, breaking c d line k /\ (c_ml c = true -> k = MismatchedQuote)).
Proof.
  intros Hr HR Hreg.
  destruct (psplit c d line) as [l t] eqn:Ep.
  pose proof (tail_cases line l t Hreg Ep) as K.
  pose proof (split_obs_psplit c Hc d Hd Hd0 s line rest l t Hr HR Ep) as O.
  assert (B : forall k, breaking c d line k -> In k (tail_breaks t)).
  { intros k Hk. destruct Hreg as [Hn Hq]. apply brk_nte in Hk; auto. apply psplit_breaks in Hk; auto. rewrite Ep in Hk. exact Hk. }
  assert (IE : forall m m', is_error (match c_mode c with EBool => SErr [] | EString => SErr m | EThrow => SThrown m' end))
    by (intros; destruct (c_mode c); exact I).
  destruct t; cbn [report junk] in O; cbn [tail_breaks] in *.
  - rewrite O. split; [intros []|]. intros (k & Hk & _). destruct (B k Hk).
  - apply Forall_inv in K. destruct (c_ml c) eqn:Eml.
    + rewrite O. split; [intros []|]. intros (k & Hk & Hm). destruct (B k Hk) as [<-|[]]. discriminate (Hm eq_refl).
    + rewrite O. split; [|intros; apply IE]. intros _. exists UnterminatedEscape. split; [exact K|discriminate].
  - apply Forall_inv in K. destruct (c_ml c) eqn:Eml.
    + rewrite O. split; [intros []|]. intros (k & Hk & Hm). destruct (B k Hk) as [<-|[]]. discriminate (Hm eq_refl).
    + rewrite O. split; [|intros; apply IE]. intros _. exists UnterminatedEscape. split; [exact K|discriminate].
  - apply Forall_inv in K. destruct (c_ml c) eqn:Eml.
    + split.
      * pose proof (split_safe c Hc d Hd Hd0 s line rest Hr HR) as (s' & Z & HZ & G).
        pose proof (sp_split_spec c Hc d Hd Hd0 s 0 line rest (reach_resp _ _ Hr) HR) as Q. rewrite Ep in Q.
        unfold row_post in Q. cbn [fst snd report] in Q. rewrite Eml in Q.
        destruct Q as (s'' & m'' & E & _ & He). unfold split_obs, split_call. rewrite E. cbn [observe].
        assert (Hv : sp_valid c s'' = true).
        { unfold sp_valid. rewrite He. destruct (start_facts c 0 s) as (_ & _ & E3).
          destruct (c_mode c); cbn in *; auto; rewrite E3 by discriminate; reflexivity. }
        rewrite Hv. destruct (strings_of m'' (s_sd s'')); intros [].
      * intros (k & Hk & Hm). destruct (B k Hk) as [<-|[]]. discriminate (Hm eq_refl).
    + rewrite O. split; [|intros; apply IE]. intros _. exists UnterminatedQuote. split; [exact K|discriminate].
  - apply Forall_inv in K. rewrite O. split; [|intros; apply IE]. intros _. exists MismatchedQuote. split; [exact K|reflexivity].
  - contradiction.
Qed.

Theorem message_thm s line rest m : reach c s -> nulfree line -> regular c line -> c_mode c <> EBool ->
  split_obs c s d line rest = SErr m \/ split_obs c s d line rest = SThrown m ->
  exists k, breaking c d line k /\ names k m.
Proof.
  intros Hr HR Hreg Hmode E.
  destruct (psplit c d line) as [l t] eqn:Ep.
  pose proof (tail_cases line l t Hreg Ep) as K.
  pose proof (split_obs_psplit c Hc d Hd Hd0 s line rest l t Hr HR Ep) as O.
  assert (ME : forall m1, (split_obs c s d line rest =
     match c_mode c with EBool => SErr [] | EString => SErr m1 | EThrow => SThrown m1 end) -> m = m1).
  { intros m1 Em. rewrite Em in E. destruct (c_mode c); [congruence| |]; destruct E as [E|E]; congruence. }
  assert (IE : is_error (split_obs c s d line rest)) by (destruct E as [-> | ->]; exact I).
  destruct t; cbn [report junk] in O; cbn [tail_breaks] in *.
  - rewrite O in E. destruct E; discriminate.
  - apply Forall_inv in K. destruct (c_ml c); [rewrite O in E; destruct E; discriminate|].
    exists UnterminatedEscape. split; [exact K|]. exact (ME _ O).
  - apply Forall_inv in K. destruct (c_ml c); [rewrite O in E; destruct E; discriminate|].
    exists UnterminatedEscape. split; [exact K|]. exact (ME _ O).
  - destruct (c_ml c) eqn:Eml.
    { apply malformed_thm in IE; auto. destruct IE as (k & Hk & Hm).
      destruct Hreg as [Hn Hq]. apply brk_nte in Hk; auto. apply psplit_breaks in Hk; auto. rewrite Ep in Hk.
      destruct Hk as [<-|[]]. discriminate (Hm Eml). }
    apply Forall_inv in K. exists UnterminatedQuote. split; [exact K|]. exact (ME _ O).
  - destruct esc; cbn [andb] in O.
    + pose proof (Forall_inv_tail K) as K2. apply Forall_inv in K, K2. destruct (c_mode c) eqn:Em; [congruence| |].
      * exists MismatchedQuote. split; [exact K|]. exists pos. rewrite O in E. destruct E as [E|E]; [|discriminate]. injection E as <-. reflexivity.
      * rewrite O in E. destruct E as [E|E]; [discriminate|]. injection E as <-.
        destruct (c_ml c); cbn [negb]; [exists MismatchedQuote; split; [exact K|exists pos; reflexivity]|exists UnterminatedEscape; split; [exact K2|reflexivity]].
    + apply Forall_inv in K. exists MismatchedQuote. split; [exact K|]. exists pos. exact (ME _ O).
  - contradiction.
Qed.

(** Round trips. *)
Theorem padded_thm s rest d0 d' vs cells : d = d0 :: d' ->
  reach c s -> clean_delim (c_quote c) (c_escape c) (c_triml c) (c_trimr c) d0 ->
  vs <> [] -> Forall2 (padded (c_quote c) (c_escape c) (c_triml c) (c_trimr c) d0) vs cells ->
  nulfree (join d cells) ->
  split_obs c s d (join d cells) rest = SFields vs.
Proof.
  intros Ed Hr Hcl Hne F HR. apply (reads_split c Hc d Hd Hd0); auto. rewrite Ed in *.
  apply padded_reads; auto.
Qed.

Theorem cut_thm s line rest d0 d' fs : d = d0 :: d' ->
  reach c s -> nulfree line -> c_quote c = None -> c_escape c = [] ->
  ~ In d0 (c_triml c) -> ~ In d0 (c_trimr c) -> cut_at d line fs ->
  split_obs c s d line rest = SFields (map (fun f => rtrim (c_trimr c) (ltrim (c_triml c) f)) fs).
Proof.
  intros Ed Hr HR Hq He Hl Hrr Hcut. apply (reads_split c Hc d Hd Hd0); auto. rewrite Ed in *.
  apply cut_reads; auto.
Qed.

Theorem plain_thm s line rest fs : reach c s -> nulfree line ->
  c_quote c = None -> c_escape c = [] -> c_triml c = [] -> c_trimr c = [] ->
  (split_obs c s d line rest = SFields fs <-> cut_at d line fs).
Proof.
  intros Hr HR Hq He Hl Hrr.
  assert (Hid : forall fs, map (fun f => rtrim (c_trimr c) (ltrim (c_triml c) f)) fs = fs).
  { intros l. rewrite <- map_id. apply map_ext. intros f. rewrite Hl, Hrr. unfold rtrim.
    assert (Z : forall s, ltrim [] s = s) by (intros [|? ?]; reflexivity). rewrite !Z, rev_involutive. reflexivity. }
  destruct d as [|d0 d'] eqn:Ed; [congruence|].
  assert (Hcut : forall l, cut_at (d0 :: d') line l -> split_obs c s (d0 :: d') line rest = SFields l).
  { intros l Hl'. rewrite <- (Hid l). rewrite <- Ed in *. eapply cut_thm; eauto; rewrite ?Hl, ?Hrr; intros []. }
  split; [|apply Hcut]. intros E.
  destruct (cut_total (d0 :: d') Hd0 line) as (fs' & Hc'). rewrite (Hcut fs' Hc') in E. injection E as <-. exact Hc'.
Qed.

End T.

(** Quoting and escaping functions are ways of writing. *)
Lemma double_quotes_inside esc q v : Forall (fun x => ~ In x esc) v -> inside esc q v (double_quotes q v).
Proof.
  induction 1 as [|x v Hx F IH]; cbn; [constructor|].
  destruct (ascii_dec x q) as [->|n]; cbn; [apply in_double|apply in_char]; auto.
Qed.
Lemma escape_field_bare esc trimr d0 e special v : In e esc ->
  (forall x, In x esc \/ x = d0 \/ In x trimr -> In x special) ->
  bare esc trimr d0 v (escape_field e special v).
Proof.
  intros He Hs. induction v as [|x v IH]; cbn; [constructor|].
  destruct (in_dec ascii_dec x special) as [i|n]; cbn; [apply ba_escape; auto|].
  apply ba_char; [| | |exact IH]; intros Ht; try (exfalso; apply n, Hs; auto).
Qed.
Lemma join_nulfree d cells : nulfree d -> Forall nulfree cells -> nulfree (join d cells).
Proof.
  intros Hd F. induction F as [|x cells Hx F IH]; [exact nulfree_nil|].
  destruct F; [exact Hx|]. change (nulfree (x ++ d ++ join d (x0 :: l))). rewrite !nulfree_app. auto.
Qed.
Lemma quote_field_nulfree q v : q <> NUL -> nulfree v -> nulfree (quote_field q v).
Proof.
  intros Hq Hv. unfold quote_field. rewrite nulfree_cons, nulfree_app. split; [exact Hq|]. split.
  - unfold double_quotes, nulfree in *. rewrite in_flat_map. intros (x & Hx & Hi).
    destruct (ascii_dec x q) as [->|]; destruct Hi as [E|Hi]; try congruence.
    destruct Hi as [E|[]]; congruence. destruct Hi.
  - rewrite nulfree_cons; auto.
Qed.
Lemma escape_field_nulfree e sp v : e <> NUL -> nulfree v -> nulfree (escape_field e sp v).
Proof.
  intros He Hv. unfold escape_field, nulfree in *. rewrite in_flat_map. intros (x & Hx & Hi).
  destruct (in_dec ascii_dec x sp); cbn in Hi; intuition congruence.
Qed.

Theorem quoted_thm os c d0 d' s rest q vs :
  setup os = Some c -> nulfree (d0 :: d') -> reach c s ->
  c_quote c = Some q -> clean_delim (c_quote c) (c_escape c) (c_triml c) (c_trimr c) d0 ->
  vs <> [] -> Forall (fun v => nulfree v /\ forall x, In x v -> ~ In x (c_escape c)) vs ->
  split_obs c s (d0 :: d') (join (d0 :: d') (map (quote_field q) vs)) rest = SFields vs.
Proof.
  intros Hs Hd Hr Hq Hcl Hne F.
  eapply padded_thm; eauto; try discriminate.
  - clear Hne. induction F as [|v vs [Hv He] F IH]; constructor; auto.
    exists [], (quote_field q v), []. rewrite app_nil_r. repeat split; auto.
    apply wr_quoted; auto. apply double_quotes_inside. apply Forall_forall. exact He.
  - apply join_nulfree; [exact Hd|]. rewrite Forall_map. eapply Forall_impl; [|exact F].
    intros v [Hv _]. apply quote_field_nulfree; auto. intros ->. exact (ok_nul_q c (setup_ok _ _ Hs) Hq).
Qed.

Theorem escaped_thm os c d0 d' s rest e special vs :
  setup os = Some c -> nulfree (d0 :: d') -> reach c s ->
  In e (c_escape c) -> clean_delim (c_quote c) (c_escape c) (c_triml c) (c_trimr c) d0 ->
  (forall x, c_quote c = Some x \/ In x (c_escape c) \/ In x (c_triml c) \/ In x (c_trimr c) \/ x = d0 -> In x special) ->
  vs <> [] -> Forall nulfree vs ->
  split_obs c s (d0 :: d') (join (d0 :: d') (map (escape_field e special) vs)) rest = SFields vs.
Proof.
  intros Hs Hd Hr He Hcl Hsp Hne F. pose proof (setup_ok _ _ Hs) as Hc.
  assert (Heq : c_quote c <> Some e).
  { intros E. apply (ok_qe c Hc e He). unfold quote_list. rewrite E. left; reflexivity. }
  eapply padded_thm; eauto; try discriminate.
  - clear Hne. induction F as [|v vs Hv F IH]; constructor; auto.
    exists [], (escape_field e special v), []. rewrite app_nil_r. repeat split; auto.
    apply wr_bare; [apply escape_field_bare; auto; intros x [H|[H|H]]; apply Hsp; auto|].
    intros x Hx. destruct v as [|y v]; [discriminate|]. cbn in Hx.
    destruct (in_dec ascii_dec y special) as [i|n]; cbn in Hx; injection Hx as <-.
    + split; [exact Heq|]. intros Hl. exact (ok_el c Hc e He Hl).
    + split; [intros E; apply n, Hsp; auto|intros Hl; apply n, Hsp; auto].
  - apply join_nulfree; [exact Hd|]. rewrite Forall_map. eapply Forall_impl; [|exact F].
    intros v Hv. apply escape_field_nulfree; auto. intros ->. exact (ok_nul_e c Hc He).
Qed.

(** Empty delimiter. *)
Lemma split_empty_delim c s line rest :
  exists s' , (split_call c s [] line rest = Ok tt (s', map Some line ++ Some NUL :: rest) /\ s_sd s' = []
     \/ split_call c s [] line rest = Throw msg_empty_delimiter (s', map Some line ++ Some NUL :: rest))
    /\ is_error (split_obs c s [] line rest).
Proof.
  unfold split_obs, split_call, sp_split, split_impl_select_delim, sp_clear_error, sp_error, bind, upd, modify, throw.
  cbn [fst snd]. destruct (c_mode c) eqn:Em; cbn [set_error]; eexists; (split; [eauto|]); cbn; unfold sp_valid; rewrite ?Em; cbn; exact I.
Qed.
Theorem safe_thm os c d s line rest : setup os = Some c -> nulfree d -> nulfree line -> reach c s ->
  exists s' Z, length Z = length line /\
    (split_call c s d line rest = Ok tt (s', Z ++ Some NUL :: rest) /\
       Forall (fun r => fst r <= snd r /\ snd r <= length line) (s_sd s')
     \/ exists e, split_call c s d line rest = Throw e (s', Z ++ Some NUL :: rest)).
Proof.
  intros Hs Hd HR Hr. destruct d as [|d0 d'].
  - destruct (split_empty_delim c s line rest) as (s' & [[E Es]|E] & _).
    + exists s', (map Some line). split; [apply map_length|]. left. split; [exact E|]. rewrite Es. constructor.
    + exists s', (map Some line). split; [apply map_length|]. right. eauto.
  - exact (split_safe c (setup_ok _ _ Hs) (d0 :: d') Hd ltac:(discriminate) s line rest Hr HR).
Qed.

(** Modes. *)
Theorem modes_thm os c d m1 m2 s1 s2 line rest : setup os = Some c -> nulfree d -> d <> [] -> nulfree line ->
  reach (with_mode m1 c) s1 -> reach (with_mode m2 c) s2 ->
  (~ is_error (split_obs (with_mode m1 c) s1 d line rest) /\
     split_call (with_mode m1 c) s1 d line rest = split_call (with_mode m2 c) s2 d line rest) \/
  (is_error (split_obs (with_mode m1 c) s1 d line rest) /\ is_error (split_obs (with_mode m2 c) s2 d line rest)).
Proof.
  intros Hs Hd Hd0 HR R1 R2. pose proof (setup_ok _ _ Hs) as Hc.
  destruct (psplit c d line) as [l t] eqn:Ep.
  destruct (report c t) as [[m mt]|] eqn:Er.
  - right.
    pose proof (split_obs_psplit (with_mode m1 c) (cfg_ok_mode _ _ Hc) d Hd Hd0 s1 line rest l t R1 HR Ep) as O1.
    pose proof (split_obs_psplit (with_mode m2 c) (cfg_ok_mode _ _ Hc) d Hd Hd0 s2 line rest l t R2 HR Ep) as O2.
    rewrite report_mode, Er in O1, O2. rewrite O1, O2. destruct m1, m2; split; exact I.
  - left. split.
    + pose proof (sp_split_spec (with_mode m1 c) (cfg_ok_mode _ _ Hc) d Hd Hd0 s1 0 line rest (reach_resp _ _ R1) HR) as Q.
      rewrite psplit_mode, Ep in Q. unfold row_post in Q. cbn [fst snd] in Q. rewrite report_mode, Er in Q.
      destruct Q as (s'' & m'' & E & _ & He). unfold split_obs, split_call. rewrite E. cbn [observe].
      assert (Hv : sp_valid (with_mode m1 c) s'' = true).
      { unfold sp_valid. rewrite He. destruct (start_facts (with_mode m1 c) 0 s1) as (_ & _ & E3).
        destruct m1; cbn in *; auto; rewrite E3 by discriminate; reflexivity. }
      rewrite Hv. destruct (strings_of m'' (s_sd s'')); intros [].
    + apply modes_accept; auto. rewrite Ep. exact Er.
Qed.
Theorem mode_messages_thm os c d s1 s2 line rest m m' : setup os = Some c -> nulfree d -> d <> [] -> nulfree line ->
  reach (with_mode EString c) s1 -> reach (with_mode EThrow c) s2 ->
  split_obs (with_mode EString c) s1 d line rest = SErr m ->
  split_obs (with_mode EThrow c) s2 d line rest = SThrown m' ->
  m = m' \/ names MismatchedQuote m /\ names UnterminatedEscape m'.
Proof.
  intros Hs Hd Hd0 HR R1 R2 E1 E2. pose proof (setup_ok _ _ Hs) as Hc.
  destruct (psplit c d line) as [l t] eqn:Ep.
  pose proof (split_obs_psplit (with_mode EString c) (cfg_ok_mode _ _ Hc) d Hd Hd0 s1 line rest l t R1 HR Ep) as O1.
  pose proof (split_obs_psplit (with_mode EThrow c) (cfg_ok_mode _ _ Hc) d Hd Hd0 s2 line rest l t R2 HR Ep) as O2.
  assert (D : report c t = None \/ exists x y, report c t = Some (x, y)) by (destruct (report c t) as [[x y]|]; eauto).
  destruct D as [D|(x & y & D)].
  - destruct (modes_thm os c d EString EThrow s1 s2 line rest Hs Hd Hd0 HR R1 R2) as [[H _]|[_ _]].
    { rewrite E1 in H. destruct (H I). }
    pose proof (modes_accept c Hc d Hd Hd0 EString EThrow s1 s2 line rest R1 R2 HR) as A. rewrite Ep in A. specialize (A D).
    unfold split_obs in E1, E2. rewrite A in E1. destruct (split_call _ _ _ _ _) as [u [sx mx]|e sx|w|]; cbn in E1, E2; try discriminate.
    destruct (strings_of _ _); discriminate.
  - rewrite report_mode, D in O1, O2. cbn in O1, O2. rewrite O1 in E1. rewrite O2 in E2. injection E1 as <-. injection E2 as <-.
    destruct t; cbn in D; try discriminate; try (destruct (c_ml c); [discriminate|injection D as <- <-; left; reflexivity]).
    destruct (esc && negb (c_ml c)); injection D as <- <-; [right|left; reflexivity].
    split; [exists pos; reflexivity|reflexivity].
Qed.

(** Nothing is written without quote and escape. *)
Theorem const_thm os c d s line rest : setup os = Some c -> nulfree d -> nulfree line -> reach c s ->
  c_quote c = None -> c_escape c = [] ->
  exists s', split_call c s d line rest = Ok tt (s', map Some line ++ Some NUL :: rest)
     \/ exists e, split_call c s d line rest = Throw e (s', map Some line ++ Some NUL :: rest).
Proof.
  intros Hs Hd HR Hr Hq He. destruct (safe_thm os c d s line rest Hs Hd HR Hr) as (s' & Z & _ & K).
  assert (Hcl : is_const_line c = true) by (unfold is_const_line, quote_enabled, escape_enabled; rewrite Hq, He; reflexivity).
  pose proof (split_const_line c 0 d s (map Some line ++ Some NUL :: rest) Hcl) as C. fold (split_call c s d line rest) in C.
  exists s'. destruct K as [[E _]|[e E]]; rewrite E in C; rewrite E, C; eauto.
Qed.

Theorem history_thm os c d s1 s2 line rest : setup os = Some c -> d <> [] -> reach c s1 -> reach c s2 ->
  split_call c s1 d line rest = split_call c s2 d line rest.
Proof. intros _ Hd R1 R2. apply split_call_history; auto. Qed.
