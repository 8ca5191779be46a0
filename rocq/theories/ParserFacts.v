(** Facts about rows and documents, and about what is shown of a row. *)
From Verif Require Import Base Setup Splitter SplitPure ListFacts SplitApi Extract Converter ConvSpec ConvProofs Reader LineSpec LineProofs GetLineProofs ReaderBase ReaderInv ReaderEscape ReaderParse Parser ParserSpec ParserApi ParserInv ParserRows ParserOpen ParserSession.

Lemma alike_refl g : g <> GCrash -> alike g g.
Proof. destruct g; cbn; auto; congruence. Qed.

Section F.
Context (c : cfg) (d : str).

(** What converting a row gives is determined (messages up to numbers, but for an empty row). *)
Lemma reading_det mp n es out o1 o2 : row_reading c d mp n es out o1 -> row_reading c d mp n es out o2 ->
  match o1, o2 with
  | inl a, inl b => a = b
  | inr m1, inr m2 => ~ empty_row out -> same_text m1 m2 /\ (c_ml c = false -> m1 = m2)
  | _, _ => False
  end.
Proof.
  intros A B. inversion A as [w E1 E2|t msg Ht E1 E2|t cols o Ht Hs Hcv E1 E2|t msg msg' Ht Hs Hm Hm3 E1 E2]; subst.
  - inversion B; subst. intros _. split; reflexivity.
  - inversion B as [w E1 E2|t2 msg2 Ht2 E1 E2|t0 cols o Ht0 Hs Hcv E1 E2|t0 msg2 msg' Ht0 Hs Hm Hm3 E1 E2]; subst; try congruence. intros X. exfalso. apply X. exists t. auto.
  - inversion B as [w E1 E2|t2 msg2 Ht2 E1 E2|t' cols' o' Ht' Hs' Hcv' E1 E2|t' msg2 msg' Ht' Hs' Hm' Hm3' E1 E2]; subst; try congruence.
    + assert (cols' = cols) as -> by congruence. rewrite (converted_fun _ _ _ _ _ _ Hcv Hcv'). destruct o2; auto. intros _; split; reflexivity.
    + destruct Hs'; congruence.
  - inversion B as [w E1 E2|t2 msg2 Ht2 E1 E2|t' cols' o' Ht' Hs' Hcv' E1 E2|t' msg2 msg2' Ht' Hs' Hm' Hm3' E1 E2]; subst; try congruence.
    + destruct Hs; congruence.
    + intros _. unfold same_text in *. split; [destruct Hs, Hs'; congruence|]. intros X. rewrite <- (Hm3 X), <- (Hm3' X). destruct Hs, Hs'; congruence.
Qed.
Lemma shown_alike name1 name2 k1 k2 k3 k4 mp n es out o1 o2 g1 g2 : row_reading c d mp n es out o1 -> row_reading c d mp n es out o2 ->
  shown c name1 k1 k2 o1 g1 -> shown c name2 k3 k4 o2 g2 -> alike g1 g2.
Proof.
  intros A B S1 S2. pose proof (reading_det _ _ _ _ _ _ A B) as D. unfold shown, alike in *. destruct o1, o2; try contradiction.
  - rewrite S1, S2. exact D.
  - destruct (c_mode c); rewrite S1, S2; exact Logic.I.
Qed.
Lemma shown_not_crash name k1 k2 o g : shown c name k1 k2 o g -> g <> GCrash.
Proof. unfold shown. destruct o; [congruence|]. destruct (c_mode c); congruence. Qed.

(** The outcomes do not depend on the line numbers. *)
Lemma document_outs : forall k L its, document c d k L its -> forall k' its', document c d k' L its' ->
  map (fun it => (it_out it, it_rest it)) its = map (fun it => (it_out it, it_rest it)) its'.
Proof.
  induction 1 as [k|k t e ls out m rest j ls' its R B D IH]; intros k' its' H; inversion H as [|k0 t0 e0 ls0 out0 m0 rest0 j0 ls0' its0 R0 B0 D0]; subst; [reflexivity|].
  destruct (row_fun _ _ _ _ _ _ _ _ _ _ R _ _ _ R0) as (<- & <- & <-).
  pose proof (blanks_fun _ _ _ _ B) as X. rewrite (blanks_fun _ _ _ _ B0) in X. injection X as -> ->. cbn [map it_out it_rest]. f_equal. eapply IH. exact D0.
Qed.

(** Lines are used up in order. *)
Lemma row_lines n t last e more out m rest : row c d n t last e more out m rest -> exists used, more = used ++ rest /\ n + length used = m.
Proof.
  induction 1 as [n T last e more N|n T last e w t e' more out m rest G A R (used & -> & E)|n T last e w more G A|n T last e G A|n T last e G A];
    try (exists []; cbn; split; [reflexivity|lia]).
  exists ((t, e') :: used). split; [reflexivity|]. cbn. lia.
Qed.
Lemma blanks_used ls j ls' : blanks c ls j ls' -> exists used, ls = used ++ ls' /\ length used = j /\ Forall (fun l => fst l = []) used.
Proof.
  induction 1 as [ls N|e ls j ls' H B (used & -> & E & K)]; [exists []; auto|]. exists (([], e) :: used). cbn. auto.
Qed.
Lemma document_lines : forall k L its, document c d k L its -> forall i it, nth_error its i = Some it ->
  exists used, L = used ++ it_rest it /\ it_next it = k + length used.
Proof.
  induction 1 as [k|k t e ls out m rest j ls' its R B D IH]; intros i it Hi; [destruct i; discriminate|].
  destruct (row_lines _ _ _ _ _ _ _ _ R) as (u1 & -> & E1). destruct (blanks_used _ _ _ B) as (u2 & -> & E2 & _).
  destruct i as [|i].
  - injection Hi as <-. cbn. exists ((t, e) :: u1 ++ u2). split; [cbn; rewrite <- app_assoc; reflexivity|]. cbn. rewrite app_length. lia.
  - destruct (IH i it Hi) as (u3 & -> & E3). exists ((t, e) :: u1 ++ u2 ++ u3). split; [cbn; rewrite <- !app_assoc; reflexivity|]. cbn. rewrite !app_length. lia.
Qed.
(** Only the last item has nothing after it. *)
Lemma document_last : forall k L its, document c d k L its -> forall i it, nth_error its i = Some it -> (it_rest it = [] <-> S i = length its).
Proof.
  induction 1 as [k|k t e ls out m rest j ls' its R B D IH]; intros i it Hi; [destruct i; discriminate|].
  destruct i as [|i].
  - injection Hi as <-. cbn [it_rest length]. inversion D; subst; cbn; split; try discriminate; auto.
  - cbn [length]. rewrite (IH i it Hi). lia.
Qed.
Lemma starts_lines data k L : starts c data k L -> exists used, lines data = used ++ L /\ k = length used.
Proof.
  intros H. inversion H as [ls j ls' Hh P B|ls j t e ls1 j' ls' Hh P B B']; subst; pose proof (physical_unique _ _ P _ (lines_physical data)) as ->.
  - destruct (blanks_used _ _ _ B) as (u & E & E2 & _). exists u. auto.
  - destruct (blanks_used _ _ _ B) as (u & E & E2 & _). destruct (blanks_used _ _ _ B') as (u' & E' & E2' & _).
    exists (u ++ (t, e) :: u'). rewrite <- app_assoc. cbn [app]. rewrite <- E'. split; [exact E|]. rewrite app_length. cbn. lia.
Qed.

(** The lines of a text may be cut anywhere between them. *)
Lemma lines_app_inv : forall data used L, lines data = used ++ L -> exists a b, data = a ++ b /\ lines b = L /\ (L <> [] -> lines a = used) /\ (L = [] -> b = []) /\
  length a = bytes used.
Proof.
  intros data. remember (length data) as n eqn:En. revert data En. induction n as [n IH] using (well_founded_induction lt_wf). intros data En used L H.
  destruct used as [|[t e] used].
  - exists [], data. cbn in H. split; [reflexivity|]. split; [exact H|]. split; [reflexivity|]. split; [|reflexivity]. intros ->. destruct data; [reflexivity|]. rewrite lines_cons in H by discriminate. discriminate.
  - assert (Hne : data <> []) by (intros ->; discriminate). rewrite (lines_cons data Hne) in H. cbn in H. injection H as Hc H.
    pose proof (cut_line_len data Hne) as Hlt. rewrite <- En in Hlt. destruct (IH _ Hlt (snd (cut_line data)) eq_refl used L H) as (a & b & E1 & E2 & E3 & E4 & E5).
    exists (fst (cut_line data) ++ a), b. split; [rewrite <- app_assoc, <- E1; symmetry; apply cut_line_app|]. split; [exact E2|]. split.
    + intros HL. pose proof (E3 HL) as E3'.
      assert (NE : fst (cut_line data) ++ a <> []) by (intros X; apply app_eq_nil in X; apply (cut_line_ne data Hne); apply X).
      assert (CL : cut_line (fst (cut_line data) ++ a) = (fst (cut_line data), a)).
      { destruct (cut_line_shape data) as (t0 & Ht0 & [[K1 K2]|K1]).
        - exfalso. rewrite K2 in H. rewrite lines_nil in H. destruct used; [|discriminate]. cbn in H. congruence.
        - rewrite K1. clear -Ht0. induction t0 as [|x t0 IH]; cbn; [reflexivity|]. destruct (Ascii.eqb x LF) eqn:E.
          + apply Ascii.eqb_eq in E. exfalso. apply Ht0. left. exact E.
          + cbn in IH. rewrite IH; [reflexivity|]. intros X. apply Ht0. right. exact X. }
      rewrite (lines_cons _ NE), CL. cbn [fst snd]. rewrite E3', Hc. reflexivity.
    + split; [exact E4|]. rewrite bytes_cons, app_length, E5. f_equal. rewrite <- (chomp_app (fst (cut_line data))), Hc. reflexivity.
Qed.

(** Without multiline every line is a row. *)
Lemma row_single n t last e more out m rest : c_ml c = false -> row c d n t last e more out m rest -> out = Complete t /\ m = n /\ rest = more.
Proof.
  intros Hm H. assert (N : forall w, ~ goes_on c d t last w) by (intros w G; inversion G; congruence).
  inversion H; subst; auto; exfalso; eapply N; eassumption.
Qed.
Definition blank (l : str * str) : bool := match fst l with [] => true | _ => false end.
Definition counted (ls : list (str * str)) : list (str * str) := if c_ignempty c then filter (fun l => negb (blank l)) ls else ls.
Lemma counted_blanks ls j ls' : blanks c ls j ls' -> counted ls = counted ls'.
Proof.
  induction 1 as [ls N|e ls j ls' H B IH]; [reflexivity|]. rewrite <- IH. unfold counted. rewrite H. reflexivity.
Qed.
Lemma blanks_head ls j t e ls' : blanks c ls j ((t, e) :: ls') -> c_ignempty c = true -> t <> [].
Proof.
  intros H. remember ((t, e) :: ls') as L eqn:E. induction H as [ls N|e0 ls j L H B IH]; [|auto]. intros Hi ->. subst. eapply N; eauto.
Qed.
Lemma document_single : c_ml c = false -> forall k L its, document c d k L its -> (forall t e ls, L = (t, e) :: ls -> c_ignempty c = true -> t <> []) ->
  map it_out its = map (fun l => Complete (fst l)) (counted L).
Proof.
  intros Hm. induction 1 as [k|k t e ls out m rest j ls' its R B D IH]; intros HL.
  - unfold counted. destruct (c_ignempty c); reflexivity.
  - destruct (row_single _ _ _ _ _ _ _ _ Hm R) as (-> & -> & ->). cbn [map it_out]. rewrite IH, <- (counted_blanks _ _ _ B).
    + unfold counted. destruct (c_ignempty c) eqn:Ei; [|reflexivity]. cbn. specialize (HL t e ls eq_refl eq_refl). destruct t; [congruence|reflexivity].
    + intros t' e' ls0 -> Hi. eapply blanks_head; eauto.
Qed.
(** Rows that cannot span lines: their texts and line numbers do not depend on the line ends. *)
Lemma blanks_texts ls j ls' : blanks c ls j ls' -> forall ms i ms', blanks c ms i ms' -> map fst ls = map fst ms -> j = i /\ map fst ls' = map fst ms'.
Proof.
  induction 1 as [ls N|e ls j ls' Hi B IH]; intros ms i ms' B2 E; inversion B2 as [? N2|e2 ? ? ? Hi2 B3]; subst; auto.
  - destruct ls as [|[t e] ls]; [discriminate|]. cbn in E. injection E as -> E. exfalso. eapply N; eauto.
  - destruct ms' as [|[t e0] ms]; [discriminate|]. cbn in E. injection E as <- E. exfalso. eapply N2; eauto.
  - cbn in E. injection E as E. destruct (IH _ _ _ B3 E) as [<- X]. auto.
Qed.
Lemma document_texts : c_ml c = false -> forall k L its, document c d k L its -> forall M its', document c d k M its' -> map fst L = map fst M ->
  map (fun it => (it_out it, it_line it, it_next it)) its = map (fun it => (it_out it, it_line it, it_next it)) its'.
Proof.
  intros Hm. induction 1 as [k|k t e ls out m rest j ls' its R B D IH]; intros M its' D' E.
  - destruct M; [|discriminate]. inversion D'; reflexivity.
  - destruct M as [|[t1 e1] M]; [discriminate|]. cbn in E. injection E as <- E. inversion D' as [|? ? ? ? out1 m1 rest1 j1 ls1 its1 R1 B1 D1]; subst.
    destruct (row_single _ _ _ _ _ _ _ _ Hm R) as (-> & -> & ->). destruct (row_single _ _ _ _ _ _ _ _ Hm R1) as (-> & -> & ->).
    destruct (blanks_texts _ _ _ B _ _ _ B1 E) as [<- E']. cbn [map it_out it_line it_next]. f_equal. eapply IH; eauto.
Qed.
Lemma starts_texts data1 ls1 data2 ls2 k1 L1 k2 L2 : physical data1 ls1 -> physical data2 ls2 -> map fst ls1 = map fst ls2 ->
  starts c data1 k1 L1 -> starts c data2 k2 L2 -> k1 = k2 /\ map fst L1 = map fst L2.
Proof.
  intros P1 P2 E S1 S2. destruct S1 as [l1 j1 L1 H1 Q1 B1|l1 j1 t1 e1 m1 i1 L1 H1 Q1 A1 B1], S2 as [l2 j2 L2 H2 Q2 B2|l2 j2 t2 e2 m2 i2 L2 H2 Q2 A2 B2]; try congruence;
    rewrite (physical_unique _ _ P1 _ Q1), (physical_unique _ _ P2 _ Q2) in E.
  - apply (blanks_texts _ _ _ B1 _ _ _ B2 E).
  - destruct (blanks_texts _ _ _ A1 _ _ _ A2 E) as [<- E']. cbn in E'. injection E' as _ E'. destruct (blanks_texts _ _ _ B1 _ _ _ B2 E') as [<- E'']. auto.
Qed.
Lemma document_nonempty : c_ignempty c = true -> forall k L its, document c d k L its -> (forall t e ls, L = (t, e) :: ls -> t <> []) ->
  Forall (fun it => it_out it <> Complete []) its.
Proof.
  intros Hi. induction 1 as [k|k t e ls out m rest j ls' its R B D IH]; intros HL; constructor.
  - cbn. specialize (HL t e ls eq_refl). clear - R HL.
    assert (G : forall n T last e more out m rest, row c d n T last e more out m rest -> T <> [] -> out <> Complete []).
    { induction 1; intros HT; try congruence; auto. apply IHrow. intros X. apply app_eq_nil in X. apply HT, X. }
    eapply G; eauto.
  - apply IH. intros t' e' ls0 ->. eapply blanks_head; eauto.
Qed.

(** ** The multiline limit *)
Lemma row_limit_le n t last e more out m rest : row c d n t last e more out m rest -> 0 < c_mlsize c -> n <= c_mlsize c ->
  m <= c_mlsize c /\ (out = Incomplete TooManyLines -> m = c_mlsize c).
Proof.
  induction 1 as [n T last e more N|n T last e w t e' more out m rest G A R IH|n T last e w more G A|n T last e G A|n T last e G A]; intros Hl Hn.
  - split; [auto|discriminate].
  - apply IH; auto. destruct A; lia.
  - split; [auto|]. intros _. unfold may_add in A. lia.
  - split; [auto|discriminate].
  - split; [auto|discriminate].
Qed.
Lemma row_no_limit n t last e more out m rest : row c d n t last e more out m rest -> c_mlsize c = 0 -> out <> Incomplete TooManyLines.
Proof. induction 1 as [n T last e more N|n T last e w t e' more out m rest G A R IH|n T last e w more G A|n T last e G A|n T last e G A]; intros Hl; try discriminate; auto. exfalso. apply A. left. exact Hl. Qed.
End F.

Lemma goes_on_limit c d n t last w : goes_on (with_limit n c) d t last w <-> goes_on c d t last w.
Proof. split; intros H; (inversion H; [apply go_escape|apply go_quote]); assumption. Qed.
Lemma blanks_limit c n ls j ls' : blanks (with_limit n c) ls j ls' <-> blanks c ls j ls'.
Proof. split; (induction 1; [apply bl_none|apply bl_skip]; assumption). Qed.

(** A row with and without limit. *)
Lemma row_with_limit c d N : c_mlsize c = 0 -> 0 < N -> forall n t last e more out m rest, row c d n t last e more out m rest -> n <= N ->
  if m <=? N then out = Incomplete EscapeAtEnd /\ m = N \/ out = Incomplete QuoteAtEnd /\ m = N \/ row (with_limit N c) d n t last e more out m rest
  else row (with_limit N c) d n t last e more (Incomplete TooManyLines) N (skipn (N - n) more).
Proof.
  intros Hc HN. induction 1 as [n T last e more H|n T last e w t e' more out m rest G A R IH|n T last e w more G A|n T last e G A|n T last e G A]; intros Hn.
  - replace (n <=? N) with true by (symmetry; apply Nat.leb_le; lia). right. right. apply row_done. intros w G. apply goes_on_limit in G. eapply H; eauto.
  - destruct (row_lines _ _ _ _ _ _ _ _ _ _ R) as (used & _ & Em).
    destruct (n <? N) eqn:En.
    + apply Nat.ltb_lt in En. specialize (IH En). destruct (m <=? N) eqn:EmN.
      * destruct IH as [IH|[IH|IH]]; auto. right. right. eapply row_more; [apply goes_on_limit; exact G|right; exact En|exact IH].
      * replace (N - n) with (S (N - S n)) by lia. cbn [skipn]. eapply row_more; [apply goes_on_limit; exact G|right; exact En|exact IH].
    + apply Nat.ltb_ge in En. assert (n = N) as -> by lia. replace (m <=? N) with false by (symmetry; apply Nat.leb_gt; lia).
      rewrite Nat.sub_diag. cbn [skipn]. eapply row_limit; [apply goes_on_limit; exact G|]. unfold may_add. cbn. lia.
  - exfalso. apply A. left. exact Hc.
  - replace (n <=? N) with true by (symmetry; apply Nat.leb_le; lia). destruct (Nat.eq_dec n N) as [->|E]; [auto|].
    right. right. apply row_eof_escape; [apply goes_on_limit; exact G|right; cbn; lia].
  - replace (n <=? N) with true by (symmetry; apply Nat.leb_le; lia). destruct (Nat.eq_dec n N) as [->|E]; [auto|].
    right. right. apply row_eof_quote; [apply goes_on_limit; exact G|right; cbn; lia].
Qed.

(** ** Without ignore_header *)
Lemma goes_on_header c d t last w : goes_on (keep_header c) d t last w <-> goes_on c d t last w.
Proof. split; intros H; (inversion H; [apply go_escape|apply go_quote]); assumption. Qed.
Lemma row_header c d : forall n t last e more out m rest, row (keep_header c) d n t last e more out m rest -> row c d n t last e more out m rest.
Proof.
  induction 1 as [n T last e more H|n T last e w t e' more out m rest G A R IH|n T last e w more G A|n T last e G A|n T last e G A].
  - apply row_done. intros w G. apply (goes_on_header c) in G. eapply H; eauto.
  - eapply row_more; [apply goes_on_header; exact G|exact A|exact IH].
  - eapply row_limit; [apply goes_on_header; exact G|exact A].
  - apply row_eof_escape; [apply goes_on_header; exact G|exact A].
  - apply row_eof_quote; [apply goes_on_header; exact G|exact A].
Qed.
Lemma blanks_header c ls j ls' : blanks (keep_header c) ls j ls' <-> blanks c ls j ls'.
Proof. split; (induction 1; [apply bl_none|apply bl_skip]; assumption). Qed.
Lemma document_header c d : forall k L its, document (keep_header c) d k L its -> document c d k L its.
Proof. induction 1; [constructor|]. eapply doc_row; [apply row_header; eassumption|apply blanks_header; eassumption|assumption]. Qed.
Lemma reading_header c d mp n es out o : row_reading (keep_header c) d mp n es out o -> row_reading c d mp n es out o.
Proof. intros H. inversion H; subst; [apply rd_incomplete|apply rd_empty; assumption|eapply rd_row; eauto|eapply rd_bad; eauto]. Qed.
Lemma fit_header c d : fit c d -> fit (keep_header c) d.
Proof. intros [[] H2 H3 H4]. split; [split; assumption|assumption|assumption|assumption]. Qed.
