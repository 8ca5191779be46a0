(** Properties of rows that span several lines: C31-C33.  Vocabulary as in PropParser.v; [table], [cell]: TableSpec.v. *)
From Verif Require Import Base Setup Splitter SplitPure ListFacts SplitApi Extract Converter ConvSpec ConvProofs Reader LineSpec LineProofs GetLineProofs ReaderBase ReaderInv ReaderEscape ReaderParse Parser ParserSpec ParserApi ParserInv ParserRows ParserOpen ParserSession ParserFacts SplitSpec RowSpec SplitTheorems TableSpec TableProofs PropParser.

Lemma starts_limit c N data k L : starts (with_limit N c) data k L <-> starts c data k L.
Proof.
  split; intros H; (inversion H as [ls j ls' Hh P B|ls j t e ls1 j' ls' Hh P B B']; subst;
    [eapply st_all; [exact Hh|exact P|apply (blanks_limit c N); exact B]
    |eapply st_header; [exact Hh|exact P|apply (blanks_limit c N); exact B|apply (blanks_limit c N); exact B']]).
Qed.
Lemma reading_limit c N d mp n es out o : row_reading (with_limit N c) d mp n es out o -> row_reading c d mp n es out o.
Proof. intros H. inversion H; subst; [apply rd_incomplete|apply rd_empty; assumption|eapply rd_row; eauto|eapply rd_bad; eauto]. Qed.
Lemma fit_limit c d N : fit c d -> fit (with_limit N c) d.
Proof. intros [[] H2 H3 H4]. split; [split; assumption|assumption|assumption|assumption]. Qed.

(** C32.  [c] is the setup without limit, [it] the first row it would find.  With the limit [N] the row is found as well if
    it takes at most [N] further lines; otherwise the limit is reported. *)
Theorem C32_limit : forall c cap d N, fit c d -> enough cap -> c_mlsize c = 0 -> 0 < N ->
  forall data name p it its es, nuls_ok c data -> opened (with_limit N c) cap d data name p -> rows_of c d data (it :: its) -> types es ->
  let sn := hd (mkSeen GCrash false 0 0) (reads (with_limit N c) cap p [es]) in
  (it_line it <= p_line p + 1 + N -> (exists t, it_out it = Complete t) ->
     exists o, row_reading c d [] 0 es (it_out it) o /\ shown c name (it_line it) (it_next it) o (s_what sn) /\ s_line sn = it_next it) /\
  (p_line p + 1 + N < it_line it ->
     exists k, shown c name (p_line p + 1 + N) k (inr (S2 "multiline limit reached")) (s_what sn) /\ s_line sn = k /\
       (c_ignempty c = false -> k = p_line p + 1 + N)).
Proof.
  intros c cap d N F Hcap Hc HN data name p it its es NN O (k & L & SO & D) T.
  pose proof (fit_limit c d N F) as FL. pose proof (proj2 (starts_limit c N data k L) SO) as SL.
  destruct (starts_lines c _ _ _ SO) as (u & E1 & E2).
  assert (FI : fine c L) by (eapply fine_suffix; rewrite <- E1; apply fine_lines; exact NN).
  destruct (document_exists_n (with_limit N c) d FL (S (length L)) L k ltac:(lia) FI) as (its' & D').
  assert (R' : rows_of (with_limit N c) d data its') by (exists k, L; auto).
  inversion D as [|k0 t e ls out m rest j ls' its0 RO B D0]; subst k0 L it its0.
  inversion D' as [|k0 t0 e0 ls0 out' m' rest' j' ls'' its0' RO' B' D0']; subst k0 t0 e0 ls0 its'.
  assert (OR : p_name p = name /\ exists L0 k0, pstate (with_limit N c) d [] 0 (Z.of_nat (length data)) p L0 k0 /\
     document (with_limit N c) d k0 L0 ({| it_out := out'; it_line := k + S m'; it_next := k + S m' + j'; it_rest := ls'' |} :: its0') /\ starts (with_limit N c) data k0 L0)
    by (eapply open_rows; eauto; intros; discriminate).
  destruct OR as (EN & L0 & k0 & PS & D1 & SL0). destruct (starts_fun _ _ _ _ _ _ SL SL0) as [<- <-].
  pose proof (pstate_line _ _ _ _ _ _ _ _ PS) as PL.
  destruct (reads_rows _ d FL cap Hcap [es] _ _ _ _ _ _ _ PS D1 ltac:(constructor; [exact T|constructor]) 0 _ es eq_refl eq_refl) as (o & sn & A1 & A2 & A3 & A4 & A5 & A6).
  cbn [it_out it_line it_next it_rest] in *. rewrite EN in A3.
  assert (HS : hd (mkSeen GCrash false 0 0) (reads (with_limit N c) cap p [es]) = sn).
  { destruct (reads (with_limit N c) cap p [es]); [discriminate|]. injection A1 as ->. reflexivity. }
  rewrite HS. cbv zeta. pose proof (row_with_limit c d N Hc HN 0 t t e ls out m rest RO ltac:(lia)) as RL.
  rewrite PL. split.
  - intros Hm (T0 & HT). subst out. replace (m <=? N) with true in RL by (symmetry; apply Nat.leb_le; lia).
    destruct RL as [[X _]|[[X _]|RL]]; try discriminate. destruct (row_fun _ _ _ _ _ _ _ _ _ _ RL _ _ _ RO') as (<- & <- & <-).
    apply blanks_limit in B'. pose proof (blanks_fun _ _ _ _ B) as Y. rewrite (blanks_fun _ _ _ _ B') in Y. injection Y as -> ->.
    exists o. split; [apply reading_limit in A2; exact A2|]. split; [exact A3|exact A5].
  - intros Hm. replace (m <=? N) with false in RL by (symmetry; apply Nat.leb_gt; lia).
    destruct (row_fun _ _ _ _ _ _ _ _ _ _ RL _ _ _ RO') as (<- & <- & <-).
    assert (o = inr (S2 "multiline limit reached")) as -> by (inversion A2; subst; reflexivity).
    exists (k + S N + j'). replace (k + 1 + N) with (k + S N) by lia. split; [exact A3|]. split; [exact A5|].
    intros He. inversion B' as [|? ? ? ? X]; subst; [lia|]. cbn in X. congruence.
Qed.
Print Assumptions C32_limit.
(** Every row: at most [N] further lines are consumed; exactly [N] if the limit is reported. *)
Theorem C32_every_row : forall c d, 0 < c_mlsize c -> forall data its, rows_of c d data its -> c_ignempty c = false ->
  forall i it, nth_error its i = Some it ->
  let first := match i with 0 => if c_ignhdr c then 1 else 0 | S i' => match nth_error its i' with Some it' => it_next it' | None => 0 end end in
  it_line it <= first + 1 + c_mlsize c /\ (it_out it = Incomplete TooManyLines -> it_line it = first + 1 + c_mlsize c).
Proof.
  intros c d Hl data its (k & L & SO & D) Hi.
  assert (K : k = if c_ignhdr c then 1 else 0).
  { assert (Z : forall ls j ls', blanks c ls j ls' -> j = 0) by (intros ls j ls' B; inversion B; congruence).
    inversion SO as [ls j ls' Hh P B|ls j t e ls1 j' ls' Hh P B B']; rewrite Hh; [apply (Z _ _ _ B)|]. rewrite (Z _ _ _ B), (Z _ _ _ B'). reflexivity. }
  clear SO. intros i it H. cbv zeta. rewrite <- K. clear K. revert i it H. induction D as [k|k t e ls out m rest j ls' its RO B D IH]; intros i it H; [destruct i; discriminate|].
  destruct i as [|i].
  - injection H as <-. cbn [it_line it_out]. destruct (row_limit_le c d _ _ _ _ _ _ _ _ RO Hl ltac:(lia)) as [Y1 Y2]. split; [lia|]. intros X. rewrite (Y2 X). lia.
  - specialize (IH i it H). destruct i as [|i]; [|exact IH]. cbn [nth_error it_next]. exact IH.
Qed.
Print Assumptions C32_every_row.

Lemma nth_error_same {A} : forall l1 l2 : list A, (forall i, nth_error l1 i = nth_error l2 i) -> l1 = l2.
Proof.
  induction l1 as [|x l1 IH]; intros [|y l2] H; [reflexivity|specialize (H 0); discriminate|specialize (H 0); discriminate|].
  pose proof (H 0) as X. injection X as ->. f_equal. apply IH. intros i. exact (H (S i)).
Qed.

(** C31.  A table, its cells quoted, escaped or plain, is read back; from a file or from memory. *)
Theorem C31_table_roundtrip : forall c cap d0 d' special, let d := d0 :: d' in
  fit c d -> enough cap -> clean_delim (c_quote c) (c_escape c) (c_triml c) (c_trimr c) d0 -> covers c d special -> c_ignhdr c = false ->
  (c_ml c = true -> forall x, In x d -> ~ In x (c_escape c)) ->
  (forall x, x = LF \/ x = CR -> c_quote c <> Some x /\ ~ In x (c_escape c) /\ d0 <> x) ->
  forall rows data name p, Forall (Forall nulfree) rows -> table c d special rows data -> opened c cap d data name p ->
  let sns := reads c cap p (map (map (fun _ => EVal TString)) rows) in
  map s_what sns = map (fun vs => GValues (map VStr vs)) rows /\
  (p_eof p = true <-> rows = []) /\ (forall i sn, nth_error sns i = Some sn -> (s_eof sn = true <-> S i = length rows)).
Proof.
  intros c cap d0 d' special d F Hcap Hcl Hsp Hh Hesc Hln rows data name p N T O. cbv zeta.
  destruct (Hln LF (or_introl eq_refl)) as (Q1 & Q2 & Q3). destruct (Hln CR (or_intror eq_refl)) as (Q4 & Q5 & Q6).
  destruct (table_document c d0 d' special F Hcl Hsp Hesc (conj Q1 Q4) (conj Q3 (conj Q6 (conj Q2 Q5))) rows data T N) as (NF & ls & P & HB & D).
  destruct (D 0) as (its & D0 & F2).
  assert (R : rows_of c d data its).
  { exists 0, ls. split; [|exact D0]. eapply st_all; eauto. apply bl_none. intros e l _ E. apply (HB _ _ _ E). reflexivity. }
  assert (LEN : length rows = length its) by (eapply Forall2_length; exact F2).
  assert (W : Forall types (map (map (fun _ : str => EVal TString)) rows)).
  { rewrite Forall_map. rewrite Forall_forall. intros vs Hvs. split.
    - rewrite Forall_map. rewrite Forall_forall. intros x _. exact Logic.I.
    - assert (Hne : vs <> []); [|destruct vs; [congruence|discriminate]].
      clear - F2 Hvs. induction F2 as [|v it rows its (w & (H & _) & _) F2 IH]; [destruct Hvs|]. destruct Hvs as [<-|Hvs]; auto. }
  destruct (C25_each_row_once_in_order c cap d data name p its _ F Hcap (fun _ => NF) O R ltac:(congruence) W) as [K1 K2].
  assert (RL : length (reads c cap p (map (map (fun _ : str => EVal TString)) rows)) = length rows) by (rewrite reads_length, map_length; reflexivity).
  assert (EACH : forall i vs, nth_error rows i = Some vs -> exists sn, nth_error (reads c cap p (map (map (fun _ : str => EVal TString)) rows)) i = Some sn /\
     s_what sn = GValues (map VStr vs) /\ (s_eof sn = true <-> S i = length rows)).
  { intros i vs Hi. assert (X : exists it w, nth_error its i = Some it /\ row_text c d special vs w /\ it_out it = Complete w).
    { clear - F2 Hi. revert i Hi. induction F2 as [|v it rows its (w & H1 & H2) F2 IH]; intros i Hi; [destruct i; discriminate|].
      destruct i as [|i]; [injection Hi as <-; exists it, w; auto|apply IH; exact Hi]. }
    destruct X as (it & w & Hit & RT & EO).
    destruct (K2 i it _ Hit (map_nth_error _ _ _ Hi)) as (o & sn & A1 & A2 & A3 & A4). exists sn. split; [exact A1|].
    rewrite EO in A2. apply (strings_reading c d0 d' special F Hcl Hsp) in A2; [|rewrite Forall_forall in N; apply N; eapply nth_error_In; eauto|exact RT].
    subst o. cbn in A3. rewrite LEN. auto. }
  split; [|split].
  - apply nth_error_same. intros i. rewrite !nth_error_map. destruct (nth_error rows i) as [vs|] eqn:Ei.
    + destruct (EACH i vs Ei) as (sn & E1 & E2 & _). rewrite E1. cbn. rewrite E2. reflexivity.
    + assert (X : nth_error (reads c cap p (map (map (fun _ : str => EVal TString)) rows)) i = None) by (apply nth_error_None; rewrite RL; apply nth_error_None; exact Ei).
      rewrite X. reflexivity.
  - rewrite K1. destruct rows, its; try discriminate LEN; intuition congruence.
  - intros i sn Hi. destruct (nth_error rows i) as [vs|] eqn:Ei.
    + destruct (EACH i vs Ei) as (sn' & E1 & _ & E2). congruence.
    + apply nth_error_None in Ei. rewrite <- RL in Ei. apply nth_error_None in Ei. congruence.
Qed.
Print Assumptions C31_table_roundtrip.
(** In particular, for the writer that quotes every field. *)
Theorem C31_quoted_table_roundtrip : forall c cap d0 d' q crlf, let d := d0 :: d' in
  fit c d -> enough cap -> clean_delim (c_quote c) (c_escape c) (c_triml c) (c_trimr c) d0 -> c_ignhdr c = false ->
  c_ml c = true -> c_mlsize c = 0 -> c_quote c = Some q -> q <> LF -> q <> CR -> (forall x, In x d -> ~ In x (c_escape c)) ->
  forall rows name p, Forall (fun vs => vs <> [] /\ Forall (fun v => nulfree v /\ forall x, In x v -> ~ In x (c_escape c)) vs) rows ->
  opened c cap d (flat_map (fun vs => join d (map (quote_field q) vs) ++ if crlf : bool then [CR; LF] else [LF]) rows) name p ->
  let sns := reads c cap p (map (map (fun _ => EVal TString)) rows) in
  map s_what sns = map (fun vs => GValues (map VStr vs)) rows /\
  (p_eof p = true <-> rows = []) /\ (forall i sn, nth_error sns i = Some sn -> (s_eof sn = true <-> S i = length rows)).
Proof.
  intros c cap d0 d' q crlf d F Hcap Hcl Hh Hml Hms Hq Hq1 Hq2 Hesc rows name p HR O.
  pose (special := q :: d0 :: LF :: CR :: c_escape c ++ c_triml c ++ c_trimr c).
  assert (Hsp : covers c d special).
  { intros x Hx. unfold special. cbn in Hx |- *. rewrite !in_app_iff. destruct Hx as [X|[X|[X|[X|[X|[X|X]]]]]]; auto 10; [left|right; left]; congruence. }
  pose proof (fit_clean _ _ F Hml) as Hln.
  eapply (C31_table_roundtrip c cap d0 d' special F Hcap Hcl Hsp Hh (fun _ => Hesc)); [| |clear O|exact O].
  - intros x Hx. destruct (Hln x Hx) as [X1 X2]. split; [destruct Hx; congruence|]. split; [exact X2|]. intros ->. apply X1. left. reflexivity.
  - eapply Forall_impl; [|exact HR]. intros vs [_ H]. eapply Forall_impl; [|exact H]. intros v [H1 _]. exact H1.
  - induction HR as [|vs rows [Hne Hvs] HR IH]; [constructor|]. cbn [flat_map]. rewrite <- app_assoc.
    assert (FC : Forall2 (cell c special) vs (map (quote_field q) vs)).
    { clear - Hvs Hq. induction Hvs as [|v vs [H1 H2] Hvs IH]; constructor; auto. apply ce_quoted; auto. }
    assert (EQ : exists w, join d (map (quote_field q) vs) = w ++ [q]).
    { destruct (rev_case vs) as [->|(a & v & ->)]; [congruence|]. rewrite map_app. cbn [map].
      exists (flat_map (fun w => w ++ d) (map (quote_field q) a) ++ q :: double_quotes q v).
      unfold d. rewrite join_snoc. unfold quote_field at 2. rewrite <- app_assoc. reflexivity. }
    destruct EQ as (w0 & EQ).
    apply tb_row; [|right; split; auto| |exact IH].
    + split; [exact Hne|]. split; [rewrite EQ; destruct w0; discriminate|]. eauto.
    + destruct crlf; [apply re_crlf|apply re_lf]. intros t E. rewrite EQ in E. apply app_inj_tail in E. destruct E. congruence.
Qed.
Print Assumptions C31_quoted_table_roundtrip.

(** C33.  Without quotes, exactly the lines that end in an odd number of escapes are continued; the line end stays in the row. *)
Inductive escaped_rows (escapes : list ascii) : list (str * str) -> list outcome -> Prop :=
| er_none : escaped_rows escapes [] []
| er_row ls t e rest outs : Forall (fun l => ends_escaped escapes (fst l)) ls -> ~ ends_escaped escapes t -> escaped_rows escapes rest outs ->
    escaped_rows escapes (ls ++ (t, e) :: rest) (Complete (concat (map (fun l => fst l ++ snd l) ls) ++ t) :: outs)
| er_open ls : ls <> [] -> Forall (fun l => ends_escaped escapes (fst l)) ls -> escaped_rows escapes ls [Incomplete EscapeAtEnd].
Theorem C33_escaped_line_ends : forall c d data ls its, c_ml c = true -> c_mlsize c = 0 -> c_quote c = None -> c_ignempty c = false -> c_ignhdr c = false ->
  rows_of c d data its -> physical data ls -> escaped_rows (c_escape c) ls (map it_out its).
Proof.
  intros c d data ls its Hml Hms Hq Hi Hh (k & L & SO & D) P.
  inversion SO as [ls0 j L0 _ P0 B|]; subst; [|congruence]. rewrite (physical_unique _ _ P _ P0). clear P P0 SO.
  assert (G : forall n T last e more out m rest, row c d n T last e more out m rest -> forall pre, T = concat (map (fun l => fst l ++ snd l) pre) ++ last ->
    Forall (fun l => ends_escaped (c_escape c) (fst l)) pre -> forall outs, escaped_rows (c_escape c) rest outs ->
    (out = Incomplete EscapeAtEnd -> outs = []) -> escaped_rows (c_escape c) (pre ++ (last, e) :: more) (out :: outs)).
  { induction 1 as [n T last e more N|n T last e w t e' more out m rest G A R IH|n T last e w more G A|n T last e G A|n T last e G A]; intros pre ET FP outs HO HE.
    - rewrite ET. apply er_row; auto. intros X. apply (N ByEscape). constructor; auto.
    - assert (X : ends_escaped (c_escape c) last) by (inversion G; [assumption|congruence]).
      replace (pre ++ (last, e) :: (t, e') :: more) with ((pre ++ [(last, e)]) ++ (t, e') :: more) by (rewrite <- app_assoc; reflexivity).
      apply IH; auto.
      + rewrite ET, map_app, concat_app. cbn. rewrite app_nil_r, <- !app_assoc. reflexivity.
      + apply Forall_app. split; auto.
    - exfalso. apply A. left. exact Hms.
    - rewrite (HE eq_refl). apply er_open; [destruct pre; discriminate|]. apply Forall_app. split; auto. constructor; [|constructor]. inversion G; assumption.
    - inversion G; congruence. }
  assert (FIN : forall k L its, document c d k L its -> escaped_rows (c_escape c) L (map it_out its)).
  { clear D B its. induction 1 as [k0|k0 t e ls1 out m rest j0 ls' its RO B D IH]; [constructor|].
    cbn [map it_out]. assert (rest = ls') as -> by (inversion B; congruence).
    apply (G _ _ _ _ _ _ _ _ RO []); auto.
    intros ->. assert (ls' = []) as ->.
    { clear - RO Hq. remember (Incomplete EscapeAtEnd) as o eqn:Eo. induction RO; try discriminate; auto. }
    inversion D; reflexivity. }
  assert (ls0 = L) as -> by (inversion B; congruence). eapply FIN. exact D.
Qed.
Print Assumptions C33_escaped_line_ends.
(** A text that is not ended by an escape ends in an even number of them, and so on: both kinds of lines exist, and escaped
    line ends are read back as part of the field (a table of one row, written with escapes). *)
Theorem C33_escaped_newlines_roundtrip : forall c cap d0 d' e special crlf, let d := d0 :: d' in
  fit c d -> enough cap -> clean_delim (c_quote c) (c_escape c) (c_triml c) (c_trimr c) d0 -> covers c d special -> c_ignhdr c = false ->
  c_ml c = true -> c_mlsize c = 0 -> c_quote c <> Some LF -> c_quote c <> Some CR -> In e (c_escape c) -> (forall x, In x d -> ~ In x (c_escape c)) ->
  forall rows name p, Forall (fun vs => vs <> [] /\ vs <> [[]] /\ Forall nulfree vs /\ (crlf = false -> forall vs1 v, vs <> vs1 ++ [v ++ [CR]])) rows ->
  opened c cap d (flat_map (fun vs => join d (map (escape_field e special) vs) ++ if crlf : bool then [CR; LF] else [LF]) rows) name p ->
  map s_what (reads c cap p (map (map (fun _ => EVal TString)) rows)) = map (fun vs => GValues (map VStr vs)) rows.
Proof.
  intros c cap d0 d' e special crlf d F Hcap Hcl Hsp Hh Hml Hms Hq1 Hq2 He Hesc rows name p HR O.
  pose proof (fit_clean _ _ F Hml) as Hln.
  refine (proj1 (C31_table_roundtrip c cap d0 d' special F Hcap Hcl Hsp Hh (fun _ => Hesc) _ rows _ name p _ _ O)).
  - intros x Hx. destruct (Hln x Hx) as [X1 X2]. split; [destruct Hx; congruence|]. split; [exact X2|]. intros ->. apply X1. left. reflexivity.
  - eapply Forall_impl; [|exact HR]. intros vs (_ & _ & H & _). exact H.
  - clear O. induction HR as [|vs rows (Hne & Hne1 & Hvs & Hcr) HR IH]; [constructor|]. cbn [flat_map]. rewrite <- app_assoc.
    assert (FC : Forall2 (cell c special) vs (map (escape_field e special) vs)).
    { clear - He. induction vs; constructor; auto. apply ce_escaped; auto. }
    apply tb_row; [|right; split; auto| |exact IH].
    + split; [exact Hne|]. split; [|eauto]. destruct vs as [|v [|v2 vs]]; [congruence| |].
      * cbn. destruct v as [|x v]; [congruence|]. cbn. destruct (in_dec ascii_dec x special); discriminate.
      * change (escape_field e special v ++ d ++ join d (map (escape_field e special) (v2 :: vs)) <> []). destruct (escape_field e special v); discriminate.
    + destruct crlf; [apply re_crlf|apply re_lf]. intros t E.
      destruct (rev_case vs) as [->|(a & v & ->)]; [congruence|]. rewrite map_app in E. cbn [map] in E. unfold d in E. rewrite join_snoc in E.
      destruct (rev_case v) as [->|(b & x & ->)].
      * cbn in E. rewrite app_nil_r in E. destruct (rev_case a) as [->|(a1 & v1 & ->)]; [cbn in E; destruct t; discriminate|].
        rewrite map_app, flat_map_app in E. cbn [map flat_map] in E. rewrite app_nil_r in E. destruct (rev_case (d0 :: d')) as [X|(d1 & y & X)]; [discriminate|].
        rewrite X, !app_assoc in E. apply app_inj_tail in E. destruct E as [_ ->]. apply (proj1 (Hln CR (or_intror eq_refl))). unfold d. rewrite X. apply in_or_app. right. left. reflexivity.
      * unfold escape_field in E at 2. rewrite flat_map_app in E. cbn [flat_map] in E. rewrite app_nil_r in E.
        assert (x = CR) as ->; [|apply (Hcr eq_refl a b); reflexivity].
        destruct (in_dec ascii_dec x special); [change [e; x] with ([e] ++ [x]) in E|]; rewrite !app_assoc in E; apply app_inj_tail in E; apply E.
Qed.
Print Assumptions C33_escaped_newlines_roundtrip.
