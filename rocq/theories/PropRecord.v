(** C50: whole tables, from values to text and back: every table of typed values that is written with its fields quoted,
    escaped or as they are is read back as the same values; with a header, also any selection of its columns by name.
    Vocabulary: TableSpec.v (ways to write a table), RecordSpec.v, ConvSpec.v, ParserApi.v, SessionApi.v. *)
From Verif Require Import Base Setup Splitter SplitPure ListFacts SetupProofs SplitSpec SplitRefine SplitSpecProofs RowSpec RowProofs SplitTheorems SplitApi Extract ExtractProofs Converter ConvSpec ConvProofs ConvTheorems Reader LineSpec LineProofs Parser ParserSpec ParserApi ParserInv ParserRows ParserOpen ParserSession ParserFacts TableSpec TableProofs PropParser PropMulti SessionApi SessionSpec SessionHeader SessionProofs PropSession RecordSpec.

(** The setups tables are written for: see C31. *)
Record table_setup (c : cfg) (d special : str) : Prop := {
  ts_fit : fit c d;
  ts_special : covers c d special;
  ts_header : c_ignhdr c = false;
  ts_delim : forall d0 d', d = d0 :: d' -> clean_delim (c_quote c) (c_escape c) (c_triml c) (c_trimr c) d0 /\ d0 <> LF /\ d0 <> CR;
  ts_escape : c_ml c = true -> forall x, In x d -> ~ In x (c_escape c);
  ts_lines : forall x, x = LF \/ x = CR -> c_quote c <> Some x /\ ~ In x (c_escape c);
}.

(** ** Printing *)
Lemma printed_wf t v s : printed t v s -> wfty t.
Proof. induction 1; cbn; auto. Qed.
Lemma digits_nulfree s : digits s -> ~ In NUL s.
Proof. intros [_ H] X. rewrite Forall_forall in H. apply H in X. cbn in X. unfold NUL in X. intuition discriminate. Qed.
Lemma printed_nulfree t v s : printed t v s -> ~ In NUL s.
Proof.
  induction 1; auto; try (cbn; intuition discriminate).
  - assert (D : denotes (i_signed i) (decimal z) z) by (apply decimal_denotes; unfold in_range in *; destruct (i_signed i); [right; reflexivity|left; lia]).
    inversion D as [u D0 E1 E2|u Hs D0 E1 E2]; [apply digits_nulfree; exact D0|]. intros [X|X]; [discriminate X|exact (digits_nulfree _ D0 X)].
Qed.
Lemma printed_converts t v s : printed t v s -> converts t s v.
Proof.
  induction 1; cbn [converts]; auto.
  - exists z. split; [reflexivity|]. split; [|assumption]. apply decimal_denotes. unfold in_range in *. destruct (i_signed i); [right; reflexivity|left; lia].
  - exists x. auto.
  - intros w (z & _ & D & _). inversion D as [u D0 E1 E2|u Hs D0 E1 E2]. destruct D0 as [D0 _]. congruence.
  - intros w [(_ & [X|X])|(_ & [X|X])]; discriminate.
  - intros w (x & _ & X). discriminate.
Qed.
Lemma record_row ts vs ss : record ts vs ss -> row_ok (map EVal ts) ss vs /\ length ts = length ss /\ Forall wfty ts /\ Forall (fun s => ~ In NUL s) ss.
Proof.
  induction 1 as [|t v s ts vs ss H R (IH1 & IH2 & IH3 & IH4)]; cbn; [repeat split; constructor|].
  split; [apply ro_cons; [apply co_val; apply printed_converts; exact H|exact IH1]|]. split; [congruence|].
  split; constructor; auto; [eapply printed_wf; eauto|eapply printed_nulfree; eauto].
Qed.
Lemma converts_row es ss vs : row_ok es ss vs -> length es = length ss -> converted [] 0 es ss (inl vs).
Proof. intros H E. eapply cd_values; [reflexivity|exact E|exact H]. Qed.
Lemma types_evals ts : Forall wfty ts -> ts <> [] -> types (map EVal ts).
Proof. intros H N. split; [rewrite Forall_map; exact H|]. destruct ts; [congruence|discriminate]. Qed.

(** ** The rows of a table *)
Section T.
Context (c : cfg) (cap : nat -> nat -> nat) (d special : str) (S0 : table_setup c d special) (Hcap : enough cap).

Lemma setup_doc rows data : table c d special rows data -> Forall (Forall nulfree) rows ->
  nulfree data /\ exists ls, physical data ls /\ (forall t e ls', ls = (t, e) :: ls' -> t <> []) /\
  forall k, exists its, document c d k ls its /\ Forall2 (fun vs it => exists w, row_text c d special vs w /\ it_out it = Complete w) rows its.
Proof.
  destruct S0 as [F Hsp Hh Hd Hesc Hln]. pose proof (fit_delim _ _ F) as Hne. destruct d as [|d0 d'] eqn:Ed; [congruence|].
  destruct (Hd d0 d' eq_refl) as (Hcl & L1 & L2). destruct (Hln LF (or_introl eq_refl)) as (Q1 & Q2). destruct (Hln CR (or_intror eq_refl)) as (Q3 & Q4).
  apply (table_document c d0 d' special F Hcl Hsp Hesc (conj Q1 Q3) (conj L1 (conj L2 (conj Q2 Q4)))).
Qed.
Lemma row_splits hc vs w : c_quote hc = c_quote c -> c_escape hc = c_escape c -> c_triml hc = c_triml c -> c_trimr hc = c_trimr c -> cfg_ok hc ->
  Forall nulfree vs -> row_text c d special vs w -> split_obs hc sp_init d w [] = SFields vs /\ nulfree w /\ w <> [].
Proof.
  intros E1 E2 E3 E4 Hc N RT. destruct S0 as [F Hsp Hh Hd Hesc Hln]. pose proof (fit_delim _ _ F) as Hne. pose proof (fit_nul _ _ F) as Hnul.
  destruct d as [|d0 d'] eqn:Ed; [congruence|]. destruct (Hd d0 d' eq_refl) as (Hcl & L1 & L2).
  pose proof (row_nulfree c d0 d' special F vs w RT N) as NW. destruct RT as (Hv & Hw & cells & FC & ->). split; [|auto].
  assert (FC' : Forall2 (cell hc special) vs cells).
  { clear - FC E1 E2. induction FC as [|v x vs cells H FC IH]; constructor; auto. destruct H.
    - apply ce_quoted; [congruence|]. rewrite E2. assumption.
    - apply ce_escaped. rewrite E2. assumption.
    - apply ce_plain. assumption. }
  assert (Hsp' : covers hc (d0 :: d') special) by (intros x; rewrite E1, E2, E3, E4; apply Hsp).
  assert (Hcl' : clean_delim (c_quote hc) (c_escape hc) (c_triml hc) (c_trimr hc) d0) by (rewrite E1, E2, E3, E4; exact Hcl).
  assert (PS : psplit hc (d0 :: d') (join (d0 :: d') cells) = (vs, TOk)).
  { apply (psplit_complete hc Hc (d0 :: d') ltac:(discriminate)). apply (padded_reads hc Hc d0 d' Hcl'); auto.
    clear - FC' Hc Hcl' Hsp'. induction FC' as [|v x vs cells H FC IH]; constructor; auto. eapply cell_padded; eauto. }
  exact (split_obs_psplit hc Hc (d0 :: d') Hnul ltac:(discriminate) sp_init _ [] vs TOk (reach_init hc) NW PS).
Qed.
Lemma row_converts mp n es vs w o : Forall nulfree vs -> row_text c d special vs w -> row_reading c d mp n es (Complete w) o -> converted mp n es vs o.
Proof.
  intros N RT R. destruct (row_splits c vs w eq_refl eq_refl eq_refl eq_refl (fit_cfg _ _ (ts_fit _ _ _ S0)) N RT) as (SO & NW & HW).
  pose proof (c_string_nulfree _ NW) as CS. inversion R as [|t0 m X|t cols o0 X1 X2 X3|t m1 m2 X1 X2 X3]; subst; [congruence| |rewrite CS in X2; destruct X2; congruence]. rewrite CS, SO in X2. injection X2 as <-. exact X3.
Qed.
End T.

(** C50.  The i-th call converts the fields of the i-th row, whatever types it asks for: values, or the error of these fields. *)
Theorem C50_table_conversions : forall c cap d special rows data name p ess, table_setup c d special -> enough cap ->
  Forall (Forall nulfree) rows -> table c d special rows data -> opened c cap d data name p -> Forall types ess ->
  forall i vs es, nth_error rows i = Some vs -> nth_error ess i = Some es ->
  exists o k1 k2 sn, nth_error (reads c cap p ess) i = Some sn /\ converted [] 0 es vs o /\ shown c name k1 k2 o (s_what sn) /\
    (s_eof sn = true <-> S i = length rows).
Proof.
  intros c cap d special rows data name p ess S0 Hcap N T O W i vs es Hi He.
  destruct (setup_doc c d special S0 rows data T N) as (NF & ls & P & HB & D). destruct (D 0) as (its & D0 & F2).
  assert (R : rows_of c d data its).
  { exists 0, ls. split; [|exact D0]. eapply st_all; eauto; [apply (ts_header _ _ _ S0)|]. apply bl_none. intros e l _ E. apply (HB _ _ _ E). reflexivity. }
  assert (X : exists it w, nth_error its i = Some it /\ row_text c d special vs w /\ it_out it = Complete w).
  { clear - F2 Hi. revert i Hi. induction F2 as [|v it rows its (w & H1 & H2) F2 IH]; intros i Hi; [destruct i; discriminate|].
    destruct i as [|i]; [injection Hi as <-; exists it, w; auto|apply IH; exact Hi]. }
  destruct X as (it & w & Hit & RT & EO).
  destruct (C25_each_row_once_in_order c cap d data name p its ess (ts_fit _ _ _ S0) Hcap (fun _ => NF) O R ltac:(rewrite (ts_header _ _ _ S0); discriminate) W) as [_ K].
  destruct (K i it es Hit He) as (o & sn & A1 & A2 & A3 & A4). rewrite EO in A2.
  exists o, (it_line it), (it_next it), sn. split; [exact A1|]. split; [|split; [exact A3|]].
  - eapply row_converts; eauto. rewrite Forall_forall in N. apply N. eapply nth_error_In; eauto.
  - rewrite A4. rewrite (Forall2_length F2). reflexivity.
Qed.
Print Assumptions C50_table_conversions.

(** All rows of a list of observations. *)
Lemma all_values sns recs : length sns = length recs -> (forall i vs, nth_error recs i = Some vs -> exists sn, nth_error sns i = Some sn /\ s_what sn = GValues vs) ->
  map s_what sns = map GValues recs.
Proof.
  intros L H. apply nth_error_same. intros i. rewrite !nth_error_map. destruct (nth_error recs i) as [vs|] eqn:Ei.
  - destruct (H i vs Ei) as (sn & E1 & E2). rewrite E1. cbn. congruence.
  - apply nth_error_None in Ei. rewrite <- L in Ei. apply nth_error_None in Ei. rewrite Ei. reflexivity.
Qed.
Lemma nth_repeat_some {A} (x : A) n i : i < n -> nth_error (repeat x n) i = Some x.
Proof. revert i. induction n as [|n IH]; intros i H; [lia|]. destruct i as [|i]; [reflexivity|]. apply IH. lia. Qed.
Lemma forall2_nth {A B} (R : A -> B -> Prop) l1 l2 : Forall2 R l1 l2 -> forall i x, nth_error l1 i = Some x -> exists y, nth_error l2 i = Some y /\ R x y.
Proof.
  induction 1 as [|a b l1 l2 H F IH]; intros i x Hi; [destruct i; discriminate|]. destruct i as [|i]; [injection Hi as <-; exists b; auto|]. apply IH. exact Hi.
Qed.

(** A table of values is read back. *)
Theorem C50_records_roundtrip : forall c cap d special ts recs rows data name p, table_setup c d special -> enough cap -> ts <> [] ->
  Forall2 (record ts) recs rows -> table c d special rows data -> opened c cap d data name p ->
  let sns := reads c cap p (repeat (map EVal ts) (length recs)) in
  map s_what sns = map GValues recs /\ forall i sn, nth_error sns i = Some sn -> (s_eof sn = true <-> S i = length recs).
Proof.
  intros c cap d special ts recs rows data name p S0 Hcap Hts F2 T O. cbv zeta.
  assert (N : Forall (Forall nulfree) rows).
  { clear - F2. induction F2 as [|v s recs rows H F2 IH]; constructor; auto. apply (record_row _ _ _ H). }
  assert (LEN : length recs = length rows) by (eapply Forall2_length; exact F2).
  assert (EACH : forall i vs, nth_error recs i = Some vs -> exists sn, nth_error (reads c cap p (repeat (map EVal ts) (length recs))) i = Some sn /\ s_what sn = GValues vs /\
     (s_eof sn = true <-> S i = length recs)).
  { intros i vs Hi. destruct (forall2_nth _ _ _ F2 i vs Hi) as (ss & Hs & R). destruct (record_row _ _ _ R) as (RO & EL & WT & _).
    assert (W : Forall types (repeat (map EVal ts) (length recs))) by (apply Forall_forall; intros x X; apply repeat_spec in X; subst x; apply types_evals; auto).
    assert (Hlt : i < length recs) by (apply nth_error_Some; congruence).
    destruct (C50_table_conversions c cap d special rows data name p _ S0 Hcap N T O W i ss _ Hs (nth_repeat_some _ _ _ Hlt)) as (o & k1 & k2 & sn & A1 & A2 & A3 & A4).
    exists sn. split; [exact A1|]. rewrite <- LEN in A4. split; [|exact A4].
    assert (E : o = inl vs) by (eapply converted_fun; [exact A2|apply converts_row; [exact RO|rewrite map_length; exact EL]]). subst o. exact A3. }
  split.
  - apply all_values; [rewrite reads_length, repeat_length; reflexivity|]. intros i vs Hi. destruct (EACH i vs Hi) as (sn & E1 & E2 & _). eauto.
  - intros i sn Hi. destruct (nth_error recs i) as [vs|] eqn:Ei; [destruct (EACH i vs Ei) as (sn' & E1 & _ & E2); congruence|].
    exfalso. apply nth_error_None in Ei. assert (X : i < length (reads c cap p (repeat (map EVal ts) (length recs)))) by (apply nth_error_Some; congruence).
    rewrite reads_length, repeat_length in X. lia.
Qed.
Print Assumptions C50_records_roundtrip.

(** ** With a header *)
Lemma cell_no_lf c special v w : cell c special v w -> ~ In LF v -> c_quote c <> Some LF -> ~ In LF (c_escape c) -> ~ In LF w.
Proof.
  intros H Hv Hq He. destruct H as [q v Eq Hx|e v Hin|v Hx]; [| |exact Hv].
  - unfold quote_field. intros [X|X]; [congruence|]. apply in_app_or in X. destruct X as [X|[X|[]]]; [|congruence].
    unfold double_quotes in X. apply in_flat_map in X. destruct X as (y & Hy & X). destruct (ascii_dec y q); cbn in X; intuition congruence.
  - unfold escape_field. intros X. apply in_flat_map in X. destruct X as (y & Hy & X). destruct (in_dec ascii_dec y special); cbn in X; intuition congruence.
Qed.
Lemma join_in x d cells : In x (join d cells) -> In x d \/ exists w, In w cells /\ In x w.
Proof.
  induction cells as [|w cells IH]; [intros []|]. destruct cells as [|w2 cells].
  - intros X. right. exists w. split; [left; reflexivity|exact X].
  - change (join d (w :: w2 :: cells)) with (w ++ d ++ join d (w2 :: cells)). rewrite !in_app_iff. intros [X|[X|X]]; [right; exists w; split; [left; reflexivity|exact X]|left; exact X|].
    destruct (IH X) as [Y|(y & Y1 & Y2)]; [left; exact Y|right; exists y; split; [right; exact Y1|exact Y2]].
Qed.
Lemma picks_fun {A} header fs (xs ys zs : list A) : NoDup header -> picks header fs xs ys -> picks header fs xs zs -> ys = zs.
Proof.
  intros ND H. revert zs. induction H as [|f y fs ys (i & E1 & E2) H IH]; intros zs H'; inversion H' as [|f' z fs' zs' (j & E3 & E4) H2]; subst; [reflexivity|]. f_equal; [|apply IH; exact H2].
  assert (i = j) as -> by (apply (proj1 (NoDup_nth_error header) ND); [apply nth_error_Some; congruence|congruence]). congruence.
Qed.
Lemma picks_record header fs ts ts' vs vs' ss ss' : NoDup header -> record ts vs ss -> picks header fs ts ts' -> picks header fs vs vs' -> picks header fs ss ss' -> record ts' vs' ss'.
Proof.
  intros ND R. assert (NTH : forall i t v s, nth_error ts i = Some t -> nth_error vs i = Some v -> nth_error ss i = Some s -> printed t v s).
  { clear - R. induction R as [|t v s ts vs ss H R IH]; intros i t0 v0 s0 E1 E2 E3; [destruct i; discriminate|]. destruct i as [|i]; [cbn in *; congruence|eapply IH; eauto]. }
  intros H1. revert vs' ss'. induction H1 as [|f t fs ts' (i & I1 & I2) H1 IH]; intros vs' ss' H2 H3; inversion H2 as [|? v ? vs2 (j & J1 & J2) H2']; inversion H3 as [|? s ? ss2 (k & K1 & K2) H3']; subst; constructor; [|apply IH; assumption].
  assert (HU : forall a b, nth_error header a = Some f -> nth_error header b = Some f -> a = b).
  { intros a b Ha Hb. apply (proj1 (NoDup_nth_error header) ND); [apply nth_error_Some; congruence|congruence]. }
  rewrite (HU _ _ J1 I1) in J2. rewrite (HU _ _ K1 I1) in K2. eauto.
Qed.
Lemma picks_length {A} header fs (xs ys : list A) : picks header fs xs ys -> length ys = length fs.
Proof. intros H. symmetry. eapply Forall2_length; exact H. Qed.
Lemma picks_exist {A} header fs (xs : list A) : selection header fs -> length xs = length header -> exists ys, picks header fs xs ys.
Proof.
  intros (_ & _ & H) L. induction fs as [|f fs IH]; [exists []; constructor|].
  destruct IH as (ys & P); [intros x X; apply H; right; exact X|]. destruct (In_nth_error header f (H f (or_introl eq_refl))) as (i & E).
  destruct (nth_error xs i) as [y|] eqn:Ey; [|apply nth_error_None in Ey; assert (i < length header) by (apply nth_error_Some; congruence); lia].
  exists (y :: ys). constructor; [eauto|exact P].
Qed.

Lemma header_setup_like c hc : cfg_ok c -> header_setup c hc -> c_quote hc = c_quote c /\ c_escape hc = c_escape c /\ c_triml hc = c_triml c /\ c_trimr hc = c_trimr c /\ cfg_ok hc.
Proof.
  intros Hc [-> | ->]; [|auto]. repeat (split; [reflexivity|]). destruct Hc. split; auto; try discriminate.
Qed.

(** A table with a header: after use_fields the calls deliver the columns with these names, in that order, whatever header(),
    raw_header() or field_exists() were called before. *)
Theorem C50_named_columns : forall c hc cap d special header ts recs rows data name p ks fs ts' recs', table_setup c d special -> enough cap -> header_setup c hc ->
  NoDup header -> Forall (fun f => nulfree f /\ ~ In LF f) header -> length header = length ts ->
  Forall2 (record ts) recs rows -> table c d special (header :: rows) data -> opened c cap d data name p ->
  Forall query ks -> selection header fs -> picks header fs ts ts' -> Forall2 (picks header fs) recs recs' ->
  let q := later c hc cap p ks in let q' := snd (do_call c hc cap q (CUse fs)) in
  let sns := reads c cap q' (repeat (map EVal ts') (length recs)) in
  fst (do_call c hc cap q CHeader) = YNames header /\ fst (do_call c hc cap q (CUse fs)) = YDone /\
  map s_what sns = map GValues recs' /\ forall i sn, nth_error sns i = Some sn -> (s_eof sn = true <-> S i = length recs).
Proof.
  intros c hc cap d special header ts recs rows data name p ks fs ts' recs' S0 Hcap HS ND NH LH F2 T O Q SL PT PR. cbv zeta.
  pose proof (ts_fit _ _ _ S0) as F. pose proof (fit_cfg _ _ F) as Hc.
  assert (N : Forall (Forall nulfree) rows).
  { clear - F2. induction F2 as [|v s recs rows H F2 IH]; constructor; auto. apply (record_row _ _ _ H). }
  assert (NH1 : Forall nulfree header) by (eapply Forall_impl; [|exact NH]; intros f [X _]; exact X).
  destruct (setup_doc c d special S0 _ _ T (Forall_cons _ NH1 N)) as (NF & _).
  inversion T as [|vs w eol rows0 data0 RT HLO RE T0]; subst.
  destruct (setup_doc c d special S0 rows data0 T0 N) as (NF0 & ls & P & HB & D). destruct (D 1) as (its & D0 & F2').
  destruct (header_setup_like c hc Hc HS) as (E1 & E2 & E3 & E4 & Hhc).
  destruct (row_splits c d special S0 hc header w E1 E2 E3 E4 Hhc NH1 RT) as (SO & NW & HW).
  destruct (ts_lines _ _ _ S0 LF (or_introl eq_refl)) as (Q1 & Q2).
  assert (WLF : ~ In LF w).
  { destruct HLO as [X|[Hml _]]; [exact X|]. destruct RT as (_ & _ & cells & FC & ->). intros X. apply join_in in X. destruct X as [X|(y & Hy & X)].
    - destruct (fit_clean _ _ F Hml LF (or_introl eq_refl)) as [Y _]. exact (Y X).
    - clear - FC NH Hy X Q1 Q2. induction FC as [|v y0 vs cells H FC IH]; [destruct Hy|]. inversion NH as [|? ? [_ NV] NH']; subst. destruct Hy as [<-|Hy]; [|apply IH; auto].
      exact (cell_no_lf _ _ _ _ H NV Q1 Q2 X). }
  assert (PH : physical (w ++ eol ++ data0) ((w, eol) :: ls)).
  { inversion RE as [rest Hcr|rest|Hlf]; subst eol; cbn [app].
    - apply ph_lf; auto.
    - apply ph_crlf; auto.
    - subst data0. inversion P; subst; [rewrite app_nil_r; apply ph_last; auto|congruence|destruct t; discriminate|destruct t; discriminate]. }
  assert (NA : names hc d w header) by (unfold names; rewrite (c_string_nulfree _ NW); exact SO).
  assert (B : blanks c ls 0 ls) by (apply bl_none; intros e l _ E; apply (HB _ _ _ E); reflexivity).
  assert (Hh : fst (do_call c hc cap (later c hc cap p ks) CHeader) = YNames header).
  { assert (B0 : blanks c ((w, eol) :: ls) 0 ((w, eol) :: ls)) by (constructor; intros e0 ls0 HI X; injection X as X _ _; exact (HW X)).
    assert (SE : session c cap d (w ++ eol ++ data0) name w p (mkView 0 ((w, eol) :: ls) false [] 0 [])).
    { apply (se c cap d (w ++ eol ++ data0) name w p 0 ((w, eol) :: ls)); [exact O|exact (fun _ => NF)|eapply st_all; eauto; apply (ts_header _ _ _ S0)|discriminate|eapply hl_line; eauto]. }
    destruct (queries_covered c hc d name w (ts_header _ _ _ S0) ks (mkView 0 ((w, eol) :: ls) false [] 0 []) Q) as [C1 _].
    assert (W : Forall call_ok ks) by (eapply Forall_impl; [|exact Q]; intros k [->|[->|(f & ->)]]; exact Logic.I).
    destruct (C34_header_functions c hc cap d _ name w p _ ks F Hcap HS (ts_header _ _ _ S0) SE W C1) as (_ & K). rewrite (c_string_nulfree _ NW), SO in K. exact (proj1 K). }
  destruct (C35_use_fields c hc cap d _ name p w eol ls 0 ls header fs ks its F Hcap HS (ts_header _ _ _ S0) O (fun _ => NF) PH (fun _ => HW) B (or_intror (or_introl eq_refl)) D0 NA ND SL Q)
    as (K1 & _ & _ & K).
  split; [exact Hh|]. split; [exact K1|].
  set (q' := snd (do_call c hc cap (later c hc cap p ks) (CUse fs))) in *.
  assert (LEN : length recs = length rows) by (eapply Forall2_length; exact F2).
  assert (LEN' : length recs = length recs') by (eapply Forall2_length; exact PR).
  assert (WT' : recs <> [] -> types (map EVal ts')).
  { intros NE. destruct recs as [|r0 recs0]; [congruence|]. inversion F2 as [|? ? ? ? R0 _]; subst. destruct (record_row _ _ _ R0) as (_ & _ & WT & _). apply types_evals.
    - clear - PT WT. induction PT as [|f t fs ts' (i & _ & E) PT IH]; constructor; auto. rewrite Forall_forall in WT. apply WT. eapply nth_error_In; eauto.
    - intros ->. destruct SL as (X & _). inversion PT; congruence. }
  assert (EACH : forall i vs, nth_error recs' i = Some vs -> exists sn, nth_error (reads c cap q' (repeat (map EVal ts') (length recs))) i = Some sn /\ s_what sn = GValues vs /\
     (s_eof sn = true <-> S i = length recs)).
  { intros i vs' Hi. assert (Hlt : i < length recs) by (rewrite LEN'; apply nth_error_Some; congruence).
    destruct (nth_error recs i) as [vs|] eqn:Hr; [|apply nth_error_None in Hr; lia].
    destruct (forall2_nth _ _ _ PR i vs Hr) as (vs2 & Hv2 & PV). assert (vs2 = vs') as -> by congruence.
    destruct (forall2_nth _ _ _ F2 i vs Hr) as (ss & Hs & R).
    destruct (forall2_nth _ _ _ F2' i ss Hs) as (it & Hit & w' & RT' & EO).
    assert (W : Forall types (repeat (map EVal ts') (length recs))).
    { apply Forall_forall. intros x X. apply repeat_spec in X. subst x. apply WT'. intros ->. destruct i; discriminate. }
    destruct (K _ W i it _ Hit (nth_repeat_some _ _ _ Hlt)) as (o & sn & A1 & A2 & A3 & A4 & _). exists sn. split; [exact A1|].
    assert (Ni : Forall nulfree ss) by (rewrite Forall_forall in N; apply N; eapply nth_error_In; eauto).
    destruct (row_splits c d special S0 c ss w' eq_refl eq_refl eq_refl eq_refl Hc Ni RT') as (SO' & NW' & HW').
    pose proof (c_string_nulfree _ NW') as CS'.
    destruct (record_row _ _ _ R) as (_ & EL & _).
    assert (Eo : o = inl vs').
    { rewrite EO in A2. destruct (picks_exist header fs ss SL ltac:(congruence)) as (ss' & PS).
      pose proof (picks_record header fs ts ts' vs vs' ss ss' ND R PT PV PS) as R'. destruct (record_row _ _ _ R') as (RO' & EL' & _).
      inversion A2 as [t xs ys o0 X1 X2 X3 X4 X5 X6|t xs X1 X2 X3 X4|t xs X1 X2 X3|t m1 m2 X1 X2 X3|t m X1 X2|]; subst; rewrite ?CS' in *; try congruence.
      - rewrite SO' in X2. injection X2 as <-. assert (ys = ss') as -> by (eapply picks_fun; eauto).
        eapply converted_fun; [exact X6|]. apply converts_row; [exact RO'|rewrite map_length; exact EL'].
      - exfalso. apply X3. rewrite map_length. eapply picks_length; eauto.
      - destruct X2; congruence. }
    subst o. split; [exact A3|]. rewrite A4, LEN, (Forall2_length F2'). reflexivity. }
  split.
  - apply all_values; [rewrite reads_length, repeat_length; exact LEN'|]. intros i vs Hi. destruct (EACH i vs Hi) as (sn & X1 & X2 & _). eauto.
  - intros i sn Hi. destruct (nth_error recs' i) as [vs|] eqn:Ei; [destruct (EACH i vs Ei) as (sn' & X1 & _ & X2); congruence|].
    exfalso. apply nth_error_None in Ei. assert (X : i < length (reads c cap q' (repeat (map EVal ts') (length recs)))) by (apply nth_error_Some; congruence).
    rewrite reads_length, repeat_length in X. lia.
Qed.
Print Assumptions C50_named_columns.

(** A table that meets the hypotheses: three columns (the last one optional), a line end and quotes in a field, an optional
    without value; the columns "name" and "id" are selected. *)
From Verif Require Import PropExamples.
Definition ex_special : str := S2 """\ ," ++ [LF; CR].
Definition ex_header : list str := [S2 "id"; S2 "name"; S2 "age"].
Definition ex_types : list ty := [TInt (mkIty true 32); TString; TOpt (TInt (mkIty false 8))].
Definition ex_recs : list (list val) :=
  [ [VInt (-5); VStr (S2 "say ""x""," ++ [LF] ++ S2 "y"); VOpt (Some (VInt 255))]; [VInt 7; VStr []; VOpt None] ].
Definition ex_rows : list (list str) := [ [S2 "-5"; S2 "say ""x""," ++ [LF] ++ S2 "y"; S2 "255"]; [S2 "7"; []; []] ].
Definition ex_data : str :=
  S2 "id,name,age" ++ [CR; LF] ++ S2 "-5,""say """"x""""," ++ [LF] ++ S2 "y"",255" ++ [LF] ++ S2 "7,,""""" ++ [LF].
Ltac plain_cells := repeat (apply Forall2_cons; [apply ce_plain; cbn; intuition (subst; try discriminate); fail|]); try apply Forall2_nil.
Theorem C50_example : table_setup rich (S2 ",") ex_special /\ Forall2 (record ex_types) ex_recs ex_rows /\
  table rich (S2 ",") ex_special (ex_header :: ex_rows) ex_data /\
  let fs := [S2 "name"; S2 "id"] in let ts' := [TString; TInt (mkIty true 32)] in
  let recs' := [ [VStr (S2 "say ""x""," ++ [LF] ++ S2 "y"); VInt (-5)]; [VStr []; VInt 7] ] in
  selection ex_header fs /\ picks ex_header fs ex_types ts' /\ Forall2 (picks ex_header fs) ex_recs recs' /\
  exists p, opened rich as_needed (S2 ",") ex_data (S2 "t.csv") p /\
  map s_what (reads rich as_needed (snd (do_call rich (header_cfg rich) as_needed p (CUse fs))) (repeat (map EVal ts') 2)) = map GValues recs'.
Proof.
  split; [|split; [|split]].
  - destruct C25_setup_example as (_ & F & _ & _ & CD). split; auto; try reflexivity.
    + intros x Hx. cbn in Hx. unfold ex_special. cbn. intuition congruence.
    + intros x d' [= <- <-]. split; [exact CD|]. split; discriminate.
    + intros _ x [<-|[]]. cbn. intuition discriminate.
    + intros x [-> | ->]; cbn; intuition discriminate.
  - constructor; [|constructor; [|constructor]].
    + change (S2 "-5") with (decimal (-5)). change (S2 "255") with (decimal 255). repeat constructor; cbn; try (intuition discriminate); lia.
    + change (S2 "7") with (decimal 7). repeat constructor; cbn; try (intuition discriminate); lia.
  - unfold ex_data, ex_header, ex_rows. eapply (tb_row _ _ _ _ (S2 "id,name,age") [CR; LF]).
    + split; [discriminate|]. split; [discriminate|]. exists [S2 "id"; S2 "name"; S2 "age"]. split; [|reflexivity]. plain_cells.
    + left. cbn. intuition discriminate.
    + constructor.
    + rewrite app_assoc. rewrite (app_assoc _ _ ([LF] ++ _)).
      eapply (tb_row _ _ _ _ ((S2 "-5,""say """"x""""," ++ [LF]) ++ S2 "y"",255") [LF]).
      * split; [discriminate|]. split; [discriminate|]. exists [S2 "-5"; quote_field """"%char (S2 "say ""x""," ++ [LF] ++ S2 "y"); S2 "255"]. split; [|reflexivity].
        apply Forall2_cons; [apply ce_plain; cbn; intuition (subst; discriminate)|].
        apply Forall2_cons; [apply ce_quoted; [reflexivity|cbn; intuition (subst; discriminate)]|]. plain_cells.
      * right. split; [reflexivity|]. left. reflexivity.
      * constructor. intros t E. apply (f_equal (fun l => hd NUL (rev l))) in E. rewrite (rev_app_distr t) in E. vm_compute in E. discriminate.
      * change (S2 "7,,""""" ++ [LF]) with (S2 "7,,""""" ++ [LF] ++ []). eapply (tb_row _ _ _ _ (S2 "7,,""""") [LF]).
        -- split; [discriminate|]. split; [discriminate|]. exists [S2 "7"; []; quote_field """"%char []]. split; [|reflexivity].
           apply Forall2_cons; [apply ce_plain; cbn; intuition (subst; discriminate)|].
           apply Forall2_cons; [apply ce_plain; cbn; intuition (subst; discriminate)|].
           apply Forall2_cons; [apply ce_quoted; [reflexivity|cbn; intuition (subst; discriminate)]|]. apply Forall2_nil.
        -- left. cbn. intuition discriminate.
        -- constructor. intros t E. apply (f_equal (fun l => hd NUL (rev l))) in E. rewrite (rev_app_distr t) in E. vm_compute in E. discriminate.
        -- constructor.
  - cbv zeta. split.
    { split; [discriminate|]. split; [repeat constructor; cbn; intuition discriminate|]. intros f Hf. cbn in *. intuition (subst; auto). }
    split. { repeat constructor; [exists 1|exists 0]; auto. }
    split. { repeat constructor; ((exists 1; split; reflexivity) || (exists 0; split; reflexivity)). }
    eexists. split; [apply op_file; vm_compute; reflexivity|]. vm_compute. reflexivity.
Qed.
Print Assumptions C50_example.
