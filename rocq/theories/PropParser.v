(** Properties of the parser: C22, C24-C30, C32, C33.  Vocabulary:
    [opened c cap d data name p]: the parser [p], called [name] in its messages, was constructed on [data] (file, file with
    the portable line reader, or memory); [reads c cap p ess]: what successive calls get_next<es...>() show, with eof(),
    line() and position() after each (ParserApi.v);
    [rows_of c d data its]: the rows of the document; [row_reading]: what converting one row gives (ParserSpec.v). *)
From Verif Require Import Base Setup Splitter SplitPure ListFacts SplitApi Extract Converter ConvSpec ConvProofs Reader LineSpec LineProofs GetLineProofs ReaderBase ReaderInv ReaderEscape ReaderParse Parser ParserSpec ParserApi ParserInv ParserRows ParserOpen ParserSession ParserGhost ParserPast ParserPast ParserFacts.

Section P.
Context (c : cfg) (cap : nat -> nat -> nat) (d : str) (F : fit c d) (Hcap : enough cap).

Lemma open_rows data name p its : opened c cap d data name p -> nuls_ok c data -> rows_of c d data its -> (c_ignhdr c = true -> its <> []) ->
  p_name p = name /\ exists L k, pstate c d [] 0 (Z.of_nat (length data)) p L k /\ document c d k L its /\ starts c data k L.
Proof.
  intros O N (k & L & SO & D) Hh.
  assert (HL : c_ignhdr c = true -> L <> []) by (intros X Y; apply (Hh X); apply (document_nil c d _ _ _ D); exact Y).
  destruct (opened_state c d cap Hcap data name p k L O N SO HL) as (PS & E & _). split; [exact E|]. exists L, k. auto.
Qed.
End P.

(** C25.  The i-th call reports the i-th row. *)
Theorem C25_each_row_once_in_order : forall c cap d data name p its ess,
  fit c d -> enough cap -> nuls_ok c data -> opened c cap d data name p -> rows_of c d data its -> (c_ignhdr c = true -> its <> []) ->
  Forall types ess ->
  (p_eof p = true <-> its = []) /\
  forall i it es, nth_error its i = Some it -> nth_error ess i = Some es ->
  exists o sn, nth_error (reads c cap p ess) i = Some sn /\
    row_reading c d [] 0 es (it_out it) o /\ shown c name (it_line it) (it_next it) o (s_what sn) /\
    (s_eof sn = true <-> S i = length its).
Proof.
  intros c cap d data name p its ess F Hcap N O R Hh W. destruct (open_rows c cap d Hcap data name p its O N R Hh) as (E & L & k & PS & D & SO). split.
  - rewrite (pstate_eof _ _ _ _ _ _ _ _ PS). apply (document_nil c d _ _ _ D).
  - intros i it es Hi He. destruct (reads_rows c d F cap Hcap ess _ _ _ _ _ _ _ PS D W i it es Hi He) as (o & sn & A1 & A2 & A3 & A4 & _).
    rewrite E in A3. exists o, sn. split; [exact A1|]. split; [exact A2|]. split; [exact A3|]. rewrite A4, Nat.eqb_eq. reflexivity.
Qed.
Print Assumptions C25_each_row_once_in_order.
(** Every document has rows, and only one reading; a parser can be constructed on it in each way. *)
Theorem C25_documents_have_rows : forall c cap d data, fit c d -> enough cap -> nuls_ok c data ->
  (c_ignhdr c = true -> exists x, In x data /\ x <> LF /\ x <> CR) ->
  exists its, rows_of c d data its /\ (forall its', rows_of c d data its' -> its' = its) /\
   ((c_ignhdr c = true -> its <> []) ->
    (forall name portable, (portable = true -> ~ In NUL data) -> exists p, parser_file c cap name d portable (Some data) = Ok tt p) /\
    (exists p, parser_buffer c cap d (Some data) (length data) = Ok tt p)).
Proof.
  intros c cap d data F Hcap N Hh. destruct (rows_exist c d F data N Hh) as (its & R). exists its. split; [exact R|]. split.
  - intros its' R'. eapply rows_unique; eauto.
  - intros HH. destruct R as (k & L & SO & D). eapply can_open; eauto. intros X Y. apply (HH X). apply (document_nil c d _ _ _ D). exact Y.
Qed.
Print Assumptions C25_documents_have_rows.

(** C26.  What is reported of a row depends on that row alone: not on the document, the rows before it or the errors they
    produced. *)
Theorem C26_a_row_is_read_alone : forall c cap d, fit c d -> enough cap ->
  forall data1 name1 p1 its1 ess1 data2 name2 p2 its2 ess2,
  nuls_ok c data1 -> opened c cap d data1 name1 p1 -> rows_of c d data1 its1 -> (c_ignhdr c = true -> its1 <> []) -> Forall types ess1 ->
  nuls_ok c data2 -> opened c cap d data2 name2 p2 -> rows_of c d data2 its2 -> (c_ignhdr c = true -> its2 <> []) -> Forall types ess2 ->
  forall i1 it1 i2 it2 es, nth_error its1 i1 = Some it1 -> nth_error its2 i2 = Some it2 -> it_out it1 = it_out it2 ->
    nth_error ess1 i1 = Some es -> nth_error ess2 i2 = Some es ->
  exists sn1 sn2, nth_error (reads c cap p1 ess1) i1 = Some sn1 /\ nth_error (reads c cap p2 ess2) i2 = Some sn2 /\
    alike (s_what sn1) (s_what sn2).
Proof.
  intros c cap d F Hcap data1 name1 p1 its1 ess1 data2 name2 p2 its2 ess2 N1 O1 R1 H1 W1 N2 O2 R2 H2 W2 i1 it1 i2 it2 es E1 E2 EO T1 T2.
  destruct (C25_each_row_once_in_order c cap d data1 name1 p1 its1 ess1 F Hcap N1 O1 R1 H1 W1) as [_ K1].
  destruct (C25_each_row_once_in_order c cap d data2 name2 p2 its2 ess2 F Hcap N2 O2 R2 H2 W2) as [_ K2].
  destruct (K1 i1 it1 es E1 T1) as (o1 & sn1 & A1 & B1 & C1 & _). destruct (K2 i2 it2 es E2 T2) as (o2 & sn2 & A2 & B2 & C2 & _).
  exists sn1, sn2. split; [exact A1|]. split; [exact A2|]. rewrite <- EO in B2. eapply shown_alike; [exact B1|exact B2|exact C1|exact C2].
Qed.
Print Assumptions C26_a_row_is_read_alone.
(** The same in words: the values are equal, or both calls report an error with the same message: exactly, but for
    numbers in it if rows may span lines, and only for rows that are not empty (see C26_stale_message_refuted). *)
Theorem C26_messages : forall c cap d, fit c d -> enough cap ->
  forall data1 name1 p1 its1 ess1 data2 name2 p2 its2 ess2,
  nuls_ok c data1 -> opened c cap d data1 name1 p1 -> rows_of c d data1 its1 -> (c_ignhdr c = true -> its1 <> []) -> Forall types ess1 ->
  nuls_ok c data2 -> opened c cap d data2 name2 p2 -> rows_of c d data2 its2 -> (c_ignhdr c = true -> its2 <> []) -> Forall types ess2 ->
  forall i1 it1 i2 it2 es, nth_error its1 i1 = Some it1 -> nth_error its2 i2 = Some it2 -> it_out it1 = it_out it2 ->
    nth_error ess1 i1 = Some es -> nth_error ess2 i2 = Some es -> ~ empty_row (it_out it1) ->
  exists sn1 sn2 o1 o2, nth_error (reads c cap p1 ess1) i1 = Some sn1 /\ nth_error (reads c cap p2 ess2) i2 = Some sn2 /\
    shown c name1 (it_line it1) (it_next it1) o1 (s_what sn1) /\ shown c name2 (it_line it2) (it_next it2) o2 (s_what sn2) /\
    match o1, o2 with
    | inl vs1, inl vs2 => vs1 = vs2
    | inr m1, inr m2 => same_text m1 m2 /\ (c_ml c = false -> m1 = m2)
    | _, _ => False
    end.
Proof.
  intros c cap d F Hcap data1 name1 p1 its1 ess1 data2 name2 p2 its2 ess2 N1 O1 R1 H1 W1 N2 O2 R2 H2 W2 i1 it1 i2 it2 es E1 E2 EO T1 T2 NE.
  destruct (C25_each_row_once_in_order c cap d data1 name1 p1 its1 ess1 F Hcap N1 O1 R1 H1 W1) as [_ K1].
  destruct (C25_each_row_once_in_order c cap d data2 name2 p2 its2 ess2 F Hcap N2 O2 R2 H2 W2) as [_ K2].
  destruct (K1 i1 it1 es E1 T1) as (o1 & sn1 & A1 & B1 & C1 & _). destruct (K2 i2 it2 es E2 T2) as (o2 & sn2 & A2 & B2 & C2 & _).
  exists sn1, sn2, o1, o2. split; [exact A1|]. split; [exact A2|]. split; [exact C1|]. split; [exact C2|]. rewrite <- EO in B2.
  pose proof (reading_det c d _ _ _ _ _ _ B1 B2) as RD. destruct o1, o2; auto.
Qed.
Print Assumptions C26_messages.
(** And the rows that follow depend only on the lines that are left. *)
Theorem C26_later_rows : forall c d data1 its1 data2 its2, rows_of c d data1 its1 -> rows_of c d data2 its2 ->
  forall i1 it1 i2 it2, nth_error its1 i1 = Some it1 -> nth_error its2 i2 = Some it2 -> it_rest it1 = it_rest it2 ->
  map it_out (skipn (S i1) its1) = map it_out (skipn (S i2) its2).
Proof.
  intros c d data1 its1 data2 its2 (k1 & L1 & _ & D1) (k2 & L2 & _ & D2) i1 it1 i2 it2 E1 E2 ER.
  assert (G : forall its i it k L, document c d k L its -> nth_error its i = Some it -> document c d (it_next it) (it_rest it) (skipn (S i) its)).
  { induction its as [|x its IH]; intros i it k L D H; [destruct i; discriminate|]. pose proof (document_rest c d _ _ _ _ D) as D'.
    destruct i as [|i]; [injection H as <-; exact D'|]. cbn [skipn]. eapply IH; eauto. }
  pose proof (G _ _ _ _ _ D1 E1) as G1. pose proof (G _ _ _ _ _ D2 E2) as G2. rewrite <- ER in G2.
  pose proof (document_outs c d _ _ _ G1 _ _ G2) as K. apply (f_equal (map fst)) in K. rewrite !map_map in K. exact K.
Qed.
Print Assumptions C26_later_rows.

(** In other words: from any row on, the calls go as they would for a parser on the rest of the data alone. *)
Theorem C26_as_if_absent : forall c cap d, fit c d -> enough cap -> forall data name p its ess i it,
  nuls_ok c data -> opened c cap d data name p -> rows_of c d data its -> (c_ignhdr c = true -> its <> []) -> Forall types ess ->
  nth_error its i = Some it ->
  exists bad rest, data = bad ++ rest /\ physical rest (it_rest it) /\
  forall name2 p2 its2 ess2, c_ignhdr c = false -> opened c cap d rest name2 p2 -> rows_of c d rest its2 -> Forall types ess2 ->
  length its2 + S i = length its /\
  forall j es, j < length its2 -> nth_error ess (S i + j) = Some es -> nth_error ess2 j = Some es ->
  exists sn1 sn2, nth_error (reads c cap p ess) (S i + j) = Some sn1 /\ nth_error (reads c cap p2 ess2) j = Some sn2 /\
    alike (s_what sn1) (s_what sn2) /\ s_eof sn1 = s_eof sn2.
Proof.
  intros c cap d F Hcap data name p its ess i it N O R Hh W Hi.
  destruct (open_rows c cap d Hcap data name p its O N R Hh) as (E & L & k & PS & D & SO).
  destruct (starts_lines c _ _ _ SO) as (u0 & E1 & E2). destruct (document_lines c d _ _ _ D i it Hi) as (u1 & E3 & E4).
  rewrite E3, app_assoc in E1. destruct (lines_app_inv _ _ _ E1) as (a & b & X1 & X2 & _).
  exists a, b. split; [exact X1|]. assert (PB : physical b (it_rest it)) by (rewrite <- X2; apply lines_physical). split; [exact PB|].
  intros name2 p2 its2 ess2 Hh2 O2 R2 W2.
  assert (N2 : nuls_ok c b) by (intros M X; apply (N M); rewrite X1; apply in_or_app; auto).
  assert (G : forall its i it k L, document c d k L its -> nth_error its i = Some it ->
     document c d (it_next it) (it_rest it) (skipn (S i) its) /\ exists l, blanks c l 0 (it_rest it)).
  { clear. induction its as [|x its IH]; intros i it k L D H; [destruct i; discriminate|]. pose proof (document_rest c d _ _ _ _ D) as D'.
    destruct i as [|i]; [|cbn [skipn]; eapply IH; eauto]. injection H as <-. split; [exact D'|]. inversion D; subst. cbn [it_rest].
    exists ls'. apply bl_none. intros e0 l0 He ->. match goal with B : blanks _ _ _ _ |- _ => apply (blanks_head c _ _ _ _ _ B He) end. reflexivity. }
  destruct (G _ _ _ _ _ D Hi) as (D1 & l & B). pose proof (blanks_used _ _ _ _ B) as (u & Eu & Lu & _). destruct u; [|discriminate]. cbn in Eu. subst l.
  assert (S0 : starts c b 0 (it_rest it)) by (eapply st_all; eauto).
  destruct R2 as (k2 & L2 & SO2 & D2). destruct (starts_fun _ _ _ _ _ _ S0 SO2) as [<- <-].
  pose proof (document_outs c d _ _ _ D1 _ _ D2) as EO.
  assert (EL : length (skipn (S i) its) = length its2) by (apply (f_equal (@length _)) in EO; rewrite !map_length in EO; exact EO).
  assert (Hl : i < length its) by (apply nth_error_Some; congruence). rewrite skipn_length in EL. split; [lia|].
  intros j es Hj He He2.
  assert (R2 : rows_of c d b its2) by (exists 0, (it_rest it); auto).
  destruct (nth_error its (S i + j)) as [it1|] eqn:Hi1; [|apply nth_error_None in Hi1; lia].
  destruct (nth_error its2 j) as [it2|] eqn:Hi2; [|apply nth_error_None in Hi2; lia].
  assert (EI : it_out it1 = it_out it2).
  { apply (f_equal (map fst)) in EO. rewrite !map_map in EO. change (map it_out (skipn (S i) its) = map it_out its2) in EO.
    assert (X : nth_error (skipn (S i) its) j = Some it1).
    { rewrite <- Hi1. clear. revert its. generalize (S i). induction n as [|n IH]; intros its; [reflexivity|]. destruct its; [destruct j; reflexivity|]. apply IH. }
    pose proof (map_nth_error it_out _ _ X) as Y1. pose proof (map_nth_error it_out _ _ Hi2) as Y2. rewrite EO in Y1. congruence. }
  destruct (C25_each_row_once_in_order c cap d data name p its ess F Hcap N O R Hh W) as [_ K1].
  destruct (C25_each_row_once_in_order c cap d b name2 p2 its2 ess2 F Hcap N2 O2 R2 ltac:(congruence) W2) as [_ K2].
  destruct (K1 _ _ _ Hi1 He) as (o1 & sn1 & A1 & B1 & C1 & F1). destruct (K2 _ _ _ Hi2 He2) as (o2 & sn2 & A2 & B2 & C2 & F2).
  exists sn1, sn2. split; [exact A1|]. split; [exact A2|]. split; [rewrite <- EI in B2; eapply shown_alike; [exact B1|exact B2|exact C1|exact C2]|].
  assert (F12 : s_eof sn1 = true <-> s_eof sn2 = true) by (rewrite F1, F2; lia). destruct (s_eof sn1), (s_eof sn2); intuition congruence.
Qed.
Print Assumptions C26_as_if_absent.

(** C22.  The same calls on the same bytes, from a file or from memory. *)
Theorem C22_file_and_memory_agree : forall c cap d data name1 p1 name2 p2 its ess,
  fit c d -> enough cap -> nuls_ok c data -> rows_of c d data its -> (c_ignhdr c = true -> its <> []) -> Forall types ess ->
  opened c cap d data name1 p1 -> opened c cap d data name2 p2 ->
  p_eof p1 = p_eof p2 /\
  Forall2 (fun a b => alike (s_what a) (s_what b) /\ s_eof a = s_eof b) (reads c cap p1 ess) (reads c cap p2 ess).
Proof.
  intros c cap d data name1 p1 name2 p2 its ess F Hcap N R Hh W O1 O2.
  destruct (open_rows c cap d Hcap data name1 p1 its O1 N R Hh) as (_ & L1 & k1 & PS1 & D1 & _).
  destruct (open_rows c cap d Hcap data name2 p2 its O2 N R Hh) as (_ & L2 & k2 & PS2 & D2 & _).
  generalize dependent Z.of_nat. intros zz PS1 PS2.
  assert (G : forall ess its p1 L1 k1 p2 L2 k2, Forall types ess -> pstate c d [] 0 (zz (length data)) p1 L1 k1 -> pstate c d [] 0 (zz (length data)) p2 L2 k2 ->
     document c d k1 L1 its -> document c d k2 L2 its -> p_eof p1 = p_eof p2 /\
     Forall2 (fun a b => alike (s_what a) (s_what b) /\ s_eof a = s_eof b) (reads c cap p1 ess) (reads c cap p2 ess)).
  2:{ eapply G; eauto. }
  clear - F Hcap. induction ess as [|es ess IH]; intros its p1 L1 k1 p2 L2 k2 W PS1 PS2 D1 D2.
  - split; [|constructor]. pose proof (pstate_eof _ _ _ _ _ _ _ _ PS1) as E1. pose proof (pstate_eof _ _ _ _ _ _ _ _ PS2) as E2.
    rewrite (document_nil _ _ _ _ _ D1) in E1. rewrite (document_nil _ _ _ _ _ D2) in E2. destruct (p_eof p1), (p_eof p2); intuition congruence.
  - inversion W as [|? ? W1 W2]; subst. assert (EE : p_eof p1 = p_eof p2).
    { pose proof (pstate_eof _ _ _ _ _ _ _ _ PS1) as E1. pose proof (pstate_eof _ _ _ _ _ _ _ _ PS2) as E2.
      rewrite (document_nil _ _ _ _ _ D1) in E1. rewrite (document_nil _ _ _ _ _ D2) in E2. destruct (p_eof p1), (p_eof p2); intuition congruence. }
    split; [exact EE|]. destruct its as [|it its].
    + assert (L1 = []) as -> by (apply (document_nil _ _ _ _ _ D1); reflexivity). assert (L2 = []) as -> by (apply (document_nil _ _ _ _ _ D2); reflexivity).
      destruct (pstate_pend _ _ _ _ _ _ _ PS1) as [Q1 _]. destruct (pstate_pend _ _ _ _ _ _ _ PS2) as [Q2 _].
      clear - F Hcap Q1 Q2. revert p1 p2 Q1 Q2. generalize (es :: ess). clear es ess. induction l as [|es ess IH]; intros p1 p2 Q1 Q2; [constructor|].
      cbn [reads]. cbv zeta. destruct (pend_next c d cap Hcap p1 es Q1) as (p1' & E1 & Q1' & _ & _ & _ & K1). destruct (pend_next c d cap Hcap p2 es Q2) as (p2' & E2 & Q2' & _ & _ & _ & K2).
      rewrite E1, E2. constructor; [|apply IH; assumption]. cbn [see s_what s_eof]. split.
      * destruct (c_mode c); [rewrite K1, K2; exact Logic.I| |rewrite K1, K2; exact Logic.I]. destruct K1 as (m1 & K1 & _), K2 as (m2 & K2 & _). rewrite K1, K2. exact Logic.I.
      * destruct Q1' as (_ & -> & _), Q2' as (_ & -> & _). reflexivity.
    + destruct (step_doc c d F cap Hcap _ _ _ _ _ _ _ _ _ PS1 D1 W1) as (o1 & q1 & A1 & A2 & A3 & A4 & _).
      destruct (step_doc c d F cap Hcap _ _ _ _ _ _ _ _ _ PS2 D2 W1) as (o2 & q2 & B1 & B2 & B3 & B4 & _).
      destruct (told_obs _ _ _ _ _ _ p1 _ A2) as [A5 A6]. destruct (told_obs _ _ _ _ _ _ p2 _ B2) as [B5 B6].
      destruct (IH _ _ _ _ _ _ _ W2 A3 B3 A4 B4) as [E1 E2]. cbn [reads]. cbv zeta. rewrite A6, B6. constructor; [|exact E2].
      cbn [see s_what s_eof]. split; [|exact E1]. eapply shown_alike; [exact A1|exact B1|exact A5|exact B5].
Qed.
Print Assumptions C22_file_and_memory_agree.

(** C27 *)
Theorem C27_rows_are_the_lines_that_count : forall c d data ls its, c_ml c = false -> c_ignhdr c = false ->
  rows_of c d data its -> physical data ls ->
  map it_out its = map (fun l => Complete (fst l))
    (if c_ignempty c then filter (fun l => match fst l with [] => false | _ => true end) ls else ls).
Proof.
  intros c d data ls its Hm Hh (k & L & SO & D) P. inversion SO as [ls0 j L0 _ P0 B|]; subst; [|congruence].
  rewrite (physical_unique _ _ P _ P0). rewrite (document_single c d Hm _ _ _ D), <- (counted_blanks c _ _ _ B).
  - unfold counted. destruct (c_ignempty c); [|reflexivity]. f_equal. apply filter_ext. intros [t e]. unfold blank. cbn. destruct t; reflexivity.
  - intros t e ls1 -> Hi. eapply blanks_head; eauto.
Qed.
Print Assumptions C27_rows_are_the_lines_that_count.
(** With ignore_empty no row is without content, also if rows may span lines. *)
Theorem C27_no_empty_rows : forall c d data its, c_ignempty c = true -> rows_of c d data its -> Forall (fun it => it_out it <> Complete []) its.
Proof.
  intros c d data its Hi (k & L & SO & D). eapply document_nonempty; eauto. intros t e ls ->. inversion SO; subst; eapply blanks_head; eauto.
Qed.
Print Assumptions C27_no_empty_rows.
(** An empty row is an error, whatever is asked for. *)
Theorem C27_an_empty_row_is_an_error : forall c d mp n es out vs, empty_row out -> ~ row_reading c d mp n es out (inl vs).
Proof. intros c d mp n es out vs (t & -> & E) H. inversion H; congruence. Qed.
Print Assumptions C27_an_empty_row_is_an_error.

(** C24.  Rows that cannot span lines do not depend on the kind of line ends: two sources whose lines have the same
    contents have the same rows, at the same line numbers, and every call shows the same; the very same text, if the
    parsers have the same name and the row is not empty. *)
Theorem C24_line_ends_do_not_matter : forall c cap d, fit c d -> enough cap -> c_ml c = false ->
  forall data1 ls1 name1 p1 its1 data2 ls2 name2 p2 its2 ess,
  physical data1 ls1 -> physical data2 ls2 -> map fst ls1 = map fst ls2 -> (c_ignhdr c = true -> its1 <> []) ->
  opened c cap d data1 name1 p1 -> rows_of c d data1 its1 -> opened c cap d data2 name2 p2 -> rows_of c d data2 its2 -> Forall types ess ->
  map (fun it => (it_out it, it_line it)) its1 = map (fun it => (it_out it, it_line it)) its2 /\
  forall i it es, nth_error its1 i = Some it -> nth_error ess i = Some es ->
  exists sn1 sn2, nth_error (reads c cap p1 ess) i = Some sn1 /\ nth_error (reads c cap p2 ess) i = Some sn2 /\
    alike (s_what sn1) (s_what sn2) /\ s_eof sn1 = s_eof sn2 /\ s_line sn1 = s_line sn2 /\
    (~ empty_row (it_out it) -> name1 = name2 -> s_what sn1 = s_what sn2).
Proof.
  intros c cap d F Hcap Hm data1 ls1 name1 p1 its1 data2 ls2 name2 p2 its2 ess P1 P2 EL Hh O1 R1 O2 R2 W.
  assert (N1 : nuls_ok c data1) by (intros X; congruence). assert (N2 : nuls_ok c data2) by (intros X; congruence).
  pose proof R1 as (k1 & L1 & SO1 & D1). pose proof R2 as (k2 & L2 & SO2 & D2).
  destruct (starts_texts c _ _ _ _ _ _ _ _ P1 P2 EL SO1 SO2) as [<- EL'].
  pose proof (document_texts c d Hm _ _ _ D1 _ _ D2 EL') as EO.
  split. { apply (f_equal (map fst)) in EO. rewrite !map_map in EO. exact EO. }
  intros i it es Hi He.
  assert (LEN : length its1 = length its2) by (apply (f_equal (@length _)) in EO; rewrite !map_length in EO; exact EO).
  assert (Hh2 : c_ignhdr c = true -> its2 <> []) by (intros X Y; apply (Hh X); apply length_zero_iff_nil; rewrite LEN, Y; reflexivity).
  destruct (nth_error its2 i) as [it2|] eqn:Hi2.
  2:{ apply nth_error_None in Hi2. assert (X : nth_error its1 i <> None) by congruence. apply nth_error_Some in X. lia. }
  assert (EI : (it_out it, it_line it, it_next it) = (it_out it2, it_line it2, it_next it2)).
  { pose proof (map_nth_error (fun it => (it_out it, it_line it, it_next it)) _ _ Hi) as X1.
    pose proof (map_nth_error (fun it => (it_out it, it_line it, it_next it)) _ _ Hi2) as X2. rewrite EO in X1. congruence. }
  injection EI as EI EI2 EI3.
  destruct (open_rows c cap d Hcap data1 name1 p1 its1 O1 N1 R1 Hh) as (X1 & M1 & q1 & PS1 & D1' & _).
  destruct (open_rows c cap d Hcap data2 name2 p2 its2 O2 N2 R2 Hh2) as (X2 & M2 & q2 & PS2 & D2' & _).
  destruct (reads_rows c d F cap Hcap ess _ _ _ _ _ _ _ PS1 D1' W i it es Hi He) as (o1 & sn1 & A1 & B1 & C1 & E1 & G1 & _).
  destruct (reads_rows c d F cap Hcap ess _ _ _ _ _ _ _ PS2 D2' W i it2 es Hi2 He) as (o2 & sn2 & A2 & B2 & C2 & E2 & G2 & _).
  rewrite X1 in C1. rewrite X2 in C2. rewrite <- EI in B2. rewrite <- EI2, <- EI3 in C2.
  exists sn1, sn2. split; [exact A1|]. split; [exact A2|]. split; [eapply shown_alike; [exact B1|exact B2|exact C1|exact C2]|].
  split; [rewrite E1, E2, LEN; reflexivity|]. split; [congruence|]. intros Hne <-.
  pose proof (reading_det c d _ _ _ _ _ _ B1 B2) as RD. destruct o1 as [v1|m1], o2 as [v2|m2]; try contradiction; cbn [shown] in C1, C2.
  - congruence.
  - destruct (RD Hne) as [_ RM]. rewrite (RM Hm) in C1. destruct (c_mode c); congruence.
Qed.
Print Assumptions C24_line_ends_do_not_matter.

(** C28.  With ignore_header the rest of the document is read as it would be alone. *)
Theorem C28_ignore_header : forall c cap d, fit c d -> enough cap -> c_ignhdr c = true ->
  forall line rest name1 p1 its name2 p2 ess t e,
  line = t ++ e -> ~ In LF t -> e = [LF] \/ e = [CR; LF] -> (e = [LF] -> forall t', t <> t' ++ [CR]) -> (c_ignempty c = true -> t <> []) ->
  nuls_ok c (line ++ rest) -> rows_of (keep_header c) d rest its -> its <> [] -> Forall types ess ->
  opened c cap d (line ++ rest) name1 p1 -> opened (keep_header c) cap d rest name2 p2 ->
  p_eof p1 = false /\
  forall i it es, nth_error its i = Some it -> nth_error ess i = Some es ->
  exists sn1 sn2, nth_error (reads c cap p1 ess) i = Some sn1 /\ nth_error (reads (keep_header c) cap p2 ess) i = Some sn2 /\
    alike (s_what sn1) (s_what sn2) /\ s_eof sn1 = s_eof sn2.
Proof.
  intros c cap d F Hcap Hh line rest name1 p1 its name2 p2 ess t e El Ht He Hcr Hi N R Hne W O1 O2.
  assert (N2 : nuls_ok c rest) by (intros M X; apply (N M); apply in_or_app; auto).
  pose proof R as R0. destruct R0 as (k & L & SO & D). inversion SO as [ls j L0 _ P B|ls j t0 e0 ls1 j1 L0 X]; [|discriminate X]. subst j L0.
  assert (P1 : physical (line ++ rest) ((t, e) :: ls)).
  { rewrite El, <- app_assoc. destruct He as [->| ->]; [apply ph_lf; auto|apply ph_crlf; auto]. }
  assert (S1 : starts c (line ++ rest) (0 + S k) L).
  { eapply st_header; [exact Hh|exact P1| |apply blanks_header; exact B]. apply bl_none. intros e1 ls' Hie X. injection X as -> _ _. exact (Hi Hie eq_refl). }
  assert (D1 : document c d k L its) by (apply document_header; exact D).
  assert (HL : L <> []) by (intros X; apply Hne; apply (document_nil c d _ _ _ D1); exact X).
  assert (EX : exists its1, document c d (0 + S k) L its1).
  { eapply (document_exists_n c d F (S (length L))); [lia|].
    destruct (starts_lines c _ _ _ S1) as (used & EL & _). pose proof (fine_lines c (line ++ rest) N) as FL. rewrite EL in FL. apply fine_suffix in FL. exact FL. }
  destruct EX as (its1 & D1'). assert (R1 : rows_of c d (line ++ rest) its1) by (do 2 eexists; split; eassumption).
  pose proof (document_outs c d _ _ _ D1 _ _ D1') as EO. apply (f_equal (map fst)) in EO. rewrite !map_map in EO. cbn [fst] in EO.
  change (map (fun x => it_out x) its = map (fun x => it_out x) its1) in EO.
  assert (LEN : length its = length its1) by (apply (f_equal (@length _)) in EO; rewrite !map_length in EO; exact EO).
  assert (Hne1 : its1 <> []) by (destruct its1; [destruct its; [congruence|discriminate LEN]|discriminate]).
  destruct (C25_each_row_once_in_order c cap d _ name1 p1 its1 ess F Hcap N O1 R1 (fun _ => Hne1) W) as [E0 K1].
  destruct (C25_each_row_once_in_order _ cap d rest name2 p2 its ess (fit_header _ _ F) Hcap N2 O2 R (fun _ => Hne) W) as [_ K2].
  split; [destruct (p_eof p1); [exfalso; apply Hne1; apply E0; reflexivity|reflexivity]|].
  intros i it es Hit Hes. destruct (nth_error its1 i) as [it1|] eqn:Hi1.
  2:{ apply nth_error_None in Hi1. assert (X : nth_error its i <> None) by congruence. apply nth_error_Some in X. lia. }
  assert (EI : it_out it = it_out it1).
  { pose proof (map_nth_error it_out _ _ Hit) as X1. pose proof (map_nth_error it_out _ _ Hi1) as X2.
    change (map it_out its = map it_out its1) in EO. rewrite EO in X1. congruence. }
  destruct (K1 i it1 es Hi1 Hes) as (o1 & sn1 & A1 & B1 & C1 & E1). destruct (K2 i it es Hit Hes) as (o2 & sn2 & A2 & B2 & C2 & E2).
  exists sn1, sn2. split; [exact A1|]. split; [exact A2|]. split; [apply reading_header in B2; rewrite EI in B2; eapply shown_alike; [exact B1|exact B2|exact C1|exact C2]|].
  rewrite <- LEN in E1. destruct (s_eof sn1), (s_eof sn2); intuition congruence.
Qed.
Print Assumptions C28_ignore_header.
(** The condition that a line follows the header is needed: a document of just a header is not seen to be at its end, and an
    error is reported for a row that does not exist. *)
Definition hdr_cfg : cfg := mkCfg None [] [] [] false 0 EString true false.
Theorem C28_header_only_refuted : exists p p', 
  parser_buffer hdr_cfg (fun _ need => need) (S2 ",") (Some (S2 "a,b")) 3 = Ok tt p /\ p_eof p = false /\
  get_next hdr_cfg (fun _ need => need) [EVal TString; EVal TString] p = Ok [None; None] p' /\ p_valid hdr_cfg p' = false.
Proof. do 2 eexists. split; [vm_compute; reflexivity|]. split; [vm_compute; reflexivity|]. split; vm_compute; reflexivity. Qed.
Print Assumptions C28_header_only_refuted.

(** What happens then: eof() is false, the first call reports an error, and then the data is over.  (Unless blank lines follow the
    header, are skipped, and line ends can be escaped: see C41_failed_skip_refuted.) *)
Theorem C28_header_only : forall c cap d data name p ls j t e ls1 j' es ess, fit c d -> enough cap -> c_ignhdr c = true -> nuls_ok c data ->
  opened c cap d data name p -> physical data ls -> blanks c ls j ((t, e) :: ls1) -> blanks c ls1 j' [] ->
  j' = 0 \/ c_ml c = false \/ c_escape c = [] -> types es ->
  p_eof p = false /\
  exists m sn, nth_error (reads c cap p (es :: ess)) 0 = Some sn /\ shown c name (S (length ls)) (S (length ls)) (inr m) (s_what sn) /\ s_eof sn = true /\
  forall i es', nth_error ess i = Some es' -> exists sn', nth_error (reads c cap p (es :: ess)) (S i) = Some sn' /\
    s_what sn' = past_end c name (S (length ls)) (Some m) i /\ s_eof sn' = true.
Proof.
  intros c cap d data name p ls j t e ls1 j' es ess F Hcap Hh N O P B B' Hj T.
  assert (Hj' : j' = 0 \/ escaped_multiline c = false) by (unfold escaped_multiline, escape_enabled; destruct Hj as [->|[->| ->]]; [auto|auto|right; apply andb_false_r]).
  assert (LN : length ls = j + S j').
  { clear - B B'. assert (Q : forall a n b, blanks c a n b -> length a = n + length b) by (induction 1; cbn; lia). rewrite (Q _ _ _ B). cbn. rewrite (Q _ _ _ B'). cbn. lia. }
  destruct (opened_ghost c d cap Hcap data name p ls j t e ls1 j' O N Hh P B B' Hj') as (PG & E1 & _).
  split; [apply PG|]. destruct (ghost_next c d F cap Hcap _ _ _ _ es PG T) as (m & p' & A1 & A2 & A3 & _ & _ & A4 & A5 & A6).
  destruct (told_obs c _ _ _ _ _ p _ A1) as [B1 B2]. rewrite E1, <- LN in B1. exists m. eexists. cbn [reads nth_error]. cbv zeta. rewrite B2.
  split; [reflexivity|]. cbn [see s_what s_eof]. split; [exact B1|]. split; [apply A2|]. intros i es' Hi.
  assert (PA : past c d (after_error c m) None (S (length ls)) p').
  { split; auto. rewrite <- LN in A4. unfold p_line in A4. lia. }
  destruct (proj1 (reads_past c d cap Hcap ess) _ _ _ i es' PA Hi) as (sn & C1 & C2 & C3 & _). exists sn. split; [exact C1|]. split; [|exact C3].
  rewrite C2, A3, E1. exact (kept_end c name (S (length ls)) (inr m) i).
Qed.
Print Assumptions C28_header_only.
(** No line that could be the header: the data is over at once. *)
Theorem C28_no_header : forall c cap d data name p ls j ess, enough cap -> c_ignhdr c = true -> nuls_ok c data ->
  opened c cap d data name p -> physical data ls -> blanks c ls j [] ->
  p_eof p = true /\ forall i es, nth_error ess i = Some es -> exists sn, nth_error (reads c cap p ess) i = Some sn /\
    s_what sn = past_end c name (S (length ls)) None i /\ s_eof sn = true.
Proof.
  intros c cap d data name p ls j ess Hcap Hh N O P B.
  assert (LN : length ls = j). { assert (Q : forall a n b, blanks c a n b -> length a = n + length b) by (induction 1; cbn; lia). rewrite (Q _ _ _ B). cbn. lia. }
  destruct (opened_nothing c d cap Hcap data name p ls j O N Hh P B) as (PE & E1 & _ & _ & _ & E2 & E3). split; [apply PE|]. intros i es Hi.
  assert (PA : past c d None None (S (length ls)) p).
  { split; auto; [|congruence]. intros _. rewrite (opened_conv c d cap Hcap data name p O N). reflexivity. }
  destruct (proj1 (reads_past c d cap Hcap ess) _ _ _ i es PA Hi) as (sn & C1 & C2 & C3 & _). exists sn. split; [exact C1|]. split; [|exact C3]. rewrite C2, E1. reflexivity.
Qed.
Print Assumptions C28_no_header.

(** C29.  After the i-th call, the document is cut where the next row begins: line() is the number of lines before, position()
    the number of bytes. *)
Theorem C29_line_and_position : forall c cap d data name p its ess,
  fit c d -> enough cap -> nuls_ok c data -> opened c cap d data name p -> rows_of c d data its -> (c_ignhdr c = true -> its <> []) ->
  Forall types ess ->
  forall i it es, nth_error its i = Some it -> nth_error ess i = Some es ->
  exists sn a b la, nth_error (reads c cap p ess) i = Some sn /\ data = a ++ b /\ physical a la /\ physical b (it_rest it) /\
    s_line sn = length la /\
    (b <> [] \/ (it_out it <> Incomplete EscapeAtEnd /\ it_out it <> Incomplete QuoteAtEnd) -> s_pos sn = Z.of_nat (length a)).
Proof.
  intros c cap d data name p its ess F Hcap N O R Hh W i it es Hi He.
  destruct (open_rows c cap d Hcap data name p its O N R Hh) as (E & L & k & PS & D & SO).
  destruct (reads_rows c d F cap Hcap ess _ _ _ _ _ _ _ PS D W i it es Hi He) as (o & sn & A1 & _ & _ & _ & A5 & A6).
  destruct (starts_lines c _ _ _ SO) as (u0 & E1 & E2). destruct (document_lines c d _ _ _ D i it Hi) as (u1 & E3 & E4).
  rewrite E3, app_assoc in E1. destruct (lines_app_inv _ _ _ E1) as (a & b & X1 & X2 & X3 & X4 & X5).
  assert (LA : lines a = u0 ++ u1).
  { destruct (it_rest it) as [|l0 r0] eqn:Er; [|apply X3; discriminate]. rewrite (X4 eq_refl), app_nil_r in X1. rewrite <- X1, E1, app_nil_r. reflexivity. }
  exists sn, a, b, (u0 ++ u1). split; [exact A1|]. split; [exact X1|]. split; [rewrite <- LA; apply lines_physical|]. split; [rewrite <- X2; apply lines_physical|].
  split; [rewrite A5, E4, E2, app_length; reflexivity|]. intros H. rewrite A6.
  - assert (LB : bytes (it_rest it) = length b) by (rewrite <- X2; apply lines_bytes). rewrite LB, X1, app_length. lia.
  - destruct H as [H|H]; [left|right; exact H]. rewrite <- X2. intros Y. apply H. destruct b; [reflexivity|]. rewrite lines_cons in Y by discriminate. discriminate.
Qed.
Print Assumptions C29_line_and_position.

(** C30.  After the rows every further call is an error, whatever it asks for and however many there are: what each says, and
    eof() and line() after it.  [last] is the error of the last row. *)
Theorem C30_past_the_end : forall c cap d data name p its ess extra,
  fit c d -> enough cap -> nuls_ok c data -> opened c cap d data name p -> rows_of c d data its -> (c_ignhdr c = true -> its <> []) ->
  Forall types ess -> length ess = length its ->
  exists last k,
    (its = [] -> last = None /\ k = p_line p) /\
    (its <> [] -> exists it es sn o, nth_error its (length its - 1) = Some it /\ nth_error ess (length its - 1) = Some es /\
       nth_error (reads c cap p ess) (length its - 1) = Some sn /\ row_reading c d [] 0 es (it_out it) o /\
       shown c name (it_line it) (it_next it) o (s_what sn) /\ k = it_next it /\ last = match o with inl _ => None | inr m => Some m end) /\
    forall i es, nth_error extra i = Some es ->
      exists sn, nth_error (reads c cap p (ess ++ extra)) (length its + i) = Some sn /\
        s_what sn = past_end c name k last i /\ s_eof sn = true /\ s_line sn = past_line c k last i.
Proof.
  intros c cap d data name p its ess extra F Hcap N O R Hh W Hn.
  destruct (open_rows c cap d Hcap data name p its O N R Hh) as (E & L & k & PS & D & _).
  assert (GO : forall x k' last q, past c d x None k' q -> p_name q = name -> (forall i, past_end c name k' x i = past_end c name k' last i) -> (forall i, past_line c k' x i = past_line c k' last i) ->
    q = last_state c cap p ess -> forall i es, nth_error extra i = Some es ->
      exists sn, nth_error (reads c cap p (ess ++ extra)) (length its + i) = Some sn /\ s_what sn = past_end c name k' last i /\ s_eof sn = true /\ s_line sn = past_line c k' last i).
  { intros x k' last q P EN E1 E2 -> i es Hi. destruct (proj1 (reads_past c d cap Hcap extra) x k' _ i es P Hi) as (sn & A1 & A2 & A3 & A4).
    exists sn. rewrite reads_split, <- Hn. rewrite nth_error_app2 by (rewrite reads_length; lia). rewrite reads_length.
    replace (length ess + i - length ess) with i by lia. rewrite EN in A2. rewrite <- E1, <- E2. auto. }
  destruct its as [|it0 its].
  - assert (L = []) as -> by (apply (document_nil _ _ _ _ _ D); reflexivity). destruct ess; [|discriminate Hn].
    exists None, k. split; [intros _; split; [reflexivity|symmetry; eapply pstate_line; exact PS]|]. split; [congruence|].
    apply (GO None k None p); auto. eapply pstate_past; [exact PS|]. intros _. rewrite (opened_conv c d cap Hcap data name p O N). reflexivity.
  - destruct (last_past c d F cap Hcap ess _ _ _ _ _ _ _ PS D W Hn ltac:(discriminate)) as (it & es & sn & o & A1 & A2 & A3 & A4 & A5 & A6 & A7).
    exists (error_of o), (it_next it). split; [congruence|]. split.
    { intros _. exists it, es, sn, o. rewrite E in A5. auto 10. }
    apply (GO (kept_error c o) (it_next it) (error_of o) (last_state c cap p ess)); auto; [congruence|intros; apply kept_end|intros; apply kept_line].
Qed.
Print Assumptions C30_past_the_end.
(** In particular: no value, no crash, and the first call says why. *)
Theorem C30_no_value : forall c cap d data name p its ess extra,
  fit c d -> enough cap -> nuls_ok c data -> opened c cap d data name p -> rows_of c d data its -> (c_ignhdr c = true -> its <> []) ->
  Forall types ess -> length ess = length its -> extra <> [] ->
  exists sn sns, skipn (length its) (reads c cap p (ess ++ extra)) = sn :: sns /\ length sns + 1 = length extra /\
    s_what sn = match c_mode c with
                | EBool => GError []
                | EString => GError (name ++ S2 ": read on end of file")
                | EThrow => GThrown (name ++ S2 ": read on end of file")
                end /\
    Forall (fun sn => s_eof sn = true /\ (forall vs, s_what sn <> GValues vs) /\ s_what sn <> GCrash) (sn :: sns).
Proof.
  intros c cap d data name p its ess extra F Hcap N O R Hh W Hn Hx.
  destruct (open_rows c cap d Hcap data name p its O N R Hh) as (E & L & k & PS & D & _).
  destruct (last_state_rows c d F cap Hcap ess _ _ _ _ _ _ _ PS D W ltac:(lia)) as (L' & k' & PS' & D' & EN).
  rewrite Hn, skipn_all in D'. assert (L' = []) as -> by (apply (document_nil _ _ _ _ _ D'); reflexivity).
  destruct (pstate_pend _ _ _ _ _ _ _ PS') as [Q V]. rewrite reads_split, skipn_app.
  rewrite skipn_all2 by (rewrite reads_length; lia). rewrite reads_length, Hn, Nat.sub_diag, skipn_O. cbn [app].
  destruct extra as [|es extra]; [congruence|].
  pose proof (reads_end c d cap Hcap (es :: extra) _ Q) as RE. pose proof (reads_length c cap (es :: extra) (last_state c cap p ess)) as RL.
  destruct (reads c cap (last_state c cap p ess) (es :: extra)) as [|sn sns] eqn:ER; [discriminate|]. exists sn, sns.
  split; [reflexivity|]. split; [cbn in RL |- *; lia|]. split; [|exact RE].
  cbn [reads] in ER. cbv zeta in ER. injection ER as <- _. cbn [see s_what].
  destruct (pend_next c d cap Hcap _ es Q) as (p' & _ & _ & _ & _ & _ & K). unfold msg_eof in K. rewrite EN, E in K.
  destruct (c_mode c); [exact K| |exact K]. destruct K as (m & K1 & K2). rewrite K1, (K2 V). reflexivity.
Qed.
Print Assumptions C30_no_value.
(** With string errors the second call past the end repeats the conversion error of the last row, with a new line number. *)
Definition plain_cfg : cfg := mkCfg None [] [] [] false 0 EString false false.
Definition as_needed (_ need : nat) : nat := need.
Theorem C30_repeated_message_refuted : exists p, parser_buffer plain_cfg as_needed (S2 ",") (Some (S2 "x")) 1 = Ok tt p /\
  map (fun sn => (s_what sn, s_line sn)) (reads plain_cfg as_needed p [[EVal (TInt (mkIty true 32))]; [EVal (TInt (mkIty true 32))]; [EVal (TInt (mkIty true 32))]]) =
  [ (GError (S2 "CSV data buffer 1: invalid conversion for parameter at column 1: 'x'"), 1);
    (GError (S2 "CSV data buffer: read on end of file"), 1);
    (GError (S2 "CSV data buffer 2: invalid conversion for parameter at column 1: 'x'"), 2) ].
Proof. eexists. split; [vm_compute; reflexivity|]. vm_compute. reflexivity. Qed.
Print Assumptions C30_repeated_message_refuted.

(** The message of an empty row may be the one of an earlier row: row 3 here is empty, and is reported to have the
    mismatched quote of row 1; without row 1 it is reported to have no columns. *)
Definition quote_cfg : cfg := mkCfg (Some "'"%char) [] [] [] false 0 EString false false.
Theorem C26_stale_message_refuted : exists p q,
  parser_buffer quote_cfg as_needed (S2 ",") (Some (S2 "'a'b" ++ [LF] ++ S2 "x" ++ [LF; LF] ++ S2 "y")) 9 = Ok tt p /\
  parser_buffer quote_cfg as_needed (S2 ",") (Some (S2 "x" ++ [LF; LF] ++ S2 "y")) 4 = Ok tt q /\
  map (fun sn => s_what sn) (reads quote_cfg as_needed p [[EVal TString]; [EVal TString]; [EVal TString]; [EVal TString]]) =
  [ GError (S2 "CSV data buffer 1: mismatched quote at position: 2"); GValues [VStr (S2 "x")];
    GError (S2 "CSV data buffer 3: mismatched quote at position: 2"); GValues [VStr (S2 "y")] ] /\
  map (fun sn => s_what sn) (reads quote_cfg as_needed q [[EVal TString]; [EVal TString]; [EVal TString]]) =
  [ GValues [VStr (S2 "x")]; GError (S2 "CSV data buffer 2: invalid number of columns, expected: 1, got: 0"); GValues [VStr (S2 "y")] ].
Proof. eexists. eexists. split; [vm_compute; reflexivity|]. split; [vm_compute; reflexivity|]. split; vm_compute; reflexivity. Qed.
Print Assumptions C26_stale_message_refuted.
