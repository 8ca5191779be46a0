(** C65: editing some rows of a document leaves the other rows alone: those before keep values, errors, line() and position();
    those after keep values and errors, and line() and position() move by the difference in lines and bytes.
    Vocabulary: as C59 (PropConcat.v). *)
From Verif Require Import Base Setup Splitter SplitPure ListFacts SetupProofs SplitApi Extract Converter ConvSpec Reader LineSpec LineProofs Parser ParserSpec ParserApi ParserRows ParserOpen ParserSession ParserFacts PropParser PropMulti PropCut PropExamples Concat PropConcat.

(** The rows of [a ++ x ++ b]: outcome by outcome those of the three parts. *)
Lemma rows_three c d a x b itsa itsx itsb la lx : whole_lines a -> physical a la -> whole_lines x -> physical x lx ->
  rows_of c d a itsa -> Forall (fun it => settled (it_out it)) itsa -> rows_of (keep_header c) d x itsx -> Forall (fun it => settled (it_out it)) itsx ->
  rows_of (keep_header c) d b itsb ->
  exists ra rx, rows_of c d (a ++ x ++ b) (ra ++ rx ++ map (moved (length la)) (map (moved (length lx)) itsb)) /\ Forall2 like ra itsa /\ length rx = length itsx /\
    Forall2 (fun u v => it_rest v <> [] -> it_next u = it_next v /\ it_rest u = it_rest v ++ lines (x ++ b)) ra itsa.
Proof.
  intros Wa Pa Wx Px Ra Sa Rx Sx Rb.
  destruct (rows_app (keep_header c) d x b itsx itsb lx Wx Px Rx Sx Rb) as (rx & R & LK & _).
  destruct (rows_app c d a (x ++ b) itsa _ la Wa Pa Ra Sa R) as (ra & R' & LK' & RS).
  exists ra, (map (moved (length la)) rx). rewrite map_app in R'. split; [exact R'|]. split; [exact LK'|]. split; [|exact RS].
  rewrite map_length. clear - LK. induction LK; cbn; congruence.
Qed.

Theorem C65_edit_is_local : forall c cap d a x y b itsa itsx itsy itsb la lx ly name1 p1 name2 p2 ess1 ess2,
  fit c d -> enough cap -> nuls_ok c (a ++ x ++ b) -> nuls_ok c (a ++ y ++ b) ->
  whole_lines a -> physical a la -> whole_lines x -> physical x lx -> whole_lines y -> physical y ly -> (c_ignhdr c = true -> itsa <> []) ->
  rows_of c d a itsa -> Forall (fun it => settled (it_out it)) itsa ->
  rows_of (keep_header c) d x itsx -> Forall (fun it => settled (it_out it)) itsx ->
  rows_of (keep_header c) d y itsy -> Forall (fun it => settled (it_out it)) itsy -> rows_of (keep_header c) d b itsb ->
  opened c cap d (a ++ x ++ b) name1 p1 -> opened c cap d (a ++ y ++ b) name2 p2 -> Forall types ess1 -> Forall types ess2 ->
  (** the rows before the edited ones *)
  (forall i it es, nth_error itsa i = Some it -> nth_error ess1 i = Some es -> nth_error ess2 i = Some es ->
   exists sn1 sn2, nth_error (reads c cap p1 ess1) i = Some sn1 /\ nth_error (reads c cap p2 ess2) i = Some sn2 /\
     alike (s_what sn1) (s_what sn2) /\
     (S i < length itsa -> s_eof sn1 = false /\ s_eof sn2 = false /\ s_line sn1 = s_line sn2 /\ s_pos sn1 = s_pos sn2)) /\
  (** the rows after them *)
  (forall j it es, nth_error itsb j = Some it -> nth_error ess1 (length itsa + length itsx + j) = Some es -> nth_error ess2 (length itsa + length itsy + j) = Some es ->
   exists sn1 sn2, nth_error (reads c cap p1 ess1) (length itsa + length itsx + j) = Some sn1 /\ nth_error (reads c cap p2 ess2) (length itsa + length itsy + j) = Some sn2 /\
     alike (s_what sn1) (s_what sn2) /\ s_eof sn1 = s_eof sn2 /\ s_line sn1 + length ly = s_line sn2 + length lx /\
     (s_eof sn1 = false \/ settled (it_out it) -> (s_pos sn1 + Z.of_nat (length y) = s_pos sn2 + Z.of_nat (length x))%Z)).
Proof.
  intros c cap d a x y b itsa itsx itsy itsb la lx ly name1 p1 name2 p2 ess1 ess2 F Hcap N1 N2 Wa Pa Wx Px Wy Py Hh Ra Sa Rx Sx Ry Sy Rb O1 O2 W1 W2.
  destruct (rows_three c d a x b itsa itsx itsb la lx Wa Pa Wx Px Ra Sa Rx Sx Rb) as (ra1 & rx & R1 & LK1 & LX & RS1).
  destruct (rows_three c d a y b itsa itsy itsb la ly Wa Pa Wy Py Ra Sa Ry Sy Rb) as (ra2 & ry & R2 & LK2 & LY & RS2).
  assert (LA1 : length ra1 = length itsa) by (clear - LK1; induction LK1; cbn; congruence).
  assert (LA2 : length ra2 = length itsa) by (clear - LK2; induction LK2; cbn; congruence).
  assert (HH : forall r s : list item, length r = length itsa -> c_ignhdr c = true -> r ++ s <> []).
  { intros r s E X Y. apply app_eq_nil in Y as [Y _]. apply (Hh X). apply length_zero_iff_nil. rewrite <- E, Y. reflexivity. }
  destruct (open_rows c cap d Hcap _ name1 p1 _ O1 N1 R1 (HH _ _ LA1)) as (X1 & L1 & k1 & PS1 & D1 & SO1).
  destruct (open_rows c cap d Hcap _ name2 p2 _ O2 N2 R2 (HH _ _ LA2)) as (X2 & L2 & k2 & PS2 & D2 & SO2).
  split.
  - intros i it es Hi He1 He2.
    destruct (forall2_nth _ _ _ LK1 i it Hi) as (u & Hu & [U1 U2]). destruct (forall2_nth _ _ _ RS1 i it Hi) as (u' & Hu' & U3). rewrite Hu in Hu'. injection Hu' as <-.
    destruct (forall2_nth _ _ _ LK2 i it Hi) as (v & Hv & [V1 V2]). destruct (forall2_nth _ _ _ RS2 i it Hi) as (v' & Hv' & V3). rewrite Hv in Hv'. injection Hv' as <-.
    assert (Hli : i < length itsa) by (apply nth_error_Some; congruence).
    assert (Hu2 : nth_error (ra1 ++ rx ++ map (moved (length la)) (map (moved (length lx)) itsb)) i = Some u) by (rewrite nth_error_app1 by lia; exact Hu).
    assert (Hv2 : nth_error (ra2 ++ ry ++ map (moved (length la)) (map (moved (length ly)) itsb)) i = Some v) by (rewrite nth_error_app1 by lia; exact Hv).
    destruct (reads_rows c d F cap Hcap ess1 _ _ _ _ _ _ _ PS1 D1 W1 i u es Hu2 He1) as (o & sn & A1 & A2 & A3 & A4 & A5 & A6).
    destruct (reads_rows c d F cap Hcap ess2 _ _ _ _ _ _ _ PS2 D2 W2 i v es Hv2 He2) as (o' & sn' & B1 & B2 & B3 & B4 & B5 & B6).
    exists sn, sn'. split; [exact A1|]. split; [exact B1|]. rewrite U1 in A2. rewrite V1 in B2.
    split; [eapply shown_alike; [exact A2|exact B2|exact A3|exact B3]|]. intros Hl.
    assert (Hne : it_rest it <> []).
    { intros Y. destruct Ra as (k0 & L0 & _ & D0). apply (document_last c d _ _ _ D0 i it Hi) in Y. lia. }
    destruct (U3 Hne) as [U4 U5]. destruct (V3 Hne) as [V4 V5]. rewrite A4, B4.
    split; [apply Nat.eqb_neq; rewrite !app_length, !LA1; lia|]. split; [apply Nat.eqb_neq; rewrite !app_length, !LA2; lia|]. split; [congruence|].
    rewrite A6, B6 by (left; rewrite ?U5, ?V5; destruct (it_rest it); cbn; congruence).
    rewrite U5, V5, !bytes_app, !lines_bytes, !app_length. lia.
  - intros j it es Hj He1 He2. assert (Hlj : j < length itsb) by (apply nth_error_Some; congruence).
    assert (AT : forall r s n, length r = length itsa -> nth_error (r ++ s ++ map (moved (length la)) (map (moved n) itsb)) (length itsa + length s + j) = Some (moved (length la) (moved n it))).
    { intros r s n E. rewrite nth_error_app2 by lia. rewrite nth_error_app2 by lia. replace (length itsa + length s + j - length r - length s) with j by lia. apply map_nth_error, map_nth_error. exact Hj. }
    pose proof (AT ra1 rx (length lx) LA1) as Hu. rewrite LX in Hu. pose proof (AT ra2 ry (length ly) LA2) as Hv. rewrite LY in Hv.
    destruct (reads_rows c d F cap Hcap ess1 _ _ _ _ _ _ _ PS1 D1 W1 _ _ es Hu He1) as (o & sn & A1 & A2 & A3 & A4 & A5 & A6).
    destruct (reads_rows c d F cap Hcap ess2 _ _ _ _ _ _ _ PS2 D2 W2 _ _ es Hv He2) as (o' & sn' & B1 & B2 & B3 & B4 & B5 & B6).
    cbn [moved it_out it_line it_next it_rest] in *.
    exists sn, sn'. split; [exact A1|]. split; [exact B1|]. split; [eapply shown_alike; [exact A2|exact B2|exact A3|exact B3]|].
    assert (EE : s_eof sn = s_eof sn') by (rewrite A4, B4; apply Bool.eq_iff_eq_true; rewrite !Nat.eqb_eq, !app_length, !map_length; lia).
    split; [exact EE|]. split; [lia|]. intros K.
    assert (K' : it_rest it <> [] \/ settled (it_out it)).
    { destruct K as [K|K]; [left|right; exact K]. intros Y. destruct Rb as (k0 & L0 & _ & D0). apply (document_last _ d _ _ _ D0 j it Hj) in Y.
      rewrite A4 in K. apply Nat.eqb_neq in K. apply K. rewrite !app_length, !map_length. lia. }
    rewrite A6, B6, !app_length by exact K'. lia.
Qed.
Print Assumptions C65_edit_is_local.

(** ** Example: one row is replaced by two rows with an empty line between them; the row after the next one stays bad. *)
Definition old_part : str := S2 "e,5" ++ [LF].
Definition new_part : str := S2 """f"",x" ++ LF :: LF :: S2 "g,7" ++ [LF].
Definition old_rows : list item := [mkItem (Complete (S2 "e,5")) 1 1 []].
Definition new_rows : list item := [mkItem (Complete (S2 """f"",x")) 1 2 [(S2 "g,7", [LF])]; mkItem (Complete (S2 "g,7")) 3 3 []].
Example C65_example : whole_lines old_part /\ whole_lines new_part /\
  rows_of (keep_header both_cfg) (S2 ",") old_part old_rows /\ Forall (fun it => settled (it_out it)) old_rows /\
  rows_of (keep_header both_cfg) (S2 ",") new_part new_rows /\ Forall (fun it => settled (it_out it)) new_rows /\
  exists p1 p2, opened both_cfg as_needed (S2 ",") (first_file ++ old_part ++ second_file) (S2 "x") p1 /\
    opened both_cfg as_needed (S2 ",") (first_file ++ new_part ++ second_file) (S2 "x") p2 /\
    map (fun sn => (s_what sn, s_line sn, s_eof sn)) (reads both_cfg as_needed p1 (repeat [text; int32] 4)) =
      [(GValues [VStr (S2 "a,b"); VInt 1], 2, false); (GValues [VStr (S2 "e"); VInt 5], 4, false);
       (GValues [VStr (S2 "c"); VInt 2], 5, false); (GError (S2 "x 6: invalid conversion for parameter at column 2: 'x'"), 6, true)] /\
    map (fun sn => (s_what sn, s_line sn, s_eof sn)) (reads both_cfg as_needed p2 (repeat [text; int32] 5)) =
      [(GValues [VStr (S2 "a,b"); VInt 1], 2, false); (GError (S2 "x 3: invalid conversion for parameter at column 2: 'x'"), 4, false); (GValues [VStr (S2 "g"); VInt 7], 6, false);
       (GValues [VStr (S2 "c"); VInt 2], 7, false); (GError (S2 "x 8: invalid conversion for parameter at column 2: 'x'"), 8, true)].
Proof.
  assert (NB : forall c t e ls, t <> [] -> blanks c ((t, e) :: ls) 0 ((t, e) :: ls)) by (intros c t e ls H; apply bl_none; intros e' ls' _ X; congruence).
  assert (NE : forall c, blanks c [] 0 []) by (intros c; apply bl_none; discriminate).
  assert (ND : forall c t u w, c_ml c = false -> ~ goes_on c (S2 ",") t u w) by (intros c t u w M G; inversion G; congruence).
  assert (NC : forall t : str, last t NUL <> CR -> forall t', t <> t' ++ [CR]) by (intros t K t' ->; apply K, last_last).
  assert (P : physical old_part [(S2 "e,5", [LF])]) by (change (physical (S2 "e,5" ++ LF :: []) [(S2 "e,5", [LF])]); apply ph_lf; [vm_compute; intuition discriminate|apply NC; discriminate|constructor]).
  assert (P2 : physical new_part [(S2 """f"",x", [LF]); ([], [LF]); (S2 "g,7", [LF])]).
  { change new_part with (S2 """f"",x" ++ LF :: [] ++ LF :: S2 "g,7" ++ LF :: []). apply ph_lf; [vm_compute; intuition discriminate|apply NC; discriminate|].
    apply ph_lf; [intros []|apply NC; discriminate|]. apply ph_lf; [vm_compute; intuition discriminate|apply NC; discriminate|constructor]. }
  split; [right; eexists; reflexivity|]. split; [right; exists (S2 """f"",x" ++ LF :: LF :: S2 "g,7"); reflexivity|]. split.
  { exists 0, [(S2 "e,5", [LF])]. split; [eapply st_all; [reflexivity|exact P|apply NB; discriminate]|].
    eapply (doc_row _ (S2 ",") 0 _ _ _ _ 0 _ 0); [apply row_done; intros w; apply ND; reflexivity|apply NE|constructor]. }
  split; [constructor; [split; discriminate|constructor]|]. split.
  { exists 0, [(S2 """f"",x", [LF]); ([], [LF]); (S2 "g,7", [LF])]. split; [eapply st_all; [reflexivity|exact P2|apply NB; discriminate]|].
    eapply (doc_row _ (S2 ",") 0 _ _ _ _ 0 _ 1); [apply row_done; intros w; apply ND; reflexivity|apply bl_skip; [reflexivity|apply NB; discriminate]|].
    eapply (doc_row _ (S2 ",") 2 _ _ _ _ 0 _ 0); [apply row_done; intros w; apply ND; reflexivity|apply NE|constructor]. }
  split; [constructor; [split; discriminate|constructor; [split; discriminate|constructor]]|].
  eexists. eexists. split; [apply op_file; vm_compute; reflexivity|]. split; [apply op_file; vm_compute; reflexivity|]. split; vm_compute; reflexivity.
Qed.
Print Assumptions C65_example.
(** A part that leaves a quote open does not leave the rows after it alone. *)
Example C65_needs_settled_rows : exists p1 p2, opened rich as_needed (S2 ",") (S2 "a" ++ LF :: S2 "b") (S2 "x") p1 /\ opened rich as_needed (S2 ",") ((S2 """a" ++ [LF]) ++ S2 "b") (S2 "x") p2 /\
  map s_what (reads rich as_needed p1 [[text]; [text]]) = [GValues [VStr (S2 "a")]; GValues [VStr (S2 "b")]] /\
  map (fun sn => (s_what sn, s_eof sn)) (reads rich as_needed p2 [[text]]) = [(GError (S2 "x 2: unterminated quote"), true)].
Proof.
  eexists. eexists. split; [apply op_file; vm_compute; reflexivity|]. split; [apply op_file; vm_compute; reflexivity|]. split; vm_compute; reflexivity.
Qed.
