(** C59: reading one document after another.  Vocabulary: [rows_of], [settled] (the row did not miss its end: ParserSpec.v,
    PropCut.v), [whole_lines a]: [a] is empty or ends in a line feed; [moved n it]: the same row, [n] lines further down;
    [like]: same outcome at the same line (Concat.v). *)
From Verif Require Import Base Setup Splitter SplitPure ListFacts SetupProofs SplitApi Extract Converter ConvSpec Reader LineSpec LineProofs Parser ParserSpec ParserApi ParserRows ParserOpen ParserSession ParserFacts PropParser PropMulti PropCut PropExamples Concat.

(** The rows of [a ++ b] are those of [a], then those of [b]; ignore_header is about the first line of [a] only. *)
Theorem C59_rows_of_both : forall c d a b itsa itsb la, whole_lines a -> physical a la ->
  rows_of c d a itsa -> Forall (fun it => settled (it_out it)) itsa -> rows_of (keep_header c) d b itsb ->
  exists itsa', rows_of c d (a ++ b) (itsa' ++ map (moved (length la)) itsb) /\ Forall2 like itsa' itsa.
Proof. intros c d a b itsa itsb la W P Ra St Rb. destruct (rows_app c d a b itsa itsb la W P Ra St Rb) as (x & A1 & A2 & _). eauto. Qed.
Print Assumptions C59_rows_of_both.

Lemma forall2_nth {A B} (R : A -> B -> Prop) l1 l2 : Forall2 R l1 l2 -> forall i y, nth_error l2 i = Some y -> exists x, nth_error l1 i = Some x /\ R x y.
Proof.
  induction 1 as [|x y l1 l2 H F IH]; intros i z Hi; [destruct i; discriminate|]. destruct i as [|i]; [injection Hi as <-; exists x; auto|]. exact (IH i z Hi).
Qed.
Lemma bytes_app x y : bytes (x ++ y) = bytes x + bytes y.
Proof. unfold bytes. rewrite map_app, concat_app, app_length. reflexivity. Qed.

(** A parser on [a ++ b] shows what one on [a] shows, and then what one on [b] shows: values, errors, eof(); line() goes on
    counting and position() too. *)
Theorem C59_reading_both : forall c cap d a b itsa itsb la name p namea pa nameb pb ess essa essb,
  fit c d -> enough cap -> nuls_ok c (a ++ b) -> whole_lines a -> physical a la -> (c_ignhdr c = true -> itsa <> []) ->
  rows_of c d a itsa -> Forall (fun it => settled (it_out it)) itsa -> rows_of (keep_header c) d b itsb ->
  opened c cap d (a ++ b) name p -> opened c cap d a namea pa -> opened (keep_header c) cap d b nameb pb ->
  Forall types ess -> Forall types essa -> Forall types essb ->
  (forall i it es, nth_error itsa i = Some it -> nth_error ess i = Some es -> nth_error essa i = Some es ->
   exists sn sna, nth_error (reads c cap p ess) i = Some sn /\ nth_error (reads c cap pa essa) i = Some sna /\
     alike (s_what sn) (s_what sna) /\ (s_eof sn = true <-> s_eof sna = true /\ itsb = []) /\
     (s_eof sna = false -> s_line sn = s_line sna /\ s_pos sn = s_pos sna)) /\
  (forall j it es, nth_error itsb j = Some it -> nth_error ess (length itsa + j) = Some es -> nth_error essb j = Some es ->
   exists sn snb, nth_error (reads c cap p ess) (length itsa + j) = Some sn /\ nth_error (reads (keep_header c) cap pb essb) j = Some snb /\
     alike (s_what sn) (s_what snb) /\ s_eof sn = s_eof snb /\ s_line sn = length la + s_line snb /\
     (s_eof snb = false \/ settled (it_out it) -> s_pos sn = (Z.of_nat (length a) + s_pos snb)%Z)).
Proof.
  intros c cap d a b itsa itsb la name p namea pa nameb pb ess essa essb F Hcap N W P Hh Ra St Rb O Oa Ob W1 Wa Wb.
  destruct (rows_app c d a b itsa itsb la W P Ra St Rb) as (its & R & LK & RS).
  assert (LEN : length its = length itsa) by (clear - LK; induction LK; cbn; congruence).
  assert (Na : nuls_ok c a) by (intros M X; apply (N M); apply in_or_app; auto).
  assert (Nb : nuls_ok (keep_header c) b) by (intros M X; apply (N M); apply in_or_app; auto).
  assert (Hh' : c_ignhdr c = true -> its ++ map (moved (length la)) itsb <> []).
  { intros X Y. apply app_eq_nil in Y as [Y _]. apply (Hh X). apply length_zero_iff_nil. rewrite <- LEN, Y. reflexivity. }
  pose proof (fit_header _ _ F) as Fb.
  destruct (open_rows c cap d Hcap (a ++ b) name p _ O N R Hh') as (X & L & k & PS & D & SO).
  destruct (open_rows c cap d Hcap a namea pa itsa Oa Na Ra Hh) as (Xa & La & ka & PSa & Da & SOa).
  destruct (open_rows (keep_header c) cap d Hcap b nameb pb itsb Ob Nb Rb ltac:(discriminate)) as (Xb & Lb & kb & PSb & Db & SOb).
  assert (LT : length (its ++ map (moved (length la)) itsb) = length itsa + length itsb) by (rewrite app_length, map_length; lia).
  split.
  - intros i it es Hi He Hea. destruct (forall2_nth _ _ _ LK i it Hi) as (x & Hx & [Ex1 Ex2]). destruct (forall2_nth _ _ _ RS i it Hi) as (x' & Hx' & Ex3).
    rewrite Hx in Hx'. injection Hx' as <-. assert (Hli : i < length itsa) by (apply nth_error_Some; congruence).
    assert (Hx2 : nth_error (its ++ map (moved (length la)) itsb) i = Some x) by (rewrite nth_error_app1 by lia; exact Hx).
    destruct (reads_rows c d F cap Hcap ess _ _ _ _ _ _ _ PS D W1 i x es Hx2 He) as (o & sn & A1 & A2 & A3 & A4 & A5 & A6).
    destruct (reads_rows c d F cap Hcap essa _ _ _ _ _ _ _ PSa Da Wa i it es Hi Hea) as (o' & sna & B1 & B2 & B3 & B4 & B5 & B6).
    exists sn, sna. split; [exact A1|]. split; [exact B1|]. rewrite Ex1 in A2. split; [eapply shown_alike; [exact A2|exact B2|exact A3|exact B3]|]. split.
    + rewrite A4, B4, LT, !Nat.eqb_eq. destruct itsb; cbn [length]; split; try (intros K; split; [lia|]); try (intros [K K2]); try reflexivity; try discriminate; try lia.
    + rewrite B4. intros K. apply Nat.eqb_neq in K.
      assert (Hne : it_rest it <> []) by (intros Y; apply (document_last c d _ _ _ Da i it Hi) in Y; lia).
      destruct (Ex3 Hne) as [En Er]. split; [congruence|]. rewrite A6, B6 by (left; rewrite ?Er; destruct (it_rest it); cbn; congruence).
      rewrite Er, bytes_app, lines_bytes, app_length. lia.
  - intros j it es Hj He Heb. assert (Hlj : j < length itsb) by (apply nth_error_Some; congruence).
    assert (Hx2 : nth_error (its ++ map (moved (length la)) itsb) (length itsa + j) = Some (moved (length la) it)).
    { rewrite nth_error_app2 by lia. replace (length itsa + j - length its) with j by lia. apply map_nth_error. exact Hj. }
    destruct (reads_rows c d F cap Hcap ess _ _ _ _ _ _ _ PS D W1 _ _ es Hx2 He) as (o & sn & A1 & A2 & A3 & A4 & A5 & A6).
    destruct (reads_rows _ d Fb cap Hcap essb _ _ _ _ _ _ _ PSb Db Wb j it es Hj Heb) as (o' & snb & B1 & B2 & B3 & B4 & B5 & B6).
    cbn [moved it_out it_line it_next it_rest] in *.
    exists sn, snb. split; [exact A1|]. split; [exact B1|]. apply reading_header in B2. split; [eapply shown_alike; [exact A2|exact B2|exact A3|exact B3]|].
    split; [rewrite A4, B4, LT; destruct (S j =? length itsb) eqn:Y; [apply Nat.eqb_eq in Y; apply Nat.eqb_eq; lia|apply Nat.eqb_neq in Y; apply Nat.eqb_neq; lia]|].
    split; [congruence|]. intros K. rewrite A6, B6, app_length; [lia| |].
    all: destruct K as [K|K]; [left; rewrite B4 in K; apply Nat.eqb_neq in K; intros Y; apply (document_last _ d _ _ _ Db j it Hj) in Y; lia|right; exact K].
Qed.
Print Assumptions C59_reading_both.

(** Any number of files that end in a line feed, and a last one. *)
Lemma keep_none c : c_ignhdr c = false -> keep_header c = c. Proof. destruct c; cbn; intros ->; reflexivity. Qed.
Theorem C59_rows_of_all : forall c d files itss last itsl, c_ignhdr c = false ->
  Forall2 (fun a its => whole_lines a /\ rows_of c d a its /\ Forall (fun it => settled (it_out it)) its) files itss -> rows_of c d last itsl ->
  exists its, rows_of c d (concat files ++ last) its /\ map it_out its = concat (map (map it_out) itss) ++ map it_out itsl.
Proof.
  intros c d files itss last itsl Hh H Rl. induction H as [|a itsa files itss (W & Ra & St) H (its & R & E)]; [exists itsl; auto|].
  rewrite <- (keep_none c Hh) in R. destruct (rows_app c d a (concat files ++ last) itsa its _ W (lines_physical a) Ra St R) as (x & A1 & A2 & _).
  exists (x ++ map (moved (length (lines a))) its). cbn [concat map]. rewrite <- !app_assoc. split; [exact A1|]. rewrite map_app, map_map. cbn [moved it_out]. rewrite <- E. f_equal.
  clear - A2. induction A2 as [|u v l1 l2 [K _] F IH]; [reflexivity|]. cbn. congruence.
Qed.
Print Assumptions C59_rows_of_all.

(** ** Example: two files with ignore_header and ignore_empty; the second begins with an empty line. *)
Definition both_opts : list opt := [OQuote """"%char; OIgnoreHeader; OIgnoreEmpty; OStringError].
Definition both_cfg : cfg := mkCfg (Some """"%char) [] [] [] false 0 EString true true.
Definition first_file : str := S2 "name,n" ++ LF :: S2 """a,b"",1" ++ [LF].
Definition second_file : str := LF :: S2 "c,2" ++ LF :: S2 "d,x".
Definition first_lines : list (str * str) := [(S2 "name,n", [LF]); (S2 """a,b"",1", [LF])].
Definition first_rows : list item := [mkItem (Complete (S2 """a,b"",1")) 2 2 []].
Definition second_rows : list item := [mkItem (Complete (S2 "c,2")) 2 2 [(S2 "d,x", [])]; mkItem (Complete (S2 "d,x")) 3 3 []].
Example C59_example : setup both_opts = Some both_cfg /\ fit both_cfg (S2 ",") /\ whole_lines first_file /\ physical first_file first_lines /\
  rows_of both_cfg (S2 ",") first_file first_rows /\ Forall (fun it => settled (it_out it)) first_rows /\ rows_of (keep_header both_cfg) (S2 ",") second_file second_rows /\
  exists p pa pb, opened both_cfg as_needed (S2 ",") (first_file ++ second_file) (S2 "x") p /\ opened both_cfg as_needed (S2 ",") first_file (S2 "x") pa /\
    opened (keep_header both_cfg) as_needed (S2 ",") second_file (S2 "x") pb /\
    map (fun sn => (s_what sn, s_line sn, s_eof sn)) (reads both_cfg as_needed p (repeat [text; int32] 3)) =
      [(GValues [VStr (S2 "a,b"); VInt 1], 3, false); (GValues [VStr (S2 "c"); VInt 2], 4, false);
       (GError (S2 "x 5: invalid conversion for parameter at column 2: 'x'"), 5, true)] /\
    map (fun sn => (s_what sn, s_line sn, s_eof sn)) (reads both_cfg as_needed pa (repeat [text; int32] 1)) = [(GValues [VStr (S2 "a,b"); VInt 1], 2, true)] /\
    map (fun sn => (s_what sn, s_line sn, s_eof sn)) (reads (keep_header both_cfg) as_needed pb (repeat [text; int32] 2)) =
      [(GValues [VStr (S2 "c"); VInt 2], 2, false); (GError (S2 "x 3: invalid conversion for parameter at column 2: 'x'"), 3, true)].
Proof.
  assert (E1 : setup both_opts = Some both_cfg) by reflexivity.
  assert (NB : forall c t e ls, t <> [] -> blanks c ((t, e) :: ls) 0 ((t, e) :: ls)) by (intros c t e ls H; apply bl_none; intros e' ls' _ X; congruence).
  assert (NE : forall c, blanks c [] 0 []) by (intros c; apply bl_none; discriminate).
  assert (ND : forall c t u w, c_ml c = false -> ~ goes_on c (S2 ",") t u w) by (intros c t u w M G; inversion G; congruence).
  assert (NC : forall t : str, last t NUL <> CR -> forall t', t <> t' ++ [CR]) by (intros t K t' ->; apply K, last_last).
  assert (P : physical first_file first_lines).
  { apply ph_lf; [vm_compute; intuition discriminate|apply NC; discriminate|]. change (physical (S2 """a,b"",1" ++ LF :: []) [(S2 """a,b"",1", [LF])]).
    apply ph_lf; [vm_compute; intuition discriminate|apply NC; discriminate|constructor]. }
  assert (P2 : physical second_file [([], [LF]); (S2 "c,2", [LF]); (S2 "d,x", [])]).
  { change second_file with ([] ++ LF :: S2 "c,2" ++ LF :: S2 "d,x"). apply ph_lf; [intros []|apply NC; discriminate|].
    apply ph_lf; [vm_compute; intuition discriminate|apply NC; discriminate|]. apply ph_last; [discriminate|vm_compute; intuition discriminate]. }
  split; [exact E1|]. split.
  { split; [exact (setup_ok _ _ E1)| | |discriminate]; [cbn; intros [H|[]]; discriminate|discriminate]. }
  split; [right; exists (S2 "name,n" ++ LF :: S2 """a,b"",1"); reflexivity|]. split; [exact P|]. split.
  { exists (0 + 1), [(S2 """a,b"",1", [LF])]. split; [eapply st_header; [reflexivity|exact P|apply NB; discriminate|apply NB; discriminate]|].
    eapply (doc_row both_cfg (S2 ",") 1 _ _ _ _ 0 _ 0); [apply row_done; intros w; apply ND; reflexivity|apply NE|constructor]. }
  split; [constructor; [split; discriminate|constructor]|]. split.
  { exists 1, [(S2 "c,2", [LF]); (S2 "d,x", [])]. split; [eapply st_all; [reflexivity|exact P2|apply bl_skip; [reflexivity|apply NB; discriminate]]|].
    eapply (doc_row _ (S2 ",") 1 _ _ _ _ 0 _ 0); [apply row_done; intros w; apply ND; reflexivity|apply NB; discriminate|].
    eapply (doc_row _ (S2 ",") 2 _ _ _ _ 0 _ 0); [apply row_done; intros w; apply ND; reflexivity|apply NE|constructor]. }
  eexists. eexists. eexists. split; [apply op_file; vm_compute; reflexivity|]. split; [apply op_file; vm_compute; reflexivity|]. split; [apply op_file; vm_compute; reflexivity|].
  split; [|split]; vm_compute; reflexivity.
Qed.
Print Assumptions C59_example.
(** Without the line feed, or with a quote left open, two files become other rows. *)
Example C59_needs_whole_lines : exists p, opened rich as_needed (S2 ",") (S2 "a,1" ++ S2 "b,2") (S2 "x") p /\
  map s_what (reads rich as_needed p [[text; text; text]]) = [GValues [VStr (S2 "a"); VStr (S2 "1b"); VStr (S2 "2")]].
Proof. eexists. split; [apply op_file; vm_compute; reflexivity|]. vm_compute. reflexivity. Qed.
Example C59_needs_settled_rows : exists p, opened rich as_needed (S2 ",") ((S2 """a" ++ [LF]) ++ S2 "b"",2") (S2 "x") p /\
  map s_what (reads rich as_needed p [[text; int32]]) = [GValues [VStr (S2 "a" ++ LF :: S2 "b"); VInt 2]].
Proof. eexists. split; [apply op_file; vm_compute; reflexivity|]. vm_compute. reflexivity. Qed.
