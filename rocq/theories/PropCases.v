(** Concrete cases that meet the hypotheses of the theorems of PropReader.v (C23), PropParser.v (C24, C26, C27, C29, C30),
    PropSession.v (C34-C36) and PropChain.v (C37, C38), with what the theorems speak about computed. *)
From Verif Require Import Base Setup SetupProofs Splitter SplitApi Extract Converter ConvSpec ConvProofs Reader LineSpec LineProofs LineReads Parser ParserSpec ParserApi ParserRows SessionApi SessionSpec PropParser PropExamples PropSession PropCovered.

(** quote, string_error, ignore_empty *)
Definition ledger_opts : list opt := [OQuote """"%char; OStringError; OIgnoreEmpty].
Definition ledger : cfg := mkCfg (Some """"%char) [] [] [] false 0 EString false true.
(** Two good rows and two bad ones, a blank line, no line end at the end; the same lines with other line ends; the same
    without the first bad row. *)
Definition book : str := S2 "a,1" ++ CR :: LF :: LF :: S2 "b,x" ++ LF :: S2 """c""d,3" ++ LF :: S2 "e,5".
Definition book_lf : str := S2 "a,1" ++ LF :: CR :: LF :: S2 "b,x" ++ LF :: S2 """c""d,3" ++ CR :: LF :: S2 "e,5" ++ [LF].
Definition book_short : str := S2 "a,1" ++ CR :: LF :: LF :: S2 """c""d,3" ++ LF :: S2 "e,5".
Definition book_rows (e1 e2 : str) : list item :=
  [ mkItem (Complete (S2 "a,1")) 1 2 [(S2 "b,x", [LF]); (S2 """c""d,3", e1); (S2 "e,5", e2)]; mkItem (Complete (S2 "b,x")) 3 3 [(S2 """c""d,3", e1); (S2 "e,5", e2)];
    mkItem (Complete (S2 """c""d,3")) 4 4 [(S2 "e,5", e2)]; mkItem (Complete (S2 "e,5")) 5 5 [] ].
Definition short_rows : list item :=
  [ mkItem (Complete (S2 "a,1")) 1 2 [(S2 """c""d,3", [LF]); (S2 "e,5", [])]; mkItem (Complete (S2 """c""d,3")) 3 3 [(S2 "e,5", [])]; mkItem (Complete (S2 "e,5")) 4 4 [] ].

Lemma plain_row t e ls : row ledger (S2 ",") 0 t t e ls (Complete t) 0 ls.
Proof. apply row_done. intros w G. destruct G; discriminate. Qed.
Lemma no_blank t e ls : t <> [] -> blanks ledger ((t, e) :: ls) 0 ((t, e) :: ls).
Proof. intros H. apply bl_none. intros e' ls' _ [= -> _ _]. apply H. reflexivity. Qed.
Lemma one_row k t e ls j ls' its : blanks ledger ls j ls' -> document ledger (S2 ",") (k + 1 + j) ls' its ->
  document ledger (S2 ",") k ((t, e) :: ls) (mkItem (Complete t) (k + 1) (k + 1 + j) ls' :: its).
Proof. intros B D. exact (doc_row ledger (S2 ",") k t e ls (Complete t) 0 ls j ls' its (plain_row t e ls) B D). Qed.
Lemma no_lines : blanks ledger [] 0 [].
Proof. apply bl_none. discriminate. Qed.
Lemma book_document data e0 e1 e2 : lines data = [(S2 "a,1", e0); ([], if list_eq_dec ascii_dec e0 [LF] then [CR; LF] else [LF]); (S2 "b,x", [LF]); (S2 """c""d,3", e1); (S2 "e,5", e2)] ->
  rows_of ledger (S2 ",") data (book_rows e1 e2).
Proof.
  intros E. exists 0, (lines data). split; [apply (st_all ledger data (lines data) 0); [reflexivity|apply lines_physical|rewrite E; apply no_blank; discriminate]|].
  rewrite E. apply (one_row 0 _ _ _ 1); [apply bl_skip; [reflexivity|apply no_blank; discriminate]|].
  apply (one_row 2 _ _ _ 0); [apply no_blank; discriminate|].
  apply (one_row 3 _ _ _ 0); [apply no_blank; discriminate|].
  apply (one_row 4 _ _ _ 0); [apply no_lines|]. constructor.
Qed.
Lemma short_document : rows_of ledger (S2 ",") book_short short_rows.
Proof.
  assert (E : lines book_short = [(S2 "a,1", [CR; LF]); ([], [LF]); (S2 """c""d,3", [LF]); (S2 "e,5", [])]) by (vm_compute; reflexivity).
  exists 0, (lines book_short). split; [apply (st_all ledger book_short (lines book_short) 0); [reflexivity|apply lines_physical|rewrite E; apply no_blank; discriminate]|].
  rewrite E. apply (one_row 0 _ _ _ 1); [apply bl_skip; [reflexivity|apply no_blank; discriminate]|].
  apply (one_row 2 _ _ _ 0); [apply no_blank; discriminate|].
  apply (one_row 3 _ _ _ 0); [apply no_lines|]. constructor.
Qed.

(** The hypotheses of C24-C30 together. *)
Example C29_case : setup ledger_opts = Some ledger /\ fit ledger (S2 ",") /\ enough as_needed /\ Forall types (repeat [text; int32] 4) /\ nuls_ok ledger book /\
  rows_of ledger (S2 ",") book (book_rows [LF] []) /\
  exists p, opened ledger as_needed (S2 ",") book (S2 "book.csv") p /\
    let sns := reads ledger as_needed p (repeat [text; int32] 4) in
    map s_what sns = [ GValues [VStr (S2 "a"); VInt 1]; GError (S2 "book.csv 3: invalid conversion for parameter at column 2: 'x'");
                       GError (S2 "book.csv 4: mismatched quote at position: 2"); GValues [VStr (S2 "e"); VInt 5] ] /\
    map s_line sns = [2; 3; 4; 5] /\ map s_pos sns = [6; 10; 17; 20]%Z /\ map s_eof sns = [false; false; false; true].
Proof.
  assert (E : setup ledger_opts = Some ledger) by reflexivity.
  split; [exact E|]. split; [|split; [|split; [|split; [|split]]]].
  - split; [exact (setup_ok _ _ E)| | |]; try discriminate. cbn. intros [H|[]]. discriminate.
  - intros n need. apply le_n.
  - repeat (constructor; [split; [repeat constructor|discriminate]|]). constructor.
  - discriminate.
  - apply (book_document book [CR; LF]). vm_compute. reflexivity.
  - eexists. split; [apply op_file; vm_compute; reflexivity|]. cbv zeta. repeat split; vm_compute; reflexivity.
Qed.
Example C24_case : c_ml ledger = false /\ physical book (lines book) /\ physical book_lf (lines book_lf) /\ map fst (lines book) = map fst (lines book_lf) /\
  map snd (lines book) <> map snd (lines book_lf) /\ rows_of ledger (S2 ",") book_lf (book_rows [CR; LF] [LF]) /\
  exists p, opened ledger as_needed (S2 ",") book_lf (S2 "book.csv") p /\
    let sns := reads ledger as_needed p (repeat [text; int32] 4) in
    map s_what sns = [ GValues [VStr (S2 "a"); VInt 1]; GError (S2 "book.csv 3: invalid conversion for parameter at column 2: 'x'");
                       GError (S2 "book.csv 4: mismatched quote at position: 2"); GValues [VStr (S2 "e"); VInt 5] ] /\ map s_line sns = [2; 3; 4; 5].
Proof.
  split; [reflexivity|]. split; [apply lines_physical|]. split; [apply lines_physical|]. split; [vm_compute; reflexivity|]. split; [vm_compute; discriminate|].
  split; [apply (book_document book_lf [LF]); vm_compute; reflexivity|].
  eexists. split; [apply op_file; vm_compute; reflexivity|]. cbv zeta. split; vm_compute; reflexivity.
Qed.
(** The rows after the bad one, with and without it. *)
Example C26_case : rows_of ledger (S2 ",") book_short short_rows /\
  (exists it1 it2, nth_error (book_rows [LF] []) 1 = Some it1 /\ nth_error short_rows 0 = Some it2 /\ it_rest it1 = it_rest it2 /\ it_rest it1 <> []) /\
  (exists it1 it2, nth_error (book_rows [LF] []) 2 = Some it1 /\ nth_error short_rows 1 = Some it2 /\ it_out it1 = it_out it2 /\ ~ empty_row (it_out it1)) /\
  exists p, opened ledger as_needed (S2 ",") book_short (S2 "short.csv") p /\
    map s_what (reads ledger as_needed p (repeat [text; int32] 3)) =
      [ GValues [VStr (S2 "a"); VInt 1]; GError (S2 "short.csv 3: mismatched quote at position: 2"); GValues [VStr (S2 "e"); VInt 5] ].
Proof.
  split; [exact short_document|]. split; [|split].
  - eexists. eexists. split; [reflexivity|]. split; [reflexivity|]. split; [reflexivity|discriminate].
  - eexists. eexists. split; [reflexivity|]. split; [reflexivity|]. split; [reflexivity|]. intros (t & [= <-] & X). discriminate X.
  - eexists. split; [apply op_file; vm_compute; reflexivity|]. vm_compute. reflexivity.
Qed.
Example C27_case : c_ml ledger = false /\ c_ignhdr ledger = false /\ c_ignempty ledger = true /\ In ([], [LF]) (lines book) /\
  map it_out (book_rows [LF] []) = [Complete (S2 "a,1"); Complete (S2 "b,x"); Complete (S2 """c""d,3"); Complete (S2 "e,5")].
Proof. repeat (split; [reflexivity|]). split; [vm_compute; auto|reflexivity]. Qed.
Example C30_case : exists p, opened ledger as_needed (S2 ",") book (S2 "book.csv") p /\ length (repeat [text; int32] 4) = length (book_rows [LF] []) /\
  map (fun sn => (s_what sn, s_eof sn)) (skipn 4 (reads ledger as_needed p (repeat [text; int32] 4 ++ [[text]; [int32]]))) =
    [(GError (S2 "book.csv: read on end of file"), true); (GError (S2 "book.csv: read on end of file"), true)].
Proof. eexists. split; [apply op_file; vm_compute; reflexivity|]. split; [reflexivity|]. vm_compute. reflexivity. Qed.
(** Lines longer than the pieces of 127 bytes that the portable reader takes. *)
Definition long_lines : str := repeat "x"%char 300 ++ CR :: LF :: LF :: repeat "y"%char 127 ++ LF :: repeat "z"%char 128.
Example C23_case : ~ In NUL long_lines /\ enough as_needed /\ exists l1 l2,
  all_lines as_needed Portable (S (length long_lines)) long_lines (mkLp None 0 0) =
    Ok [repeat "x"%char 300 ++ [CR; LF]; [LF]; repeat "y"%char 127 ++ [LF]; repeat "z"%char 128] l1 /\
  all_lines as_needed Posix (S (length long_lines)) long_lines (mkLp None 0 0) =
    Ok [repeat "x"%char 300 ++ [CR; LF]; [LF]; repeat "y"%char 127 ++ [LF]; repeat "z"%char 128] l2.
Proof.
  split; [|split; [intros n need; apply le_n|]].
  - unfold long_lines. rewrite in_app_iff. cbn [In]. rewrite in_app_iff. cbn [In]. intros [H|[H|[H|[H|[H|[H|H]]]]]]; try discriminate; apply repeat_spec in H; discriminate.
  - eexists. eexists. split; vm_compute; reflexivity.
Qed.

(** A session as in C34-C38: [people] is the document of C44_example, which shows refused and accepted selections, chains with
    checks and handlers on it. *)
Example C35_case : fit quotes (S2 ",") /\ header_setup quotes (header_cfg quotes) /\ c_ignhdr quotes = false /\ c_mode quotes <> EThrow /\
  (exists p v, session quotes as_needed (S2 ",") people (S2 "p.csv") (S2 "id,name,age") p v /\ w_lines v = lines people /\
    p_eof p = false /\ ~ outside quotes (header_cfg quotes) (S2 ",") (S2 "p.csv") (S2 "id,name,age") v (CUse [S2 "age"; S2 "id"]) /\
    covered quotes (header_cfg quotes) (S2 ",") (S2 "p.csv") (S2 "id,name,age") v []) /\
  names (header_cfg quotes) (S2 ",") (S2 "id,name,age") [S2 "id"; S2 "name"; S2 "age"] /\ NoDup [S2 "id"; S2 "name"; S2 "age"] /\
  selection [S2 "id"; S2 "name"; S2 "age"] [S2 "age"; S2 "id"] /\
  bad_selection (S2 "p.csv") [S2 "id"; S2 "name"; S2 "age"] [S2 "age"; S2 "size"] (S2 "p.csv: header does not contain given field: size").
Proof.
  assert (B : forall ls, blanks quotes ls 0 ls) by (intros ls; apply bl_none; discriminate).
  split; [|split; [left; reflexivity|split; [reflexivity|split; [discriminate|split; [|split; [|split; [|split]]]]]]].
  - split; [apply (setup_ok [OQuote """"%char; OStringError]); reflexivity| | |]; try discriminate. cbn. intros [H|[]]. discriminate.
  - eexists. exists (mkView 0 (lines people) false [] 0 []). split; [|split; [reflexivity|split; [|split; [|exact Logic.I]]]].
    + apply (se quotes as_needed (S2 ",") people (S2 "p.csv") (S2 "id,name,age") _ 0 (lines people)); [apply op_file; vm_compute; reflexivity|vm_compute; intuition discriminate| |discriminate|].
      * eapply st_all; [reflexivity|apply lines_physical|apply B].
      * assert (E : lines people = (S2 "id,name,age", [LF]) :: tl (lines people)) by (vm_compute; reflexivity).
        eapply hl_line; [apply lines_physical|]. rewrite E. apply B.
    + vm_compute. reflexivity.
    + intros O. inversion O; subst; try discriminate. unfold escapes_lines in *. intuition discriminate.
  - vm_compute. reflexivity.
  - repeat constructor; cbn; intuition discriminate.
  - split; [discriminate|]. split; [repeat constructor; cbn; intuition discriminate|]. intros f [<-|[<-|[]]]; cbn; auto.
  - apply (bs_unknown (S2 "p.csv") _ [S2 "age"; S2 "size"] [S2 "age"] (S2 "size") []); [reflexivity| |reflexivity|cbn; intuition discriminate].
    constructor; [|constructor]. split; [cbn; auto|reflexivity].
Qed.
