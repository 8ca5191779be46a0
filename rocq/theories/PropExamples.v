(** Concrete cases that meet the hypotheses of the theorems about parsers, computed with the model. *)
From Verif Require Import Base Setup SetupProofs Splitter SplitApi Extract Converter ConvSpec ConvProofs Reader LineSpec Parser ParserSpec ParserApi RowSpec TableSpec LineProofs ReaderEscape ParserRows PropParser PropMulti.

(** setup with quote, escape (backslash), trim (space), multiline, string_error, ignore_empty *)
Definition rich_opts : list opt := [OQuote """"%char; OEscape ["\"%char]; OTrim [" "%char]; OMultiline 0 true; OStringError; OIgnoreEmpty].
Definition rich : cfg := mkCfg (Some """"%char) ["\"%char] [" "%char] [" "%char] true 0 EString false true.
Definition int32 : elem := EVal (TInt (mkIty true 32)).
Definition text : elem := EVal TString.

Theorem C25_setup_example : setup rich_opts = Some rich /\ fit rich (S2 ",") /\ enough as_needed /\ types [text; int32] /\
  clean_delim (c_quote rich) (c_escape rich) (c_triml rich) (c_trimr rich) ","%char.
Proof.
  assert (E : setup rich_opts = Some rich) by reflexivity.
  split; [exact E|]. split; [|split; [|split]].
  - split; [exact (setup_ok _ _ E)| | |].
    + cbn. intros [H|[]]. discriminate.
    + discriminate.
    + intros _ x [-> | ->]; split; cbn; intros [H|[]]; discriminate.
  - intros n need. apply le_n.
  - split; [|discriminate]. repeat constructor.
  - split; [discriminate|]. cbn. split; [|split]; intros [H|[]]; discriminate.
Qed.
Print Assumptions C25_setup_example.

(** Five rows: a quoted line end; a blank line; a number that is none; an escaped line end; a mismatched quote; the end
    without a line end. *)
Definition rich_data : str :=
  S2 "a,1" ++ [LF] ++ S2 """b" ++ [CR; LF] ++ S2 "c"", 2 " ++ [LF] ++ [CR; LF] ++ S2 "d,x" ++ [LF] ++ S2 "e\" ++ [LF] ++ S2 "f,3" ++ [CR; LF] ++
  S2 """g""h,4" ++ [LF] ++ S2 "i,5".
Definition rich_rows : list gobs :=
  [ GValues [VStr (S2 "a"); VInt 1]; GValues [VStr (S2 "b" ++ [CR; LF] ++ S2 "c"); VInt 2];
    GError (S2 "data.csv 5: invalid conversion for parameter at column 2: 'x'");
    GValues [VStr (S2 "e" ++ [LF] ++ S2 "f"); VInt 3];
    GError (S2 "data.csv 8: mismatched quote at position: 2");
    GValues [VStr (S2 "i"); VInt 5]; GError (S2 "data.csv: read on end of file") ].
(** The file, read with get_next<std::string, int>() until after the end: values and errors, line(), position(), eof(). *)
Theorem C25_example : ~ In NUL rich_data /\ exists p q, opened rich as_needed (S2 ",") rich_data (S2 "data.csv") p /\
  opened rich as_needed (S2 ",") rich_data (S2 "CSV data buffer") q /\
  let sns := reads rich as_needed p (repeat [text; int32] 7) in
  map s_what sns = rich_rows /\ map s_line sns = [1; 4; 5; 7; 8; 9; 9] /\ map s_eof sns = [false; false; false; false; false; true; true] /\
  map s_pos sns = [4; 17; 21; 29; 36; 39; 39]%Z /\
  map (fun sn => match s_what sn with GError _ => None | g => Some g end) (reads rich as_needed q (repeat [text; int32] 7)) =
  map (fun g => match g with GError _ => None | _ => Some g end) rich_rows.
Proof.
  split. { vm_compute. intuition discriminate. }
  eexists. eexists. split; [apply op_file; vm_compute; reflexivity|]. split; [apply op_buffer; vm_compute; reflexivity|].
  cbv zeta. repeat split; vm_compute; reflexivity.
Qed.
Print Assumptions C25_example.

(** A table with line ends, quotes and delimiters in its fields, written and read back with the theorem. *)
Definition odd_table : list (list str) :=
  [ [S2 "x" ++ [LF] ++ S2 "y"; S2 "say ""hi"", twice"; []]; [[CR; LF]; S2 " "; [LF; LF] ++ S2 """" ++ [LF]] ].
Theorem C31_example : exists p, opened rich as_needed (S2 ",") (flat_map (fun vs => join (S2 ",") (map (quote_field """"%char) vs) ++ [LF]) odd_table) (S2 "t.csv") p /\
  map s_what (reads rich as_needed p (map (map (fun _ => text)) odd_table)) = map (fun vs => GValues (map VStr vs)) odd_table.
Proof.
  eexists. assert (O : opened rich as_needed (S2 ",") (flat_map (fun vs => join (S2 ",") (map (quote_field """"%char) vs) ++ [LF]) odd_table) (S2 "t.csv") _)
    by (apply op_file; vm_compute; reflexivity).
  split; [exact O|]. destruct C25_setup_example as (_ & F & Hc & _ & Hd).
  refine (proj1 (C31_quoted_table_roundtrip rich as_needed ","%char [] """"%char false F Hc Hd eq_refl eq_refl eq_refl eq_refl _ _ _ odd_table _ _ _ O)); try discriminate.
  - intros x [<-|[]] [H|[]]. discriminate.
  - repeat (constructor; [split; [discriminate|repeat (constructor; [split; [vm_compute; intuition discriminate|vm_compute; intuition (subst; discriminate)]|]); constructor]|]). constructor.
Qed.
Print Assumptions C31_example.

(** Limit 1: two lines are accepted, three are not. *)
Theorem C32_example : exists p, opened (with_limit 1 rich) as_needed (S2 ",") (S2 """a" ++ [LF] ++ S2 "b"",1" ++ [LF] ++ S2 """c" ++ [LF] ++ S2 "d" ++ [LF] ++ S2 "e"",2" ++ [LF]) (S2 "t.csv") p /\
  let sns := reads (with_limit 1 rich) as_needed p (repeat [text; int32] 3) in
  map s_what sns = [GValues [VStr (S2 "a" ++ [LF] ++ S2 "b"); VInt 1]; GError (S2 "t.csv 4: multiline limit reached");
                    GValues [VStr (S2 "e"""); VInt 2]] /\ map s_line sns = [2; 4; 5].
Proof. eexists. split; [apply op_file; vm_compute; reflexivity|]. split; vm_compute; reflexivity. Qed.
Print Assumptions C32_example.

(** An escaped line end, an escaped escape before a line end, a line end escaped after it. *)
Definition escapes_cfg : cfg := mkCfg None ["\"%char] [] [] true 0 EThrow false false.
Theorem C33_example : setup [OEscape ["\"%char]; OMultiline 0 true; OThrowOnError] = Some escapes_cfg /\
  exists p, opened escapes_cfg as_needed (S2 ",") (S2 "a\" ++ [LF] ++ S2 "b" ++ [LF] ++ S2 "c\\" ++ [LF] ++ S2 "d\\\" ++ [CR; LF] ++ S2 "e" ++ [LF] ++ S2 "f\" ++ [LF]) (S2 "t.csv") p /\
  map s_what (reads escapes_cfg as_needed p (repeat [text] 4)) =
  [ GValues [VStr (S2 "a" ++ [LF] ++ S2 "b")]; GValues [VStr (S2 "c\")]; GValues [VStr (S2 "d\" ++ [CR; LF] ++ S2 "e")];
    GThrown (S2 "t.csv 6: unterminated escape at the end of the line") ].
Proof. split; [reflexivity|]. eexists. split; [apply op_file; vm_compute; reflexivity|]. vm_compute; reflexivity. Qed.
Print Assumptions C33_example.

(** ignore_header. *)
Theorem C28_example : exists p, opened hdr_cfg as_needed (S2 ",") (S2 "name,age" ++ [LF] ++ S2 "x,1" ++ [LF]) (S2 "t.csv") p /\
  map s_what (reads hdr_cfg as_needed p (repeat [text; int32] 1)) = [GValues [VStr (S2 "x"); VInt 1]].
Proof. eexists. split; [apply op_file; vm_compute; reflexivity|]. vm_compute; reflexivity. Qed.
Print Assumptions C28_example.

(** C49: the same file, cut inside its fourth row: the three rows before it are read as before; the fourth is given up. *)
Theorem C49_example : exists p q, opened rich as_needed (S2 ",") rich_data (S2 "data.csv") p /\
  opened rich as_needed (S2 ",") (firstn 24 rich_data) (S2 "data.csv") q /\ rich_data = firstn 24 rich_data ++ skipn 24 rich_data /\
  let all := reads rich as_needed p (repeat [text; int32] 4) in let cut := reads rich as_needed q (repeat [text; int32] 4) in
  firstn 3 cut = firstn 3 all /\
  map s_what (skipn 3 all) = [GValues [VStr (S2 "e" ++ [LF] ++ S2 "f"); VInt 3]] /\
  map s_what (skipn 3 cut) = [GError (S2 "data.csv 6: unterminated escape at the end of the line")].
Proof.
  eexists. eexists. split; [apply op_file; vm_compute; reflexivity|]. split; [apply op_file; vm_compute; reflexivity|].
  cbv zeta. repeat split; vm_compute; reflexivity.
Qed.
Print Assumptions C49_example.
(** The limit of C49_rows_before_the_cut: a cut between carriage return and line feed makes a row of what is a blank line in
    the whole document; the row before the cut is the same, but eof() after it is not. *)
Theorem C49_cut_in_a_line_end : exists p q, opened rich as_needed (S2 ",") (S2 "a,1" ++ [LF; CR]) (S2 "data.csv") p /\
  opened rich as_needed (S2 ",") ((S2 "a,1" ++ [LF; CR]) ++ [LF]) (S2 "data.csv") q /\
  map s_what (reads rich as_needed p [[text; int32]]) = map s_what (reads rich as_needed q [[text; int32]]) /\
  map s_eof (reads rich as_needed p [[text; int32]]) = [false] /\ map s_eof (reads rich as_needed q [[text; int32]]) = [true].
Proof.
  eexists. eexists. split; [apply op_file; vm_compute; reflexivity|]. split; [apply op_file; vm_compute; reflexivity|].
  repeat split; vm_compute; reflexivity.
Qed.
Print Assumptions C49_cut_in_a_line_end.
(** NUL bytes: a row counts up to the first one. *)
Definition simple : cfg := mkCfg None [] [] [] false 0 EString false false.
Definition nul_data : str := S2 "a,1" ++ [NUL] ++ S2 ",2" ++ [LF; NUL] ++ S2 "b,3" ++ [CR; LF] ++ S2 "c,4".
Theorem C25_nul_example : setup [OStringError] = Some simple /\ fit simple (S2 ",") /\ nuls_ok simple nul_data /\ In NUL nul_data /\
  (exists its, rows_of simple (S2 ",") nul_data its /\ map it_out its = [Complete (S2 "a,1" ++ [NUL] ++ S2 ",2"); Complete ([NUL] ++ S2 "b,3"); Complete (S2 "c,4")]) /\
  exists p, opened simple as_needed (S2 ",") nul_data (S2 "f") p /\ map s_what (reads simple as_needed p (repeat [text; int32] 3)) =
    [GValues [VStr (S2 "a"); VInt 1]; GError (S2 "f 2: invalid number of columns, expected: 2, got: 0"); GValues [VStr (S2 "c"); VInt 4]].
Proof.
  split; [reflexivity|]. assert (F : fit simple (S2 ",")).
  { split; [exact (setup_ok [OStringError] simple eq_refl)|cbn; intros [H|[]]; discriminate|discriminate|discriminate]. }
  split; [exact F|]. split; [discriminate|]. split; [vm_compute; tauto|]. split.
  - eexists. split.
    + exists 0, (lines nul_data). split; [eapply st_all; [reflexivity|apply lines_physical|apply bl_none; discriminate]|].
      assert (ND : forall t l e more, row simple (S2 ",") 0 t l e more (Complete t) 0 more) by (intros; apply row_done; intros w G; inversion G; discriminate).
      change (lines nul_data) with [(S2 "a,1" ++ [NUL] ++ S2 ",2", [LF]); ([NUL] ++ S2 "b,3", [CR; LF]); (S2 "c,4", [])].
      do 3 (eapply doc_row; [apply ND|apply bl_none; discriminate|]). constructor.
    + reflexivity.
  - eexists. split; [apply op_file; vm_compute; reflexivity|]. vm_compute. reflexivity.
Qed.
Print Assumptions C25_nul_example.
(** Not so if rows span lines: bytes of an open quoted field that were shifted (escapes in it) lie before the NUL, are looked at
    again when a line is appended, and can close the quote.  There is one row, not closed at the end of the data; the parser
    gives it up after two lines and reads the rest as rows. *)
Definition nul_ml : str := S2 """q\""\\\""" ++ [NUL] ++ S2 "zz" ++ [LF] ++ S2 "b" ++ [LF] ++ S2 "x" ++ [LF].
Theorem C25_nul_multiline_refuted :
  (exists its, rows_of rich (S2 ",") nul_ml its /\ map it_out its = [Incomplete QuoteAtEnd]) /\
  exists p, opened rich as_needed (S2 ",") nul_ml (S2 "f") p /\ map s_what (reads rich as_needed p (repeat [text] 2)) =
    [GError (S2 "f 2: mismatched quote at position: 7"); GValues [VStr (S2 "x")]].
Proof.
  split.
  - assert (G : forall t l, match split_call rich sp_init (S2 ",") t [] with Ok tt (s, _) => s_uq s | _ => false end = true -> Nat.odd (esc_tail rich l) = false -> goes_on rich (S2 ",") t l ByQuote).
    { intros t l H1 H2. apply go_quote; [reflexivity| |discriminate|].
      - intros X. apply odd_ends_escaped in X. congruence.
      - unfold leaves_quote_open. destruct (split_call rich sp_init (S2 ",") t []) as [[] [s m]| | |]; try discriminate. exists s, m. auto. }
    eexists. split.
    + exists 0, (lines nul_ml). split; [eapply st_all; [reflexivity|apply lines_physical|apply bl_none]|].
      { intros e ls' _ X. assert (Y : lines nul_ml = (S2 """q\""\\\""" ++ [NUL] ++ S2 "zz", [LF]) :: [(S2 "b", [LF]); (S2 "x", [LF])]) by reflexivity. rewrite Y in X. discriminate X. }
      change (lines nul_ml) with [(S2 """q\""\\\""" ++ [NUL] ++ S2 "zz", [LF]); (S2 "b", [LF]); (S2 "x", [LF])].
      eapply doc_row.
      * do 2 (eapply row_more; [apply G; vm_compute; reflexivity|left; reflexivity|]).
        apply row_eof_quote; [apply G; vm_compute; reflexivity|left; reflexivity].
      * apply bl_none. discriminate.
      * constructor.
    + reflexivity.
  - eexists. split; [apply op_file; vm_compute; reflexivity|]. vm_compute. reflexivity.
Qed.
Print Assumptions C25_nul_multiline_refuted.
