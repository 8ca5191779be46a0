(** The library's own unit tests (test/*.cpp), replayed on the model.  Tests, not proofs: they tie the model to behaviour its
    authors check by running the code. *)
From Verif Require Import Base Setup Splitter Extract Converter Reader Parser SplitApi ConvProofs ParserApi SessionApi.

(** ** test_splitter.cpp *)

(** spaced, spaced_left, spaced_right, combinations (test_splitter.cpp:60-134, test_helpers.hpp:162-181). *)
Definition spaced1 (s : str) (input : list str) : list str :=
  input ++ flat_map (fun i => [s ++ i ++ s; i ++ s; s ++ i; s ++ s ++ i; s ++ s ++ i ++ s ++ s; i ++ s ++ s]) input.
Definition spaced2 (s1 s2 : str) (input : list str) : list str :=
  input ++ flat_map (fun i => [s1 ++ i ++ s2; s2 ++ i ++ s1; s2 ++ s2 ++ s1 ++ s1 ++ i; i ++ s1 ++ s2 ++ s1 ++ s2;
                               s1 ++ s1 ++ s1 ++ i ++ s2 ++ s2 ++ s2; s2 ++ s2 ++ s2 ++ i ++ s1 ++ s1 ++ s1]) input.
Definition spaced_left (s : str) (input : list str) : list str :=
  input ++ flat_map (fun i => [i; s ++ i; s ++ s ++ i; s ++ s ++ s ++ i]) input.
Definition spaced_right (s : str) (input : list str) : list str :=
  input ++ flat_map (fun i => [i; i ++ s; i ++ s ++ s; i ++ s ++ s ++ s]) input.
(** Lines of [n + 1] fields with the columns expected. *)
Fixpoint lines_of (d : str) (cases : list (str * str)) (n : nat) : list (str * list str) :=
  match n with
  | 0 => map (fun p => (fst p, [snd p])) cases
  | S n' => flat_map (fun p => map (fun q => (fst p ++ d ++ fst q, snd p :: snd q)) (lines_of d cases n')) cases
  end.
Fixpoint strs_eqb (a b : list str) : bool :=
  match a, b with
  | [], [] => true
  | x :: a', y :: b' => str_eqb x y && strs_eqb a' b'
  | _, _ => false
  end.
Definition splits_to (os : list opt) (d line : str) (cols : list str) : bool :=
  match setup os with
  | Some c => match split_obs c sp_init d line [] with SFields l => strs_eqb l cols | _ => false end
  | None => false
  end.
(** test_combinations (test_splitter.cpp:154-190), lines of one and two fields; also with throw_on_error. *)
Definition check (n : nat) (os : list opt) (matches : list (list str * str)) (delims : list str) : bool :=
  let cases := flat_map (fun p => map (fun i => (i, snd p)) (fst p)) matches in
  forallb (fun d => forallb (fun p => splits_to os d (fst p) (snd p) && splits_to (OThrowOnError :: os) d (fst p) (snd p))
                            (flat_map (lines_of d cases) (seq 0 n))) delims.
Definition sp1 := S2 " ".  Definition tab := ["009"%char].  Definition nl := [LF].

Section Raw.
(** test_splitter.cpp:192-200 *)
Example splitter_1 : check 2 []
  [([S2 "x"], S2 "x");
   ([S2 """"], S2 """");
   ([S2 ""], S2 "");
   ([S2 "
"], S2 "
");
   ([S2 """"""], S2 """""");
   ([S2 """ \ """], S2 """ \ """);
   ([S2 "     "], S2 "     ")]
  [S2 ","; S2 ";"; tab; S2 "::"] = true.
Proof. vm_cast_no_check (eq_refl true). Qed.
(** test_splitter.cpp:202-218 *)
Example splitter_2 : check 2 [OQuote """"%char]
  [([S2 """"""""""], S2 """");
   ([S2 """x""""x"""; S2 "x""x"], S2 "x""x");
   ([S2 """"""; S2 ""], S2 "");
   ([S2 """x"""; S2 "x"], S2 "x");
   ([S2 """"""""""""""], S2 """""");
   ([S2 """\"""; S2 "\"], S2 "\");
   ([S2 """xxxxxxxxxx"""; S2 "xxxxxxxxxx"], S2 "xxxxxxxxxx")]
  [S2 ","; S2 "::"; S2 " "; tab; nl] = true.
Proof. vm_cast_no_check (eq_refl true). Qed.
(** test_splitter.cpp:220-230 *)
Example splitter_3 : check 2 [OQuote """"%char]
  [([S2 """"""""""], S2 """");
   ([S2 """"""; S2 ""], S2 "");
   ([S2 ""","""], S2 ",");
   ([S2 """x,"""], S2 "x,");
   ([S2 """,x"""], S2 ",x");
   ([S2 """x,x"""], S2 "x,x");
   ([S2 """,,"""], S2 ",,")]
  [S2 ","] = true.
Proof. vm_cast_no_check (eq_refl true). Qed.
(** test_splitter.cpp:232-243 *)
Example splitter_4 : check 2 [OQuote """"%char]
  [([S2 """"""""""], S2 """");
   ([S2 """"""; S2 ""], S2 "");
   ([S2 """::"""], S2 "::");
   ([S2 """x::"""], S2 "x::");
   ([S2 """::x"""], S2 "::x");
   ([S2 """x::x"""], S2 "x::x");
   ([S2 """::::"""], S2 "::::")]
  [S2 "::"] = true.
Proof. vm_cast_no_check (eq_refl true). Qed.
(** test_splitter.cpp:246-261 *)
Example splitter_5 : check 2 [OTrim [" "%char]]
  [((spaced1 sp1 [S2 "x"]), S2 "x");
   ((spaced1 sp1 [S2 "yy"]), S2 "yy");
   ((spaced1 sp1 [S2 "y y"]), S2 "y y");
   ((spaced1 sp1 [S2 ""]), S2 "")]
  [S2 ","; S2 "::"; tab; nl] = true.
Proof. vm_cast_no_check (eq_refl true). Qed.
(** test_splitter.cpp:263-273 *)
Example splitter_6 : check 2 [OTrim [" "%char; "009"%char]]
  [((spaced1 sp1 [S2 "x"]), S2 "x");
   ((spaced1 sp1 [S2 "yy"]), S2 "yy");
   ((spaced1 sp1 [S2 "y y"]), S2 "y y");
   ((spaced1 sp1 [S2 ""]), S2 "");
   ((spaced1 tab [S2 "z"]), S2 "z");
   ((spaced2 sp1 tab [S2 "ab"]), S2 "ab");
   ((spaced2 sp1 tab [S2 "a	b"]), S2 "a	b");
   ((spaced2 sp1 tab [S2 "a 	 b"]), S2 "a 	 b")]
  [S2 ","; S2 "::"; nl] = true.
Proof. vm_cast_no_check (eq_refl true). Qed.
(** test_splitter.cpp:276-286 *)
Example splitter_7 : check 2 [OEscape ["\"%char]]
  [([S2 "x"; S2 "\x"], S2 "x");
   ([S2 "xx"; S2 "\xx"; S2 "x\x"; S2 "\x\x"], S2 "xx");
   ([S2 "\\"], S2 "\")]
  [S2 ","; S2 "::"; S2 " "; tab; nl] = true.
Proof. vm_cast_no_check (eq_refl true). Qed.
(** test_splitter.cpp:288-298 *)
Example splitter_8 : check 2 [OEscape ["\"%char; "#"%char]]
  [([S2 "x"; S2 "\x"], S2 "x");
   ([S2 "xx"; S2 "\xx"; S2 "x\x"; S2 "\x\x"], S2 "xx");
   ([S2 "\\"], S2 "\");
   ([S2 "\,"], S2 ",");
   ([S2 "x#,"], S2 "x,");
   ([S2 "#,x"], S2 ",x");
   ([S2 "x\,x"], S2 "x,x")]
  [S2 ","] = true.
Proof. vm_cast_no_check (eq_refl true). Qed.
(** test_splitter.cpp:300-311 *)
Example splitter_9 : check 2 [OEscape ["\"%char]]
  [([S2 "x"; S2 "\x"], S2 "x");
   ([S2 "xx"; S2 "\xx"; S2 "x\x"; S2 "\x\x"], S2 "xx");
   ([S2 "\\"], S2 "\");
   ([S2 "\:\:"], S2 "::");
   ([S2 "x\::x"], S2 "x::x")]
  [S2 "::"] = true.
Proof. vm_cast_no_check (eq_refl true). Qed.
(** test_splitter.cpp:314-331 *)
Example splitter_10 : check 2 [OQuote """"%char; OTrim [" "%char]]
  [((spaced1 sp1 [S2 """"""""""]), S2 """");
   ((spaced1 sp1 [S2 """x""""x"""; S2 "x""x"]), S2 "x""x");
   ((spaced1 sp1 [S2 """"""; S2 ""]), S2 "");
   ((spaced1 sp1 [S2 """x"""; S2 "x"]), S2 "x");
   ((spaced1 sp1 [S2 """"""""""""""]), S2 """""");
   ((spaced1 sp1 [S2 """\"""; S2 "\"]), S2 "\");
   ((spaced1 sp1 [S2 """xxxxxxxxxx"""; S2 "xxxxxxxxxx"]), S2 "xxxxxxxxxx")]
  [S2 ","; S2 "::"; tab; nl] = true.
Proof. vm_cast_no_check (eq_refl true). Qed.
(** test_splitter.cpp:333-344 *)
Example splitter_11 : check 2 [OQuote """"%char; OTrim [" "%char; "009"%char]]
  [((spaced1 sp1 [S2 """"""""""]), S2 """");
   ((spaced1 sp1 [S2 """"""; S2 ""]), S2 "");
   ((spaced2 sp1 tab [S2 ""","""]), S2 ",");
   ((spaced2 sp1 tab [S2 """x,"""]), S2 "x,");
   ((spaced2 sp1 tab [S2 """,x"""]), S2 ",x");
   ((spaced2 sp1 tab [S2 """x,x"""]), S2 "x,x");
   ((spaced2 sp1 tab [S2 """,,"""]), S2 ",,")]
  [S2 ","] = true.
Proof. vm_cast_no_check (eq_refl true). Qed.
(** test_splitter.cpp:347-365 *)
Example splitter_12 : check 2 [OQuote """"%char; OEscape ["\"%char]]
  [([S2 """\"""""; S2 "\"""; S2 """"""""""], S2 """");
   ([S2 """x\""x"""; S2 "x\""x"; S2 "x""x"; S2 """x""""x"""], S2 "x""x");
   ([S2 """"""; S2 ""], S2 "");
   ([S2 """x"""; S2 "x"], S2 "x");
   ([S2 """\""\"""""; S2 """"""""""""""; S2 """\"""""""""; S2 """""""\"""""], S2 """""");
   ([S2 """\\"""; S2 "\\"], S2 "\");
   ([S2 """xxxxxxxxxx"""; S2 "xxxxxxxxxx"], S2 "xxxxxxxxxx")]
  [S2 ","; S2 "::"; S2 " "; tab; nl] = true.
Proof. vm_cast_no_check (eq_refl true). Qed.
(** test_splitter.cpp:367-379 *)
Example splitter_13 : check 2 [OQuote "'"%char; OEscape ["#"%char]]
  [([S2 "'xxxxxxxxxx'"; S2 "xxxxxxxxxx"], S2 "xxxxxxxxxx");
   ([S2 "''"; S2 ""], S2 "");
   ([S2 "'#\'"; S2 "#\"], S2 "\");
   ([S2 "'#''"; S2 "#'"; S2 "''''"], S2 "'");
   ([S2 "'##'"; S2 "##"], S2 "#")]
  [S2 ","; S2 "::"; S2 " "; tab; nl] = true.
Proof. vm_cast_no_check (eq_refl true). Qed.
(** test_splitter.cpp:381-393 *)
Example splitter_14 : check 2 [OQuote """"%char; OEscape ["\"%char; "#"%char]]
  [([S2 """\"""""; S2 "\"""; S2 """"""""""], S2 """");
   ([S2 """x\""x"""; S2 "x\""x"; S2 "x""x"; S2 """x""""x"""], S2 "x""x");
   ([S2 """"""; S2 ""], S2 "");
   ([S2 """x,x"""; S2 "x\,x"; S2 "x#,x"; S2 """x\,x"""; S2 """x#,x"""; S2 """x#,x"""], S2 "x,x");
   ([S2 """#\\#"""; S2 "#\\#"; S2 "\\##"; S2 """\\##"""], S2 "\#")]
  [S2 ","] = true.
Proof. vm_cast_no_check (eq_refl true). Qed.
(** test_splitter.cpp:396-406 *)
Example splitter_15 : check 2 [OEscape ["\"%char]; OTrim [" "%char]]
  [((spaced1 sp1 [S2 "\ x\ "; S2 "\ \x\ "]), S2 " x ");
   ((spaced1 sp1 [S2 "x"; S2 "\x"]), S2 "x");
   ((spaced1 sp1 [S2 "\\"]), S2 "\")]
  [S2 ","; S2 "::"; tab; nl] = true.
Proof. vm_cast_no_check (eq_refl true). Qed.
(** test_splitter.cpp:408-419 *)
Example splitter_16 : check 2 [OEscape ["\"%char; "#"%char]; OTrim [" "%char]]
  [((spaced1 sp1 [S2 "x"; S2 "\x"]), S2 "x");
   ((spaced1 sp1 [S2 "\\"]), S2 "\");
   ((spaced1 sp1 [S2 "\,"]), S2 ",");
   ((spaced1 sp1 [S2 "#,x"]), S2 ",x");
   ((spaced1 sp1 [S2 "x\,x"]), S2 "x,x")]
  [S2 ","] = true.
Proof. vm_cast_no_check (eq_refl true). Qed.
(** test_splitter.cpp:421-430 *)
Example splitter_17 : check 2 [OEscape ["\"%char]; OTrim [" "%char; "009"%char]]
  [((spaced1 sp1 [S2 "x"; S2 "\x"]), S2 "x");
   ((spaced1 sp1 [S2 "\\"]), S2 "\");
   ((spaced2 sp1 tab [S2 "\:\:"]), S2 "::");
   ((spaced2 sp1 tab [S2 "x\::x"]), S2 "x::x")]
  [S2 "::"] = true.
Proof. vm_cast_no_check (eq_refl true). Qed.
(** test_splitter.cpp:433-452 *)
Example splitter_18 : check 2 [OQuote """"%char; OEscape ["\"%char]; OTrim [" "%char]]
  [((spaced1 sp1 [S2 """\"""""; S2 "\"""; S2 """"""""""]), S2 """");
   ((spaced1 sp1 [S2 """x\""x"""; S2 "x\""x"; S2 "x""x"; S2 """x""""x"""]), S2 "x""x");
   ((spaced1 sp1 [S2 """"""; S2 ""]), S2 "");
   ((spaced1 sp1 [S2 """\""\"""""; S2 """"""""""""""; S2 """\"""""""""; S2 """""""\"""""]), S2 """""");
   ((spaced1 sp1 [S2 """\\"""; S2 "\\"]), S2 "\");
   ((spaced1 sp1 [S2 """xxxxxxxxxx"""; S2 "xxxxxxxxxx"]), S2 "xxxxxxxxxx")]
  [S2 "::"; nl] = true.
Proof. vm_cast_no_check (eq_refl true). Qed.
(** test_splitter.cpp:454-467 *)
Example splitter_19 : check 2 [OQuote "'"%char; OEscape ["#"%char]; OTrim [" "%char; "009"%char]]
  [((spaced2 sp1 tab [S2 "'xxxxxxxxxx'"; S2 "xxxxxxxxxx"]), S2 "xxxxxxxxxx");
   ((spaced2 sp1 tab [S2 "''"; S2 ""]), S2 "");
   ((spaced2 sp1 tab [S2 "'#\'"; S2 "#\"]), S2 "\");
   ((spaced2 sp1 tab [S2 "'#''"; S2 "#'"; S2 "''''"]), S2 "'");
   ((spaced2 sp1 tab [S2 "'##'"; S2 "##"]), S2 "#")]
  [S2 ","] = true.
Proof. vm_cast_no_check (eq_refl true). Qed.
(** test_splitter.cpp:469-484 *)
Example splitter_20 : check 2 [OQuote """"%char; OEscape ["\"%char; "#"%char]; OTrim [" "%char; "009"%char]]
  [((spaced1 sp1 [S2 """\"""""; S2 "\"""; S2 """"""""""]), S2 """");
   ((spaced1 sp1 [S2 """x\""x"""; S2 "x\""x"; S2 "x""x"; S2 """x""""x"""]), S2 "x""x");
   ((spaced1 sp1 [S2 """"""; S2 ""]), S2 "");
   ((spaced2 sp1 tab [S2 """x,x"""; S2 "x\,x"; S2 "x#,x"; S2 """x\,x"""; S2 """x#,x"""; S2 """x#,x"""]), S2 "x,x");
   ((spaced2 sp1 tab [S2 """#\\#"""; S2 "#\\#"; S2 "\\##"; S2 """\\##"""]), S2 "\#")]
  [S2 ","] = true.
Proof. vm_cast_no_check (eq_refl true). Qed.
(** test_splitter.cpp:1130-1146 *)
Example splitter_21 : check 2 [OTrimLeft [" "%char]]
  [((spaced_left (S2 " ") [S2 "x "]), S2 "x ");
   ((spaced_left (S2 " ") [S2 "yy "]), S2 "yy ");
   ((spaced_left (S2 " ") [S2 "y y "]), S2 "y y ");
   ((spaced_left (S2 " ") [S2 ""]), S2 "")]
  [S2 ","; S2 "::"; tab; nl] = true.
Proof. vm_cast_no_check (eq_refl true). Qed.
(** test_splitter.cpp:1148-1158 *)
Example splitter_22 : check 2 [OTrimLeft [" "%char; "009"%char]]
  [((spaced_left (S2 "	") [S2 "z "]), S2 "z ");
   ((spaced_left (S2 " 	") [S2 "ab	 "]), S2 "ab	 ");
   ((spaced_left (S2 " 	") [S2 "a	b "]), S2 "a	b ");
   ((spaced_left (S2 " 	") [S2 "a 	 b "]), S2 "a 	 b ")]
  [S2 ","; S2 "::"; nl] = true.
Proof. vm_cast_no_check (eq_refl true). Qed.
(** test_splitter.cpp:1161-1177 *)
Example splitter_23 : check 2 [OTrimRight [" "%char]]
  [((spaced_right (S2 " ") [S2 " x"]), S2 " x");
   ((spaced_right (S2 " ") [S2 " yy"]), S2 " yy");
   ((spaced_right (S2 " ") [S2 " y y"]), S2 " y y");
   ((spaced_right (S2 " ") [S2 ""]), S2 "")]
  [S2 ","; S2 "::"; tab; nl] = true.
Proof. vm_cast_no_check (eq_refl true). Qed.
(** test_splitter.cpp:1179-1190 *)
Example splitter_24 : check 2 [OTrimRight [" "%char; "009"%char]]
  [((spaced_right (S2 "	") [S2 " z"]), S2 " z");
   ((spaced_right (S2 " 	") [S2 "	 ab"]), S2 "	 ab");
   ((spaced_right (S2 " 	") [S2 "	a	b"]), S2 "	a	b");
   ((spaced_right (S2 " 	") [S2 " 	 a 	 b"]), S2 " 	 a 	 b")]
  [S2 ","; S2 "::"; nl] = true.
Proof. vm_cast_no_check (eq_refl true). Qed.
(** test_splitter.cpp:1193-1210 *)
Example splitter_25 : check 2 [OTrimLeft ["_"%char]; OTrimRight ["-"%char]]
  [((spaced_right (S2 "-") [S2 "-x"]), S2 "-x");
   ((spaced_left (S2 "_") [S2 "yy_"]), S2 "yy_");
   ((spaced_right (S2 "-") [S2 "-y y"]), S2 "-y y");
   ((spaced_left (S2 "-") [S2 ""]), S2 "");
   ((spaced_left (S2 "_") [S2 ""]), S2 "");
   ([S2 "___---"; S2 "_-"; S2 "______-"], S2 "")]
  [S2 ","; S2 "::"; tab; nl] = true.
Proof. vm_cast_no_check (eq_refl true). Qed.
(** test_splitter.cpp:1212-1235 *)
Example splitter_26 : check 2 [OQuote """"%char; OEscape ["\"%char]; OTrimLeft ["_"%char]; OTrimRight ["-"%char]]
  [((spaced_left (S2 "_") [S2 """\"""""; S2 "\"""; S2 """"""""""]), S2 """");
   ((spaced_left (S2 "_") [S2 """x\""x"""; S2 "x\""x"; S2 "x""x"; S2 """x""""x"""]), S2 "x""x");
   ((spaced_left (S2 "_") [S2 """"""; S2 ""]), S2 "");
   ((spaced_right (S2 "-") [S2 """\""\"""""; S2 """"""""""""""; S2 """\"""""""""; S2 """""""\"""""]), S2 """""");
   ((spaced_right (S2 "-") [S2 """\\"""; S2 "\\"]), S2 "\");
   ((spaced_right (S2 "-") [S2 """xxxxxxxxxx"""; S2 "xxxxxxxxxx"]), S2 "xxxxxxxxxx")]
  [S2 "::"; nl] = true.
Proof. vm_cast_no_check (eq_refl true). Qed.
End Raw.

(** split, then resplit with more text.  As in the tests the text is a std::string: appended to after removing the last
    size_shifted() characters (append) -- the bytes the splitter moved are kept. *)
Definition run_split (c : cfg) (d line : str) : res (sp * list (option ascii)) unit := sp_split c 0 d (sp_init, map Some line ++ [Some NUL]).
Definition append (c : cfg) (shifted : bool) (d text : str) (o : res (sp * list (option ascii)) unit) : res (sp * list (option ascii)) unit :=
  match o with
  | Ok _ (s, m) =>
      let used := length m - 1 - (if shifted then s_esc s else 0) in
      let m' := firstn used m ++ map Some text ++ [Some NUL] in
      sp_resplit c 0 (length m' - 1) d (s, m')
  | r => r
  end.
Definition resplits (os : list opt) (line : str) (more : list (bool * str)) (cols : list str) : bool :=
  forallb (fun os' =>
    match setup os' with
    | Some c =>
        match fold_left (fun o p => append c (fst p) (S2 ",") (snd p) o) more (run_split c (S2 ",") line) with
        | Ok _ (s, m) => match observe c (Ok tt (s, m)) with SFields l => strs_eqb l cols && negb (s_uq s) | _ => false end
        | _ => false
        end
    | None => false
    end) [os; OThrowOnError :: os].

(** test_splitter.cpp:556-583, 812-842 *)
Example resplit_1 : resplits [OQuote """"%char; OMultiline 0 true; OEscape ["\"%char]] (S2 """x")
  [(true, S2 "a\x"); (true, S2 """")]
  [S2 "xax"] = true.
Proof. vm_cast_no_check (eq_refl true). Qed.
(** test_splitter.cpp:585-596 *)
Example resplit_2 : resplits [OQuote """"%char; OMultiline 0 true] (S2 """just")
  [(false, S2 """,strings")]
  [S2 "just"; S2 "strings"] = true.
Proof. vm_cast_no_check (eq_refl true). Qed.
(** test_splitter.cpp:598-611 *)
Example resplit_3 : resplits [OQuote """"%char; OMultiline 0 true] (S2 "just,some,""random")
  [(false, S2 """,strings")]
  [S2 "just"; S2 "some"; S2 "random"; S2 "strings"] = true.
Proof. vm_cast_no_check (eq_refl true). Qed.
(** test_splitter.cpp:613-627 *)
Example resplit_4 : resplits [OQuote """"%char; OMultiline 0 true] (S2 """just"",""some"",""ran""""")
  [(true, S2 ",dom"",""strings""")]
  [S2 "just"; S2 "some"; S2 "ran"",dom"; S2 "strings"] = true.
Proof. vm_cast_no_check (eq_refl true). Qed.
(** test_splitter.cpp:629-653 *)
Example resplit_5 : resplits [OQuote """"%char; OMultiline 0 true] (S2 """just"",""some"",""ran")
  [(false, S2 ",dom"); (false, S2 """,strings")]
  [S2 "just"; S2 "some"; S2 "ran,dom"; S2 "strings"] = true.
Proof. vm_cast_no_check (eq_refl true). Qed.
(** test_splitter.cpp:655-672 *)
Example resplit_6 : resplits [OQuote """"%char; OMultiline 0 true; OEscape ["\"%char]] (S2 """just\""some"",""ra")
  [(false, S2 "n,dom"",str\""ings")]
  [S2 "just""some"; S2 "ran,dom"; S2 "str""ings"] = true.
Proof. vm_cast_no_check (eq_refl true). Qed.
(** test_splitter.cpp:674-696 *)
Example resplit_7 : resplits [OQuote """"%char; OMultiline 0 true; OEscape ["\"%char]] (S2 "3,4,""just0\
1\
22\
33333x\
4")
  [(true, S2 "
x5strings""")]
  [S2 "3"; S2 "4"; S2 "just0
1
22
33333x
4
x5strings"] = true.
Proof. vm_cast_no_check (eq_refl true). Qed.
(** test_splitter.cpp:697-715 *)
Example resplit_8 : resplits [OQuote """"%char; OMultiline 0 true; OEscape ["\"%char]] (S2 """just\""some"",""ra""""")
  [(true, S2 "n,dom"",str\""ings")]
  [S2 "just""some"; S2 "ra""n,dom"; S2 "str""ings"] = true.
Proof. vm_cast_no_check (eq_refl true). Qed.
(** test_splitter.cpp:717-735 *)
Example resplit_9 : resplits [OQuote """"%char; OMultiline 0 true; OEscape ["\"%char]] (S2 """just\""some"",""r\a\a\\\a\""")
  [(true, S2 "n,dom"",str\""ings")]
  [S2 "just""some"; S2 "raa\a""n,dom"; S2 "str""ings"] = true.
Proof. vm_cast_no_check (eq_refl true). Qed.
(** test_splitter.cpp:737-754 *)
Example resplit_10 : resplits [OQuote """"%char; OTrim [" "%char]; OMultiline 0 true] (S2 "  ""just"" ,some,  ""ra ")
  [(false, S2 " n,dom""  , strings   ")]
  [S2 "just"; S2 "some"; S2 "ra  n,dom"; S2 "strings"] = true.
Proof. vm_cast_no_check (eq_refl true). Qed.
(** test_splitter.cpp:756-777 *)
Example resplit_11 : resplits [OQuote """"%char; OTrim [" "%char]; OEscape ["\"%char]; OMultiline 0 true] (S2 "  ""ju\""st"" ,some,  ""ra \""")
  [(true, S2 " n,dom""  , strings   ")]
  [S2 "ju""st"; S2 "some"; S2 "ra "" n,dom"; S2 "strings"] = true.
Proof. vm_cast_no_check (eq_refl true). Qed.

(** test_invalid_splits (test_splitter.cpp:1044-1090): not valid, and unterminated_quote() as given. *)
Definition invalid (os : list opt) (d line : str) (uq : bool) : bool :=
  match setup os with
  | Some c =>
      match run_split c d line with
      | Ok _ (s, _) => negb (sp_valid c s) && Bool.eqb (s_uq s) uq &&
          match c_mode c with EString => match s_err s with Some (_ :: _) => true | _ => false end | _ => true end
      | Throw m (s, _) => Bool.eqb (s_uq s) uq && match m with [] => false | _ => true end
      | _ => false
      end
  | None => false
  end.
Example invalid_1 : forallb (fun o => invalid (o ++ [OQuote """"%char; OTrim [" "%char]; OEscape ["\"%char]]) (S2 "") (S2 "some,random,strings") false) [[]; [OStringError]; [OThrowOnError]] = true.
Proof. vm_cast_no_check (eq_refl true). Qed.
Example invalid_2 : forallb (fun o => invalid (o ++ [OQuote """"%char; OTrim [" "%char]; OEscape ["\"%char]]) (S2 ",") (S2 "some,""random,""strings""") false) [[]; [OStringError]; [OThrowOnError]] = true.
Proof. vm_cast_no_check (eq_refl true). Qed.
Example invalid_3 : forallb (fun o => invalid (o ++ [OQuote """"%char; OTrim [" "%char]; OEscape ["\"%char]]) (S2 ",") (S2 "some,random,strings\") false) [[]; [OStringError]; [OThrowOnError]] = true.
Proof. vm_cast_no_check (eq_refl true). Qed.
Example invalid_4 : forallb (fun o => invalid (o ++ [OQuote """"%char; OTrim [" "%char]; OEscape ["\"%char]]) (S2 ",") (S2 "some,random,""strings\") false) [[]; [OStringError]; [OThrowOnError]] = true.
Proof. vm_cast_no_check (eq_refl true). Qed.
Example invalid_5 : forallb (fun o => invalid (o ++ [OQuote """"%char; OTrim [" "%char]; OEscape ["\"%char]]) (S2 ",") (S2 "some,random,""strings") true) [[]; [OStringError]; [OThrowOnError]] = true.
Proof. vm_cast_no_check (eq_refl true). Qed.
