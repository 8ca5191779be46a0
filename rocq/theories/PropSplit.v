(** Properties of splitting: C01-C11, C19, C20.  Statements only; vocabulary:
    [setup os = Some c]: the options [os] compile and configure [c] (Setup.v);
    [reach c s]: [s] is a splitter after any history of calls;
    [split_call] / [split_obs]: a call of split on a NUL-terminated line followed in memory by
    [rest], and what the user sees of it (SplitApi.v);
    [columns_of], [defect_of], [saying], [reported]: the reading of SplitActual.v for that setup (SplitExactApi.v);
    [reading], [breaking]: the simpler grammar of SplitSpec.v for that setup;
    [join], [cut_at], [quote_field], [escape_field], [padded]: RowSpec.v. *)
From Verif Require Import Base Setup SetupSpec Splitter ListFacts SetupProofs SetupComplete SplitSpec RowSpec RowProofs SplitModes SplitApi SplitWhole SplitTheorems SplitRefine SplitKeeps SplitActual SplitExactApi.
From Coq Require Import Permutation.

(** C01. With [rest := []] the block ends at the terminator, so any access beyond it would be [UB]. *)
Theorem C01_split_memory_safe : forall os c d s line rest,
  setup os = Some c -> nulfree d -> nulfree line -> reach c s ->
  exists s' Z, length Z = length line /\
    (split_call c s d line rest = Ok tt (s', Z ++ Some NUL :: rest) /\
       Forall (fun r => fst r <= snd r /\ snd r <= length line) (s_sd s')
     \/ exists e, split_call c s d line rest = Throw e (s', Z ++ Some NUL :: rest)).
Proof. exact safe_thm. Qed.
Print Assumptions C01_split_memory_safe.

(** C02. Every line has either columns or a defect, never both and never two that are told apart: *)
Theorem C02_every_line_is_read_in_one_way : forall os c, setup os = Some c -> forall d, d <> [] -> forall line,
  (exists vs, columns_of c d line vs /\ (forall ws, columns_of c d line ws -> ws = vs) /\ forall k, ~ defect_of c d line k) \/
  (exists k, defect_of c d line k /\ (forall k', defect_of c d line k' -> saying c line k' = saying c line k) /\ forall vs, ~ columns_of c d line vs).
Proof. exact exact_total. Qed.
Print Assumptions C02_every_line_is_read_in_one_way.
(** the columns are what split returns, *)
Theorem C02_split_returns_the_columns : forall os c, setup os = Some c -> forall d, d <> [] -> nulfree d ->
  forall s line rest vs, reach c s -> nulfree line -> columns_of c d line vs -> split_obs c s d line rest = SFields vs.
Proof. exact exact_columns. Qed.
Print Assumptions C02_split_returns_the_columns.
(** and it returns nothing else, except for a line that is to be continued (multiline). *)
Theorem C02_split_returns_nothing_else : forall os c, setup os = Some c -> forall d, d <> [] -> nulfree d ->
  forall s line rest vs, reach c s -> nulfree line -> split_obs c s d line rest = SFields vs ->
  columns_of c d line vs \/ exists k, defect_of c d line k /\ saying c line k = None.
Proof. exact exact_only. Qed.
Print Assumptions C02_split_returns_nothing_else.
(** Lines in which no trimmed character stands before an escape and quote-escape-quote does not occur are read by the
    simpler grammar of SplitSpec.v; *)
Theorem C02_regular_lines : forall os c, setup os = Some c -> forall d, d <> [] -> forall line, regular c line ->
  (forall vs, columns_of c d line vs <-> reading c d line vs) /\ ((exists k, defect_of c d line k) <-> exists k, breaking c d line k).
Proof. exact exact_regular. Qed.
Print Assumptions C02_regular_lines.
(** other lines need not be: *)
Definition qe := [OQuote """"%char; OEscape ["\"%char]].
Theorem C02_trim_before_escape_refuted :
  exists os c line vs, setup os = Some c /\ nulfree line /\ reading c [","%char] line vs /\
    split_obs c sp_init [","%char] line [] <> SFields vs.
Proof.
  exists [OTrimRight [" "%char]; OEscape ["\"%char]], (mkCfg None ["\"%char] [] [" "%char] false 0 EBool false false),
    (S2 "a  \ b"), [S2 "a   b"]. split; [reflexivity|]. split; [intros H; cbn in H; intuition discriminate|]. split.
  - apply r_last with (t := S2 "a  \ b") (after := []); [reflexivity| |reflexivity]. apply f_plain; [discriminate|].
    assert (NE : forall x s, ltrim [" "%char] s = x :: tl (ltrim [" "%char] s) -> x <> ","%char ->
       ~ field_ends [" "%char] [","%char] s).
    { intros x s E Hx [H|[r H]]; rewrite H in E; [discriminate|]. cbn in E. congruence. }
    repeat (first [ apply u_end; left; reflexivity
                  | apply u_escape; [apply (NE "\"%char); [reflexivity|discriminate]|left; reflexivity|]
                  | apply u_char; [first [apply (NE "a"%char); [reflexivity|discriminate]
                                         |apply (NE "\"%char); [reflexivity|discriminate]
                                         |apply (NE "b"%char); [reflexivity|discriminate]]
                                  |cbn; intuition discriminate|exact I|] ]).
  - vm_compute. discriminate.
Qed.
Print Assumptions C02_trim_before_escape_refuted.
Theorem C02_quote_escape_quote_refuted :
  exists os c line vs, setup os = Some c /\ nulfree line /\ breaking c [","%char] line MismatchedQuote /\
    split_obs c sp_init [","%char] line [] = SFields vs.
Proof.
  exists qe, (mkCfg (Some """"%char) ["\"%char] [] [] false 0 EBool false false),
    (S2 """a""\""x"""), [S2 "a""x"]. split; [reflexivity|]. split; [intros H; cbn in H; intuition discriminate|]. split.
  - apply b_quoted with (q := """"%char) (t := S2 "a""\""x"""); [reflexivity|reflexivity|].
    apply qb_char; [discriminate|cbn; intuition discriminate|].
    apply qb_mismatched; [|discriminate]. intros [H|[r H]]; discriminate.
  - vm_compute. reflexivity.
Qed.
Print Assumptions C02_quote_escape_quote_refuted.

(** On lines where no trimmed character directly precedes an escape the reading is what
    split returns; if moreover quote-escape-quote does not occur, split returns nothing else.  With multiline
    a line that breaks off inside quotes or after an escape is accepted too (it is to be continued). *)
Theorem C02_simple_grammar_complete : forall os c, setup os = Some c ->
  forall d, nulfree d -> d <> [] -> forall s line rest vs, reach c s -> nulfree line ->
  never_adjacent (c_trimr c) (c_escape c) line -> reading c d line vs ->
  split_obs c s d line rest = SFields vs.
Proof. exact complete_thm. Qed.
Print Assumptions C02_simple_grammar_complete.
Theorem C02_simple_grammar_sound : forall os c, setup os = Some c ->
  forall d, nulfree d -> d <> [] -> forall s line rest vs, reach c s -> nulfree line -> regular c line ->
  split_obs c s d line rest = SFields vs ->
  reading c d line vs \/
  c_ml c = true /\ (breaking c d line UnterminatedQuote \/ breaking c d line UnterminatedEscape).
Proof. exact sound_thm. Qed.
Print Assumptions C02_simple_grammar_sound.

(** C03 *)
Theorem C03_plain_split_cuts_at_delimiter : forall os c, setup os = Some c ->
  forall d, nulfree d -> d <> [] -> forall s line rest fs, reach c s -> nulfree line ->
  c_quote c = None -> c_escape c = [] -> c_triml c = [] -> c_trimr c = [] ->
  (split_obs c s d line rest = SFields fs <-> cut_at d line fs).
Proof. exact plain_thm. Qed.
Print Assumptions C03_plain_split_cuts_at_delimiter.
Theorem C03_every_line_has_a_cut : forall d, d <> [] -> forall line, exists fs, cut_at d line fs.
Proof. exact cut_total. Qed.
Print Assumptions C03_every_line_has_a_cut.
Theorem C03_join_of_columns_is_the_line : forall d line fs, cut_at d line fs ->
  join d fs = line /\ Forall (fun f => forall a b, f <> a ++ d ++ b) fs.
Proof. exact cut_join. Qed.
Print Assumptions C03_join_of_columns_is_the_line.
Theorem C03_columns_of_join : forall d fs, d <> [] -> fs <> [] ->
  Forall (fun f => forall a b, f ++ d = a ++ d ++ b -> b = []) fs -> cut_at d (join d fs) fs.
Proof. exact join_cut. Qed.
Print Assumptions C03_columns_of_join.

(** C04 *)
Theorem C04_quoted_roundtrip : forall os c d0 d' s rest q vs,
  setup os = Some c -> nulfree (d0 :: d') -> reach c s ->
  c_quote c = Some q -> clean_delim (c_quote c) (c_escape c) (c_triml c) (c_trimr c) d0 ->
  vs <> [] -> Forall (fun v => nulfree v /\ forall x, In x v -> ~ In x (c_escape c)) vs ->
  split_obs c s (d0 :: d') (join (d0 :: d') (map (quote_field q) vs)) rest = SFields vs.
Proof. exact quoted_thm. Qed.
Print Assumptions C04_quoted_roundtrip.

(** C05 *)
Theorem C05_escaped_roundtrip : forall os c d0 d' s rest e special vs,
  setup os = Some c -> nulfree (d0 :: d') -> reach c s ->
  In e (c_escape c) -> clean_delim (c_quote c) (c_escape c) (c_triml c) (c_trimr c) d0 ->
  (forall x, c_quote c = Some x \/ In x (c_escape c) \/ In x (c_triml c) \/ In x (c_trimr c) \/ x = d0 -> In x special) ->
  vs <> [] -> Forall nulfree vs ->
  split_obs c s (d0 :: d') (join (d0 :: d') (map (escape_field e special) vs)) rest = SFields vs.
Proof. exact escaped_thm. Qed.
Print Assumptions C05_escaped_roundtrip.

(** C06: without quote and escape the columns are the pieces between delimiters, trimmed; in general,
    padding written around fields (quoted, escaped or plain) does not change them. *)
Theorem C06_columns_are_trimmed_pieces : forall os c, setup os = Some c ->
  forall d, nulfree d -> d <> [] -> forall s line rest d0 d' fs, d = d0 :: d' ->
  reach c s -> nulfree line -> c_quote c = None -> c_escape c = [] ->
  ~ In d0 (c_triml c) -> ~ In d0 (c_trimr c) -> cut_at d line fs ->
  split_obs c s d line rest = SFields (map (fun f => rtrim (c_trimr c) (ltrim (c_triml c) f)) fs).
Proof. exact cut_thm. Qed.
Print Assumptions C06_columns_are_trimmed_pieces.
Theorem C06_padding_is_removed : forall os c, setup os = Some c ->
  forall d, nulfree d -> d <> [] -> forall s rest d0 d' vs cells, d = d0 :: d' ->
  reach c s -> clean_delim (c_quote c) (c_escape c) (c_triml c) (c_trimr c) d0 ->
  vs <> [] -> Forall2 (padded (c_quote c) (c_escape c) (c_triml c) (c_trimr c) d0) vs cells ->
  nulfree (join d cells) ->
  split_obs c s d (join d cells) rest = SFields vs.
Proof. exact padded_thm. Qed.
Print Assumptions C06_padding_is_removed.

(** C07. An error is reported exactly for the defects that are not to be continued, *)
Theorem C07_malformed_iff_reported : forall os c, setup os = Some c -> forall d, d <> [] -> nulfree d ->
  forall s line rest, reach c s -> nulfree line ->
  (is_error (split_obs c s d line rest) <-> exists k m, defect_of c d line k /\ saying c line k = Some m).
Proof. exact exact_error. Qed.
Print Assumptions C07_malformed_iff_reported.
(** with the message that belongs to the defect, including the position of a stray quote; a line to be continued is
    accepted. *)
Theorem C07_what_is_reported : forall os c, setup os = Some c -> forall d, d <> [] -> nulfree d ->
  forall s line rest k, reach c s -> nulfree line -> defect_of c d line k ->
  match saying c line k with
  | Some m => split_obs c s d line rest = reported c m
  | None => ~ is_error (split_obs c s d line rest) /\ (inited rest -> exists l, split_obs c s d line rest = SFields l)
  end.
Proof. exact exact_defect. Qed.
Print Assumptions C07_what_is_reported.
(** An empty delimiter is an error of its own, reported whatever the line, which is not touched and gives no columns. *)
Theorem C07_empty_delimiter : forall c s line rest,
  split_obs c s [] line rest = reported c (S2 "empty delimiter") /\
  exists s', s_sd s' = [] /\
   (split_call c s [] line rest = Ok tt (s', map Some line ++ Some NUL :: rest) \/
    split_call c s [] line rest = Throw (S2 "empty delimiter") (s', map Some line ++ Some NUL :: rest)).
Proof.
  intros c s line rest. unfold split_obs, split_call, sp_split, split_impl_select_delim, sp_clear_error, sp_error, bind, upd, modify, throw, reported.
  cbn [fst snd]. destruct (c_mode c) eqn:Em; cbn [set_error]; (split; [cbn; unfold sp_valid; rewrite ?Em; reflexivity|]);
    eexists; (split; [|eauto]); reflexivity.
Qed.
Print Assumptions C07_empty_delimiter.
(** On regular lines (see C02) the defects are those of the simpler grammar. *)
Theorem C07_simple_grammar_errors : forall os c, setup os = Some c ->
  forall d, nulfree d -> d <> [] -> forall s line rest, reach c s -> nulfree line -> regular c line ->
  (is_error (split_obs c s d line rest) <->
   exists k, breaking c d line k /\ (c_ml c = true -> k = MismatchedQuote)).
Proof. exact malformed_thm. Qed.
Print Assumptions C07_simple_grammar_errors.
Theorem C07_simple_grammar_messages : forall os c, setup os = Some c ->
  forall d, nulfree d -> d <> [] -> forall s line rest m, reach c s -> nulfree line -> regular c line -> c_mode c <> EBool ->
  split_obs c s d line rest = SErr m \/ split_obs c s d line rest = SThrown m ->
  exists k, breaking c d line k /\ names k m.
Proof. exact message_thm. Qed.
Print Assumptions C07_simple_grammar_messages.

(** C08 for split: accepted lines give identical results (all columns, all memory) in all modes;
    rejected lines are rejected in all modes. *)
Theorem C08_split_modes_agree : forall os c d m1 m2 s1 s2 line rest,
  setup os = Some c -> nulfree d -> d <> [] -> nulfree line ->
  reach (with_mode m1 c) s1 -> reach (with_mode m2 c) s2 ->
  (~ is_error (split_obs (with_mode m1 c) s1 d line rest) /\
     split_call (with_mode m1 c) s1 d line rest = split_call (with_mode m2 c) s2 d line rest) \/
  (is_error (split_obs (with_mode m1 c) s1 d line rest) /\ is_error (split_obs (with_mode m2 c) s2 d line rest)).
Proof. exact modes_thm. Qed.
Print Assumptions C08_split_modes_agree.
Theorem C08_split_messages_agree : forall os c d s1 s2 line rest m m',
  setup os = Some c -> nulfree d -> d <> [] -> nulfree line ->
  reach (with_mode EString c) s1 -> reach (with_mode EThrow c) s2 ->
  split_obs (with_mode EString c) s1 d line rest = SErr m ->
  split_obs (with_mode EThrow c) s2 d line rest = SThrown m' ->
  m = m' \/ names MismatchedQuote m /\ names UnterminatedEscape m'.
Proof. exact mode_messages_thm. Qed.
Print Assumptions C08_split_messages_agree.

(** C09; the general frame condition is part of C01. *)
Theorem C09_line_untouched_without_quote_and_escape : forall os c d s line rest,
  setup os = Some c -> nulfree d -> nulfree line -> reach c s ->
  c_quote c = None -> c_escape c = [] ->
  exists s', split_call c s d line rest = Ok tt (s', map Some line ++ Some NUL :: rest)
     \/ exists e, split_call c s d line rest = Throw e (s', map Some line ++ Some NUL :: rest).
Proof. exact const_thm. Qed.
Print Assumptions C09_line_untouched_without_quote_and_escape.

(** C10 for the splitter (the converter is in PropConvert.v). *)
Theorem C10_split_independent_of_history : forall os c d s1 s2 line rest,
  setup os = Some c -> d <> [] -> reach c s1 -> reach c s2 ->
  split_call c s1 d line rest = split_call c s2 d line rest.
Proof. exact history_thm. Qed.
Print Assumptions C10_split_independent_of_history.

(** C19 *)
Theorem C19_setup_order_irrelevant : forall a b, Permutation a b -> setup a = setup b.
Proof. exact setup_perm. Qed.
Print Assumptions C19_setup_order_irrelevant.

(** C20 *)
Theorem C20_accepted_setups_unambiguous : forall os c, setup os = Some c -> cfg_ok c.
Proof. exact setup_ok. Qed.
Print Assumptions C20_accepted_setups_unambiguous.
Theorem C20_setup_means_its_options : forall os c, setup os = Some c ->
  (forall x, c_quote c = Some x <-> In (OQuote x) os /\ x <> NUL) /\
  (forall x, In x (c_escape c) <-> exists cs, In (OEscape cs) os /\ In x cs /\ x <> NUL) /\
  (forall x, In x (c_triml c) <-> exists cs, (In (OTrim cs) os \/ In (OTrimLeft cs) os) /\ In x cs /\ x <> NUL) /\
  (forall x, In x (c_trimr c) <-> exists cs, (In (OTrim cs) os \/ In (OTrimRight cs) os) /\ In x cs /\ x <> NUL) /\
  (c_ml c = true <-> exists n, In (OMultiline n true) os) /\
  (forall n, In (OMultiline n true) os -> c_mlsize c = n) /\
  c_mode c = (if existsb is_string_error os then EString else if existsb is_throw os then EThrow else EBool) /\
  ~ (In OStringError os /\ In OThrowOnError os) /\
  ~ In OOther os.
Proof. exact setup_meaning. Qed.
Print Assumptions C20_setup_means_its_options.
(** The option lists that compile are those that fit together (SetupSpec.v). *)
Theorem C20_setup_compiles_iff : forall os, (exists c, setup os = Some c) <-> acceptable os.
Proof. exact setup_accepts. Qed.
Print Assumptions C20_setup_compiles_iff.
Theorem C20_switches : forall os c, setup os = Some c ->
  (c_ignhdr c = true <-> exactly_once OIgnoreHeader os) /\ (c_ignempty c = true <-> exactly_once OIgnoreEmpty os) /\
  (c_mode c = EString <-> In OStringError os) /\ (c_mode c = EThrow <-> In OThrowOnError os).
Proof. exact setup_switches. Qed.
Print Assumptions C20_switches.
(** Given twice, ignore_header compiles and does nothing. *)
Theorem C20_given_twice_refuted : exists os c, In OIgnoreHeader os /\ setup os = Some c /\ c_ignhdr c = false.
Proof. exists [OIgnoreHeader; OIgnoreHeader]. eexists. split; [left; reflexivity|]. split; reflexivity. Qed.
Print Assumptions C20_given_twice_refuted.
Example C20_case : acceptable [OTrimRight [" "%char]; OMultiline 3 true; OIgnoreHeader; OEscape ["\"%char; "^"%char]; OThrowOnError; OQuote "'"%char] /\
  ~ acceptable [OQuote "'"%char; OEscape ["\"%char; "'"%char]] /\ ~ acceptable [OMultiline 0 true; OTrim [" "%char]] /\ ~ acceptable [OTrim ["a"%char; NUL]].
Proof.
  split; [apply C20_setup_compiles_iff; eexists; reflexivity|].
  split; [|split]; intros H; apply C20_setup_compiles_iff in H as [c H]; discriminate.
Qed.

(** The histories of C10 include resplits (which only the parser can call), except those with an empty delimiter, which the
    parser does not do: after such a call the
    object is spoilt, and splitting a harmless line with it is undefined behaviour. *)
Theorem C10_resplit_empty_delimiter_refuted :
  exists os c s m line, setup os = Some c /\ nulfree line /\
    in_quotes c [","%char] (S2 "x,""a\""b") s m 7 /\
    match resplit_call c [] s m 7 (S2 "c"",d") [] with
    | Ok _ (s', _) => split_obs c s' [","%char] line [] = SCrash
    | _ => False
    end /\ exists l, split_obs c sp_init [","%char] line [] = SFields l.
Proof.
  exists [OQuote """"%char; OEscape ["\"%char]; OMultiline 0 true; OStringError],
    (mkCfg (Some """"%char) ["\"%char] [] [] true 0 EString false false).
  eexists _, _, (S2 "uv,x"""). split; [reflexivity|]. split; [intros H; cbn in H; intuition discriminate|].
  split; [|split].
  - eapply iq_split with (rest := []); [apply reach_init|intros H; cbn in H; intuition discriminate| | |]; vm_compute; reflexivity.
  - vm_compute. reflexivity.
  - eexists. vm_compute. reflexivity.
Qed.
Print Assumptions C10_resplit_empty_delimiter_refuted.

(** C11. [in_quotes c d text s m n]: [text] was split, in one or more pieces, by the splitter now in state
    [s] with memory [m], the line being [n] bytes long there, and ended inside quotes. Appending [u] (whose
    first character does not occur in the delimiter; a line break in practice) and calling resplit
    shows the same columns, the same open field or the same error (up to the position printed in it) as
    one split of the whole text by any splitter. *)
Theorem C11_resplit_equals_one_split : forall os c d text s m n u rest s0 rest',
  setup os = Some c -> c_ml c = true -> nulfree d -> d <> [] ->
  in_quotes c d text s m n -> continues d u -> reach c s0 ->
  same_view (view c (resplit_call c d s m n u rest)) (view c (split_call c s0 d (text ++ u) rest')).
Proof.
  intros os c d text s m n u rest s0 rest' Hs Hml Hd Hd0 Hq Hu Hr.
  apply resplit_thm; auto; [exact (setup_ok os c Hs)|exact (in_quotes_nulfree c d _ _ _ _ Hq)].
Qed.
Print Assumptions C11_resplit_equals_one_split.
(** In particular neither crashes. *)
Theorem C11_resplit_memory_safe : forall os c d text s m n u rest,
  setup os = Some c -> c_ml c = true -> nulfree d -> d <> [] ->
  in_quotes c d text s m n -> continues d u ->
  view c (resplit_call c d s m n u rest) <> VCrash.
Proof.
  intros os c d text s m n u rest Hs Hml Hd Hd0 Hq Hu E.
  pose proof (C11_resplit_equals_one_split os c d text s m n u rest sp_init [] Hs Hml Hd Hd0 Hq Hu (reach_init c)) as K.
  rewrite E in K. destruct (view c (split_call c sp_init d (text ++ u) [])); exact K.
Qed.
Print Assumptions C11_resplit_memory_safe.
(** A resplit without an open quote is refused: nothing but the error state changes. *)
Theorem C11_resplit_needs_open_quote : forall c blk n d s m, s_uq s = false ->
  sp_resplit c blk n d (s, m) =
    match c_mode c with
    | EBool => Ok tt (up_err (Some []) s, m)
    | EString => Ok tt (up_err (Some (S2 "invalid resplit, new line must be longerthan the end of the last slice")) s, m)
    | EThrow => Throw (S2 "invalid resplit, new line must be longerthan the end of the last slice") (s, m)
    end.
Proof.
  intros c blk n d s m H. unfold sp_resplit, bind, sget, gets. cbn [fst]. rewrite H, orb_true_r.
  unfold sp_error. destruct (c_mode c); reflexivity.
Qed.
Print Assumptions C11_resplit_needs_open_quote.

(** ** The hypotheses are met by non-trivial cases. *)
Definition ex_os := [OQuote """"%char; OEscape ["\"%char]; OTrim [" "%char]; OStringError].
Definition ex_c := mkCfg (Some """"%char) ["\"%char] [" "%char] [" "%char] false 0 EString false false.
Example ex_setup : setup ex_os = Some ex_c. Proof. reflexivity. Qed.
Example ex_setup_perm : Permutation ex_os (rev ex_os). Proof. apply Permutation_rev. Qed.
(** a splitter with a failed split behind it *)
Example ex_reach : exists s, reach ex_c s /\ s <> sp_init /\ sp_valid ex_c s = false.
Proof.
  eexists. split; [|split].
  - eapply (reach_split ex_c sp_init 0 [","%char] (map Some (S2 "a,""b") ++ [Some NUL])); [apply reach_init|left; vm_compute; reflexivity].
  - discriminate.
  - reflexivity.
Qed.
Example ex_split : split_obs ex_c sp_init (S2 "::") (S2 "  a b ::""x """"::y"" :: c\:d") [] =
  SFields [S2 "a b"; S2 "x ""::y"; S2 "c:d"]. Proof. vm_compute. reflexivity. Qed.
Example ex_regular : regular ex_c (S2 "  a b ::""x """"::y"" :: c\:d").
Proof.
  split.
  - intros pre x y post E [<-|[]] [<-|[]].
    assert (K : forall pre s post, s = pre ++ " "%char :: "\"%char :: post ->
      existsb (fun k => str_eqb (firstn 2 (skipn k s)) [" "%char; "\"%char]) (seq 0 (length s)) = true).
    { clear. intros pre s post ->. apply existsb_exists. exists (length pre). split; [apply in_seq; rewrite app_length; cbn; lia|].
      rewrite skipn_app, skipn_all, Nat.sub_diag. reflexivity. }
    specialize (K _ _ _ E). vm_compute in K. discriminate.
  - intros pre q e post E [= <-] [<-|[]].
    assert (K : forall pre s post, s = pre ++ """"%char :: "\"%char :: """"%char :: post ->
      existsb (fun k => str_eqb (firstn 2 (skipn k s)) ["""" %char; "\"%char]) (seq 0 (length s)) = true).
    { clear. intros pre s post ->. apply existsb_exists. exists (length pre). split; [apply in_seq; rewrite app_length; cbn; lia|].
      rewrite skipn_app, skipn_all, Nat.sub_diag. reflexivity. }
    specialize (K _ _ _ E). vm_compute in K. discriminate.
Qed.
Example ex_clean : clean_delim (c_quote ex_c) (c_escape ex_c) (c_triml ex_c) (c_trimr ex_c) ":"%char.
Proof. repeat split; cbn; intuition discriminate. Qed.
Example ex_padded : Forall2 (padded (c_quote ex_c) (c_escape ex_c) (c_triml ex_c) (c_trimr ex_c) ":"%char)
  [S2 "a b"; S2 "x"] [S2 "  a b "; S2 """x"" "].
Proof.
  constructor; [|constructor; [|constructor]].
  - exists (S2 "  "), (S2 "a b"), (S2 " "). split; [reflexivity|]. split; [|split; repeat constructor].
    apply wr_bare; [|intros x [= <-]; cbn; split; [discriminate|intuition discriminate]].
    apply ba_char; [cbn; intuition discriminate|discriminate|cbn; intuition discriminate|].
    apply ba_char; [cbn; intuition discriminate|discriminate|exists "b"%char, []; split; [reflexivity|cbn; intuition discriminate]|].
    apply ba_char; [cbn; intuition discriminate|discriminate|cbn; intuition discriminate|]. constructor.
  - exists [], (S2 """x"""), (S2 " "). split; [reflexivity|]. split; [|split; repeat constructor].
    apply (wr_quoted _ _ _ _ _ _ """"%char (S2 "x")); [reflexivity|]. repeat constructor; cbn; intuition discriminate.
Qed.
Example ex_cut : cut_at (S2 "::") (S2 "a:b::c") [S2 "a:b"; S2 "c"].
Proof. apply (join_cut (S2 "::") [S2 "a:b"; S2 "c"]); try discriminate.
  assert (K : forall f, existsb (fun k => str_eqb (firstn 2 (skipn k (f ++ S2 "::"))) (S2 "::")) (seq 0 (length f)) = false ->
     forall a b, f ++ S2 "::" = a ++ S2 "::" ++ b -> b = []).
  { intros f E a b Ea. destruct b as [|x b]; [reflexivity|exfalso].
    assert (T : existsb (fun k => str_eqb (firstn 2 (skipn k (f ++ S2 "::"))) (S2 "::")) (seq 0 (length f)) = true); [|congruence].
    apply existsb_exists. exists (length a). split.
    - apply in_seq. apply (f_equal (@length _)) in Ea. rewrite !app_length in Ea. cbn in Ea. lia.
    - rewrite Ea, skipn_app, skipn_all, Nat.sub_diag. reflexivity. }
  repeat constructor; apply K; reflexivity.
Qed.
Example ex_break : breaking ex_c [","%char] (S2 "a,""b") UnterminatedQuote.
Proof.
  apply b_later with (v := S2 "a") (t := S2 "a") (after := S2 ",""b") (rest := S2 """b"); try reflexivity.
  - apply f_plain; [intros q [= <-]; discriminate|].
    apply u_char; [intros [H|[r H]]; discriminate|cbn; intuition discriminate|exact I|].
    apply u_end. right. exists (S2 """b"). reflexivity.
  - apply b_quoted with (q := """"%char) (t := S2 "b"); try reflexivity.
    apply qb_char; [discriminate|cbn; intuition discriminate|]. apply qb_unterminated.
Qed.
Example ex_break_obs : split_obs ex_c sp_init [","%char] (S2 "a,""b") [] = SErr (S2 "unterminated quote").
Proof. vm_compute. reflexivity. Qed.

(** a row continued twice *)
Definition ml_c := mkCfg (Some """"%char) ["\"%char] [] [" "%char] true 0 EString false false.
Example ex_in_quotes : exists s m n, in_quotes ml_c [","%char] (S2 "x,""a\""b" ++ LF :: S2 "c\\") s m n /\
  view ml_c (resplit_call ml_c [","%char] s m n (LF :: S2 "d"" ,e") []) =
  VCols [S2 "x"; S2 "a""b" ++ LF :: S2 "c\" ++ LF :: S2 "d"; S2 "e"].
Proof.
  do 3 eexists. split.
  - eapply iq_resplit with (rest := []).
    + eapply iq_split with (rest := []); [apply reach_init|intros H; cbn in H; intuition discriminate| | |]; vm_compute; reflexivity.
    + split; [intros H; cbn in H; intuition discriminate|exists LF, (S2 "c\\"); split; [reflexivity|cbn; intuition discriminate]].
    + vm_compute. reflexivity.
    + vm_compute. reflexivity.
    + vm_compute. reflexivity.
  - vm_compute. reflexivity.
Qed.
(** Both corners of C02 in one line, and a defect with its position. *)
Example ex_corners : columns_of ex_c [","%char] (S2 "a  \ b,""x""\""y""") [S2 "a \ b"; S2 "x""y"].
Proof.
  destruct (C02_split_returns_nothing_else ex_os ex_c eq_refl [","%char] ltac:(discriminate) ltac:(intros H; cbn in H; intuition discriminate)
    sp_init (S2 "a  \ b,""x""\""y""") [] [S2 "a \ b"; S2 "x""y"] (reach_init _) ltac:(intros H; cbn in H; intuition discriminate) ltac:(vm_compute; reflexivity)) as [H|(k & _ & H)]; [exact H|].
  destruct k; discriminate.
Qed.
Example ex_defect : defect_of ex_c [","%char] (S2 "a, ""b""c") (StrayQuote (S2 """c")) /\
  saying ex_c (S2 "a, ""b""c") (StrayQuote (S2 """c")) = Some (S2 "mismatched quote at position: 5").
Proof.
  split; [|vm_compute; reflexivity].
  assert (NE : forall x s, ltrim [" "%char] s = x :: tl (ltrim [" "%char] s) -> x <> ","%char -> ~ field_ends [" "%char] [","%char] s).
  { intros x s E Hx [H|[r H]]; rewrite H in E; [discriminate|]. cbn in E. congruence. }
  eapply (hd_later _ _ _ _ _ _ (S2 "a") (S2 ", ""b""c") (S2 " ""b""c")); [|reflexivity|].
  - apply o_plain; [intros q E; injection E as <-; discriminate|]. apply p_char; [apply (NE "a"%char); [reflexivity|discriminate]| |apply p_end; right; eexists; reflexivity].
    intros (e & r & H & K). cbn in H. injection H as <- <-. cbn in K. intuition discriminate.
  - apply hd_here. apply (od_quoted _ _ _ _ """"%char (S2 "b""c")); [reflexivity|]. apply id_char; [discriminate|cbn; intuition discriminate|].
    eapply (id_stray _ _ _ _ (S2 "c") "c"%char []); [apply (NE "c"%char); [reflexivity|discriminate]|reflexivity|cbn; intuition discriminate|discriminate].
Qed.
