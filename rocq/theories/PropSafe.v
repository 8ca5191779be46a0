(** C41: memory safety of the parser.  Undefined behaviour in the model: any access outside a buffer, through a null or
    dangling pointer, or to bytes that were never set; a loop that does not end counts as well (Base.v, ParserApi.v). *)
From Verif Require Import Base Setup SetupProofs Splitter Extract Converter Reader ListFacts LineProofs ReaderBase ReaderInv Parser ConvProofs ParserSpec ParserApi ReaderParse ParserInv ParserRows ParserOpen SessionApi SessionSpec SafeProofs.

(** A parser constructed on [data], any bytes; only the portable line reader cannot cope with NUL (C23_nul_refuted). *)
Inductive opened_any (c : cfg) (cap : nat -> nat -> nat) (d data : str) : prs -> Prop :=
| oa_file name p : parser_file c cap name d false (Some data) = Ok tt p -> opened_any c cap d data p
| oa_portable name p : ~ In NUL data -> parser_file c cap name d true (Some data) = Ok tt p -> opened_any c cap d data p
| oa_buffer p : parser_buffer c cap d (Some data) (length data) = Ok tt p -> opened_any c cap d data p.

(** Setups in which skipping a line (ignore_next, ignore_header, use_fields) is always covered; see C41_failed_skip_refuted. *)
Definition skipping_ok (c : cfg) : Prop := c_ml c = true -> c_escape c <> [] -> c_ignempty c = false.
(** Setups in which or_else is always covered; see C41_or_else_refuted.  (With throw_on_error it never does anything.) *)
Definition retrying_ok (c : cfg) : Prop := c_mode c = EThrow \/ c_ml c = false /\ c_ignempty c = false.
Definition covered_call (c : cfg) (k : call) : Prop :=
  match k with
  | CTry _ _ ls => (exists es cb, In (LElse es cb) ls) -> retrying_ok c
  | CIgnore | CUse _ => skipping_ok c
  | _ => True
  end.
(** In the other setups it depends on where the parser stands: or_else is covered in front of a row that is not given up
    (neither the multiline limit nor the end of the data cuts it off; [gives_up] of SafeProofs.v), skipping if a further
    line with contents is left ([line_left]), use_fields also once a row was read (it only skips in front of the first). *)
Definition covered_now (c : cfg) (cap : nat -> nat -> nat) (p : prs) (k : call) : Prop :=
  match k with
  | CTry _ _ ls => (exists es cb, In (LElse es cb) ls) -> retrying_ok c \/ p_eof p = false /\ ~ gives_up c cap p
  | CIgnore => skipping_ok c \/ line_left p
  | CUse _ => skipping_ok c \/ line_left p \/ p_line p <> 0
  | _ => True
  end.
Fixpoint all_covered (c hc : cfg) (cap : nat -> nat -> nat) (p : prs) (ks : list call) : Prop :=
  match ks with [] => True | k :: ks' => covered_now c cap p k /\ all_covered c hc cap (snd (do_call c hc cap p k)) ks' end.
(** ignore_header skips a line as well; [two_lines data]: two lines of data have contents. *)
Definition header_ok (c : cfg) (data : str) : Prop := c_ignhdr c = true -> skipping_ok c \/ two_lines data.

Lemma skipping_eq c : skipping_ok c -> may_skip c.
Proof.
  unfold skipping_ok, may_skip, escaped_multiline, escape_enabled. intros H. destruct (c_ml c); [|reflexivity]. cbn. destruct (c_escape c) as [|x l]; [reflexivity|].
  rewrite (H eq_refl ltac:(discriminate)). apply andb_false_r.
Qed.
Lemma else_in ls : has_else ls -> exists es cb, In (LElse es cb) ls.
Proof. intros E. apply Exists_exists in E as ([es' cb'|k] & Hin & K); [eauto|contradiction]. Qed.
Lemma now_permitted c cap p k : covered_now c cap p k -> permitted c cap p k.
Proof.
  destruct k as [es|es cb ls| | | |f|fs]; cbn; auto.
  - intros H E. destruct (H (else_in _ E)) as [X|X]; [left; exact X|right; exact X].
  - intros [X|X]; [left; apply skipping_eq; exact X|right; exact X].
  - intros [X|[X|X]]; [right; left; apply skipping_eq; exact X|right; right; exact X|left; exact X].
Qed.
Lemma covered_here c cap p k : covered_call c k -> covered_now c cap p k.
Proof. destruct k as [es|es cb ls| | | |f|fs]; cbn; auto. Qed.
Lemma covered_permitted c cap p k : covered_call c k -> permitted c cap p k.
Proof. intros H. apply now_permitted, covered_here, H. Qed.
(** In a setup where every call of the list is covered, it is covered at any time. *)
Lemma always_covered c hc cap : forall ks p, Forall (covered_call c) ks -> all_covered c hc cap p ks.
Proof. induction ks as [|k ks IH]; intros p H; [exact Logic.I|]. inversion H; subst. split; [apply covered_here; assumption|apply IH; assumption]. Qed.
Lemma header_always c data : (c_ignhdr c = true -> skipping_ok c) -> header_ok c data.
Proof. intros H E. left. auto. Qed.
Lemma header_skips c data : header_ok c data -> c_ignhdr c = true -> may_skip c \/ two_lines data.
Proof. intros H E. destruct (H E) as [X|X]; [left; apply skipping_eq; exact X|right; exact X]. Qed.

Lemma opened_any_safe c cap d data p : cfg_ok c -> ~ In NUL d -> enough cap -> header_ok c data -> opened_any c cap d data p -> sinv c d (S (length data)) p.
Proof.
  intros Hc Hd Hcap Hh O. pose proof (header_skips _ _ Hh) as MS.
  assert (G : forall src name msg q, src_okz src 0 -> unread (rdr_init d src) = data -> construct c cap true msg (p_init name d src) = Ok tt q -> sinv c d (S (length data)) q).
  { intros src name msg q SO LU E. destruct (construct_safe c d cap (S (length data)) Hcap src name msg SO) as (p' & E' & SI & _); [rewrite LU; lia|rewrite LU; exact MS|]. rewrite E in E'. injection E' as ->. exact SI. }
  destruct O as [name p E|name p N E|p E].
  - apply (G (SFile data) name msg_not_open p); [exact Logic.I|reflexivity|exact E].
  - apply (G (SPort data) name msg_not_open p); [intros X; apply N; exact X|reflexivity|exact E].
  - apply (G (SMem data) (S2 "CSV data buffer") msg_null_buffer p); [cbn; lia|reflexivity|exact E].
Qed.

(** C41, full statement: for every data and every list of calls no reply is a crash.  It is false of the code for the
    kinds of calls that [covered_now] leaves out (below), and for the portable line reader on data with NUL. *)
Theorem C41_no_call_crashes_partial : forall c hc cap d data p ks,
  cfg_ok c -> header_setup c hc -> ~ In NUL d -> enough cap -> header_ok c data ->
  opened_any c cap d data p -> Forall call_ok ks -> all_covered c hc cap p ks ->
  Forall (fun y => y <> YCrash /\ y <> YGet GCrash) (replies c hc cap p ks) /\
  NoDup (owned (p_rdr (later c hc cap p ks))).        (* the destructor frees each of its blocks once *)
Proof.
  intros c hc cap d data p ks Hc HS Hd Hcap Hh O. assert (SI : sinv c d (S (length data)) p) by (eapply opened_any_safe; eauto). clear O.
  assert (Hd' : nulfree d) by (intros X; apply Hd; exact X). revert p SI.
  induction ks as [|k ks IH]; intros p SI KO KP.
  - split; [constructor|]. destruct SI as ((I & _) & _). cbn. apply (i_nd _ _ _ I).
  - inversion KO; subst. destruct KP as [KP1 KP2].
    destruct (call_safe c hc d cap (S (length data)) Hc Hd' Hcap HS k p) as [A B]; [apply now_permitted; assumption|assumption|exact SI|].
    cbn [replies later]. destruct (IH _ B) as [C D]; [assumption|assumption|]. split; [|exact D]. constructor; [|exact C]. unfold crashed in A. split; intros X; apply A; auto.
Qed.
Print Assumptions C41_no_call_crashes_partial.
(** The calls that [covered_now] leaves open never crash themselves if they are ignore_next or use_fields: what goes wrong
    is a later get_next (C41_failed_skip_refuted).  Constructing never crashes either, whatever the setup and the data. *)
Theorem C41_constructing : forall c cap d data name,
  cfg_ok c -> ~ In NUL d -> enough cap ->
  (exists p, parser_file c cap name d false (Some data) = Ok tt p) /\
  (exists p, parser_buffer c cap d (Some data) (length data) = Ok tt p) /\
  (~ In NUL data -> exists p, parser_file c cap name d true (Some data) = Ok tt p).
Proof.
  intros c cap d data name Hc Hd Hcap.
  assert (G : forall src nm msg, src_okz src 0 -> exists p, construct c cap true msg (p_init nm d src) = Ok tt p).
  { intros src nm msg SO. exact (construct_ends c d cap Hcap src nm msg SO). }
  split; [|split].
  - apply (G (SFile data)). exact Logic.I.
  - apply (G (SMem data)). cbn. lia.
  - intros N. apply (G (SPort data)). intros X. apply N. exact X.
Qed.
Print Assumptions C41_constructing.
(** Without multiline no row is given up, so or_else is covered whenever eof() was false before try_next; every list of
    calls that keeps to this is safe, whatever the data and whatever else it does. *)
Lemma plain_rows c d cap NB p : cfg_ok c -> nulfree d -> enough cap -> c_ml c = false -> sinv c d NB p -> p_eof p = false -> ~ gives_up c cap p.
Proof.
  intros Hc Hd Hcap Hm ((I & _ & PF) & _) He (r & E & V). apply V. destruct (PF He) as (V0 & _). destruct (parse_calm c cap _ _ Hm E) as (VE & _). congruence.
Qed.
Fixpoint retries_before_the_end (c hc : cfg) (cap : nat -> nat -> nat) (p : prs) (ks : list call) : Prop :=
  match ks with
  | [] => True
  | k :: ks' => (match k with CTry _ _ ls => (exists es cb, In (LElse es cb) ls) -> p_eof p = false | _ => True end) /\
      retries_before_the_end c hc cap (snd (do_call c hc cap p k)) ks'
  end.
Theorem C41_without_multiline : forall c hc cap d data p ks,
  cfg_ok c -> c_ml c = false -> header_setup c hc -> ~ In NUL d -> enough cap ->
  opened_any c cap d data p -> Forall call_ok ks -> retries_before_the_end c hc cap p ks ->
  Forall (fun y => y <> YCrash /\ y <> YGet GCrash) (replies c hc cap p ks).
Proof.
  intros c hc cap d data p ks Hc Hm HS Hd Hcap O KO KR.
  assert (Hd' : nulfree d) by (intros X; apply Hd; exact X). assert (SK : skipping_ok c) by (intros X; congruence).
  assert (HH : header_ok c data) by (apply header_always; auto).
  refine (proj1 (C41_no_call_crashes_partial c hc cap d data p ks Hc HS Hd Hcap HH O KO _)).
  assert (SI : sinv c d (S (length data)) p) by (eapply opened_any_safe; eauto). clear O HH. revert p SI KR.
  induction ks as [|k ks IH]; intros p SI KR; [exact Logic.I|]. inversion KO; subst. destruct KR as [KR1 KR2].
  assert (CN : covered_now c cap p k).
  { destruct k as [es|es cb ls| | | |f|fs]; cbn; auto. intros E. right. split; [apply KR1; exact E|]. eapply plain_rows; eauto. }
  split; [exact CN|]. apply IH; [assumption| |exact KR2].
  apply (call_safe c hc d cap (S (length data)) Hc Hd' Hcap HS k p); [apply now_permitted; exact CN|assumption|exact SI].
Qed.
Print Assumptions C41_without_multiline.
(** With multiline: a row that the document calls complete is not given up. *)
Lemma complete_rows c d cap NB p t e text m rest : fit c d -> enough cap -> sinv c d NB p -> p_eof p = false -> bufline (p_rdr p) t e ->
  tame c (t ++ unread (p_rdr p)) -> row c d 0 t t e (lines (unread (p_rdr p))) (Complete text) m rest -> ~ gives_up c cap p.
Proof.
  intros F Hcap ((I & _ & PF) & _) He HB HT HR (r & E & V). pose proof (fit_clean_ok _ _ F) as Hcl. destruct F as [Hc Hd Hd0 _]. destruct (PF He) as (V0 & U & _). apply tame_app in HT as [HT1 HT2].
  assert (Hd' : nulfree d) by (intros X; apply Hd; exact X).
  destruct (parse_rows c Hc d Hd' Hd0 Hcl cap Hcap (p_rdr p) t e I HB) as (r' & SO & RO); [intros Q; apply (U Q)|exact HT1|exact HT2|].
  pose proof (gather_row c Hc d Hd' Hd0 (lines (unread (p_rdr p))) 0 t t e HT1 (wf_bufline _ _ _ HB) (lines_tame _ _ HT2)) as GR.
  pose proof (row_fun c d _ _ _ _ _ _ _ _ GR _ _ _ HR) as (X & _).
  destruct (gather c d (lines (unread (p_rdr p))) 0 t t e) as [T' n' more'|s n' more']; [|discriminate X].
  assert (r' = r) as ->.
  { destruct (safe_out_state c d _ _ _ SO) as [K|(mm & K)]; congruence. }
  cbn [rows_out] in RO. destruct RO as (_ & _ & _ & _ & VE). congruence.
Qed.

(** Calls that read rows one after the other, and ask about the header: neither or_else nor skipping. *)
Definition only_reads (k : call) : Prop :=
  match k with CTry _ _ ls => forall es cb, ~ In (LElse es cb) ls | CIgnore | CUse _ => False | _ => True end.
Lemma reads_covered c hc cap : forall ks p, Forall only_reads ks -> all_covered c hc cap p ks.
Proof.
  induction ks as [|k ks IH]; intros p H; [exact Logic.I|]. inversion H as [|? ? H1 H2]; subst. split; [|apply IH; exact H2].
  destruct k as [es|es cb ls| | | |f|fs]; cbn in *; auto; try contradiction. intros (es' & cb' & X). destruct (H1 _ _ X).
Qed.
(** For these every setup is covered, and all bytes; with ignore_header also needed: not (escape, multiline, ignore_empty and
    fewer than two lines). *)
Theorem C41_reading : forall c hc cap d data p ks,
  cfg_ok c -> header_setup c hc -> ~ In NUL d -> enough cap -> header_ok c data ->
  opened_any c cap d data p -> Forall call_ok ks -> Forall only_reads ks ->
  Forall (fun y => y <> YCrash /\ y <> YGet GCrash) (replies c hc cap p ks) /\
  NoDup (owned (p_rdr (later c hc cap p ks))).
Proof. intros c hc cap d data p ks Hc HS Hd Hcap Hh O KO KR. eapply C41_no_call_crashes_partial; eauto. apply reads_covered. exact KR. Qed.
Print Assumptions C41_reading.

(** The remaining cases.  or_else after a row that ran into the multiline limit at an escaped line end: the columns still
    point into the buffer that was reallocated when the last line was appended. *)
Definition tight (_ need : nat) : nat := need.
Definition both_ml : cfg := mkCfg (Some """"%char) ["\"%char] [] [] true 1 EString false false.
Theorem C41_or_else_refuted : exists p, opened_any both_ml tight (S2 ",") (S2 "a,""b" ++ [LF] ++ S2 "c\" ++ [LF] ++ S2 "d") p /\
  let ts := [EVal TString; EVal TString] in
  replies both_ml (header_cfg both_ml) tight p [CTry ts CbNone [LElse ts CbNone]] = [YCrash].
Proof. eexists. split; [apply oa_buffer; vm_compute; reflexivity|]. vm_compute. reflexivity. Qed.
Print Assumptions C41_or_else_refuted.
(** Skipping the last row with ignore_empty when blank lines follow: the next get_next looks at as many bytes as the
    skipped line had, of which getline has set only the first. *)
Definition esc_ml : cfg := mkCfg None ["\"%char] [] [] true 0 EString false true.
Theorem C41_failed_skip_refuted : exists p, opened_any esc_ml tight (S2 ",") (S2 "abc" ++ [LF; LF]) p /\
  replies esc_ml (header_cfg esc_ml) tight p [CIgnore; CGet [EVal TString]] = [YBool false; YGet GCrash].
Proof. eexists. split; [eapply (oa_file _ _ _ _ (S2 "f")); vm_compute; reflexivity|]. vm_compute. reflexivity. Qed.
Print Assumptions C41_failed_skip_refuted.

(** or_else at the end of the data with ignore_empty: the columns of an earlier row are converted again, after getline has read a
    blank line over it and left the rest of the buffer unspecified (it crashes in the model, which takes that literally;
    reading from memory gives the old bytes). *)
Definition skip_empty : cfg := mkCfg None [] [] [] false 0 EString false true.
Theorem C41_retry_at_the_end_refuted : let data := S2 "abcdef" ++ [LF] ++ S2 "cde" ++ [LF; LF] in let t := [EVal TString] in
  let ks := [CGet t; CGet t; CTry [EVal TString; EVal TString] CbNone [LElse t CbNone]] in
  exists p q, opened_any skip_empty tight (S2 ",") data p /\ opened_any skip_empty tight (S2 ",") data q /\
  replies skip_empty (header_cfg skip_empty) tight p ks = [YGet (GValues [VStr (S2 "abcdef")]); YGet (GValues [VStr (S2 "cde")]); YCrash] /\
  replies skip_empty (header_cfg skip_empty) tight q ks =
    [YGet (GValues [VStr (S2 "abcdef")]); YGet (GValues [VStr (S2 "cde")]); YTry [None; Some [VStr ([NUL; NUL] ++ S2 "cdef")]] [] true].
Proof.
  cbv zeta. eexists _, _. split; [eapply (oa_file _ _ _ _ (S2 "f")); vm_compute; reflexivity|]. split; [apply oa_buffer; vm_compute; reflexivity|].
  split; vm_compute; reflexivity.
Qed.
Print Assumptions C41_retry_at_the_end_refuted.

(** The hypotheses are met by a session on data with NUL bytes, unterminated quotes and blank lines. *)
Example C41_example : exists c p ks, setup [OQuote """"%char; OStringError] = Some c /\ cfg_ok c /\ opened_any c tight (S2 ",") (S2 "a,b" ++ [LF; NUL; LF; LF] ++ S2 """x" ++ [NUL] ++ S2 ",1" ++ [CR; LF] ++ S2 "y,2") p /\
  Forall call_ok ks /\ Forall (covered_call c) ks /\
  replies c (header_cfg c) tight p ks =
   [YNames [S2 "a"; S2 "b"]; YDone; YGet (GError (S2 "f 2: invalid number of columns, expected: 2, got: 0"));
    YTry [None; None] [] false; YGet (GError (S2 "f 4: unterminated quote")); YTry [Some [VInt 2]] [] true;
    YTry [None; None] [] false].
Proof.
  set (c := mkCfg (Some """"%char) [] [] [] false 0 EString false false).
  set (i := EVal (TInt (mkIty true 32))).
  exists c.
  set (ks := [CHeader; CUse [S2 "b"]; CGet [i]; CTry [i] CbNone [LElse [EVal TString] CbNone]; CGet [i]; CTry [i] CbNone []; CTry [i] CbNone [LElse [EVal TString] CbNone]]).
  assert (ST : setup [OQuote """"%char; OStringError] = Some c) by reflexivity.
  eexists _, ks. split; [exact ST|]. split; [exact (setup_ok _ _ ST)|].
  split; [eapply (oa_file _ _ _ _ (S2 "f")); vm_compute; reflexivity|].
  assert (T : types [i] /\ types [EVal TString]) by (split; (split; [repeat constructor; cbn; lia|discriminate])). destruct T as [T1 T2].
  split; [|split].
  - unfold ks. repeat apply Forall_cons; try apply Forall_nil; cbn; auto; (split; [assumption|]); repeat apply Forall_cons; try apply Forall_nil; assumption.
  - assert (R : retrying_ok c) by (right; split; reflexivity). assert (K : skipping_ok c) by (intros X; discriminate).
    unfold ks. repeat apply Forall_cons; try apply Forall_nil; cbn; auto.
  - vm_compute. reflexivity.
Qed.
Print Assumptions C41_example.
(** Multiline, escape and ignore_empty together: skipping and or_else are covered where the parser stands. *)
Example C41_multiline_example : exists c p ks, setup [OQuote """"%char; OEscape ["\"%char]; OMultiline 0 true; OIgnoreEmpty; OIgnoreHeader; OStringError] = Some c /\ cfg_ok c /\
  let data := S2 "h,i" ++ [LF; LF] ++ S2 "k,l" ++ [LF] ++ S2 """x" ++ [LF; LF] ++ S2 "y"",z" ++ [LF] ++ S2 "b,c" in
  header_ok c data /\ opened_any c tight (S2 ",") data p /\ Forall call_ok ks /\ all_covered c (header_cfg c) tight p ks /\ ~ Forall (covered_call c) ks /\
  replies c (header_cfg c) tight p ks =
   [YBool true; YTry [None; Some [VStr (S2 "x" ++ [LF; LF] ++ S2 "y"); VStr (S2 "z")]] [] true; YGet (GValues [VStr (S2 "b"); VStr (S2 "c")])].
Proof.
  set (c := mkCfg (Some """"%char) ["\"%char] [] [] true 0 EString true true).
  set (i := EVal (TInt (mkIty true 32))). set (t := EVal TString).
  set (ks := [CIgnore; CTry [i; i] CbNone [LElse [t; t] CbNone]; CGet [t; t]]).
  assert (ST : setup [OQuote """"%char; OEscape ["\"%char]; OMultiline 0 true; OIgnoreEmpty; OIgnoreHeader; OStringError] = Some c) by reflexivity.
  exists c. eexists _, ks. split; [exact ST|]. split; [exact (setup_ok _ _ ST)|]. cbv zeta. split.
  { intros _. right. unfold two_lines. exists []. eexists _, _, (S2 "k,l", [LF]). split; [vm_compute; reflexivity|]. split; [discriminate|]. split; [vm_compute; auto|discriminate]. }
  split; [eapply (oa_file _ _ _ _ (S2 "f")); vm_compute; reflexivity|].
  assert (T : types [i; i] /\ types [t; t]) by (split; (split; [repeat constructor; cbn; lia|discriminate])). destruct T as [T1 T2].
  split; [|split; [|split]].
  - unfold ks. repeat apply Forall_cons; try apply Forall_nil; cbn; auto.
  - unfold ks. cbn [all_covered covered_now]. split; [|split; [|split; exact Logic.I]].
    + right. exists (S2 """x", [LF]). split; [vm_compute; auto|discriminate].
    + intros _. right. split; [vm_compute; reflexivity|]. intros (r & E & V). vm_compute in E. injection E as <-. apply V. reflexivity.
  - intros X. inversion X as [|? ? X1 _]; subst. cbn in X1. specialize (X1 eq_refl ltac:(discriminate)). discriminate.
  - vm_compute. reflexivity.
Qed.
Print Assumptions C41_multiline_example.
