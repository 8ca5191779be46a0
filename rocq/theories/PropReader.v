(** Properties of reading lines: C21, C23.  Vocabulary: [physical data ls]: LineSpec.v; [all_lines]: reading line after line
    until the end with one of the three line readers (LineReads.v); [lp_ok l]: a line buffer as earlier calls may have left
    it: none, or a block of any size (GetLineProofs.v). *)
From Verif Require Import Base Setup Splitter Extract Converter Reader ListFacts LineSpec LineProofs GetLineProofs LineReads ParserApi.

(** C21.  The lines read are the physical lines with their endings. *)
Theorem C21_lines_partition_the_data : forall cap data ls l, enough cap -> lp_ok l -> physical data ls ->
  exists l', all_lines cap InMemory (S (length data)) data l = Ok (map (fun t => fst t ++ snd t) ls) l'.
Proof.
  intros cap data ls l Hcap Hl P. rewrite (physical_unique _ _ P _ (lines_physical data)).
  destruct (all_lines_spec cap InMemory Hcap (S (length data)) data l Hl (Nat.lt_succ_diag_r _)) as (l' & E & _); [discriminate|]. eauto.
Qed.
Print Assumptions C21_lines_partition_the_data.
(** Nothing is lost, added or reordered, and each line ends at the first newline. *)
Theorem C21_physical_lines : forall data, exists ls, physical data ls /\ (forall ls', physical data ls' -> ls' = ls) /\
  concat (map (fun t => fst t ++ snd t) ls) = data /\
  Forall (fun t => ~ In LF (fst t) /\ (snd t = [LF] \/ snd t = [CR; LF] \/ snd t = [])) ls /\
  (forall t e ls1 ls2, ls = ls1 ++ (t, e) :: ls2 -> e = [] -> t <> [] /\ ls2 = []).
Proof.
  intros data. exists (lines data). split; [apply lines_physical|]. split; [intros ls' H; exact (physical_unique _ _ H _ (lines_physical data))|].
  pose proof (lines_physical data) as P. induction P as [|t H1 H2|t rest ls H1 H2 P IH|t rest ls H1 P IH].
  - split; [reflexivity|]. split; [constructor|]. intros t e [|? ?] ls2 H; discriminate H.
  - cbn. split; [rewrite !app_nil_r; reflexivity|]. split; [constructor; [cbn; auto|constructor]|]. intros t' e [|? [|? ?]] ls2 H; try discriminate H. injection H as <- <- <-. auto.
  - destruct IH as (A & B & C). cbn. split; [rewrite A, <- app_assoc; reflexivity|]. split; [constructor; cbn; auto|].
    intros t' e [|x ls1] ls2 H He; [injection H as <- <- <-; discriminate He|]. injection H as _ H. eapply C; eauto.
  - destruct IH as (A & B & C). cbn. split; [rewrite A, <- app_assoc; reflexivity|]. split; [constructor; cbn; auto|].
    intros t' e [|x ls1] ls2 H He; [injection H as <- <- <-; discriminate He|]. injection H as _ H. eapply C; eauto.
Qed.
Print Assumptions C21_physical_lines.
Example C21_example : physical (S2 "ab" ++ [CR; LF; LF; CR; "x"%char]) [(S2 "ab", [CR; LF]); ([], [LF]); ([CR; "x"%char], [])] /\
  lp_ok (mkLp (Some (mkB 3 [None; Some LF])) 2 4) /\ lp_ok (mkLp None 0 0).
Proof.
  split; [|split; [cbn; auto|reflexivity]].
  apply (ph_crlf (S2 "ab")); [cbn; intuition discriminate|]. apply (ph_lf []); [auto|intros [|? ?]; discriminate|].
  apply ph_last; [discriminate|cbn; intuition discriminate].
Qed.

(** C23 *)
Theorem C23_portable_equals_posix : forall cap data l l', enough cap -> lp_ok l -> lp_ok l' -> ~ In NUL data ->
  exists ls l1 l2, all_lines cap Portable (S (length data)) data l = Ok ls l1 /\
                   all_lines cap Posix (S (length data)) data l' = Ok ls l2.
Proof.
  intros cap data l l' Hcap Hl Hl' N.
  destruct (all_lines_spec cap Portable Hcap (S (length data)) data l Hl (Nat.lt_succ_diag_r _)) as (l1 & E1 & _); [auto|].
  destruct (all_lines_spec cap Posix Hcap (S (length data)) data l' Hl' (Nat.lt_succ_diag_r _)) as (l2 & E2 & _); [discriminate|]. eauto.
Qed.
Print Assumptions C23_portable_equals_posix.
(** One line, from a buffer of any size: the same length, the same bytes, the same rest. *)
Theorem C23_one_line : forall cap rest l, enough cap -> lp_ok l -> ~ In NUL rest -> rest <> [] ->
  exists t e rest' ls l1 l2, physical rest ((t, e) :: ls) /\ rest = (t ++ e) ++ rest' /\
    one_line cap Portable rest l = Ok (Some (length (t ++ e)), rest') l1 /\ holds_line l1 (t ++ e) /\
    one_line cap Posix rest l = Ok (Some (length (t ++ e)), rest') l2 /\ holds_line l2 (t ++ e).
Proof.
  intros cap rest l Hcap Hl N Hne.
  destruct (get_line_posix_spec cap Hcap rest l Hl Hne) as (l2 & E2 & _ & _ & B2).
  destruct (get_line_fgets_spec rest l Hl N Hne) as (l1 & E1 & _ & _ & B1).
  exists (fst (chomp (fst (cut_line rest)))), (snd (chomp (fst (cut_line rest)))), (snd (cut_line rest)), (lines (snd (cut_line rest))), l1, l2.
  rewrite chomp_app. split.
  - rewrite <- (surjective_pairing (chomp _)), <- (lines_cons rest Hne). apply lines_physical.
  - split; [symmetry; apply cut_line_app|]. auto.
Qed.
Print Assumptions C23_one_line.
(** A line that begins with NUL makes the portable reader look before its buffer. *)
Theorem C23_nul_refuted : exists data, all_lines (fun n need => need) Portable (S (length data)) data (mkLp None 0 0) = UB "lineptr[-1]".
Proof. exists [NUL; LF]. vm_compute. reflexivity. Qed.
Print Assumptions C23_nul_refuted.
