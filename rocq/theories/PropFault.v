(** C51.  Running out of memory for a line is never silent, and leaves a parser that can be destroyed. *)
From Verif Require Import Base Setup Splitter Extract Converter Reader ListFacts LineSpec LineProofs GetLineProofs ReaderBase ReaderInv Parser ConvProofs ParserApi SessionApi SafeProofs PropSafe NoThrow MemBound PropMemory Fault FaultProofs.

(** ** What is allowed to be refused *)
(** The system refuses a request of at most [m] bytes. *)
Definition refuses (fails : nat -> nat -> bool) (m : nat) : Prop := exists i n, n <= m /\ fails i n = true.
(** errno says ENOMEM when the end of the data is met. *)
Definition errno_stale (stale : rdr -> bool) : Prop := exists r, stale r = true.
(** What the destructor (parser.hpp:827-835) needs: every block it frees is freed once, and it closes the file if there is one. *)
Definition destroyable (p : prs) : Prop := NoDup (owned (p_rdr p)).
(** The parser still has all its blocks (enlarged ones count as the same). *)
Definition blocks (p : prs) : nat := length (owned (p_rdr p)).

(** ** The constructors *)
(** A constructor does what it does with enough memory, or std::bad_alloc leaves it and what it allocated is freed once. *)
Theorem C51_constructors : forall fails stale c cap d data ls L name portable,
  enough cap -> modest cap -> (portable = true -> ~ In NUL data) ->
  physical data ls -> Forall (fun l => length (fst l) + length (snd l) < L) ls ->
  let m := 128 + 2 * longest_row c L data ls in
  (fparser_file fails stale cap c name d portable (Some data) = inl (parser_file c cap name d portable (Some data)) \/
   exists q, fparser_file fails stale cap c name d portable (Some data) = inr q /\ destroyable q /\ reads_file q = true /\ (refuses fails m \/ errno_stale stale)) /\
  (fparser_buffer fails stale cap c d (Some data) (length data) = inl (parser_buffer c cap d (Some data) (length data)) \/
   exists q, fparser_buffer fails stale cap c d (Some data) (length data) = inr q /\ destroyable q /\ reads_file q = false /\ (refuses fails m \/ errno_stale stale)).
Proof.
  intros fails stale c cap d data ls L name portable Hcap [Hm1 Hm2] HP PH FL m.
  assert (ls = lines data) as -> by (eapply physical_unique; [exact PH|apply lines_physical]).
  destruct (bounds c L data FL) as (HLR & Hlim & Hunl & SH).
  pose proof (fun fl => sim_construct fails stale c cap Hcap Hm1 Hm2 L _ (weight data) HLR Hlim Hunl fl) as SC.
  split; cbn [fparser_file fparser_buffer parser_file parser_buffer].
  - destruct portable.
    + destruct (SC (true, 0) msg_not_open name d (SPort data)) as [->|(q & -> & H1 & H2 & _ & H3)]; [reflexivity|reflexivity|exact (HP eq_refl)|exact SH|apply le_n|left; reflexivity|].
      right. exists q. split; [reflexivity|]. split; [exact H1|]. split; [exact H2|]. exact H3.
    + destruct (SC (true, 0) msg_not_open name d (SFile data)) as [->|(q & -> & H1 & H2 & _ & H3)]; [reflexivity|reflexivity|exact Logic.I|exact SH|apply le_n|left; reflexivity|].
      right. exists q. split; [reflexivity|]. split; [exact H1|]. split; [exact H2|]. exact H3.
  - destruct (SC (false, 0) msg_null_buffer (S2 "CSV data buffer") d (SMem data)) as [->|(q & -> & H1 & H2 & _ & H3)]; [reflexivity|reflexivity|cbn; lia|exact SH|apply le_n|left; reflexivity|].
    right. exists q. split; [reflexivity|]. split; [exact H1|]. split; [exact H2|]. exact H3.
Qed.
Print Assumptions C51_constructors.
(** Without data no memory is asked for: a file that is not open and a null buffer are reported as they always are (C42). *)
Theorem C51_unusable_sources : forall fails stale c cap d name portable size,
  fparser_file fails stale cap c name d portable None = inl (parser_file c cap name d portable None) /\
  fparser_buffer fails stale cap c d None size = inl (parser_buffer c cap d None size).
Proof. intros. split; cbn [fparser_file fparser_buffer parser_file parser_buffer]; unfold fconstruct, construct, lift; cbn; destruct (c_mode c); reflexivity. Qed.
Print Assumptions C51_unusable_sources.

(** ** The calls *)
Section Calls.
Context (fails : nat -> nat -> bool) (stale : rdr -> bool) (c hc : cfg) (cap : nat -> nat -> nat).
Context (Hcap : enough cap) (Hm1 : forall n need, n < need -> cap n need <= 128 + 2 * need) (Hm2 : cap 0 0 <= 128).
Context (L R T : nat) (HLR : L <= R) (Hlim : c_ml c = true -> 0 < c_mlsize c -> S (c_mlsize c) * L <= R \/ T <= R) (Hunl : c_ml c = true -> c_mlsize c = 0 -> T <= R).
Lemma calls_or_wreck : forall ks p, G c L R T (reads_file p, blocks p) p ->
  freplies fails stale cap c hc p ks = (replies c hc cap p ks, None) \/
  exists ks1 k ks2 q, ks = ks1 ++ k :: ks2 /\ freplies fails stale cap c hc p ks = (replies c hc cap p ks1, Some q) /\
    pwreck fails stale R (reads_file p, blocks (later c hc cap p ks1)) q.
Proof.
  induction ks as [|k ks IH]; intros p HG; [left; reflexivity|]. cbn [freplies replies].
  destruct (call_or_wreck fails stale c cap Hcap Hm1 Hm2 L R T HLR Hlim Hunl _ hc k p HG) as [->|(q & -> & H)].
  - pose proof (call_g c hc cap Hcap Hm1 Hm2 L R T HLR Hlim Hunl _ k p HG) as HG1. destruct (do_call c hc cap p k) as [y p1] eqn:Ek. cbn [fst snd] in *.
    assert (EF : reads_file p1 = reads_file p) by exact (w_file _ _ _ _ _ _ (proj1 HG1)). apply G_now in HG1.
    destruct (IH p1 HG1) as [->|(ks1 & k2 & ks2 & q & E & -> & H)]; [left; reflexivity|right]. exists (k :: ks1), k2, ks2, q.
    split; [rewrite E; reflexivity|]. cbn [replies later]. rewrite Ek. split; [reflexivity|]. cbn [snd]. rewrite <- EF. exact H.
  - right. exists [], k, ks, q. split; [reflexivity|]. split; [reflexivity|exact H].
Qed.
End Calls.

(** Whatever requests are refused: the calls give the replies they give with enough memory, up to the one out of which
    std::bad_alloc comes, if one does.  That one happens only if the system refused a request no larger than the bound of C47 or
    errno was stale; the parser left behind can be destroyed, still has its file and has lost none of the blocks it had before the call. *)
Theorem C51_out_of_memory : forall fails stale c hc cap d data ls L p ks,
  enough cap -> modest cap -> opened_any c cap d data p ->
  physical data ls -> Forall (fun l => length (fst l) + length (snd l) < L) ls ->
  freplies fails stale cap c hc p ks = (replies c hc cap p ks, None) \/
  exists ks1 k ks2 q,
    ks = ks1 ++ k :: ks2 /\ freplies fails stale cap c hc p ks = (replies c hc cap p ks1, Some q) /\
    destroyable q /\ blocks (later c hc cap p ks1) <= blocks q /\ reads_file q = reads_file p /\
    (refuses fails (128 + 2 * longest_row c L data ls) \/ errno_stale stale).
Proof.
  intros fails stale c hc cap d data ls L p ks Hcap Hmod O PH FL.
  assert (ls = lines data) as -> by (eapply physical_unique; [exact PH|apply lines_physical]).
  pose proof (opened_g c cap d data L p Hcap Hmod FL O) as Gp. destruct (bounds c L data FL) as (HLR & Hlim & Hunl & SH). destruct Hmod as [Hm1 Hm2].
  destruct (calls_or_wreck fails stale c hc cap Hcap Hm1 Hm2 L _ (weight data) HLR Hlim Hunl ks p Gp) as [H|(ks1 & k & ks2 & q & E & F & H1 & H2 & H4 & H3)]; [left; exact H|right].
  exists ks1, k, ks2, q. split; [exact E|]. split; [exact F|]. split; [exact H1|]. split; [exact H4|]. split; [exact H2|exact H3].
Qed.
Print Assumptions C51_out_of_memory.

(** So with that much memory for every request std::bad_alloc never comes. *)
Theorem C51_enough_memory : forall fails stale c hc cap d data ls L p ks,
  enough cap -> modest cap -> opened_any c cap d data p ->
  physical data ls -> Forall (fun l => length (fst l) + length (snd l) < L) ls ->
  (forall i n, n <= 128 + 2 * longest_row c L data ls -> fails i n = false) -> (forall r, stale r = false) ->
  freplies fails stale cap c hc p ks = (replies c hc cap p ks, None).
Proof.
  intros fails stale c hc cap d data ls L p ks Hcap Hmod O PH FL HF HS.
  destruct (C51_out_of_memory fails stale c hc cap d data ls L p ks Hcap Hmod O PH FL) as [H|(ks1 & k & ks2 & q & _ & _ & _ & _ & _ & [(i & n & H1 & H2)|(r & H)])]; [exact H| |].
  - rewrite (HF i n H1) in H2. discriminate.
  - rewrite HS in H. discriminate.
Qed.
Print Assumptions C51_enough_memory.

(** ** Examples *)
(** C47's document, when requests above [m] bytes are refused. *)
Definition over (m i n : nat) : bool := m <? n.
Definition never (r : rdr) : bool := false.
Definition starved (m n : nat) : option (list reply * option (list nat * bool)) :=
  match parser_buffer m_cfg tight (S2 ",") (Some m_data) (length m_data) with
  | Ok _ p =>
      Some (let '(ys, o) := freplies (over m) never tight m_cfg (header_cfg m_cfg) p (repeat m_get n) in
            (ys, match o with Some q => Some (owned (p_rdr q), reads_file q) | None => None end))
  | _ => None
  end.
Definition m_six : reply := YGet (GValues [VStr (S2 "one"); VStr (S2 "two" ++ [LF] ++ S2 "three"); VStr (S2 "four")]).
(** The sixth get_next has its row when reading ahead fails: nobody gets that row. *)
Example C51_example :
  setup [OQuote """"%char; OMultiline 2 true; OStringError] = Some m_cfg /\ enough tight /\ modest tight /\
  (exists p, opened_any m_cfg tight (S2 ",") m_data p) /\ physical m_data (lines m_data) /\
  Forall (fun l => length (fst l) + length (snd l) < 206) (lines m_data) /\
  starved 200 12 = Some (repeat m_six 5, Some ([12; 13; 1], false)) /\
  starved 127 12 = Some ([], Some ([0], false)) /\
  starved 256 6 = Some (repeat m_six 6, None).
Proof.
  destruct C47_example as (H1 & H2 & H3 & H4 & H5 & _ & H6 & _). repeat (split; [assumption|]). split; [vm_compute; reflexivity|]. split; vm_compute; reflexivity.
Qed.

(** ** What does not hold *)
(** After std::bad_alloc the parser is good for nothing but destroying it: parser.hpp:990 assigns the new size before the
    allocation that fails.  Nothing is refused any more, and still ignore_next writes past the end of the next-line buffer; get_next
    gives a row out of the first and the third line. *)
Definition w_cfg : cfg := mkCfg (Some """"%char) [] [] [] true 0 EString false false.
Definition w_data : str :=
  S2 "a,""" ++ repeat "x"%char 90 ++ [LF] ++ repeat "y"%char 100 ++ S2 """" ++ [LF] ++ repeat "z"%char 140 ++ S2 """" ++ [LF].
Definition w_get : call := CGet [EVal TString; EVal TString].
Definition wrecked (k : call) : option reply :=
  match parser_buffer w_cfg tight (S2 ",") (Some w_data) (length w_data) with
  | Ok _ p =>
      match freplies (over 130) never tight w_cfg (header_cfg w_cfg) p [w_get] with
      | ([], Some q) => Some (fst (do_call w_cfg (header_cfg w_cfg) tight q k))
      | _ => None
      end
  | _ => None
  end.
Theorem C51_use_after_refuted :
  setup [OQuote """"%char; OMultiline 0 true; OStringError] = Some w_cfg /\
  wrecked CIgnore = Some YCrash /\
  wrecked w_get = Some (YGet (GValues [VStr (S2 "a"); VStr (repeat "x"%char 90 ++ [LF; LF] ++ repeat "z"%char 140)])).
Proof. split; [reflexivity|]. split; vm_compute; reflexivity. Qed.
(** common.hpp:141-144 asks errno at the end of the data, also of a memory buffer, without having set it to 0.  If it says ENOMEM for
    any earlier reason, reading the last row throws std::bad_alloc although nothing was refused, and that row is lost. *)
Definition nothing (i n : nat) : bool := false.
Theorem C51_stale_errno_refuted :
  setup [OStringError] = Some (mkCfg None [] [] [] false 0 EString false false) /\
  let c := mkCfg None [] [] [] false 0 EString false false in
  exists p, parser_buffer c tight (S2 ",") (Some (S2 "a" ++ [LF])) 2 = Ok tt p /\
    replies c c tight p [CGet [EVal TString]] = [YGet (GValues [VStr (S2 "a")])] /\
    exists q, freplies nothing (fun _ => true) tight c c p [CGet [EVal TString]] = ([], Some q).
Proof.
  split; [reflexivity|]. eexists. split; [vm_compute; reflexivity|]. split; [vm_compute; reflexivity|]. eexists. vm_compute. reflexivity.
Qed.
