(** C53: no counter and no size of the parser overflows. *)
From Verif Require Import Base Setup Splitter Extract Converter Reader LineSpec LineProofs ReaderBase Parser ParserSpec ParserApi ParserRows SafeProofs SessionApi PropSafe MemBound PropMemory Counters.
From Coq Require Import ZArith Lia.
Local Open Scope nat_scope.

(** What the parser keeps in variables of type size_t: the sizes of the three line buffers, the length of the row in the
    next-line buffer, and the line number (parser.hpp:1031-1062). *)
Definition sizes_kept (p : prs) : list nat :=
  [r_bufsz (p_rdr p); r_nlsz (p_rdr p); r_helpsz (p_rdr p); r_nlsize (p_rdr p); r_line (p_rdr p)].
Definition in_memory (p : prs) : Prop := reads_file p = false.

Lemma opened_c c cap d data L p : enough cap -> modest cap -> Forall (fun l => length (fst l) + length (snd l) < L) (lines data) -> opened_any c cap d data p ->
  CP (length data) (in_memory p) (2 + length (lines data)) 2 p.
Proof.
  intros Hcap [Hm1 Hm2] FL O. destruct (bounds c L data FL) as (HLR & Hlim & Hunl & SH).
  pose proof (fun mem => construct_c (length data) mem c cap Hcap Hm1 Hm2 L _ (weight data) HLR Hlim Hunl) as CG.
  pose proof (construct_g c cap Hcap Hm1 Hm2 L _ (weight data) HLR Hlim Hunl) as GG. destruct O as [name p E|name p N E|p E].
  - assert (X : reads_file p = true) by (eapply (GG (true, 0) msg_not_open name d (SFile data) p); try reflexivity; try exact Logic.I; try exact SH; try apply le_n; try exact E).
    apply (CG _ (true, 0) msg_not_open name d (SFile data) p); try reflexivity; try exact Logic.I; try exact SH; try apply le_n; try exact E. unfold in_memory. congruence.
  - assert (X : reads_file p = true) by (eapply (GG (true, 0) msg_not_open name d (SPort data) p); try reflexivity; try (intros X; apply N; exact X); try exact SH; try apply le_n; try exact E).
    apply (CG _ (true, 0) msg_not_open name d (SPort data) p); try reflexivity; try (intros Y; apply N; exact Y); try exact SH; try apply le_n; try exact E. unfold in_memory. congruence.
  - apply (CG _ (false, 0) msg_null_buffer (S2 "CSV data buffer") d (SMem data) p); try reflexivity; try exact SH; try apply le_n; try exact E; [cbn; lia|eauto].
Qed.

(** After any number of calls: every size is at most 128 bytes more than twice the longest row, the line number at most the
    number of lines and of calls, and the position lies in the data.  Reading a file that has ended takes one from the
    position at each try (finding 12): it can fall below zero, that is, wrap around. *)
Theorem C53_counters_bounded : forall c hc cap d data ls L p ks,
  enough cap -> modest cap -> opened_any c cap d data p ->
  physical data ls -> Forall (fun l => length (fst l) + length (snd l) < L) ls ->
  let q := later c hc cap p ks in
  Forall (fun n => n <= Nat.max (128 + 2 * longest_row c L data ls) (length ls + length ks + 2)) (sizes_kept q) /\
  p_line q <= length ls + length ks + 1 /\
  (p_position q <= Z.of_nat (length data))%Z /\
  (- Z.of_nat (2 * length ks + 2) <= p_position q)%Z /\
  (in_memory p -> 0 <= p_position q)%Z.
Proof.
  intros c hc cap d data ls L p ks Hcap Hmod O PH FL q.
  assert (ls = lines data) as -> by (eapply physical_unique; [exact PH|apply lines_physical]).
  pose proof (opened_g c cap d data L p Hcap Hmod FL O) as Gp. pose proof (opened_c c cap d data L p Hcap Hmod FL O) as Cp.
  destruct (bounds c L data FL) as (HLR & Hlim & Hunl & SH). destruct Hmod as [Hm1 Hm2].
  pose proof (later_g c hc cap Hcap Hm1 Hm2 L _ (weight data) HLR Hlim Hunl _ ks p Gp) as [[] _].
  pose proof (later_c (length data) (in_memory p) c cap Hcap Hm1 Hm2 L _ (weight data) HLR Hlim Hunl _ hc ks _ _ p Gp Cp) as [].
  fold q in w_bufsz, w_nlsz, w_helpsz, w_size, c_line, c_left, c_curr, c_chars, c_mem. unfold B in *. unfold p_line, p_position.
  split; [|split; [lia|split; [lia|split; [lia|intros M; apply (c_mem M)]]]].
  unfold sizes_kept. repeat (apply Forall_cons; [lia|]). apply Forall_nil.
Qed.
Print Assumptions C53_counters_bounded.

(** So with a 64 bit size_t nothing overflows, unless more than 2^61 bytes or calls are at stake. *)
Theorem C53_no_overflow : forall c hc cap d data p ks,
  enough cap -> modest cap -> opened_any c cap d data p ->
  (Z.of_nat (length data) < 2 ^ 61)%Z -> (Z.of_nat (length ks) < 2 ^ 61)%Z ->
  let q := later c hc cap p ks in
  Forall (fun n => (Z.of_nat n < 2 ^ 64)%Z) (sizes_kept q) /\ (Z.of_nat (p_line q) < 2 ^ 64)%Z /\ (p_position q < 2 ^ 64)%Z /\
  (in_memory p -> 0 <= p_position q)%Z.
Proof.
  intros c hc cap d data p ks Hcap Hmod O HD HK q.
  assert (FL : Forall (fun l => length (fst l) + length (snd l) < S (length data)) (lines data)).
  { rewrite <- (lines_bytes data). unfold bytes. induction (lines data) as [|l ls IH]; [constructor|]. cbn [map concat]. rewrite !app_length. constructor; [lia|]. eapply Forall_impl; [|exact IH]. intros a H. cbn beta in H. lia. }
  assert (LL : length (lines data) <= length data).
  { clear FL. rewrite <- (lines_bytes data). pose proof (lines_full data) as F. unfold bytes. induction F as [|l ls H F IH]; [cbn; lia|]. cbn [map concat length]. rewrite app_length. cbn beta. destruct (fst l ++ snd l); [congruence|]. cbn [length]. lia. }
  destruct (C53_counters_bounded c hc cap d data (lines data) (S (length data)) p ks Hcap Hmod O (lines_physical data) FL) as (A & B & C & D & E).
  fold q in A, B, C, D, E. split; [|split; [lia|split; [lia|exact E]]].
  eapply Forall_impl; [|exact A]. intros n Hn. cbn beta in Hn.
  assert (longest_row c (S (length data)) data (lines data) <= 2 * length data + 1).
  { unfold longest_row. destruct (c_ml c); [|lia]. cbv zeta. destruct (c_mlsize c =? 0); [lia|]. etransitivity; [apply Nat.le_min_r|lia]. }
  lia.
Qed.
Print Assumptions C53_no_overflow.

(** ** Examples *)
(** Rows of one and of two lines; reading to the end and a few times more. *)
Definition n_cfg : cfg := mkCfg (Some """"%char) [] [] [] true 2 EString false false.
Definition n_data : str := S2 "one,""two" ++ [LF] ++ S2 "three""" ++ [LF] ++ S2 "a,b" ++ [LF].
Definition n_get : call := CGet [EVal TString; EVal TString].
Definition counters (r : res prs unit) (n : nat) : option (nat * Z * list nat) :=
  match r with
  | Ok _ p => let q := later n_cfg (header_cfg n_cfg) tight p (repeat n_get n) in Some (p_line q, p_position q, sizes_kept q)
  | _ => None
  end.
Example C53_example :
  setup [OQuote """"%char; OMultiline 2 true; OStringError] = Some n_cfg /\ enough tight /\ modest tight /\
  (exists p, opened_any n_cfg tight (S2 ",") n_data p /\ in_memory p) /\
  physical n_data (lines n_data) /\ length (lines n_data) = 3 /\ Forall (fun l => length (fst l) + length (snd l) < 10) (lines n_data) /\
  map (counters (parser_buffer n_cfg tight (S2 ",") (Some n_data) (length n_data))) [0; 1; 2; 4] =
    [Some (0, 0%Z, [0; 128; 0; 8; 1]); Some (2, 16%Z, [18; 128; 128; 3; 3]); Some (3, 20%Z, [128; 18; 128; 3; 4]); Some (3, 20%Z, [128; 18; 128; 3; 4])].
Proof.
  split; [reflexivity|]. split; [intros n need; unfold tight; lia|]. split; [split; [intros n need _; unfold tight; lia|unfold tight; lia]|].
  split; [eexists; split; [eapply oa_buffer; vm_compute; reflexivity|vm_compute; reflexivity]|]. split; [apply lines_physical|].
  split; [vm_compute; reflexivity|]. split; [apply Forall_forall; intros l H; vm_compute in H; repeat (destruct H as [<-|H]; [vm_compute; lia|]); contradiction|].
  vm_compute; reflexivity.
Qed.
(** The position of a file does go below zero: ignore_next on an empty file, and position() is the largest size_t. *)
Theorem C53_position_wraps_refuted : exists p, opened_any n_cfg tight (S2 ",") [] p /\ ~ in_memory p /\
  p_position (later n_cfg (header_cfg n_cfg) tight p [CIgnore]) = (-1)%Z.
Proof. eexists. split; [apply (oa_file _ _ _ _ (S2 "f")); vm_compute; reflexivity|]. split; [vm_compute; discriminate|vm_compute; reflexivity]. Qed.
Print Assumptions C53_position_wraps_refuted.
