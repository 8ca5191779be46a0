(** C47.  How much memory a parser takes for lines: a bound on its line buffers that does not depend on the amount of data. *)
From Verif Require Import Base Setup Splitter Extract Converter Reader ListFacts LineSpec LineProofs GetLineProofs ReaderBase ReaderInv Parser ParserApi SessionApi SafeProofs PropSafe NoThrow SplitCount MemBound.

(** POSIX getline: it enlarges a buffer that is too small to at most twice what it needs (and starts with at most 128 bytes). *)
Definition modest (cap : nat -> nat -> nat) : Prop := (forall n need, n < need -> cap n need <= 128 + 2 * need) /\ cap 0 0 <= 128.
(** The longest text that can become one row, if no line is longer than [L] bytes (its ending and a terminator included). *)
Definition longest_row (c : cfg) (L : nat) (data : str) (ls : list (str * str)) : nat :=
  if c_ml c then
    let all := Nat.max L (length data + length ls) in                (* multiline: any number of lines *)
    if c_mlsize c =? 0 then all
    else Nat.min (S (c_mlsize c) * L) all                            (* multiline_restricted<N>: N more lines *)
  else L.
(** The size of an allocated block. *)
Definition allocated (o : option blk) : nat := match o with Some b => length (b_cells b) | None => 0 end.
(** The column ranges kept for the current row and for the row being read ahead (converter_ and next_line_converter_). *)
Definition column_ranges (p : prs) : list (list (nat * nat)) := [s_sd (v_sp (r_conv (p_rdr p))); s_sd (v_sp (r_nconv (p_rdr p)))].
Definition line_buffers (p : prs) : list (option blk) := [r_buf (p_rdr p); r_nl (p_rdr p); r_help (p_rdr p)].

(** ** Proof: what the reader keeps up (MemBound.v), every call keeps up *)
Section P.
Context (c hc : cfg) (cap : nat -> nat -> nat).
Context (Hcap : enough cap) (Hmod : forall n need, n < need -> cap n need <= 128 + 2 * need) (Hmod0 : cap 0 0 <= 128).
Context (L R T : nat) (HLR : L <= R) (Hlim : c_ml c = true -> 0 < c_mlsize c -> S (c_mlsize c) * L <= R \/ T <= R) (Hunl : c_ml c = true -> c_mlsize c = 0 -> T <= R) (fl : bool * nat).
Notation W := (W c L R T fl). Notation ready := (ready L T).
Definition G (p : prs) : Prop := W (p_rdr p) /\ ready (p_rdr p).
Definition WP (p : prs) : Prop := W (p_rdr p) /\ (p_eof p = true -> ready (p_rdr p)).
Lemma lift_rdr {A} (Q : A -> rdr -> Prop) E (m : M rdr A) p : ends Q E (m (p_rdr p)) -> ends (fun a q => Q a (p_rdr q) /\ p_eof q = p_eof p) (fun q => E (p_rdr q) /\ p_eof q = p_eof p) (on_rdr m p).
Proof. unfold on_rdr, zoom. destruct (m (p_rdr p)); cbn; auto. Qed.
Lemma read_line_g p : W (p_rdr p) -> ends (fun _ q => G q) (fun _ => False) (read_line c cap p).
Proof.
  intros HW. unfold read_line. eapply ends_bind; [eapply ends_weaken; [apply lift_rdr; apply (read_next_w c cap Hcap Hmod Hmod0 L R T HLR Hlim Hunl fl); exact HW|intros ? s H; exact H|intros s [H _]; exact H]|].
  intros b q [H _]. exact H.
Qed.
Lemma ignore_g p : W (p_rdr p) -> ends (fun _ q => G q) (fun _ => False) (ignore_next c cap p).
Proof.
  intros HW. unfold ignore_next. eapply ends_weaken; [apply lift_rdr; apply (read_next_w c cap Hcap Hmod Hmod0 L R T HLR Hlim Hunl fl); exact HW|intros ? s H; apply H|intros s [H _]; exact H].
Qed.
(** Steps that do not touch the reader. *)
Definition same (p q : prs) : Prop := p_rdr q = p_rdr p /\ p_eof q = p_eof p.
Definition quiet {A} (m : M prs A) : Prop := forall p, ends (fun _ q => same p q) (same p) (m p).
Lemma quiet_ret {A} (a : A) : quiet (ret a). Proof. intros p. cbn. split; reflexivity. Qed.
Lemma quiet_ub {A} w : quiet (@ub prs A w). Proof. intros p. exact Logic.I. Qed.
Lemma quiet_bind {A B} (m : M prs A) (k : A -> M prs B) : quiet m -> (forall a, quiet (k a)) -> quiet (bind m k).
Proof.
  intros H K p. eapply ends_bind; [apply H|]. intros a q [E1 E2]. eapply ends_weaken; [apply K| |]; [intros b s [K1 K2]|intros s [K1 K2]]; split; congruence.
Qed.
Lemma quiet_get {B} (k : prs -> M prs B) : (forall p, quiet (k p)) -> quiet (bind get k).
Proof. intros K p. unfold bind, get. apply K. Qed.
Lemma quiet_error f : quiet (p_error c f). Proof. intros p. unfold p_error, bind, get. destruct (c_mode c); cbn; split; reflexivity. Qed.
Lemma quiet_clear : quiet p_clear_error. Proof. intros p. cbn. split; reflexivity. Qed.
Lemma quiet_conversion : quiet (handle_error_invalid_conversion c). Proof. intros p. unfold handle_error_invalid_conversion, bind, get. destruct (c_mode c); cbn; split; reflexivity. Qed.
Lemma quiet_strict : quiet (strict_split c hc).
Proof.
  intros p. unfold strict_split. destruct (sp_split _ _ _ _) as [a [s m]|e s| |]; cbn [ends]; auto; [|split; reflexivity].
  destruct (sp_valid hc s); [cbn; split; reflexivity|]. apply (quiet_bind (p_error c _) (fun _ => ret None)); [apply quiet_error|intros; apply quiet_ret].
Qed.
Lemma quiet_texts sm : quiet (texts_of sm). Proof. unfold texts_of. destruct (texts _ _); [apply quiet_ret|apply quiet_ub]. Qed.
Lemma quiet_header : quiet (header c hc).
Proof. apply quiet_bind; [apply quiet_clear|]. intros _. apply quiet_bind; [apply quiet_strict|]. intros [sm|]; [apply quiet_texts|apply quiet_ret]. Qed.
Lemma quiet_add : forall fs, quiet (add_fields c fs).
Proof.
  induction fs as [|f fs IH]; cbn [add_fields]; [apply quiet_ret|]. apply quiet_get. intros p. destruct (find_index f (p_header p)).
  - apply quiet_bind; [apply quiet_error|]. intros ? q. cbn. split; reflexivity.
  - apply quiet_bind; [intros q; cbn; split; reflexivity|]. intros _. exact IH.
Qed.
Lemma quiet_split_header : quiet (split_header_data c hc).
Proof. apply quiet_bind; [apply quiet_strict|]. intros [sm|]; [|apply quiet_ret]. apply quiet_bind; [apply quiet_texts|]. intros l. apply quiet_add. Qed.
Lemma quiet_field f : quiet (field_exists c hc f).
Proof.
  apply quiet_bind; [apply quiet_clear|]. intros _. apply quiet_get. intros p. apply quiet_bind; [destruct (p_header p); [apply quiet_split_header|apply quiet_ret]|]. intros _.
  apply quiet_get. intros q. destruct (negb _); apply quiet_ret.
Qed.
Lemma quiet_columns all : forall fs, quiet (find_columns c all fs).
Proof.
  induction fs as [|f fs IH]; cbn [find_columns]; [apply quiet_ret|]. destruct (negb _); [apply quiet_bind; [apply quiet_error|intros; apply quiet_ret]|].
  apply quiet_get. intros p. destruct (header_index f p); [|apply quiet_bind; [apply quiet_error|intros; apply quiet_ret]]. apply quiet_bind; [exact IH|]. intros [l|]; apply quiet_ret.
Qed.
Lemma same_g p q : same p q -> G p -> G q. Proof. intros [E _]. unfold G. rewrite E. exact (fun x => x). Qed.
Lemma quiet_g {A} (m : M prs A) p : quiet m -> G p -> ends (fun _ q => G q) G (m p).
Proof. intros H HG. eapply ends_weaken; [apply H| |]; [intros ? s K|intros s K]; exact (same_g p s K HG). Qed.
Lemma use_g fs p : G p -> ends (fun _ q => G q) G (use_fields c hc cap fs p).
Proof.
  intros HG. unfold use_fields. eapply ends_bind; [apply quiet_g; [apply quiet_clear|exact HG]|]. intros ? p0 G0. unfold bind at 1, get at 1.
  eapply ends_bind; [apply quiet_g; [destruct (p_header p0); [|apply quiet_ret]; destruct (p_eof p0); [apply quiet_ret|apply quiet_split_header]|exact G0]|]. intros ? p1 G1.
  unfold bind at 1, get at 1. destruct (negb _); [exact G1|]. destruct fs as [|f fs]; [apply quiet_g; [apply quiet_error|exact G1]|].
  eapply ends_bind; [apply quiet_g; [apply quiet_columns|exact G1]|]. intros [mp|] p2 G2; [|exact G2]. cbv zeta.
  unfold bind at 1, on_rdr at 1, zoom at 1, rupd at 1, modify at 1. unfold bind at 1, on_rdr at 1, zoom at 1, rupd at 1, modify at 1. unfold bind at 1, get at 1.
  match goal with |- ends _ _ (_ ?q) => set (p3 := q) end. assert (G3 : G p3). { destruct G2 as [[] G3]. split; [constructor; assumption|exact G3]. }
  clearbody p3. destruct (p_line p3 =? 0); [|exact G3].
  eapply ends_bind; [eapply ends_weaken; [apply ignore_g; apply G3|intros ? s H; exact H|contradiction]|]. intros b p4 G4. exact G4.
Qed.
Lemma rethrow_g {A} e p : W (p_rdr p) -> ends (fun (_ : A) q => G q) G ((read_line c cap ;; decorate_rethrow e) p).
Proof.
  intros HW. eapply ends_bind; [eapply ends_weaken; [apply read_line_g; exact HW|intros ? s H; exact H|contradiction]|]. intros ? q HG. exact HG.
Qed.
Lemma convert_g es p : G p -> ends (fun _ q => G q) G (on_rdr (on_conv (cv_convert c es)) p).
Proof.
  intros [HW HR]. eapply ends_weaken; [apply lift_rdr; apply (on_conv_w c L R T fl (cv_convert c es)); [apply tame_convert|exact HW]| |]; intros; (destruct H as [[H1 H2] _]; split; auto).
Qed.
Lemma convert_w es p : W (p_rdr p) -> ends (fun _ q => W (p_rdr q)) (fun q => W (p_rdr q)) (on_rdr (on_conv (cv_convert c es)) p).
Proof. intros HW. eapply ends_weaken; [apply lift_rdr; apply (on_conv_w c L R T fl (cv_convert c es)); [apply tame_convert|exact HW]| |]; intros; apply H. Qed.
Lemma get_next_g es p : G p -> ends (fun _ q => G q) G (get_next c cap es p).
Proof.
  intros HG. unfold get_next. unfold bind at 1, get at 1. eapply ends_bind with (Q := fun _ q => WP q).
  { destruct (p_eof p) eqn:He; [cbn; split; [apply HG|intros _; apply HG]|].
    assert (PW : ends (fun _ q => WP q) (fun q => W (p_rdr q)) (on_rdr (parse c cap) p)).
    { destruct HG as [HW HR]. eapply ends_weaken; [apply lift_rdr; apply (parse_w c cap Hcap Hmod Hmod0 L R T HLR Hlim Hunl fl); eassumption| |].
      - intros ? q [H1 H2]. split; [exact H1|]. rewrite H2, He. discriminate.
      - intros q [H1 _]. exact H1. }
    case_eq (c_mode c); intros Em.
    1,2: pose proof (nt_on_rdr _ (nt_parse c ltac:(congruence) cap) p) as NT; destruct (on_rdr (parse c cap) p); cbn in *; auto; contradiction.
    eapply ends_catch; [exact PW|]. intros e q HW. eapply ends_weaken; [apply (rethrow_g (A := unit)); exact HW| |auto]. intros ? s [H1 H2]. split; auto. }
  intros ? p1 W1. unfold bind at 1.
  assert (W2 : ends (fun _ q => WP q) (fun _ => False) (on_rdr update p1)).
  { destruct W1 as [H1 H2]. eapply ends_weaken; [apply lift_rdr; apply (update_w c L R T fl); exact H1| |intros q [[] _]]. intros ? q [[A1 A2] A3]. split; [exact A1|]. rewrite A3. auto. }
  destruct (on_rdr update p1) as [u p2|e p2| |]; cbn in W2; try contradiction; try exact Logic.I. clear p1 W1 u. unfold bind at 1, get at 1.
  destruct (negb _).
  { pose proof (quiet_conversion p2) as Q. unfold bind at 1. destruct (handle_error_invalid_conversion c p2) as [u p3|e p3| |] eqn:Eh; cbn in Q; try exact Logic.I.
    - eapply ends_bind; [eapply ends_weaken; [apply read_line_g; destruct Q as [-> _]; apply W2|intros ? s H; exact H|contradiction]|]. intros ? q Gq. exact Gq.
    - exfalso. unfold handle_error_invalid_conversion, bind, get in Eh. destruct (c_mode c); discriminate. }
  unfold bind at 1, p_clear_error, pupd, modify. assert (W3 : WP (pset_err None p2)) by exact W2. change (p_eof p2) with (p_eof (pset_err None p2)). generalize dependent (pset_err None p2). clear p2 W2. intros p2 W2.
  destruct (p_eof p2) eqn:He.
  { assert (G2 : G p2) by (destruct W2; split; auto). eapply ends_bind; [apply quiet_g; [apply quiet_error|exact G2]|]. intros ? q Gq. exact Gq. }
  destruct W2 as [W2 _].
  case_eq (c_mode c); intros Em.
  1,2: unfold bind at 1; pose proof (nt_on_rdr _ (nt_on_conv _ (nt_convert c ltac:(congruence) es)) p2) as NT; pose proof (convert_w es p2 W2) as CW;
    destruct (on_rdr (on_conv (cv_convert c es)) p2) as [xs p3|e p3| |]; cbn in CW; try contradiction; try exact Logic.I;
    unfold bind at 1, get at 1; eapply ends_bind with (Q := fun _ q => W (p_rdr q));
    [destruct (negb _); [|exact CW]; unfold handle_error_invalid_conversion, bind, get; rewrite Em; exact CW|];
    intros ? p4 W4; eapply ends_bind; [eapply ends_weaken; [apply read_line_g; exact W4|intros ? s H; exact H|contradiction]|]; intros ? q Gq; exact Gq.
  eapply ends_catch with (E1 := fun q => W (p_rdr q)); [|intros e q HW; apply rethrow_g; exact HW].
  eapply ends_bind; [apply convert_w; exact W2|]. intros xs p3 W3.
  eapply ends_bind; [eapply ends_weaken; [apply read_line_g; exact W3|intros ? s H; exact H|contradiction]|]. intros ? q Gq. exact Gq.
Qed.

(** Chains. *)
Definition GC (t : chain) : Prop := G (fst t).
Lemma on_p_g {A} (m : M prs A) t : ends (fun _ q => G q) G (m (fst t)) -> ends (fun _ u => GC u) GC (on_p m t).
Proof. unfold on_p, zoom. destruct (m (fst t)); exact (fun x => x). Qed.
Lemma invoke_g xs cb t : GC t -> ends (fun _ u => GC u) GC (try_invoke c xs cb t).
Proof.
  intros HG. destruct cb as [|k|k f]; [exact HG|exact HG|]. cbn [try_invoke]. unfold bind at 1, log, modify. destruct (f xs); [exact HG|]. apply on_p_g. apply quiet_g; [apply quiet_error|exact HG].
Qed.
Lemma try_g es cb t : GC t -> ends (fun _ u => GC u) GC (try_next c cap es cb t).
Proof.
  intros HG. unfold try_next. eapply ends_bind; [apply on_p_g; apply get_next_g; exact HG|]. intros xs t1 G1. unfold bind at 1, get at 1.
  eapply ends_bind; [destruct (p_valid c (fst t1)); [apply invoke_g; exact G1|exact G1]|]. intros ? t2 G2. exact G2.
Qed.
Lemma try_same_g es p : G p -> ends (fun _ q => G q) G (try_same c es p).
Proof.
  intros HG. unfold try_same. eapply ends_bind; [apply quiet_g; [apply quiet_clear|exact HG]|]. intros ? p1 G1. eapply ends_bind; [apply convert_g; exact G1|]. intros xs p2 G2.
  unfold bind at 1, get at 1. eapply ends_bind; [destruct (negb _); [apply quiet_g; [apply quiet_conversion|exact G2]|exact G2]|]. intros ? p3 G3. exact G3.
Qed.
Lemma else_g vs es cb t : GC t -> ends (fun _ u => GC u) GC (or_else c vs es cb t).
Proof.
  intros HG. unfold or_else. unfold bind at 1, get at 1. eapply ends_bind with (Q := fun _ u => GC u).
  - destruct (p_valid c (fst t)); [exact HG|]. eapply ends_bind; [apply on_p_g; apply try_same_g; exact HG|]. intros xs t1 G1. unfold bind at 1, get at 1. destruct (negb _); [exact G1|].
    eapply ends_bind; [apply invoke_g; exact G1|]. intros ? t2 G2. exact G2.
  - intros v t1 G1. exact G1.
Qed.
Lemma links_g : forall ls vs t, GC t -> ends (fun _ u => GC u) GC (follow_links c vs ls t).
Proof.
  induction ls as [|[es cb|k] ls IH]; intros vs t HG; cbn [follow_links]; [exact HG| |].
  - eapply ends_bind; [apply else_g; exact HG|]. intros ws u Gu. apply IH. exact Gu.
  - eapply ends_bind with (Q := fun _ u => GC u).
    + unfold on_error, bind, get. destruct (p_valid c (fst t)); exact HG.
    + intros ? u Gu. apply IH. exact Gu.
Qed.
Lemma call_g k p : G p -> G (snd (do_call c hc cap p k)).
Proof.
  assert (AF : forall A (o : res prs A), G p -> ends (fun _ q => G q) G o -> G (after p o)) by (intros A o HG H; destruct o; auto).
  intros HG. destruct k as [es|es cb ls| | | |f|fs]; cbn [do_call snd].
  - apply AF; auto. apply get_next_g. exact HG.
  - assert (H : ends (fun _ u => GC u) GC (chain_call c cap es cb ls (p, []))).
    { unfold chain_call. eapply ends_bind; [apply try_g; exact HG|]. intros vs t Gt. apply links_g. exact Gt. }
    destruct (chain_call c cap es cb ls (p, [])) as [vs [q l]|e [q l]| |]; auto.
  - apply AF; auto. eapply ends_weaken; [apply ignore_g; apply HG|auto|contradiction].
  - exact HG.
  - apply AF; auto. apply quiet_g; [apply quiet_header|exact HG].
  - apply AF; auto. apply quiet_g; [apply quiet_field|exact HG].
  - apply AF; auto. apply use_g. exact HG.
Qed.
Lemma later_g : forall ks p, G p -> G (later c hc cap p ks).
Proof. induction ks as [|k ks IH]; intros p HG; [exact HG|]. cbn [later]. apply IH. apply call_g. exact HG. Qed.
Lemma construct_g msg name d src p : is_file src = fst fl -> snd fl = 0 -> src_okz src 0 -> short L (unread_of src 0) -> weight (unread_of src 0) <= T -> construct c cap true msg (p_init name d src) = Ok tt p -> G p.
Proof.
  intros S0 SN S1 S2 S3 E. assert (W0 : W (rdr_init d src)) by (constructor; try exact S0; try (rewrite SN; apply Nat.le_0_l); try exact (SplitCount.few_init _ _); try constructor; cbn; unfold B; auto; lia).
  assert (H : ends (fun _ q => G q) (fun _ => True) (construct c cap true msg (p_init name d src))); [|rewrite E in H; exact H].
  unfold construct. eapply ends_bind; [eapply ends_weaken; [apply read_line_g; exact W0|intros ? s H; exact H|contradiction]|]. intros ? q Gq. destruct (c_ignhdr c).
  - eapply ends_bind; [eapply ends_weaken; [apply ignore_g; apply Gq|intros ? s H; exact H|contradiction]|]. intros b q2 G2. exact G2.
  - unfold bind, on_rdr, zoom, get_buffer. destruct (range_str _ _ _); [exact Gq|exact Logic.I].
Qed.
Lemma g_allocated p : G p -> Forall (fun o => allocated o <= 128 + 2 * R) (line_buffers p).
Proof.
  intros [[] _]. assert (K : forall o n f, bok o n f -> n <= B R -> allocated o <= 128 + 2 * R).
  { intros [b|] n f H1 H2; cbn; [|lia]. destruct H1 as [H1 _]. unfold B in H2. lia. }
  unfold line_buffers. constructor; [|constructor; [|constructor; [|constructor]]]; eapply K; eauto.
Qed.
End P.

(** Which sources are files. *)
Definition reads_file (p : prs) : bool := open_file (p_rdr p).
Lemma G_now c L R T fl p : G c L R T fl p -> G c L R T (reads_file p, length (owned (p_rdr p))) p.
Proof. intros [[] H2]. split; [|exact H2]. constructor; auto. Qed.
Lemma bounds c L data : Forall (fun l => length (fst l) + length (snd l) < L) (lines data) -> let R := longest_row c L data (lines data) in
  L <= R /\ (c_ml c = true -> 0 < c_mlsize c -> S (c_mlsize c) * L <= R \/ weight data <= R) /\ (c_ml c = true -> c_mlsize c = 0 -> weight data <= R) /\ short L data.
Proof.
  intros FL R. split; [|split; [|split]].
  - subst R. unfold longest_row. destruct (c_ml c); [|lia]. cbv zeta. destruct (c_mlsize c =? 0); [lia|]. apply Nat.min_glb; [cbn [Nat.mul]|]; lia.
  - intros M1 M2. subst R. unfold longest_row. unfold weight. rewrite M1. destruct (c_mlsize c =? 0) eqn:Z; [apply Nat.eqb_eq in Z; lia|]. cbv zeta. destruct (Nat.min_spec (S (c_mlsize c) * L) (Nat.max L (length data + length (lines data)))) as [[_ ->]|[_ ->]]; [left; lia|right; lia].
  - intros M1 M2. subst R. unfold longest_row, weight. rewrite M1, M2. cbn [Nat.eqb]. lia.
  - unfold short. eapply Forall_impl; [|exact FL]. intros [a b] H. cbn [fst snd] in *. rewrite app_length. lia.
Qed.
Lemma opened_g c cap d data L p : enough cap -> modest cap -> Forall (fun l => length (fst l) + length (snd l) < L) (lines data) -> opened_any c cap d data p ->
  G c L (longest_row c L data (lines data)) (weight data) (reads_file p, length (owned (p_rdr p))) p.
Proof.
  intros Hcap [Hm1 Hm2] FL O. destruct (bounds c L data FL) as (HLR & Hlim & Hunl & SH). set (R := longest_row c L data (lines data)) in *.
  assert (X : exists fl, G c L R (weight data) fl p).
  { pose proof (construct_g c cap Hcap Hm1 Hm2 L R (weight data) HLR Hlim Hunl) as CG. destruct O as [name p E|name p N E|p E].
    - exists (true, 0). apply (CG (true, 0) msg_not_open name d (SFile data) p); [reflexivity|reflexivity|exact Logic.I|exact SH|apply le_n|exact E].
    - exists (true, 0). apply (CG (true, 0) msg_not_open name d (SPort data) p); [reflexivity|reflexivity|intros X; apply N; exact X|exact SH|apply le_n|exact E].
    - exists (false, 0). apply (CG (false, 0) msg_null_buffer (S2 "CSV data buffer") d (SMem data) p); [reflexivity|reflexivity|cbn; lia|exact SH|apply le_n|exact E]. }
  destruct X as [fl X]. apply (G_now _ _ _ _ fl). exact X.
Qed.

(** ** The theorem *)
(** For every setup, delimiter, text and list of calls, as long as no call has undefined behaviour (C41). *)
Theorem C47_line_buffers_bounded : forall c hc cap d data ls L p ks,
  enough cap -> modest cap -> opened_any c cap d data p ->
  physical data ls -> Forall (fun l => length (fst l) + length (snd l) < L) ls ->
  Forall (fun o => allocated o <= 128 + 2 * longest_row c L data ls) (line_buffers (later c hc cap p ks)).
Proof.
  intros c hc cap d data ls L p ks Hcap Hmod O PH FL.
  assert (ls = lines data) as -> by (eapply physical_unique; [exact PH|apply lines_physical]).
  pose proof (opened_g c cap d data L p Hcap Hmod FL O) as Gp. destruct (bounds c L data FL) as (HLR & Hlim & Hunl & SH). destruct Hmod as [Hm1 Hm2].
  eapply (g_allocated c cap Hm2 L _ (weight data) HLR Hlim Hunl).
  apply (later_g c hc cap Hcap Hm1 Hm2 L _ (weight data) HLR Hlim Hunl). exact Gp.
Qed.
Print Assumptions C47_line_buffers_bounded.

(** So are the lists of column ranges: a row has no more columns than its buffer has bytes. *)
Theorem C47_columns_bounded : forall c hc cap d data ls L p ks,
  enough cap -> modest cap -> opened_any c cap d data p ->
  physical data ls -> Forall (fun l => length (fst l) + length (snd l) < L) ls ->
  Forall (fun cs => length cs <= 128 + 2 * longest_row c L data ls) (column_ranges (later c hc cap p ks)).
Proof.
  intros c hc cap d data ls L p ks Hcap Hmod O PH FL.
  assert (ls = lines data) as -> by (eapply physical_unique; [exact PH|apply lines_physical]).
  pose proof (opened_g c cap d data L p Hcap Hmod FL O) as Gp. destruct (bounds c L data FL) as (HLR & Hlim & Hunl & SH). destruct Hmod as [Hm1 Hm2].
  pose proof (later_g c hc cap Hcap Hm1 Hm2 L _ (weight data) HLR Hlim Hunl _ ks p Gp) as [[] _].
  constructor; [exact (proj1 w_conv)|]. constructor; [exact (proj1 w_nconv)|constructor].
Qed.
Print Assumptions C47_columns_bounded.

(** No call forgets a block it does not free, there are never more than three, and the file stays open until the destructor. *)
Theorem C47_nothing_lost : forall c hc cap d data p ks,
  enough cap -> modest cap -> opened_any c cap d data p ->
  let q := later c hc cap p ks in
  length (owned (p_rdr p)) <= length (owned (p_rdr q)) <= 3 /\ NoDup (owned (p_rdr q)) /\ reads_file q = reads_file p.
Proof.
  intros c hc cap d data p ks Hcap Hmod O q.
  set (L := S (fold_right (fun l n => length (fst l) + length (snd l) + n) 0 (lines data))).
  assert (FL : Forall (fun l => length (fst l) + length (snd l) < L) (lines data)).
  { subst L. induction (lines data) as [|l ls IH]; [constructor|]. constructor; [cbn; lia|]. eapply Forall_impl; [|exact IH]. intros a H. cbn in *. lia. }
  pose proof (opened_g c cap d data L p Hcap Hmod FL O) as Gp. destruct (bounds c L data FL) as (HLR & Hlim & Hunl & SH). destruct Hmod as [Hm1 Hm2].
  pose proof (later_g c hc cap Hcap Hm1 Hm2 L _ (weight data) HLR Hlim Hunl _ ks p Gp) as [[] _]. fold q in w_nd, w_file, w_own. cbn [fst snd] in *.
  split; [split; [exact w_own|]|split; [exact w_nd|exact w_file]]. rewrite owned_eq, !app_length. destruct (r_buf (p_rdr q)), (r_nl (p_rdr q)), (r_help (p_rdr q)); cbn; lia.
Qed.
Print Assumptions C47_nothing_lost.

(** ** Examples *)
Definition m_cfg : cfg := mkCfg (Some """"%char) [] [] [] true 2 EString false false.
Definition m_row : str := S2 "one,""two" ++ [LF] ++ S2 "three"",four" ++ [LF].
Definition m_long : str := repeat "x"%char 200.
Definition m_get : call := CGet [EVal TString; EVal TString; EVal TString].
(** Twelve rows of two lines, and one line of 205 bytes: a buffer grows to 256 bytes for the long line, and joining
    lines makes it as small as the joined line again. *)
Definition m_data : str := concat (repeat m_row 6) ++ S2 "a,b," ++ m_long ++ [LF] ++ concat (repeat m_row 6).
Definition sizes (n : nat) : option (list nat) :=
  match parser_buffer m_cfg tight (S2 ",") (Some m_data) (length m_data) with
  | Ok _ p => Some (map allocated (line_buffers (later m_cfg (header_cfg m_cfg) tight p (repeat m_get n))))
  | _ => None
  end.
Example C47_example :
  setup [OQuote """"%char; OMultiline 2 true; OStringError] = Some m_cfg /\ enough tight /\ modest tight /\
  (exists p, opened_any m_cfg tight (S2 ",") m_data p) /\
  physical m_data (lines m_data) /\ length (lines m_data) = 25 /\ Forall (fun l => length (fst l) + length (snd l) < 206) (lines m_data) /\
  longest_row m_cfg 206 m_data (lines m_data) = 482 /\
  map sizes [0; 1; 4; 7; 8; 9; 12] =
    [Some [0; 128; 0]; Some [23; 128; 128]; Some [23; 128; 128]; Some [256; 128; 128]; Some [23; 256; 128]; Some [23; 128; 128]; Some [23; 128; 128]].
Proof.
  split; [reflexivity|]. split; [intros n need; unfold tight; lia|]. split; [split; [intros n need _; unfold tight; lia|unfold tight; lia]|].
  split; [eexists; eapply oa_buffer; vm_compute; reflexivity|]. split; [apply lines_physical|].
  split; [vm_compute; reflexivity|]. split; [apply Forall_forall; intros l H; vm_compute in H; repeat (destruct H as [<-|H]; [vm_compute; lia|]); contradiction|].
  split; vm_compute; reflexivity.
Qed.
(** With multiline and no limit, a quote that is never closed takes the whole rest of the document into one buffer. *)
Definition m_open : cfg := mkCfg (Some """"%char) [] [] [] true 0 EString false false.
Definition m_unclosed (n : nat) : str := S2 "a,b,""" ++ concat (repeat (S2 "some text" ++ [LF]) n).
Definition unclosed_size (n : nat) : option (list nat) :=
  match parser_buffer m_open tight (S2 ",") (Some (m_unclosed n)) (length (m_unclosed n)) with
  | Ok _ p => Some (map allocated (line_buffers (later m_open (header_cfg m_open) tight p [m_get])))
  | _ => None
  end.
Example C47_no_limit : unclosed_size 30 = Some [307; 0; 128] /\ unclosed_size 60 = Some [607; 0; 128].
Proof. split; vm_compute; reflexivity. Qed.
(** A line of separators: one column range per byte and one more; the next row brings the list down again. *)
Definition m_commas : str := S2 "a,b" ++ [LF] ++ repeat ","%char 100 ++ [LF] ++ S2 "c,d" ++ [LF].
Definition column_counts (n : nat) : option (list nat) :=
  match parser_buffer m_cfg tight (S2 ",") (Some m_commas) (length m_commas) with
  | Ok _ p => Some (map (@length _) (column_ranges (later m_cfg (header_cfg m_cfg) tight p (repeat m_get n))))
  | _ => None
  end.
Example C47_columns_example : map column_counts [0; 1; 2; 3] = [Some [0; 0]; Some [2; 0]; Some [101; 2]; Some [2; 101]].
Proof. vm_compute. reflexivity. Qed.
