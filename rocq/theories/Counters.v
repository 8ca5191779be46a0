(** The line and byte counters of the reader and the parser, with the bounds of MemBound: what each step adds to them. *)
From Verif Require Import Base Setup Splitter Extract Converter Reader ListFacts LineProofs GetLineProofs ReaderBase ReaderInv SplitKeeps Parser NoThrow SimParse ParserApi SessionApi PropMemory MemBound.
From Coq Require Import ZArith Lia.
Local Open Scope nat_scope.

Lemma ends_and {S A} (Q1 Q2 : A -> S -> Prop) (E1 E2 : S -> Prop) (o : res S A) : ends Q1 E1 o -> ends Q2 E2 o -> ends (fun a s => Q1 a s /\ Q2 a s) (fun s => E1 s /\ E2 s) o.
Proof. destruct o; cbn; auto. Qed.

(** Steps that leave the source and the counters alone. *)
Definition fr (r r' : rdr) : Prop := r_src r' = r_src r /\ r_curr r' = r_curr r /\ r_line r' = r_line r /\ r_chars r' = r_chars r.
Definition framed {A} (m : M rdr A) : Prop := forall r, ends (fun _ r' => fr r r') (fr r) (m r).
Lemma fr_refl r : fr r r. Proof. repeat split. Qed.
Lemma fr_trans r1 r2 r3 : fr r1 r2 -> fr r2 r3 -> fr r1 r3.
Proof. intros (A & B & C & D) (A' & B' & C' & D'). repeat split; congruence. Qed.
Lemma framed_ret {A} (a : A) : framed (ret a). Proof. intros r. apply fr_refl. Qed.
Lemma framed_ub {A} w : framed (@ub rdr A w). Proof. intros r. exact Logic.I. Qed.
Lemma framed_bind {A B} (m : M rdr A) (k : A -> M rdr B) : framed m -> (forall a, framed (k a)) -> framed (bind m k).
Proof.
  intros H K r. eapply ends_bind; [apply H|]. intros a r' F. eapply ends_weaken; [apply K| |]; intros; (eapply fr_trans; [exact F|assumption]).
Qed.
Lemma framed_get {B} (k : rdr -> M rdr B) : (forall r, framed (k r)) -> framed (bind get k).
Proof. intros K r. unfold bind, get. apply K. Qed.
Lemma framed_upd f : (forall r, fr r (f r)) -> framed (rupd f). Proof. intros H r. apply H. Qed.
Lemma framed_lp {A} w (m : M lp A) : framed (on_lp w m).
Proof. intros r. unfold on_lp, zoom. destruct (m _); cbn; auto; destruct w; repeat split. Qed.
Lemma framed_nconv {A} (m : M (conv * list (option ascii)) A) : framed (on_nconv m).
Proof. intros r. unfold on_nconv. destruct (m _) as [a [v cs]|e [v cs]| |]; cbn; auto; repeat split. Qed.
Lemma framed_conv {A} (m : M (conv * list (option ascii)) A) : framed (on_conv m).
Proof. intros r. unfold on_conv. destruct (m _) as [a [v cs]|e [v cs]| |]; cbn; auto; repeat split. Qed.
Lemma framed_next {A} (m : nat -> M (conv * list (option ascii)) A) : framed (on_next m).
Proof. intros r. unfold on_next. destruct (r_nl r); cbn; auto. destruct (m _ _) as [a [v cs]|e [v cs]| |]; cbn; auto; repeat split. Qed.
Lemma framed_remove w n : framed (remove_eol w n).
Proof.
  destruct n as [|n]; [apply framed_ub|]. cbn [remove_eol]. apply framed_bind; [apply framed_lp|]. intros a.
  destruct (negb _); [apply framed_bind; [apply framed_upd; intros r; repeat split|intros; apply framed_ret]|]. apply framed_bind.
  - destruct n as [|j]; [apply framed_bind; [apply framed_upd; intros r; repeat split|intros; apply framed_ret]|]. apply framed_bind; [apply framed_lp|]. intros b.
    destruct (Ascii.eqb b CR); (apply framed_bind; [apply framed_upd; intros r; repeat split|intros; apply framed_ret]).
  - intros k. apply framed_bind; [apply framed_lp|intros; apply framed_ret].
Qed.
Lemma framed_undo : framed undo_remove_eol.
Proof.
  apply framed_get. intros r. cbv zeta. destruct (_ && _); [apply framed_bind; [apply framed_lp|intros; apply framed_upd; intros; repeat split]|].
  destruct (_ <? _); [|apply framed_ret]. apply framed_bind; [apply framed_lp|intros; apply framed_upd; intros; repeat split].
Qed.
Lemma framed_concat n : framed (realloc_concat n).
Proof.
  apply framed_get. intros r. apply framed_bind; [apply framed_lp|]. intros _. apply framed_get. intros r1. apply framed_bind; [|intros; apply framed_upd; intros; repeat split].
  destruct (r_nl r1); [|apply framed_ub]. destruct (r_help r1); [|apply framed_ub]. destruct (copy_between _ _ _ _); [|apply framed_ub]. apply framed_upd. intros; repeat split.
Qed.
Lemma framed_limit c k : framed (multiline_limit_reached c k).
Proof.
  unfold multiline_limit_reached. destruct (0 <? c_mlsize c); [|apply framed_ret]. destruct (_ <=? _); [|apply framed_ret]. apply framed_bind; [apply framed_nconv|intros; apply framed_ret].
Qed.

Section C.
Context (N : nat) (mem : Prop).           (* length of the data; is it in memory? *)
(** Line number and physical lines left come to at most [K]; position and bytes left to [N], less at most [D]. *)
Record C (K D : nat) (r : rdr) : Prop := {
  c_line : r_line r + length (lines (unread r)) <= K;
  c_left : length (unread r) <= N;
  c_curr : (Z.of_nat N - Z.of_nat D <= r_curr r + Z.of_nat (length (unread r)) <= Z.of_nat N)%Z;
  c_chars : (- Z.of_nat D <= r_chars r <= Z.of_nat N)%Z;
  c_mem : mem -> (exists data, r_src r = SMem data) /\ (0 <= r_chars r)%Z }.
Lemma C_mono K D K' D' r : K <= K' -> D <= D' -> C K D r -> C K' D' r. Proof. intros ? ? []. constructor; try assumption; lia. Qed.
Lemma C_fr K D r r' : fr r r' -> C K D r -> C K D r'.
Proof.
  intros (A1 & A2 & A3 & A4) []. assert (U : unread r' = unread r) by (rewrite !unread_eq; congruence).
  constructor; rewrite ?U, ?A1, ?A2, ?A3, ?A4; assumption.
Qed.
Lemma framed_c {A} (m : M rdr A) K D r : framed m -> C K D r -> ends (fun _ r' => C K D r') (C K D) (m r).
Proof. intros F HC. eapply ends_weaken; [apply F| |]; [intros ? s X|intros s X]; exact (C_fr K D r s X HC). Qed.
Lemma C_line K D r : C K D r -> C (S K) D (rset_line (S (r_line r)) r).
Proof. intros []. constructor; [|assumption..]. change (unread (rset_line (S (r_line r)) r)) with (unread r). cbn [r_line rset_line]. lia. Qed.
Lemma C_chars K D r : src_ok r -> C K D r -> C K D (rset_chars (r_curr r) r).
Proof.
  intros HS []. constructor; [assumption..| |]; cbn [r_chars rset_chars r_src]; [lia|]. intros M. destruct (c_mem0 M) as [[data E] _]. split; [eauto|]. unfold src_ok in HS. rewrite E in HS. cbn in HS. lia.
Qed.

Context (c : cfg) (cap : nat -> nat -> nat).
Context (Hcap : enough cap) (Hmod : forall n need, n < need -> cap n need <= 128 + 2 * need) (Hmod0 : cap 0 0 <= 128).
Context (L R T : nat) (HLR : L <= R) (Hlim : c_ml c = true -> 0 < c_mlsize c -> S (c_mlsize c) * L <= R \/ T <= R) (Hunl : c_ml c = true -> c_mlsize c = 0 -> T <= R) (fl : bool * nat).
Notation W := (W c L R T fl). Notation ready := (ready L T). Notation row := (row L T).
Lemma get_line_kind w r o r' : get_line cap w r = Ok o r' -> (exists data, r_src r = SMem data) -> (exists data, r_src r' = SMem data) /\ r_chars r' = r_chars r.
Proof.
  unfold get_line, bind, get, on_lp, zoom, rupd, modify, ret. intros E [data Es]. rewrite Es in E.
  destruct (get_line_buffer _ (lp_of w r)) as [[a b] l| | |]; try discriminate.
  split; [exists data; apply (f_equal (fun x => match x with Ok _ q => r_src q | _ => SNull 0 end)) in E; exact (eq_sym E)|].
  apply (f_equal (fun x => match x with Ok _ q => r_chars q | _ => r_chars r end)) in E. destruct w; exact (eq_sym E).
Qed.
(** Reading a line takes one away from the lines left; reading at the end takes one from the position of a file. *)
Lemma get_line_c w K D r : W r -> C K D r ->
  ends (fun o r' => match o with Some _ => C (K - 1) D r' /\ 0 < K | None => C K (S D) r' end) (fun _ => False) (get_line cap w r).
Proof.
  intros HW HC. pose proof (W_lp_ok c L R T fl w r HW) as Hl. pose proof (w_src _ _ _ _ _ _ HW) as Hs.
  destruct (unread r) as [|x u] eqn:Eu.
  - destruct (get_line_none cap w r Hl Hs Eu) as (l' & z' & E & _ & _ & Hz & _ & Hd & _). pose proof (get_line_kind w r _ _ E) as GK. rewrite E. cbn.
    assert (U : unread (rset_src (r_src r) z' (lp_to w l' r)) = []) by exact Hz.
    destruct HC. rewrite Eu in *. cbn [length Z.of_nat] in *.
    constructor; rewrite ?U; cbn [length Z.of_nat]; try (destruct w; cbn [rset_src lp_to rset_nl rset_help r_line r_curr r_chars]; lia).
    intros M. destruct (c_mem0 M) as [X Y]. destruct (GK X) as [X' Z]. rewrite Z. split; assumption.
  - assert (Hne : unread r <> []) by congruence.
    destruct (get_line_some cap Hcap w r Hl Hs Hne) as (l' & s' & E & _ & _ & _ & Hu & _). pose proof (get_line_kind w r _ _ E) as GK. rewrite E. cbn.
    match goal with |- C _ _ ?q /\ _ => assert (U : unread q = snd (cut_line (unread r))) by exact Hu end.
    pose proof (lines_cons _ Hne) as LC. pose proof (cut_line_app (unread r)) as CA. apply (f_equal (@length _)) in CA. rewrite app_length in CA. apply (f_equal (@length _)) in LC. cbn [length] in LC.
    destruct HC. split; [|lia].
    constructor; rewrite ?U; try (destruct w; cbn [rset_src lp_to rset_nl rset_help r_line r_curr r_chars]; lia).
    intros M. destruct (c_mem0 M) as [X Y]. destruct (GK X) as [X' Z]. rewrite Z. split; assumption.
Qed.
Lemma read_next_loop_c K D : forall f r, W r -> C K D r -> ends (fun _ r' => C (S K) (S D) r') (fun _ => False) (read_next_loop c cap f r).
Proof.
  induction f as [|f IH]; intros r HW HC; [exact Logic.I|]. cbn [read_next_loop].
  assert (W0 : W (rset_line (S (r_line r)) r)) by (destruct HW; constructor; assumption). pose proof (C_line K D r HC) as C0.
  unfold bind at 1, rupd at 1, modify at 1. unfold bind at 1, get at 1.
  set (r0 := rset_line (S (r_line r)) r) in *. clearbody r0. clear r HW HC.
  eapply ends_bind with (Q := fun _ r' => W r' /\ C (S K) D r').
  { destruct (0 <? r_nlsz r0); [|split; assumption]. eapply ends_weaken; [apply ends_and; [apply (put_w c L R T fl NextLine 0 NUL r0 W0)|apply framed_lp]| |]; cbn beta; [|tauto].
    intros ? s [[X _] Y]. split; [exact X|]. eapply C_fr; eauto. }
  intros _ r1 [W1 C1]. unfold bind at 1, rupd at 1, modify at 1. assert (W2 : W (rset_chars (r_curr r1) r1)) by (destruct W1; constructor; assumption).
  pose proof (C_chars _ _ _ (w_src _ _ _ _ _ _ W1) C1) as C2. set (r2 := rset_chars (r_curr r1) r1) in *. clearbody r2. clear r1 W1 C1.
  eapply ends_bind; [eapply ends_weaken; [apply ends_and; [apply (get_line_w c cap Hcap Hmod Hmod0 L R T HLR Hlim Hunl fl NextLine r2 W2)|apply (get_line_c NextLine _ _ r2 W2 C2)]|intros o s H; exact H|intros s [H _]; exact H]|].
  intros [n|] r3 [(W3 & _) K3]; [|exact K3]. destruct K3 as [K3 _]. cbn [Nat.sub] in K3. rewrite Nat.sub_0_r in K3.
  eapply ends_bind; [eapply ends_weaken; [apply ends_and; [apply (remove_eol_w c cap Hmod0 L R T HLR Hlim Hunl fl NextLine n r3 W3)|apply framed_remove]|intros o s H; exact H|intros s [H _]; exact H]|].
  intros k r4 [(W4 & _) F4]. pose proof (C_fr _ _ _ _ F4 K3) as C4. destruct (_ && _); [apply IH; assumption|]. cbn. apply (C_mono K D); [lia|lia|]. destruct C4; constructor; assumption.
Qed.
Lemma read_next_c K D r : W r -> C K D r -> ends (fun _ r' => C (S K) (S D) r') (fun _ => False) (read_next c cap r).
Proof.
  intros HW HC. unfold read_next. unfold bind at 1, on_nconv, cv_clear_error, vupd, modify. cbn [fst snd]. unfold bind, get.
  apply read_next_loop_c; [destruct HW; constructor; assumption|destruct HC; constructor; assumption].
Qed.
Lemma append_c K D r : W r -> C K D r -> ends (fun b r' => C K (if b : bool then D else S D) r') (C K (S D)) (append_next_line_to_buffer cap r).
Proof.
  intros HW HC. unfold append_next_line_to_buffer.
  eapply ends_bind; [eapply ends_weaken; [apply ends_and; [apply (undo_w c cap Hmod0 L R T HLR Hlim Hunl fl r HW)|apply framed_undo]|intros o s H; exact H|intros s [H _]; contradiction]|].
  intros _ r1 [(W1 & _) F1]. pose proof (C_fr _ _ _ _ F1 HC) as C1. unfold bind at 1, rupd at 1, modify at 1.
  assert (W2 : W (rset_chars (r_curr r1) r1)) by (destruct W1; constructor; assumption). pose proof (C_chars _ _ _ (w_src _ _ _ _ _ _ W1) C1) as C2. set (r2 := rset_chars (r_curr r1) r1) in *. clearbody r2. clear r1 W1 C1 F1.
  eapply ends_bind; [eapply ends_weaken; [apply (get_line_c Helper _ _ r2 W2 C2)|intros o s H; exact H|intros s []]|]. intros [n|] r3 K3; [|exact K3]. destruct K3 as [K3 KP].
  unfold bind at 1, rupd at 1, modify at 1. apply C_line in K3. replace (S (K - 1)) with K in K3 by lia. set (r4 := rset_line _ r3) in *. clearbody r4.
  eapply ends_weaken with (E := C K D) (Q := fun b r' => C K D r' /\ b = true).
  - eapply ends_bind; [apply (framed_c _ K D); [apply framed_remove|exact K3]|]. intros k r5 C5. eapply ends_bind; [apply (framed_c _ K D); [apply framed_concat|exact C5]|]. intros ? r6 C6. split; [exact C6|reflexivity].
  - intros b s [H ->]. exact H.
  - intros s H. eapply C_mono; [| |exact H]; lia.
Qed.
Notation EP := (escape_part_w c cap Hcap Hmod Hmod0 L R T HLR Hlim Hunl fl).
Notation AP := (append_w c cap Hcap Hmod Hmod0 L R T HLR Hlim Hunl fl).
Notation LM := (limit_w c cap Hmod0 L R T HLR Hlim Hunl fl).
Lemma up K D r : C K D r -> C K (S D) r. Proof. apply C_mono; lia. Qed.
Lemma framed_up {A} (m : M rdr A) K D r : framed m -> C K D r -> ends (fun _ r' => C K D r') (C K (S D)) (m r).
Proof. intros F H. eapply ends_weaken; [apply (framed_c m K D r F H)|auto|]. intros s X. apply up. exact X. Qed.
Lemma escape_loop_c K D : c_ml c = true -> forall f n k r, W r -> row n r -> counted c n k -> C K D r ->
  ends (fun a r' => C K (if fst a : bool then D else S D) r') (C K (S D)) (escape_loop c cap f k r).
Proof.
  intros HM. induction f as [|f IH]; intros n k r HW HR HN HC; [exact Logic.I|]. cbn [escape_loop]. unfold bind at 1, get at 1.
  eapply ends_bind; [eapply ends_weaken; [apply (escaped_w c L R T fl); exact HW|intros a s H; exact H|contradiction]|]. intros e r1 ->. destruct e; [|exact HC].
  eapply ends_bind; [eapply ends_weaken; [apply ends_and; [apply LM; eassumption|apply (framed_up _ K D); [apply framed_limit|exact HC]]|intros a s H; exact H|intros s [_ H]; exact H]|].
  intros [k' re] r1 [(W1 & R1 & K1) C1]. destruct re; [apply up; exact C1|]. destruct (K1 eq_refl) as [K2 K3]. cbn [fst] in K3.
  eapply ends_bind; [eapply ends_weaken; [apply ends_and; [apply AP; eassumption|apply (append_c K D); assumption]|intros a s H; exact H|intros s [_ H]; exact H]|].
  intros more r2 [[W2 R2] C2]. destruct more; [eapply IH; eauto|].
  eapply ends_bind; [apply (framed_c _ K (S D)); [apply framed_nconv|exact C2]|]. intros ? r3 C3. exact C3.
Qed.
Lemma escape_part_c K D n k r : W r -> row n r -> counted c n k -> C K D r -> ends (fun a r' => C K (if fst a : bool then D else S D) r') (C K (S D)) (escape_part c cap k r).
Proof.
  intros HW HR HN HC. unfold escape_part. destruct (escaped_multiline c) eqn:E; [|exact HC]. apply andb_true_iff in E as [HM _]. unfold bind at 1, get at 1. eapply escape_loop_c; eauto.
Qed.
Lemma quote_loop_c K D : c_ml c = true -> forall f n k r, W r -> row n r -> counted c n k -> C K D r -> ends (fun _ r' => C K (S D) r') (C K (S D)) (quote_loop c cap f k r).
Proof.
  intros HM. induction f as [|f IH]; intros n k r HW HR HN HC; [exact Logic.I|]. cbn [quote_loop]. unfold bind at 1, get at 1. destruct (cv_unterminated_quote (r_nconv r)); [|apply up; exact HC].
  destruct (r_nlsize r <? cv_size_shifted (r_nconv r)); [exact Logic.I|]. unfold bind at 1, ret at 1. unfold bind at 1, rupd at 1, modify at 1.
  set (r0 := rset_nlsize _ r). assert (W0 : W r0) by (assert (r_nlsize r0 <= B R) by (pose proof (w_size _ _ _ _ _ _ HW); subst r0; match goal with |- r_nlsize (rset_nlsize ?x r) <= _ => change (x <= B R) end; lia); destruct HW; constructor; assumption).
  assert (R0 : row n r0). { destruct HR as [HR|HR]; [left; exact HR|right]. unfold ew in *. subst r0. cbn. change (unread (rset_nlsize _ r)) with (unread r). lia. }
  assert (C0 : C K D r0) by (destruct HC; constructor; assumption). clearbody r0. clear r HW HR HC.
  eapply ends_bind; [eapply ends_weaken; [apply ends_and; [apply LM; eassumption|apply (framed_up _ K D); [apply framed_limit|exact C0]]|intros a s H; exact H|intros s [_ H]; exact H]|].
  intros [k' re] r1 [(W1 & R1 & K1) C1]. destruct re; [apply up; exact C1|]. destruct (K1 eq_refl) as [K2 K3]. cbn [fst] in K3.
  eapply ends_bind; [eapply ends_weaken; [apply ends_and; [apply AP; eassumption|apply (append_c K D); assumption]|intros a s H; exact H|intros s [_ H]; exact H]|].
  intros more r2 [[W2 R2] C2]. destruct more; [|apply (framed_c _ K (S D)); [apply framed_nconv|exact C2]].
  eapply ends_bind; [eapply ends_weaken; [apply ends_and; [eapply EP; eassumption|eapply (escape_part_c K D); eassumption]|intros a s H; exact H|intros s [_ H]; exact H]|].
  intros [go k2] r3 [[W3 K4] C3]. destruct go; [|exact C3]. destruct (K4 eq_refl) as (n3 & R3 & N3). cbn [fst snd] in *. unfold bind at 1, get at 1.
  eapply ends_bind; [eapply ends_weaken; [apply ends_and; [apply (on_next_w c L R T fl); [apply splits_resplit|exact W3|exact R3]|apply (framed_up _ K D); [apply framed_next|exact C3]]|intros a s H; exact H|intros s [_ H]; exact H]|].
  intros ? r4 [[W4 R4] C4]. eapply IH; eauto.
Qed.
Lemma parse_c K D r : W r -> ready r -> C K D r -> ends (fun _ r' => C K (S D) r') (C K (S D)) (parse c cap r).
Proof.
  intros HW HR HC. unfold parse. assert (R0 : row 0 r) by (destruct HR as [HR|HR]; [left; exact HR|right; cbn [Nat.mul]; lia]). assert (N0 : counted c 0 0) by (intros _; lia).
  eapply ends_bind; [eapply ends_weaken; [apply ends_and; [eapply EP; eassumption|eapply (escape_part_c K D); eassumption]|intros a s H; exact H|intros s [_ H]; exact H]|].
  intros [go k2] r3 [[W3 K4] C3]. destruct go; [|exact C3]. destruct (K4 eq_refl) as (n3 & R3 & N3). cbn [fst snd] in *. unfold bind at 1, get at 1.
  eapply ends_bind; [eapply ends_weaken; [apply ends_and; [apply (on_next_w c L R T fl); [apply splits_split|exact W3|exact R3]|apply (framed_up _ K D); [apply framed_next|exact C3]]|intros a s H; exact H|intros s [_ H]; exact H]|].
  intros ? r4 [[W4 R4] C4]. destruct (quoted_multiline c) eqn:E; [|apply up; exact C4]. apply andb_true_iff in E as [HM _]. unfold bind at 1, get at 1. eapply quote_loop_c; eauto.
Qed.

(** ** The parser *)
Context (hc : cfg).
Notation G := (G c L R T fl). Notation WP := (WP c L R T fl).
Definition CP (K D : nat) (p : prs) : Prop := C K D (p_rdr p).
Definition P (K D : nat) (p : prs) : Prop := W (p_rdr p) /\ CP K D p.
Lemma CP_mono K D K' D' p : K <= K' -> D <= D' -> CP K D p -> CP K' D' p. Proof. apply C_mono. Qed.
Lemma read_line_c K D p : P K D p -> ends (fun _ q => CP (S K) (S D) q) (fun _ => False) (read_line c cap p).
Proof.
  intros [HW HC]. unfold read_line. eapply ends_bind; [eapply ends_weaken; [apply lift_rdr; apply (read_next_c K D); assumption|intros ? s H; exact H|intros s [H _]; exact H]|].
  intros b q [H _]. exact H.
Qed.
Lemma ignore_c K D p : P K D p -> ends (fun _ q => CP (S K) (S D) q) (fun _ => False) (ignore_next c cap p).
Proof. intros [HW HC]. unfold ignore_next. eapply ends_weaken; [apply lift_rdr; apply (read_next_c K D); assumption|intros ? s H; apply H|intros s [H _]; exact H]. Qed.
Lemma quiet_c {A} (m : M prs A) K D p : quiet m -> CP K D p -> ends (fun _ q => CP K D q) (CP K D) (m p).
Proof. intros H HC. eapply ends_weaken; [apply H| |]; [intros ? s [K1 _]|intros s [K1 _]]; unfold CP; rewrite K1; exact HC. Qed.
Lemma quiet_p {A} (m : M prs A) K D p : quiet m -> P K D p -> ends (fun _ q => P K D q) (P K D) (m p).
Proof. intros H HC. eapply ends_weaken; [apply H| |]; [intros ? s [K1 _]|intros s [K1 _]]; unfold P, CP; rewrite K1; exact HC. Qed.
Lemma framed_p {A} (m : M rdr A) K D p : framed m -> CP K D p -> ends (fun _ q => CP K D q) (CP K D) (on_rdr m p).
Proof. intros F HC. eapply ends_weaken; [apply lift_rdr; apply (framed_c m K D _ F); exact HC| |]; intros; apply H. Qed.
Lemma rethrow_c {A} K D e p : P K D p -> ends (fun (_ : A) q => False) (CP (S K) (S D)) ((read_line c cap ;; decorate_rethrow e) p).
Proof.
  intros HP. eapply ends_bind; [eapply ends_weaken; [apply (read_line_c K D); exact HP|intros ? s H; exact H|contradiction]|]. intros ? q HG. exact HG.
Qed.
Lemma convert_p es K D p : P K D p -> ends (fun _ q => P K D q) (P K D) (on_rdr (on_conv (cv_convert c es)) p).
Proof. intros [HW HC]. eapply ends_weaken; [apply ends_and; [apply (convert_w c L R T fl); exact HW|apply (framed_p _ K D); [apply framed_conv|exact HC]]| |]; intros; exact H. Qed.
Lemma get_next_c es K D p : G p -> CP K D p -> ends (fun _ q => CP (S K) (S (S D)) q) (CP (S K) (S (S D))) (get_next c cap es p).
Proof.
  intros [HW HR] HC. unfold get_next. unfold bind at 1, get at 1. eapply ends_bind with (Q := fun _ q => P K (S D) q).
  { assert (PW : ends (fun _ q => P K (S D) q) (P K (S D)) (on_rdr (parse c cap) p)).
    { eapply ends_weaken; [apply ends_and; [apply lift_rdr; apply (parse_w c cap Hcap Hmod Hmod0 L R T HLR Hlim Hunl fl); assumption|apply lift_rdr; apply (parse_c K D); assumption]| |]; intros; (split; apply H). }
    destruct (p_eof p); [split; [exact HW|apply up; exact HC]|].
    destruct (c_mode c); [eapply ends_weaken; [exact PW|auto|intros s [_ H]; eapply CP_mono; [| |exact H]; lia]..|].
    eapply ends_catch; [exact PW|]. intros e q HP. eapply ends_weaken; [apply (rethrow_c (A := unit) K (S D)); exact HP|intros ? ? []|auto]. }
  clear p HW HR HC. intros ? p1 [W1 C1]. eapply ends_bind with (Q := fun _ q => P K (S D) q).
  { eapply ends_weaken; [apply ends_and; [apply lift_rdr; apply (update_w c L R T fl); exact W1|apply (framed_p _ K (S D)); [apply framed_upd; intros; repeat split|exact C1]]| |intros q [[[] _] _]].
    intros ? q [[[A1 _] _] A2]. split; assumption. }
  intros ? p2 P2. unfold bind at 1, get at 1.
  assert (RL : forall A (v : A) q, P K (S D) q -> ends (fun _ q => CP (S K) (S (S D)) q) (CP (S K) (S (S D))) ((read_line c cap ;; ret v) q)).
  { intros A v q HP. eapply ends_bind; [eapply ends_weaken; [apply (read_line_c K (S D)); exact HP|intros ? s H; exact H|contradiction]|]. intros ? q' Hq. exact Hq. }
  assert (QU : forall A (m : M prs A) q, quiet m -> P K (S D) q -> ends (fun _ q => P K (S D) q) (CP (S K) (S (S D))) (m q)).
  { intros A m q Qm HP. eapply ends_weaken; [apply (quiet_p m K (S D) q Qm HP)|auto|]. intros s [_ H]. eapply CP_mono; [| |exact H]; lia. }
  destruct (negb _); [eapply ends_bind; [apply QU; [apply quiet_conversion|exact P2]|]; intros ? q; apply RL|].
  eapply ends_bind; [apply QU; [apply quiet_clear|exact P2]|]. intros ? p3 P3.
  assert (DN : forall q, P K (S D) q -> CP (S K) (S (S D)) q) by (intros q [_ H]; eapply CP_mono; [| |exact H]; lia).
  destruct (p_eof p2); [eapply ends_bind; [apply QU; [apply quiet_error|exact P3]|]; intros ? q Hq; apply DN; exact Hq|].
  assert (CV : ends (fun _ q => P K (S D) q) (CP (S K) (S (S D))) (on_rdr (on_conv (cv_convert c es)) p3)) by (eapply ends_weaken; [apply convert_p; exact P3|auto|exact DN]).
  destruct (c_mode c) eqn:Em.
  1,2: eapply ends_bind; [exact CV|]; intros xs p4 P4; unfold bind at 1, get at 1; eapply ends_bind; [|intros ? q; apply RL]; destruct (negb _); [apply QU; [apply quiet_conversion|exact P4]|exact P4].
  eapply ends_catch with (E1 := P K (S D)).
  - eapply ends_bind; [apply convert_p; exact P3|]. intros xs p4 P4. eapply ends_bind; [eapply ends_weaken; [apply (read_line_c K (S D)); exact P4|intros ? s H; exact H|contradiction]|]. intros ? q Hq. exact Hq.
  - intros e q HP. eapply ends_weaken; [apply (rethrow_c K (S D)); exact HP|intros ? ? []|auto].
Qed.
Lemma use_c fs K D p : P K D p -> ends (fun _ q => CP (S K) (S D) q) (CP (S K) (S D)) (use_fields c hc cap fs p).
Proof.
  assert (DN : forall q, P K D q -> CP (S K) (S D) q) by (intros q [_ H]; eapply CP_mono; [| |exact H]; lia).
  assert (QU : forall A (m : M prs A) q, quiet m -> P K D q -> ends (fun _ q => P K D q) (CP (S K) (S D)) (m q)).
  { intros A m q Qm HP. eapply ends_weaken; [apply (quiet_p m K D q Qm HP)|auto|exact DN]. }
  intros HP. unfold use_fields. eapply ends_bind; [apply QU; [apply quiet_clear|exact HP]|]. intros ? p0 G0. unfold bind at 1, get at 1.
  eapply ends_bind; [apply QU; [destruct (p_header p0); [|apply quiet_ret]; destruct (p_eof p0); [apply quiet_ret|apply quiet_split_header]|exact G0]|]. intros ? p1 G1.
  unfold bind at 1, get at 1. destruct (negb _); [apply DN; exact G1|]. destruct fs as [|f fs]; [eapply ends_weaken; [apply QU; [apply quiet_error|exact G1]|intros ? ? H; apply DN; exact H|auto]|].
  eapply ends_bind; [apply QU; [apply quiet_columns|exact G1]|]. intros [mp|] p2 G2; [|apply DN; exact G2]. cbv zeta.
  unfold bind at 1, on_rdr at 1, zoom at 1, rupd at 1, modify at 1. unfold bind at 1, on_rdr at 1, zoom at 1, rupd at 1, modify at 1. unfold bind at 1, get at 1.
  match goal with |- ends _ _ (_ ?q) => set (p3 := q) end. assert (G3 : P K D p3). { destruct G2 as [[] []]. split; constructor; assumption. }
  clearbody p3. destruct (p_line p3 =? 0); [|apply DN; exact G3].
  eapply ends_bind; [eapply ends_weaken; [apply (ignore_c K D); exact G3|intros ? s H; exact H|contradiction]|]. intros b p4 G4. exact G4.
Qed.
Definition CC (K D : nat) (t : chain) : Prop := CP K D (fst t).
Lemma on_p_c {A} (m : M prs A) K D t : ends (fun _ q => CP K D q) (CP K D) (m (fst t)) -> ends (fun _ u => CC K D u) (CC K D) (on_p m t).
Proof. unfold on_p, zoom. destruct (m (fst t)); exact (fun x => x). Qed.
Lemma invoke_c xs cb K D t : CC K D t -> ends (fun _ u => CC K D u) (CC K D) (try_invoke c xs cb t).
Proof.
  intros HG. destruct cb as [|k|k f]; [exact HG|exact HG|]. cbn [try_invoke]. unfold bind at 1, log, modify. destruct (f xs); [exact HG|]. apply on_p_c. apply quiet_c; [apply quiet_error|exact HG].
Qed.
Lemma try_c es cb K D t : G (fst t) -> CC K D t -> ends (fun _ u => CC (S K) (S (S D)) u) (CC (S K) (S (S D))) (try_next c cap es cb t).
Proof.
  intros HG HC. unfold try_next. eapply ends_bind; [apply on_p_c; apply (get_next_c es K D); assumption|]. intros xs t1 G1. unfold bind at 1, get at 1.
  eapply ends_bind; [destruct (p_valid c (fst t1)); [apply invoke_c; exact G1|exact G1]|]. intros ? t2 G2. exact G2.
Qed.
Lemma try_same_c es K D p : CP K D p -> ends (fun _ q => CP K D q) (CP K D) (try_same c es p).
Proof.
  intros HG. unfold try_same. eapply ends_bind; [apply (quiet_c _ K D); [apply quiet_clear|exact HG]|]. intros ? p1 G1. eapply ends_bind; [apply (framed_p _ K D); [apply framed_conv|exact G1]|]. intros xs p2 G2.
  unfold bind at 1, get at 1. eapply ends_bind; [destruct (negb _); [apply (quiet_c _ K D); [apply quiet_conversion|exact G2]|exact G2]|]. intros ? p3 G3. exact G3.
Qed.
Lemma else_c vs es cb K D t : CC K D t -> ends (fun _ u => CC K D u) (CC K D) (or_else c vs es cb t).
Proof.
  intros HG. unfold or_else. unfold bind at 1, get at 1. eapply ends_bind with (Q := fun _ u => CC K D u).
  - destruct (p_valid c (fst t)); [exact HG|]. eapply ends_bind; [apply on_p_c; apply try_same_c; exact HG|]. intros xs t1 G1. unfold bind at 1, get at 1. destruct (negb _); [exact G1|].
    eapply ends_bind; [apply invoke_c; exact G1|]. intros ? t2 G2. exact G2.
  - intros v t1 G1. exact G1.
Qed.
Lemma links_c K D : forall ls vs t, CC K D t -> ends (fun _ u => CC K D u) (CC K D) (follow_links c vs ls t).
Proof.
  induction ls as [|[es cb|k] ls IH]; intros vs t HG; cbn [follow_links]; [exact HG| |].
  - eapply ends_bind; [apply else_c; exact HG|]. intros ws u Gu. apply IH. exact Gu.
  - eapply ends_bind with (Q := fun _ u => CC K D u).
    + unfold on_error, bind, get. destruct (p_valid c (fst t)); exact HG.
    + intros ? u Gu. apply IH. exact Gu.
Qed.
Lemma call_c k K D p : G p -> CP K D p -> CP (S K) (S (S D)) (snd (do_call c hc cap p k)).
Proof.
  intros HG HC. assert (UP : CP (S K) (S (S D)) p) by (eapply CP_mono; [| |exact HC]; lia).
  assert (AF : forall A (o : res prs A), ends (fun _ q => CP (S K) (S (S D)) q) (CP (S K) (S (S D))) o -> CP (S K) (S (S D)) (after p o)) by (intros A o H; destruct o; auto).
  assert (HP : P K D p) by (split; [apply HG|exact HC]).
  destruct k as [es|es cb ls| | | |f|fs]; cbn [do_call snd].
  - apply AF. apply get_next_c; assumption.
  - assert (H : ends (fun _ u => CC (S K) (S (S D)) u) (CC (S K) (S (S D))) (chain_call c cap es cb ls (p, []))).
    { unfold chain_call. eapply ends_bind; [apply (try_c es cb K D); assumption|]. intros vs t Gt. apply links_c. exact Gt. }
    destruct (chain_call c cap es cb ls (p, [])) as [vs [q l]|e [q l]| |]; auto.
  - apply AF. eapply ends_weaken; [apply (ignore_c K D); exact HP|intros ? s H; eapply CP_mono; [| |exact H]; lia|contradiction].
  - exact UP.
  - apply AF. apply quiet_c; [apply quiet_header|exact UP].
  - apply AF. apply quiet_c; [apply quiet_field|exact UP].
  - apply AF. eapply ends_weaken; [apply (use_c fs K D); exact HP|intros ? s H; eapply CP_mono; [| |exact H]; lia|intros s H; eapply CP_mono; [| |exact H]; lia].
Qed.
Lemma later_c : forall ks K D p, G p -> CP K D p -> CP (K + length ks) (D + 2 * length ks) (later c hc cap p ks).
Proof.
  induction ks as [|k ks IH]; intros K D p HG HC; cbn [later length].
  - eapply CP_mono; [| |exact HC]; lia.
  - eapply CP_mono; [| |apply (IH (S K) (S (S D))); [apply (call_g c hc cap Hcap Hmod Hmod0 L R T HLR Hlim Hunl fl); exact HG|apply call_c; assumption]]; lia.
Qed.
Lemma construct_c msg name d src p : is_file src = fst fl -> snd fl = 0 -> src_okz src 0 -> short L (unread_of src 0) -> weight (unread_of src 0) <= T -> length (unread_of src 0) = N -> (mem -> exists data, src = SMem data) ->
  construct c cap true msg (p_init name d src) = Ok tt p -> CP (2 + length (lines (unread_of src 0))) 2 p.
Proof.
  intros S0 SN S1 S2 S3 SL SM E. assert (W0 : W (rdr_init d src)) by (constructor; try exact S0; try (rewrite SN; apply Nat.le_0_l); try exact (SplitCount.few_init _ _); try constructor; cbn; unfold B; auto; lia).
  set (K := length (lines (unread_of src 0))).
  assert (C0 : C K 0 (rdr_init d src)).
  { subst K. constructor; change (unread (rdr_init d src)) with (unread_of src 0); rewrite ?SL; cbn [rdr_init r_line r_curr r_chars r_src]; try lia. intros M. split; [exact (SM M)|lia]. }
  assert (H : ends (fun _ q => CP (2 + K) 2 q) (fun _ => True) (construct c cap true msg (p_init name d src))); [|rewrite E in H; exact H].
  unfold construct. eapply ends_bind; [eapply ends_weaken; [apply ends_and; [apply (read_line_g c cap Hcap Hmod Hmod0 L R T HLR Hlim Hunl fl (p_init name d src)); exact W0|apply (read_line_c K 0); split; [exact W0|exact C0]]|intros ? s H; exact H|intros s [[] _]]|].
  intros ? q [Gq Cq]. destruct (c_ignhdr c).
  - eapply ends_bind; [eapply ends_weaken; [apply (ignore_c (S K) 1); split; [apply Gq|exact Cq]|intros ? s H; exact H|contradiction]|]. intros b q2 G2. exact G2.
  - unfold bind, on_rdr, zoom, get_buffer. destruct (range_str _ _ _); [|exact Logic.I]. eapply CP_mono; [| |exact Cq]; lia.
Qed.
End C.
