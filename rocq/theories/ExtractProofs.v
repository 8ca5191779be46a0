(** extract computes [converts]. *)
From Coq Require Import DecimalZ.
From Verif Require Import Base Extract ConvSpec ListFacts.
Local Open Scope Z_scope.

Lemma digit_of_some x k : digit_of x = Some k <-> In x digit_chars /\ k = digit_value x.
Proof.
  assert (D : digit_of x = (if in_dec ascii_dec x digit_chars then Some (digit_value x) else None)).
  { destruct x as [[] [] [] [] [] [] [] []]; vm_compute; reflexivity. }
  rewrite D. destruct (in_dec ascii_dec x digit_chars); split.
  - intros H; injection H as <-; auto.
  - intros [_ ->]; reflexivity.
  - discriminate.
  - intros [H _]; contradiction.
Qed.
Lemma digit_of_none x : digit_of x = None <-> ~ In x digit_chars.
Proof.
  destruct (digit_of x) eqn:E.
  - apply digit_of_some in E as [E _]. split; [discriminate|contradiction].
  - split; [|reflexivity]. intros _ H. assert (K : digit_of x = Some (digit_value x)) by (apply digit_of_some; auto). congruence.
Qed.
Lemma digit_range x : In x digit_chars -> 0 <= digit_value x <= 9.
Proof.
  intros H. assert (K : Forall (fun x => 0 <= digit_value x <= 9) digit_chars).
  { repeat (constructor; [split; vm_compute; discriminate|]). constructor. }
  rewrite Forall_forall in K. auto.
Qed.
Lemma minus_no_digit : ~ In "-"%char digit_chars.
Proof. cbn; intuition discriminate. Qed.

Lemma value_nonneg s : Forall (fun x => In x digit_chars) s -> 0 <= value s.
Proof.
  induction 1 as [|x s Hx Hs IH]; cbn; [lia|]. apply digit_range in Hx.
  assert (0 < 10 ^ Z.of_nat (length s)) by (apply Z.pow_pos_nonneg; lia). nia.
Qed.
Lemma value_app a b : value (a ++ b) = value a * 10 ^ Z.of_nat (length b) + value b.
Proof.
  induction a as [|x a IH]; cbn [value app]; [lia|]. rewrite IH, app_length, Nat2Z.inj_add, Z.pow_add_r by lia. ring.
Qed.

Lemma fcd_fail mx : forall s acc, exists rest ds, s = ds ++ rest /\ Forall (fun x => In x digit_chars) ds /\
  (match rest with x :: _ => ~ In x digit_chars | [] => True end) /\ from_chars_digits mx acc false s = (false, acc, rest).
Proof.
  induction s as [|x s IH]; intros acc; cbn [from_chars_digits].
  - exists [], []. repeat split; auto.
  - destruct (digit_of x) eqn:E.
    + apply digit_of_some in E as [E _]. destruct (IH acc) as (rest & ds & -> & F & N & ->). exists rest, (x :: ds). repeat split; auto.
    + apply digit_of_none in E. exists (x :: s), []. repeat split; auto.
Qed.
Lemma fcd mx : forall s acc, 0 <= acc <= mx -> exists rest ds, s = ds ++ rest /\ Forall (fun x => In x digit_chars) ds /\
  (match rest with x :: _ => ~ In x digit_chars | [] => True end) /\
  let v := acc * 10 ^ Z.of_nat (length ds) + value ds in
  if v <=? mx then from_chars_digits mx acc true s = (true, v, rest)
  else exists w, from_chars_digits mx acc true s = (false, w, rest).
Proof.
  induction s as [|x s IH]; intros acc Ha.
  - exists [], []. repeat split; auto. cbn. rewrite Z.mul_1_r, Z.add_0_r.
    destruct (acc <=? mx) eqn:E; [reflexivity|apply Z.leb_gt in E; lia].
  - cbn [from_chars_digits]. destruct (digit_of x) as [k|] eqn:E.
    + apply digit_of_some in E as [E ->]. pose proof (digit_range x E) as R.
      destruct (acc * 10 + digit_value x <=? mx) eqn:L.
      * apply Z.leb_le in L. destruct (IH (acc * 10 + digit_value x) ltac:(lia)) as (rest & ds & -> & F & N & K).
        exists rest, (x :: ds). repeat split; auto. cbv zeta in *. cbn [length value].
        replace (acc * 10 ^ Z.of_nat (S (length ds)) + (digit_value x * 10 ^ Z.of_nat (length ds) + value ds))
          with ((acc * 10 + digit_value x) * 10 ^ Z.of_nat (length ds) + value ds); [exact K|].
        rewrite Nat2Z.inj_succ, Z.pow_succ_r by lia. ring.
      * apply Z.leb_gt in L. destruct (fcd_fail mx s acc) as (rest & ds & -> & F & N & K).
        exists rest, (x :: ds). repeat split; auto. cbv zeta. cbn [length value].
        match goal with |- context [?v <=? mx] => assert (V : mx < v) end.
        { rewrite Nat2Z.inj_succ, Z.pow_succ_r by lia. pose proof (value_nonneg ds F).
          assert (1 <= 10 ^ Z.of_nat (length ds)) by (apply (Z.pow_le_mono_r 10 0); lia).
          replace (acc * (10 * 10 ^ Z.of_nat (length ds)) + (digit_value x * 10 ^ Z.of_nat (length ds) + value ds))
            with ((acc * 10 + digit_value x) * 10 ^ Z.of_nat (length ds) + value ds) by ring. nia. }
        apply Z.leb_gt in V. rewrite V. exists acc; exact K.
    + apply digit_of_none in E. exists (x :: s), []. repeat split; auto. cbn. rewrite Z.mul_1_r, Z.add_0_r.
      destruct (acc <=? mx) eqn:L; [reflexivity|apply Z.leb_gt in L; lia].
Qed.

Definition wf (t : ity) : Prop := (0 < i_bits t)%nat.
Lemma pow_bits t : wf t -> 2 ^ Z.of_nat (i_bits t) = 2 * 2 ^ (Z.of_nat (i_bits t) - 1) /\ 1 <= 2 ^ (Z.of_nat (i_bits t) - 1).
Proof.
  unfold wf. intros H. replace (Z.of_nat (i_bits t)) with (Z.succ (Z.of_nat (i_bits t) - 1)) at 1 by lia.
  rewrite Z.pow_succ_r by lia. split; [reflexivity|]. apply (Z.pow_le_mono_r 2 0); lia.
Qed.
Lemma range_iff t z : ((tmin t <=? z) && (z <=? tmax t))%bool = true <-> in_range (i_signed t) (i_bits t) z.
Proof.
  unfold tmin, tmax, in_range, umax. rewrite andb_true_iff, !Z.leb_le. destruct (i_signed t); reflexivity.
Qed.

Lemma app_len_nil {A} (a b : list A) : length b = length (a ++ b) -> a = [].
Proof. rewrite app_length. destruct a; [reflexivity|cbn; lia]. Qed.

Lemma digits_split ds rest s : s = ds ++ rest -> Forall (fun x => In x digit_chars) ds ->
  (match rest with x :: _ => ~ In x digit_chars | [] => True end) -> Forall (fun x => In x digit_chars) s -> rest = [].
Proof.
  intros -> _ N F. destruct rest as [|x r]; [reflexivity|]. apply Forall_app in F as [_ F]. inversion F; contradiction.
Qed.

(** Integers. *)
Theorem to_num_int_iff t s z : wf t -> to_num_int t s = Some z <-> denotes (i_signed t) s z /\ in_range (i_signed t) (i_bits t) z.
Proof.
  intros W. destruct (pow_bits t W) as [P1 P2].
  (* the digits after the sign *)
  assert (D : forall sign s1, (sign = 1 \/ sign = -1 /\ i_signed t = true) ->
     (match (let '(ok, v, rest) := from_chars_digits (umax t) 0 true s1 in
       if Nat.eqb (length rest) (length s1) then None
       else if ok then let z := sign * v in if (tmin t <=? z) && (z <=? tmax t) then Some (z, rest) else None else None)
      with Some (z, []) => Some z | _ => None end = Some z)
     <-> digits s1 /\ z = sign * value s1 /\ in_range (i_signed t) (i_bits t) z).
  { intros sign s1 Hs.
    destruct (fcd (umax t) s1 0 ltac:(unfold umax; lia)) as (rest & ds & E & F & N & K).
    cbv zeta in K. rewrite Z.mul_0_l, Z.add_0_l in K.
    assert (Hd : digits s1 <-> rest = [] /\ ds <> []).
    { split.
      - intros [Hne Hf]. pose proof (digits_split ds rest s1 E F N Hf) as ->. rewrite app_nil_r in E. subst ds. auto.
      - intros [-> Hne]. rewrite app_nil_r in E. subst ds. split; auto. }
    destruct (value ds <=? umax t) eqn:L.
    - rewrite K. destruct (Nat.eqb (length rest) (length s1)) eqn:EL.
      + apply Nat.eqb_eq in EL. rewrite E in EL. apply app_len_nil in EL.
        split; [discriminate|]. intros [H _]. apply Hd in H as [_ H]. contradiction.
      + cbv zeta. destruct ((tmin t <=? sign * value ds) && (sign * value ds <=? tmax t)) eqn:ER.
        * apply range_iff in ER. destruct rest as [|x r].
          -- rewrite app_nil_r in E. subst ds. split.
             ++ intros H; injection H as <-. split; [|auto]. apply Hd. split; [reflexivity|].
                intros ->. discriminate.
             ++ intros (_ & -> & _). reflexivity.
          -- split; [discriminate|]. intros [H _]. apply Hd in H as [H _]. discriminate.
        * split; [discriminate|]. intros (H & -> & HR). apply Hd in H as [-> _]. rewrite app_nil_r in E. subst ds.
          apply range_iff in HR. congruence.
    - destruct K as (w & ->).
      assert (G : ~ (digits s1 /\ z = sign * value s1 /\ in_range (i_signed t) (i_bits t) z)).
      { intros (H & -> & HR). apply Hd in H as [-> _]. rewrite app_nil_r in E. subst ds.
        apply Z.leb_gt in L. unfold umax in L. unfold in_range in HR.
        destruct Hs as [->|[-> Hsg]]; [|rewrite Hsg in HR; lia]. destruct (i_signed t); lia. }
      destruct (Nat.eqb _ _); (split; [discriminate|contradiction]). }
  unfold to_num_int, from_chars_int.
  assert (Plain : forall s1, hd_error s1 <> Some "-"%char \/ i_signed t = false ->
     (digits s1 /\ z = 1 * value s1 /\ in_range (i_signed t) (i_bits t) z) <-> (denotes (i_signed t) s1 z /\ in_range (i_signed t) (i_bits t) z)).
  { intros s1 H. split.
    - intros (A & -> & B). split; [|exact B]. rewrite Z.mul_1_l. constructor; exact A.
    - intros [A B]. destruct A as [s2 A|s2 Hsg A].
      + rewrite Z.mul_1_l. auto.
      + exfalso. destruct H as [H|H]; [apply H; reflexivity|congruence]. }
  destruct (i_signed t) eqn:Sg.
  - destruct s as [|x s'].
    + rewrite <- Plain by (left; discriminate). apply D. left; reflexivity.
    + destruct (Ascii.eqb x "-") eqn:Ex.
      * apply Ascii.eqb_eq in Ex. subst x. rewrite (D (-1) s') by auto. split.
        -- intros (A & -> & B). split; [|exact B]. replace (-1 * value s') with (- value s') by lia. constructor; auto.
        -- intros [A B]. inversion A as [s2 A1 E1 E2|s2 Hsg A1 E1 E2]; subst.
           ++ exfalso. destruct A1 as [_ A1]. inversion A1. apply minus_no_digit; assumption.
           ++ split; [exact A1|]. split; [lia|exact B].
      * rewrite <- Plain; [apply D; auto|]. left. cbn. intros H; injection H as ->. rewrite Ascii.eqb_refl in Ex. discriminate.
  - rewrite <- Plain by auto. apply D. left; reflexivity.
Qed.

Lemma denotes_fun sg s z1 z2 : denotes sg s z1 -> denotes sg s z2 -> z1 = z2.
Proof.
  intros H1 H2. destruct H1 as [s D1|s S1 D1]; inversion H2 as [s2 D2|s2 S2 D2]; subst; try reflexivity; exfalso.
  - destruct D1 as [_ D1]. inversion D1. apply minus_no_digit; assumption.
  - destruct D2 as [_ D2]. inversion D2. apply minus_no_digit; assumption.
Qed.

(** Every number's decimal text denotes it. *)
Lemma pos_acc d : forall acc, Z.pos (Pos.of_uint_acc d acc) = Z.pos acc * 10 ^ Z.of_nat (length (S2 (DecimalString.NilEmpty.string_of_uint d))) + value (S2 (DecimalString.NilEmpty.string_of_uint d)).
Proof.
  assert (Pow : forall n, 10 ^ Z.of_nat (S n) = 10 * 10 ^ Z.of_nat n) by (intros; rewrite Nat2Z.inj_succ, Z.pow_succ_r by lia; reflexivity).
  induction d; intros acc; cbn [Pos.of_uint_acc DecimalString.NilEmpty.string_of_uint S2 list_ascii_of_string length value].
  1: cbn; lia.
  all: rewrite IHd, Pow; unfold S2; generalize (list_ascii_of_string (DecimalString.NilEmpty.string_of_uint d)); intros l;
    repeat match goal with |- context [digit_value ?x] => let v := eval vm_compute in (digit_value x) in change (digit_value x) with v end.
  1: rewrite Pos2Z.inj_mul; ring.
  all: rewrite Pos2Z.inj_add, Pos2Z.inj_mul; ring.
Qed.
Lemma value_of_uint d : value (S2 (DecimalString.NilEmpty.string_of_uint d)) = Z.of_uint d.
Proof.
  unfold Z.of_uint.
  induction d; [reflexivity|..]; cbn [Pos.of_uint DecimalString.NilEmpty.string_of_uint S2 list_ascii_of_string value].
  1: change (digit_value "0") with 0; unfold S2 in IHd; rewrite IHd; lia.
  all: cbn [Z.of_N]; rewrite pos_acc; unfold S2;
    repeat match goal with |- context [digit_value ?x] => let v := eval vm_compute in (digit_value x) in change (digit_value x) with v end; reflexivity.
Qed.
Lemma digits_of_uint d : Forall (fun x => In x digit_chars) (S2 (DecimalString.NilEmpty.string_of_uint d)).
Proof. induction d; cbn; constructor; try exact IHd; cbn; auto 12. Qed.
Lemma nilzero_value d : value (S2 (DecimalString.NilZero.string_of_uint d)) = Z.of_uint d /\ digits (S2 (DecimalString.NilZero.string_of_uint d)).
Proof.
  unfold DecimalString.NilZero.string_of_uint. destruct d; [split; [reflexivity|split; [discriminate|repeat constructor]]|..];
    (split; [apply value_of_uint|split; [discriminate|apply digits_of_uint]]).
Qed.
Theorem decimal_denotes sg z : (0 <= z \/ sg = true) -> denotes sg (decimal z) z.
Proof.
  intros H. unfold decimal. pose proof (DecimalZ.of_to z) as R. destruct (Z.to_int z) as [u|u] eqn:E; cbn [DecimalString.NilZero.string_of_int].
  - destruct (nilzero_value u) as [V D]. cbn [Z.of_int] in R. rewrite R in V. unfold S2 in *. rewrite <- V. apply dn_plain. exact D.
  - destruct (nilzero_value u) as [V D]. cbn [Z.of_int] in R.
    cbn [list_ascii_of_string]. unfold S2 in *. rewrite <- R, <- V. apply dn_minus; [|exact D].
    destruct H as [H|H]; [|exact H]. exfalso. destruct z; cbn in E; try discriminate. lia.
Qed.

Lemma str_eqb_eq : forall a b, str_eqb a b = true <-> a = b.
Proof.
  induction a as [|x a IH]; intros [|y b]; cbn; try (split; congruence).
  rewrite andb_true_iff, Ascii.eqb_eq, IH. split; [intros [-> ->]; reflexivity|intros H; injection H; auto].
Qed.

Lemma extract_bool_iff s b : extract_bool s = Some b <->
  (b = true /\ (s = S2 "1" \/ s = S2 "true")) \/ (b = false /\ (s = S2 "0" \/ s = S2 "false")).
Proof.
  unfold extract_bool. split.
  - destruct (Nat.eqb (length s) 1) eqn:E1.
    + destruct s as [|x [|y s]]; try discriminate.
      destruct (Ascii.eqb x "1") eqn:Ea; [apply Ascii.eqb_eq in Ea as ->; intros H; injection H as <-; auto|].
      destruct (Ascii.eqb x "0") eqn:Eb; [apply Ascii.eqb_eq in Eb as ->; intros H; injection H as <-; auto|discriminate].
    + destruct (_ && _) eqn:E2; [apply andb_true_iff in E2 as [_ E2]; apply str_eqb_eq in E2; intros H; injection H as <-; auto|].
      destruct (Nat.eqb (length s) 5 && _) eqn:E3; [apply andb_true_iff in E3 as [_ E3]; apply str_eqb_eq in E3; intros H; injection H as <-; auto|discriminate].
  - intros [[-> [-> | ->]]|[-> [-> | ->]]]; reflexivity.
Qed.

(** Well-formed types: positive widths. *)
Fixpoint wfty (t : ty) : Prop :=
  match t with
  | TInt i | TWrap i => wf i
  | TOpt t' => wfty t'
  | TVar ts => (fix all (ts : list ty) := match ts with [] => True | t' :: ts' => wfty t' /\ all ts' end) ts
  | _ => True
  end.

(** Induction over types with lists of alternatives. *)
Section Ind.
Context (P : ty -> Prop)
  (HInt : forall i, P (TInt i)) (HWrap : forall i, P (TWrap i)) (HFloat : forall f, P (TFloat f)) (HBool : P TBool)
  (HChar : P TChar) (HStr : P TString) (HView : P TView) (HOpt : forall t, P t -> P (TOpt t))
  (HVar : forall ts, Forall P ts -> P (TVar ts)) (HUser : forall f, P (TUser f)).
Fixpoint ty_rect' (t : ty) : P t :=
  match t with
  | TInt i => HInt i | TWrap i => HWrap i | TFloat f => HFloat f | TBool => HBool | TChar => HChar
  | TString => HStr | TView => HView | TOpt t' => HOpt t' (ty_rect' t')
  | TVar ts => HVar ts ((fix all (ts : list ty) : Forall P ts :=
                 match ts with [] => Forall_nil P | t' :: ts' => Forall_cons t' (ty_rect' t') (all ts') end) ts)
  | TUser f => HUser f
  end.
End Ind.

(** The text determines the value. *)
Theorem converts_fun : forall t s v w, converts t s v -> converts t s w -> v = w.
Proof.
  intros t; induction t as [i|i|f| | | | |t IH|ts IH|f] using ty_rect'; intros s v w; cbn [converts].
  - intros (z & -> & D & _) (z' & -> & D' & _). f_equal. eapply denotes_fun; eauto.
  - intros (z & -> & D & _) (z' & -> & D' & _). f_equal. eapply denotes_fun; eauto.
  - intros (z & -> & D) (z' & -> & D'). congruence.
  - intros [[-> [A|A]]|[-> [A|A]]] [[-> [B|B]]|[-> [B|B]]]; try reflexivity; rewrite A in B; discriminate.
  - intros (x & -> & A) (y & -> & B). congruence.
  - congruence.
  - congruence.
  - destruct v as [ | | | | | |[v|]| | ]; try contradiction; destruct w as [ | | | | | |[w|]| | ]; try contradiction.
    + intros A B. rewrite (IH _ _ _ A B). reflexivity.
    + intros A B. exfalso. eapply B; eauto.
    + intros A B. exfalso. eapply A; eauto.
    + reflexivity.
  - generalize O. induction IH as [|t ts Ht _ IHts]; intros i; [contradiction|].
    intros [(v' & -> & A)|[A A']] [(w' & -> & B)|[B B']].
    + rewrite (Ht _ _ _ A B). reflexivity.
    + exfalso. eapply B; eauto.
    + exfalso. eapply A; eauto.
    + eapply IHts; eauto.
  - intros (z & -> & D) (z' & -> & D'). congruence.
Qed.

(** extract on a readable column: it never fails to decide, and decides as specified. *)
Definition decides (t : ty) (s : str) (x : xres) : Prop :=
  match x with
  | Some (true, Some v) => converts t s v
  | Some (false, _) => forall v, ~ converts t s v
  | _ => False
  end.

Lemma of_num_decides t s o : (forall v, converts t s v <-> o = Some v) -> decides t s (of_num o).
Proof.
  intros H. destruct o as [v|]; cbn; [apply H; reflexivity|]. intros v K. apply H in K. discriminate.
Qed.

Lemma range_head m b e s x s' : range_str m b e = Some s -> s = x :: s' -> rd m b = Some x.
Proof.
  unfold range_str. destruct (_ && _); [|discriminate]. intros E ->.
  unfold rd. rewrite <- (firstn_skipn b m) in E |- *.
  destruct (Nat.le_gt_cases b (length m)) as [Hb|Hb].
  - rewrite nth_error_app2 by (rewrite firstn_length; lia). rewrite firstn_length, Nat.min_l by lia. rewrite Nat.sub_diag.
    rewrite skipn_app, firstn_length, Nat.min_l, Nat.sub_diag in E by lia. rewrite skipn_all2 in E by (rewrite firstn_length; lia).
    cbn in E. destruct (skipn b m) as [|c r]; [destruct (e - b)%nat; discriminate|].
    destruct (e - b)%nat; [discriminate|]. cbn in E. destruct c; [|discriminate]. destruct (unopt _); [|discriminate]. injection E as <- <-. reflexivity.
  - rewrite firstn_skipn in E. rewrite skipn_all2 in E by lia. destruct (e - b)%nat; discriminate.
Qed.
Lemma range_length m b e s : range_str m b e = Some s -> length s = (e - b)%nat /\ (b <= e <= length m)%nat.
Proof.
  unfold range_str. destruct (_ && _) eqn:E; [|discriminate]. apply andb_true_iff in E as [E1 E2]. apply Nat.leb_le in E1, E2.
  intros H. split; [|lia].
  assert (K : forall l s, unopt l = Some s -> length s = length l).
  { clear. induction l as [|[c|] l IH]; intros s H; cbn in H; try discriminate; [injection H as <-; reflexivity|].
    destruct (unopt l) eqn:E; [|discriminate]. injection H as <-. cbn. rewrite (IH _ eq_refl). reflexivity. }
  rewrite (K _ _ H), firstn_length, skipn_length. lia.
Qed.

Theorem extract_decides m b e s : range_str m b e = Some s -> (b = e -> exists x, rd m b = Some x) ->
  forall t, wfty t -> decides t s (extract m (b, e) t).
Proof.
  intros HR HC t. induction t as [i|i|f| | | | |t IH|ts IH|f] using ty_rect'; intros W; cbn [extract]; rewrite HR.
  - apply of_num_decides. intros v. cbn [converts]. split.
    + intros (z & -> & K). apply (to_num_int_iff i s z W) in K. rewrite K. reflexivity.
    + destruct (to_num_int i s) as [z|] eqn:E; [|discriminate]. intros H; injection H as <-. exists z. split; [reflexivity|]. apply to_num_int_iff; auto.
  - apply of_num_decides. intros v. cbn [converts]. split.
    + intros (z & -> & K). apply (to_num_int_iff i s z W) in K. rewrite K. reflexivity.
    + destruct (to_num_int i s) as [z|] eqn:E; [|discriminate]. intros H; injection H as <-. exists z. split; [reflexivity|]. apply to_num_int_iff; auto.
  - apply of_num_decides. intros v. cbn [converts]. unfold to_num_float. split.
    + intros (z & -> & K). rewrite K, Nat.eqb_refl. reflexivity.
    + destruct (f s) as [[z n]|]; [|discriminate]. destruct (Nat.eqb n (length s)) eqn:En; [|discriminate]. apply Nat.eqb_eq in En. subst n.
      intros H; injection H as <-. exists z; auto.
  - apply of_num_decides. intros v. cbn [converts]. split.
    + intros H. destruct (extract_bool s) as [b0|] eqn:E.
      * apply extract_bool_iff in E. destruct H as [[-> H]|[-> H]], E as [[-> E]|[-> E]]; try reflexivity; exfalso;
          destruct H as [-> | ->], E as [E|E]; discriminate.
      * exfalso. destruct H as [[-> [-> | ->]]|[-> [-> | ->]]]; discriminate.
    + destruct (extract_bool s) as [b0|] eqn:E; [|discriminate]. apply extract_bool_iff in E. intros H; injection H as <-.
      destruct E as [[-> E]|[-> E]]; auto.
  - destruct (range_length _ _ _ _ HR) as [HL HB].
    destruct s as [|x [|y s']].
    + cbn in HL. destruct HC as [x Hx]; [lia|]. rewrite Hx. replace (Nat.eqb e (b + 1)) with false by (symmetry; apply Nat.eqb_neq; lia).
      cbn. intros v (z & _ & H); discriminate.
    + rewrite (range_head _ _ _ _ _ _ HR eq_refl). cbn in HL. replace (Nat.eqb e (b + 1)) with true by (symmetry; apply Nat.eqb_eq; lia).
      cbn. eauto.
    + rewrite (range_head _ _ _ _ _ _ HR eq_refl). cbn in HL. replace (Nat.eqb e (b + 1)) with false by (symmetry; apply Nat.eqb_neq; lia).
      cbn. intros v (z & _ & H); discriminate.
  - cbn. reflexivity.
  - cbn. reflexivity.
  - specialize (IH W). destruct (extract m (b, e) t) as [[[] [v|]]|]; cbn in *; try contradiction; auto.
  - cbn [wfty] in W. cbn [converts].
    assert (K : forall i, match (fix variant (i : nat) (ts : list ty) : xres :=
             match ts with
             | [] => Some (false, None)
             | t' :: ts' =>
                 match extract m (b, e) t' with
                 | Some (true, Some v) => Some (true, Some (VVar i v))
                 | Some (true, None) => None
                 | Some (false, _) => variant (S i) ts'
                 | None => None
                 end
             end) i ts with
        | Some (true, Some v) => (fix first (i : nat) (ts : list ty) : Prop :=
                  match ts with
                  | [] => False
                  | t' :: ts' => (exists w, v = VVar i w /\ converts t' s w)
                                 \/ ((forall w, ~ converts t' s w) /\ first (S i) ts')
                  end) i ts
        | Some (false, _) => forall v, ~ (fix first (i : nat) (ts : list ty) : Prop :=
                  match ts with
                  | [] => False
                  | t' :: ts' => (exists w, v = VVar i w /\ converts t' s w)
                                 \/ ((forall w, ~ converts t' s w) /\ first (S i) ts')
                  end) i ts
        | _ => False end).
    { induction IH as [|t ts Ht _ IHts]; intros i; [intros v []|]. destruct W as [W1 W2].
      specialize (Ht W1). specialize (IHts W2 (S i)).
      destruct (extract m (b, e) t) as [[[] [v|]]|]; cbn [decides] in Ht; try contradiction.
      - left. exists v; auto.
      - destruct ((fix variant (i : nat) (ts : list ty) {struct ts} := _) (S i) ts) as [[[] [w|]]|]; try contradiction.
        + right; auto.
        + intros w0 [(w' & -> & A)|[_ A]]; [eapply Ht; eauto|eapply IHts; eauto].
        + intros w0 [(w' & -> & A)|[_ A]]; [eapply Ht; eauto|eapply IHts; eauto].
      - destruct ((fix variant (i : nat) (ts : list ty) {struct ts} := _) (S i) ts) as [[[] [w|]]|]; try contradiction.
        + right; auto.
        + intros w0 [(w' & -> & A)|[_ A]]; [eapply Ht; eauto|eapply IHts; eauto].
        + intros w0 [(w' & -> & A)|[_ A]]; [eapply Ht; eauto|eapply IHts; eauto]. }
    specialize (K O). unfold decides. exact K.
  - apply of_num_decides. intros v. cbn [converts]. split.
    + intros (z & -> & K). rewrite K. reflexivity.
    + destruct (f s) as [z|]; [|discriminate]. intros H; injection H as <-. eauto.
Qed.

(** Variant, by position. *)
Lemma converts_var ts s v : converts (TVar ts) s v <->
  exists i t w, v = VVar i w /\ nth_error ts i = Some t /\ converts t s w /\
    forall j t', (j < i)%nat -> nth_error ts j = Some t' -> forall w', ~ converts t' s w'.
Proof.
  cbn [converts].
  assert (K : forall k, (fix first (i : nat) (ts : list ty) : Prop :=
                  match ts with
                  | [] => False
                  | t' :: ts' => (exists w, v = VVar i w /\ converts t' s w)
                                 \/ ((forall w, ~ converts t' s w) /\ first (S i) ts')
                  end) k ts <->
    exists i t w, v = VVar (k + i) w /\ nth_error ts i = Some t /\ converts t s w /\
      forall j t', (j < i)%nat -> nth_error ts j = Some t' -> forall w', ~ converts t' s w').
  { induction ts as [|t ts IH]; intros k.
    - split; [contradiction|]. intros (i & t & w & _ & E & _). destruct i; discriminate.
    - rewrite (IH (S k)). split.
      + intros [(w & -> & A)|[A (i & t' & w & -> & E & B & N)]].
        * exists O, t, w. rewrite Nat.add_0_r. repeat split; auto. intros; lia.
        * exists (S i), t', w. rewrite Nat.add_succ_r. repeat split; auto.
          intros [|j] t2 Hj E2; [injection E2 as <-; exact A|]. cbn in E2. eapply N; eauto. lia.
      + intros ([|i] & t' & w & -> & E & B & N).
        * injection E as <-. left. exists w. rewrite Nat.add_0_r. auto.
        * right. split; [apply (N O t); [lia|reflexivity]|]. exists i, t', w. rewrite Nat.add_succ_r. repeat split; auto.
          intros j t2 Hj E2. apply (N (S j) t2); [lia|exact E2]. }
  rewrite (K O). reflexivity.
Qed.

(** ** Restrictions *)
Definition type_has (t : ity) (z : Z) : Prop := in_range (i_signed t) (i_bits t) z.
Lemma convert_to_id t z : wf t -> type_has t z -> convert_to t z = z.
Proof.
  intros W H. destruct (pow_bits t W) as [P1 P2]. unfold convert_to, type_has, in_range in *.
  destruct (i_signed t); cbn [andb].
  - destruct (Z_lt_ge_dec z 0) as [Hz|Hz].
    + assert (E : z mod 2 ^ Z.of_nat (i_bits t) = z + 2 ^ Z.of_nat (i_bits t)).
      { symmetry. apply Z.mod_unique with (-1); lia. }
      rewrite E. replace (2 ^ (Z.of_nat (i_bits t) - 1) <=? z + 2 ^ Z.of_nat (i_bits t)) with true by (symmetry; apply Z.leb_le; lia). lia.
    + rewrite Z.mod_small by lia. replace (2 ^ (Z.of_nat (i_bits t) - 1) <=? z) with false by (symmetry; apply Z.leb_gt; lia). reflexivity.
  - apply Z.mod_small. lia.
Qed.
Lemma pow_mono a b : (a <= b)%nat -> 2 ^ Z.of_nat a <= 2 ^ Z.of_nat b.
Proof. intros. apply Z.pow_le_mono_r; lia. Qed.
Lemma pow_mono' a b : (a <= b)%nat -> 2 ^ (Z.of_nat a - 1) <= 2 ^ (Z.of_nat b - 1).
Proof. intros. apply Z.pow_le_mono_r; lia. Qed.

Lemma promote_has t x : wf t -> type_has t x -> wf (promote t) /\ type_has (promote t) x.
Proof.
  intros W H. unfold promote. destruct (Nat.ltb (i_bits t) 32) eqn:E; [|auto]. apply Nat.ltb_lt in E.
  split; [unfold wf; cbn; lia|]. unfold type_has, in_range in *. cbn [i_signed i_bits].
  destruct (pow_bits t W) as [P1 P2].
  destruct (i_signed t).
  - pose proof (pow_mono' (i_bits t) 32 ltac:(lia)). lia.
  - assert (2 ^ Z.of_nat (i_bits t) <= 2 ^ (Z.of_nat 32 - 1)) by (apply Z.pow_le_mono_r; lia). lia.
Qed.
Lemma widen a b x : wf a -> (i_bits a <= i_bits b)%nat -> i_signed a = i_signed b -> type_has a x -> type_has b x.
Proof.
  unfold type_has, in_range. intros W Hb E H. rewrite <- E.
  pose proof (pow_mono _ _ Hb). pose proof (pow_mono' _ _ Hb). destruct (i_signed a); lia.
Qed.
Lemma common_has t u x : wf t -> wf u -> type_has t x ->
  (i_signed (common t u) = true \/ 0 <= x) -> wf (common t u) /\ type_has (common t u) x.
Proof.
  intros Wt Wu H Hs. destruct (promote_has t x Wt H) as [Wa Ha].
  assert (Wb : wf (promote u)) by (unfold promote, wf in *; destruct (Nat.ltb (i_bits u) 32); cbn; lia).
  unfold common in *. cbv zeta in *. set (a := promote t) in *. set (b := promote u) in *. clearbody a b. clear t u Wt Wu H.
  destruct (Bool.eqb (i_signed a) (i_signed b)) eqn:E.
  - cbn [i_bits i_signed] in *. split; [unfold wf in *; cbn; lia|]. apply (widen a); cbn; auto. lia.
  - destruct (i_signed a) eqn:Sa, (i_signed b) eqn:Sb; try discriminate.
    + destruct (Nat.leb (i_bits a) (i_bits b)) eqn:L.
      * apply Nat.leb_le in L. split; [exact Wb|]. destruct Hs as [Hs|Hs]; [congruence|].
        unfold type_has, in_range in *. rewrite Sb. rewrite Sa in Ha. pose proof (pow_mono _ _ L). destruct (pow_bits a Wa). lia.
      * split; [exact Wa|exact Ha].
    + destruct (Nat.leb (i_bits b) (i_bits a)) eqn:L.
      * split; [exact Wa|exact Ha].
      * apply Nat.leb_gt in L. split; [exact Wb|]. unfold type_has, in_range in *. rewrite Sb. rewrite Sa in Ha.
        destruct (pow_bits b Wb).
        assert (2 ^ Z.of_nat (i_bits a) <= 2 ^ (Z.of_nat (i_bits b) - 1)) by (apply Z.pow_le_mono_r; lia). lia.
Qed.
Lemma common_comm_signed t u : i_signed (common t u) = i_signed (common u t) /\ i_bits (common t u) = i_bits (common u t).
Proof.
  unfold common. cbv zeta. set (a := promote t). set (b := promote u). clearbody a b.
  destruct (i_signed a) eqn:Sa, (i_signed b) eqn:Sb; cbn [Bool.eqb i_signed i_bits]; rewrite ?(Nat.max_comm (i_bits a)); auto.
Qed.

Definition in_type (t : ity) : option nat := if i_signed t then None else Some (i_bits t).
Lemma promote_width t : i_bits (promote t) = width t.
Proof. unfold promote, width. destruct (Nat.ltb (i_bits t) 32) eqn:E; [apply Nat.ltb_lt in E|apply Nat.ltb_ge in E]; cbn [i_bits]; lia. Qed.
Lemma promote_unsigned t : i_signed (promote t) = false <-> stays_unsigned t.
Proof.
  unfold promote, stays_unsigned. destruct (Nat.ltb (i_bits t) 32) eqn:E; [apply Nat.ltb_lt in E|apply Nat.ltb_ge in E]; cbn [i_signed].
  - split; [discriminate|lia].
  - split; [auto|]. intros [A _]. exact A.
Qed.
Lemma compared_in_common t u m : compared_in t u m <-> m = in_type (common t u).
Proof.
  assert (K : compared_in t u (in_type (common t u))).
  { unfold common, in_type. cbv zeta. pose proof (promote_width t) as Bt. pose proof (promote_width u) as Bu.
    pose proof (promote_unsigned t) as Ut. pose proof (promote_unsigned u) as Uu.
    assert (Xt : i_signed (promote t) = true -> ~ stays_unsigned t) by (intros E K; apply Ut in K; congruence).
    assert (Xu : i_signed (promote u) = true -> ~ stays_unsigned u) by (intros E K; apply Uu in K; congruence).
    destruct (i_signed (promote t)) eqn:St, (i_signed (promote u)) eqn:Su; cbn [Bool.eqb i_signed i_bits].
    - apply ci_signed; intros C; exfalso; [apply (Xt eq_refl C)|apply (Xu eq_refl C)].
    - rewrite Bt, Bu. destruct (Nat.leb (width t) (width u)) eqn:L; [apply Nat.leb_le in L; rewrite Su, Bu|apply Nat.leb_gt in L; rewrite St].
      + apply ci_right; [apply Uu; reflexivity|exact L].
      + apply ci_signed; [intros C; exfalso; apply (Xt eq_refl C)|lia].
    - rewrite Bt, Bu. destruct (Nat.leb (width u) (width t)) eqn:L; [apply Nat.leb_le in L; rewrite St, Bt|apply Nat.leb_gt in L; rewrite Su].
      + apply ci_left; [apply Ut; reflexivity|exact L].
      + apply ci_signed; [lia|intros C; exfalso; apply (Xu eq_refl C)].
    - rewrite Bt, Bu. destruct (Nat.le_ge_cases (width t) (width u)) as [L|L].
      + rewrite Nat.max_r by lia. apply ci_right; [apply Uu; reflexivity|exact L].
      + rewrite Nat.max_l by lia. apply ci_left; [apply Ut; reflexivity|exact L]. }
  split; [|intros ->; exact K]. intros H. revert H K. generalize (in_type (common t u)). intros m' H K.
  destruct H as [A B|A B|A B], K as [C D|C D|C D]; auto; try (f_equal; lia); exfalso.
  - specialize (C A). lia.
  - specialize (D A). lia.
  - specialize (A C). lia.
  - specialize (B C). lia.
Qed.
Lemma counts_as_fun m x a b : counts_as m x a -> counts_as m x b -> a = b.
Proof. intros H K. destruct H; inversion K; subst; auto; lia. Qed.
Lemma common_wide t u : (i_bits t <= i_bits (common t u))%nat.
Proof.
  unfold common. cbv zeta. assert (P : (i_bits t <= i_bits (promote t))%nat) by (rewrite promote_width; unfold width; lia).
  destruct (i_signed (promote t)) eqn:St, (i_signed (promote u)) eqn:Su; cbn [Bool.eqb i_signed i_bits]; try lia.
  - destruct (Nat.leb _ _) eqn:L; [apply Nat.leb_le in L|]; lia.
  - destruct (Nat.leb _ _) eqn:L; [|apply Nat.leb_gt in L]; lia.
Qed.
Lemma convert_to_counts t u x : wf t -> wf u -> type_has t x -> counts_as (in_type (common t u)) x (convert_to (common t u) x).
Proof.
  intros Wt Wu H. unfold in_type. destruct (i_signed (common t u)) eqn:S.
  - destruct (common_has t u x Wt Wu H) as [A B]; [auto|]. rewrite convert_to_id by assumption. constructor.
  - destruct (Z_lt_ge_dec x 0) as [L|L].
    + replace (convert_to (common t u) x) with (x + 2 ^ Z.of_nat (i_bits (common t u))); [constructor; exact L|].
      unfold convert_to. rewrite S. cbn [andb]. apply Z.mod_unique with (-1); [|lia]. left.
      assert (P : - 2 ^ Z.of_nat (i_bits (common t u)) <= x); [|lia].
      pose proof (pow_mono _ _ (common_wide t u)) as M. destruct (pow_bits t Wt) as [P1 P2].
      unfold type_has, in_range in H. destruct (i_signed t); lia.
    + destruct (common_has t u x Wt Wu H) as [A B]; [right; lia|]. rewrite convert_to_id by assumption. constructor. lia.
Qed.
Lemma common_comm t u : common t u = common u t.
Proof. destruct (common_comm_signed t u) as [A B]. destruct (common t u), (common u t); cbn in *; congruence. Qed.
(** The comparison of the model is the comparison of what the two numbers count as. *)
Theorem icmp_exact t x k : wf t -> type_has t x -> proper k -> exists m x' k',
  compared_in t (k_ty k) m /\ counts_as m x x' /\ counts_as m (k_val k) k' /\ icmp t x k = (x' ?= k').
Proof.
  intros W H [Wk Hk]. unfold icmp. eexists _, _, _. split; [apply compared_in_common; reflexivity|].
  split; [apply convert_to_counts; assumption|]. split; [|reflexivity]. rewrite common_comm. apply convert_to_counts; assumption.
Qed.
Lemma relation_iff t x k : wf t -> type_has t x -> proper k ->
  forall R f, (forall a b, f (a ?= b) = true <-> R a b) -> f (icmp t x k) = true <-> relation R t x k.
Proof.
  intros W H P R f HR. destruct (icmp_exact t x k W H P) as (m & x' & k' & A & B & C & E). rewrite E, HR. split.
  - intros K. exists m, x', k'. auto.
  - intros (m2 & x2 & k2 & A2 & B2 & C2 & K). rewrite compared_in_common in A, A2. subst m m2.
    rewrite (counts_as_fun _ _ _ _ B B2), (counts_as_fun _ _ _ _ C C2). exact K.
Qed.
Lemma relation_plain t x k R : same_signs t x k -> relation R t x k <-> R x (k_val k).
Proof.
  intros S. split.
  - intros (m & x' & k' & A & B & C & K). rewrite compared_in_common in A. destruct S as [S|[S1 S2]].
    + rewrite compared_in_common in S. rewrite <- S in A. subst m. inversion B; inversion C; subst. assumption.
    + inversion B; inversion C; subst; try assumption; try lia; congruence.
  - intros K. exists (in_type (common t (k_ty k))), x, (k_val k). split; [apply compared_in_common; reflexivity|].
    destruct S as [S|[S1 S2]].
    + apply compared_in_common in S as <-. split; [constructor|]. split; [constructor|exact K].
    + destruct (in_type _); (split; [constructor; assumption|]; split; [constructor; assumption|exact K]) || (split; [constructor|]; split; [constructor|exact K]).
Qed.

Lemma number_ity t v i o : number t v i o -> ity_of t = i.
Proof. induction 1; try reflexivity; assumption. Qed.
Lemma number_wf t v i o : number t v i o -> wfty t -> wf i.
Proof. induction 1; cbn [wfty]; intros W; try exact W; try (unfold wf; cbn; lia); apply IHnumber; exact W. Qed.
Lemma number_range t s v i x : converts t s v -> number t v i (Some x) -> type_has i x.
Proof.
  intros C H. remember (Some x) as o eqn:E. revert x s C E. induction H; intros y s C E; try discriminate; try (injection E as <-).
  - destruct C as (z' & E' & _ & R). injection E' as <-. exact R.
  - destruct C as (z' & E' & _ & R). injection E' as <-. exact R.
  - unfold type_has, in_range. cbn. lia.
  - unfold type_has, in_range. cbn. pose proof (nat_ascii_bounded x). lia.
  - unfold type_has, in_range. cbn. lia.
  - unfold type_has, in_range. cbn. lia.
  - eapply IHnumber; [exact C|exact E].
Qed.
Lemma number_char x : char_val x = if Nat.ltb (nat_of_ascii x) 128 then Z.of_nat (nat_of_ascii x) else Z.of_nat (nat_of_ascii x) - 256.
Proof. destruct x as [[] [] [] [] [] [] [] []]; reflexivity. Qed.
Lemma number_vcmp t v i o k : number t v i o -> vcmp i v k = match o with Some x => icmp i x k | None => Lt end.
Proof.
  induction 1; cbn [vcmp num_of]; try reflexivity; try assumption.
  - rewrite number_char. apply Nat.ltb_lt in H as ->. reflexivity.
  - rewrite number_char. apply Nat.ltb_ge in H as ->. reflexivity.
Qed.
Theorem restriction_meaning t r v i o : number t v i o -> wf i -> (forall x, o = Some x -> type_has i x) -> numeric r ->
  Forall proper (constants r) -> ss_valid i r v = true <-> satisfies r i o.
Proof.
  intros V W H N P.
  assert (K : forall k, vcmp i v k = match o with Some x => icmp i x k | None => Lt end) by (intros k; apply (number_vcmp _ _ _ _ k V)).
  clear V. unfold ss_valid, satisfies. destruct o as [x|].
  - specialize (H x eq_refl).
    assert (RI : forall k, In k (constants r) -> forall R f, (forall a b, f (a ?= b) = true <-> R a b) -> f (vcmp i v k) = true <-> relation R i x k).
    { intros k Hk R f HR. rewrite K. apply relation_iff; auto. rewrite Forall_forall in P. auto. }
    assert (GT : forall k, In k (constants r) -> is_gt (vcmp i v k) = true <-> relation Z.gt i x k).
    { intros k Hk. apply (RI k Hk). intros a b. unfold is_gt. destruct (a ?= b) eqn:E; [apply Z.compare_eq_iff in E|rewrite Z.compare_lt_iff in E|rewrite Z.compare_gt_iff in E]; (split; [try discriminate; lia|try reflexivity; lia]). }
    assert (GE : forall k, In k (constants r) -> is_ge (vcmp i v k) = true <-> relation Z.ge i x k).
    { intros k Hk. apply (RI k Hk). intros a b. unfold is_ge. destruct (a ?= b) eqn:E; [apply Z.compare_eq_iff in E|rewrite Z.compare_lt_iff in E|rewrite Z.compare_gt_iff in E]; (split; [try discriminate; lia|try reflexivity; lia]). }
    assert (LT : forall k, In k (constants r) -> is_lt (vcmp i v k) = true <-> relation Z.lt i x k).
    { intros k Hk. apply (RI k Hk). intros a b. unfold is_lt. destruct (a ?= b) eqn:E; [apply Z.compare_eq_iff in E|rewrite Z.compare_lt_iff in E|rewrite Z.compare_gt_iff in E]; (split; [try discriminate; lia|try reflexivity; lia]). }
    assert (LE : forall k, In k (constants r) -> is_le (vcmp i v k) = true <-> relation Z.le i x k).
    { intros k Hk. apply (RI k Hk). intros a b. unfold is_le. destruct (a ?= b) eqn:E; [apply Z.compare_eq_iff in E|rewrite Z.compare_lt_iff in E|rewrite Z.compare_gt_iff in E]; (split; [try discriminate; lia|try reflexivity; lia]). }
    destruct r; try contradiction; cbn [constants meaning] in *.
    + clear - RI. induction ks as [|k ks IH]; cbn [ax_impl]; [split; auto|].
      rewrite andb_true_iff, IH by (intros; apply RI; [right; assumption|assumption]).
      rewrite (RI k (or_introl eq_refl) (fun a b => a <> b) (fun c => match c with Eq => false | _ => true end)).
      * split; [intros [A B]; constructor; assumption|]. intros A. inversion A; subst. auto.
      * intros a b. destruct (a ?= b) eqn:E; [apply Z.compare_eq_iff in E|rewrite Z.compare_lt_iff in E|rewrite Z.compare_gt_iff in E]; (split; [try discriminate; lia|try reflexivity; lia]).
    + clear - RI. induction ks as [|k ks IH]; cbn [nx_impl]; [split; [discriminate|intros A; inversion A]|].
      rewrite orb_true_iff, IH by (intros; apply RI; [right; assumption|assumption]).
      rewrite (RI k (or_introl eq_refl) (fun a b => a = b) (fun c => match c with Eq => true | _ => false end)).
      * split; [intros [A|A]; [left|right]; assumption|]. intros A. inversion A; subst; auto.
      * intros a b. destruct (a ?= b) eqn:E; [apply Z.compare_eq_iff in E|rewrite Z.compare_lt_iff in E|rewrite Z.compare_gt_iff in E]; (split; [try discriminate; lia|try reflexivity; lia]).
    + apply GT; left; reflexivity.
    + apply GE; left; reflexivity.
    + apply LT; left; reflexivity.
    + apply LE; left; reflexivity.
    + rewrite andb_true_iff, GE, LE by (cbn; auto). reflexivity.
    + rewrite orb_true_iff, GT, LT by (cbn; auto). reflexivity.
  - destruct r; try contradiction; cbn [constants absent_ok] in *.
    + clear - K. split; [auto|]. intros _. induction ks as [|k ks IH]; cbn [ax_impl]; [reflexivity|].
      rewrite (K k). exact IH.
    + clear - K. split; [|contradiction]. induction ks as [|k ks IH]; cbn [nx_impl]; [discriminate|].
      rewrite (K k). cbn. exact IH.
    + rewrite (K k). cbn. split; [discriminate|contradiction].
    + rewrite (K k). cbn. split; [discriminate|contradiction].
    + rewrite (K k). cbn. split; auto.
    + rewrite (K k). cbn. split; auto.
    + rewrite (K lo), (K hi). cbn. split; [discriminate|contradiction].
    + rewrite (K lo), (K hi). cbn. split; auto.
Qed.
Theorem meaning_plain r t x : numeric r -> Forall (same_signs t x) (constants r) -> meaning r t x <-> plain_meaning r x.
Proof.
  intros N S. assert (E : forall k, In k (constants r) -> forall R, relation R t x k <-> R x (k_val k)).
  { intros k Hk R. apply relation_plain. rewrite Forall_forall in S. auto. }
  destruct r; try contradiction; cbn [constants meaning plain_meaning] in *; try (apply E; left; reflexivity).
  - clear - E. induction ks as [|k ks IH]; [split; intros; constructor|]. rewrite !Forall_cons_iff, IH by (intros; apply E; right; assumption).
    rewrite (E k (or_introl eq_refl)). reflexivity.
  - clear - E. induction ks as [|k ks IH]; [split; intros A; inversion A|]. rewrite !Exists_cons, IH by (intros; apply E; right; assumption).
    rewrite (E k (or_introl eq_refl)). reflexivity.
  - rewrite !E by (cbn; auto). lia.
  - rewrite !E by (cbn; auto). reflexivity.
Qed.

Lemma number_same t v i o : number t v i o -> forall i' o', number t v i' o' -> i' = i /\ o' = o.
Proof.
  intros H. assert (A : ity_of t = i) by (eapply number_ity; exact H).
  intros i' o' K. split; [rewrite <- A; symmetry; eapply number_ity; exact K|]. clear A. revert i' o' K.
  induction H; intros i' o' K; inversion K; subst; try reflexivity; try lia. eapply IHnumber. eassumption.
Qed.
Lemma comparable_number t : comparable t -> forall s x, converts t s x -> exists i o, number t x i o.
Proof.
  assert (D : forall t, comparable t -> exists x i o, number t x i o).
  { clear. induction t; cbn; intros H; try contradiction.
    - exists (VInt 0). eexists _, _. constructor.
    - exists (VInt 0). eexists _, _. constructor.
    - exists (VBool true). eexists _, _. constructor.
    - exists (VChar "a"). eexists _, _. apply nu_ascii. cbn. lia.
    - destruct (IHt H) as (x & i & o & K). exists (VOpt (Some x)). eexists _, _. constructor. exact K. }
  induction t; cbn [comparable converts]; intros H s x C; try contradiction.
  - destruct C as (z & -> & _). eexists _, _. constructor.
  - destruct C as (z & -> & _). eexists _, _. constructor.
  - destruct C as [[-> _]|[-> _]]; eexists _, _; constructor.
  - destruct C as (y & -> & _). destruct (Nat.lt_ge_cases (nat_of_ascii y) 128); eexists _, _; [apply nu_ascii|apply nu_high]; assumption.
  - destruct x as [| | | | | |[w|]| |]; try contradiction.
    + destruct (IHt H s w C) as (i & o & K). eexists _, _. apply nu_some. exact K.
    + destruct (D t H) as (w & i & o & K). eexists _, _. eapply nu_none. exact K.
Qed.
(** What the model computes is what the specification says. *)
Theorem passes_iff t s r x : wfty t -> converts t s x -> restricts t r -> ss_valid (ity_of t) r x = true <-> passes t r x.
Proof.
  intros W C R.
  assert (K : numeric r -> comparable t /\ Forall proper (constants r) ->
    ss_valid (ity_of t) r x = true <-> exists i o, number t x i o /\ satisfies r i o).
  { intros N [A P]. destruct (comparable_number t A s x C) as (i & o & H). rewrite (number_ity _ _ _ _ H).
    rewrite (restriction_meaning t r x i o H (number_wf _ _ _ _ H W)); [|intros z ->; eapply number_range; eauto|exact N|exact P].
    split; [intros S; exists i, o; auto|]. intros (i' & o' & H' & S). destruct (number_same _ _ _ _ H _ _ H') as [-> ->]. exact S. }
  destruct r; try (apply K; [exact Logic.I|exact R]); cbn [ss_valid passes restricts converts] in *.
  - destruct R as [-> | ->]; cbn [converts] in C; subst x; destruct s; (split; [try discriminate; intros _; split; discriminate|try reflexivity; intros [A B]; exfalso; congruence]).
  - reflexivity.
Qed.
