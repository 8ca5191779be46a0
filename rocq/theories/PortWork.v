(** The portable reader of files (common.hpp:53-86) measures the line once more for every 127 bytes it appends: the work of
    reading a line is not linear in its length (C57).  Lower bounds. *)
From Verif Require Import Base Setup Splitter SplitPure ListFacts Extract Converter Reader LineSpec LineProofs GetLineProofs ReaderBase Parser SplitCost ReadCost ReadWork.

(** The counter never goes down. *)
Definition up {S A} (m : M (S * nat) A) : Prop := forall s n, ob (m (s, n)) (fun _ _ n' => n <= n') (fun _ n' => n <= n').
Lemma up_ret {S A} (a : A) : up (S:=S) (ret a). Proof. intros s n. apply ob_ret. lia. Qed.
Lemma up_free {S A} (m : M S A) : up (free m). Proof. intros s n. apply ob_free; intros; lia. Qed.
Lemma up_bind {S A B} (m : M (S * nat) A) (k : A -> M (S * nat) B) : up m -> (forall a, up (k a)) -> up (bind m k).
Proof.
  intros H K s n. apply ob_bind. eapply ob_weaken; [apply H| |auto]. intros a s' n' L. eapply ob_weaken; [apply K| |]; intros; cbv beta in *; lia.
Qed.
Lemma up_spend {S A} k (m : M (S * nat) A) : up m -> up (spend k ;; m).
Proof. intros H s n. apply ob_bind, ob_spend. eapply ob_weaken; [apply H| |]; intros; cbv beta in *; lia. Qed.
Lemma up_ask {S A} (k : S -> M (S * nat) A) : (forall a, up (k a)) -> up (bind ask k).
Proof. intros H s n. apply ob_bind, ob_ask. apply H. Qed.
Lemma up_put i ch : up (n_put i ch). Proof. apply up_spend, up_free. Qed.
Lemma up_peek i : up (n_peek i). Proof. apply up_spend, up_free. Qed.
Lemma up_grow k : up (n_grow k). Proof. apply up_ask. intros l. apply up_spend, up_free. Qed.
Lemma up_put_all : forall s i, up (n_put_all i s).
Proof. induction s as [|x s IH]; intros i; cbn [n_put_all]; [apply up_ret|]. apply up_bind; [apply up_put|]. intros _. apply IH. Qed.

(** Measuring looks at every byte. *)
Lemma strlen_work : forall f i l n, ob (n_strlen_from f i (l, n)) (fun k _ n' => i <= k /\ n + (k - i) <= n') (fun _ _ => True).
Proof.
  induction f as [|f IH]; intros i l n; cbn [n_strlen_from]; [exact Logic.I|]. apply ob_bind. unfold n_peek. apply ob_bind, ob_spend, ob_free; [|auto].
  intros ch l' _. destruct (Ascii.eqb ch NUL); [apply ob_ret; lia|]. eapply ob_weaken; [apply IH| |auto]. intros k s n' [A B]. lia.
Qed.

(** The bytes of a piece are taken. *)
Lemma take_repeat x : Ascii.eqb x LF = false -> forall k r, fgets_take k (repeat x (k + r)) = (repeat x k, repeat x r).
Proof.
  intros E. induction k as [|k IH]; intros r; cbn [Nat.add repeat fgets_take]; [destruct r; reflexivity|].
  rewrite E, IH. reflexivity.
Qed.
Lemma nulfree_repeat x k : x <> NUL -> nulfree (repeat x k).
Proof. intros H X. apply repeat_spec in X. congruence. Qed.

Section L.
Context (x : ascii) (Hx : x <> NUL) (Hlf : Ascii.eqb x LF = false).
Definition filled (k : nat) (l : lp) : Prop :=
  exists b X, l_blk l = Some b /\ b_cells b = map Some (repeat x k) ++ Some NUL :: X /\ length (b_cells b) = l_n l /\ initial_size <= l_n l.

(** [m] pieces, the first of which finds [k] bytes. *)
Lemma loop_work : forall m fuel k l n, filled k l ->
  ob (n_fgets_loop fuel k (repeat x (127 * m)) (l, n)) (fun _ _ n' => 2 * n + 2 * (m * k) + 127 * (m * (m - 1)) <= 2 * n') (fun _ _ => True).
Proof.
  induction m as [|m IH]; intros fuel k l n F; (destruct fuel as [|f]; [exact Logic.I|]); cbn [n_fgets_loop].
  - replace (127 * 0) with 0 by lia. cbn [repeat]. apply ob_ret. lia.
  - replace (127 * S m) with (127 + 127 * m) by lia. pose proof (take_repeat x Hlf 127 (127 * m)) as TK.
    assert (NE : exists y ys, repeat x (127 + 127 * m) = y :: ys) by (exists x, (repeat x (126 + 127 * m)); reflexivity).
    destruct NE as (y & ys & Ey). rewrite Ey in *. change (initial_size - 1) with 127. rewrite TK. clear Ey y ys TK.
    apply ob_bind, ob_spend, ob_bind, ob_ask, ob_bind. rewrite repeat_length.
    eapply ob_with; [apply ct_strlen|]. eapply ob_weaken; [apply strlen_work| |auto]. intros u l0 n1 [_ W] E1. rewrite Nat.sub_0_r in W.
    destruct l as [lb ln lf]. destruct F as (b & X & Eb & Ec & El & Ei). cbn [l_blk l_n] in *. subst lb.
    cbn [cells_of] in E1.
    pose proof (strlen_from_spec b ln lf X (repeat x k) [] (S (length (b_cells b))) Ec (nulfree_repeat x k Hx)) as SL. cbn [app length] in SL.
    rewrite SL in E1 by (rewrite Ec, app_length, map_length; cbn; lia). clear SL. injection E1 as <- <-. rewrite repeat_length in *. cbv zeta.
    rewrite (strlen_nulfree (repeat x 127) (nulfree_repeat x 127 Hx)), repeat_length.
    apply ob_bind, ob_spend, ob_bind, ob_ask, ob_bind. cbn [l_n].
    assert (G : ob ((if ln <=? 127 + k then n_grow (ln * 2) else ret tt) (mkLp (Some b) ln lf, n1 + 128))
      (fun _ l2 n2 => n1 <= n2 /\ exists b2 Y, l_blk l2 = Some b2 /\ b_cells b2 = map Some (repeat x k) ++ Y /\ length (b_cells b2) = l_n l2 /\ initial_size <= l_n l2 /\ k + 127 < l_n l2) (fun _ _ => True)).
    { assert (K : k < ln) by (rewrite <- El, Ec, app_length, map_length, repeat_length; cbn; lia).
      destruct (ln <=? 127 + k) eqn:Eg.
      - apply Nat.leb_le in Eg. unfold initial_size in Ei. unfold n_grow. apply ob_bind, ob_ask, ob_bind, ob_spend, ob_free; [|auto].
        intros [] l2 E2. unfold grow, modify in E2. injection E2 as <-. split; [lia|]. cbn [l_blk l_fresh l_n].
        destruct (grow_cells lf b (repeat x k) (Some NUL :: X) (ln * 2) Ec ltac:(lia)) as (Y' & A1 & A2 & A3).
        exists (realloc lf (Some b) (ln * 2)), Y'. split; [reflexivity|]. split; [exact A1|]. split; [exact A2|]. unfold initial_size. lia.
      - apply Nat.leb_gt in Eg. apply ob_ret. split; [lia|]. exists b, (Some NUL :: X). cbn [l_blk l_n]. split; [reflexivity|]. split; [exact Ec|]. split; [exact El|]. split; [exact Ei|lia]. }
    eapply ob_weaken; [exact G| |auto]. clear G. intros [] l2 n2 (N2 & b2 & Y & Eb2 & Ec2 & El2 & Ei2 & Lk). cbv beta.
    destruct l2 as [lb2 ln2 lf2]. cbn [l_blk l_n] in *. subst lb2. rewrite firstn_all2 by (rewrite repeat_length; lia).
    assert (LY : 127 < length Y) by (rewrite Ec2, app_length, map_length, repeat_length in El2; lia).
    destruct (cells_split Y 127 LY) as (z & Y2 & EY).
    assert (EY' : Y = firstn 127 Y ++ z :: Y2) by (rewrite <- EY, firstn_skipn; reflexivity).
    assert (LF1 : length (firstn 127 Y) = 127) by (apply firstn_length_le; lia).
    apply ob_bind. eapply ob_with; [apply ct_put_all|]. eapply ob_weaken; [apply up_put_all| |auto]. intros [] l3 n3 N3 E3. cbv beta in N3.
    pose proof (put_all_spec ln2 lf2 (repeat x 127) b2 (repeat x k) (firstn 127 Y) (z :: Y2)) as PA. rewrite !repeat_length in PA.
    rewrite PA in E3; [|rewrite Ec2; f_equal; exact EY'|exact LF1]. clear PA. rewrite <- repeat_app in E3. injection E3 as <-.
    apply ob_bind. eapply ob_with; [apply ct_put|]. eapply ob_weaken; [apply up_put| |auto]. intros [] l4 n4 N4 E4. cbv beta in N4.
    rewrite (put_at _ (map Some (repeat x (k + 127))) z Y2 NUL (k + 127) ln2 lf2) in E4; [|reflexivity|rewrite map_length, repeat_length; reflexivity].
    injection E4 as <-. destruct (k + 127) as [|k'] eqn:Ek; [lia|]. rewrite <- Ek in *.
    apply ob_bind. eapply ob_with; [apply ct_peek|]. eapply ob_weaken; [apply up_peek| |auto]. intros ch l5 n5 N5 E5. cbv beta in N5.
    rewrite (peek_at _ (map Some (repeat x k')) x (Some NUL :: Y2) k' ln2 lf2) in E5.
    2:{ cbn [b_cells]. rewrite Ek. cbn [repeat]. rewrite repeat_cons, map_app, <- app_assoc. reflexivity. }
    2:{ rewrite map_length, repeat_length. reflexivity. }
    injection E5 as <- <-. rewrite Hlf. eapply ob_weaken; [apply IH| |auto].
    + eexists _, Y2. cbn [l_blk l_n]. split; [reflexivity|]. split; [reflexivity|]. split; [|exact Ei2]. cbn [b_cells].
      rewrite app_length, map_length, repeat_length. cbn [length]. rewrite Ec2, EY', !app_length, map_length, repeat_length in El2. cbn [length] in El2. lia.
    + intros a l6 n6 H. cbv beta in H. destruct m as [|m']; nia.
Qed.
End L.

(** Nor does it in the rest of the reader. *)
Lemma up_inside {T S A} (g : T -> S) p (m : M (S * nat) A) : up m -> up (inside g p m).
Proof. intros H t n. apply ob_inside. eapply ob_weaken; [apply H| |]; intros; assumption. Qed.
Lemma up_fuel {S A} : up (S:=S) (A:=A) (fun _ => OutOfFuel). Proof. intros s n; exact Logic.I. Qed.
Lemma up_ub {S A} w : up (S:=S) (A:=A) (fun _ => UB w). Proof. intros s n; exact Logic.I. Qed.
Ltac upt :=
  repeat match goal with
  | |- up (ret _) => apply up_ret
  | |- up (free _) => apply up_free
  | |- up (ub _) => apply up_ub
  | |- up (bind (spend _) _) => apply up_spend
  | |- up (bind ask _) => apply up_ask; intros ?
  | |- up (bind _ _) => apply up_bind; [|intros ?]
  | |- up (n_on_lp _ _) => apply up_inside
  | |- up (n_put _ _) => apply up_put
  | |- up (n_peek _) => apply up_peek
  | |- up (n_grow _) => apply up_grow
  | |- up (n_put_all _ _) => apply up_put_all
  | |- up (if ?b then _ else _) => destruct b
  | |- up (let '(_, _) := ?x in _) => destruct x
  | H : forall _, up _ |- _ => apply H
  | H : forall _ _, up _ |- _ => apply H
  | H : forall _ _ _, up _ |- _ => apply H
  | H : up _ |- _ => apply H
  end.
Lemma up_glb : forall rest used k, up (n_glb_loop used k rest).
Proof. induction rest as [|ch rest IH]; intros used k; cbn [n_glb_loop]; upt. Qed.
Lemma up_strlen : forall f i, up (n_strlen_from f i).
Proof. induction f as [|f IH]; intros i; cbn [n_strlen_from]; [apply up_ub|]. upt. Qed.
Lemma up_fgets_loop : forall f u rest, up (n_fgets_loop f u rest).
Proof.
  pose proof up_strlen. induction f as [|f IH]; intros u rest; cbn [n_fgets_loop]; [apply up_fuel|].
  destruct rest as [|y rest]; [apply up_ret|]. destruct (fgets_take (initial_size - 1) (y :: rest)) as [bf rest']. cbv zeta. upt.
  match goal with |- up (match ?k with 0 => _ | S _ => _ end) => destruct k end; upt.
Qed.
Lemma up_get_line cap w : up (n_get_line cap w).
Proof.
  pose proof up_glb. pose proof up_fgets_loop. unfold n_get_line. upt. destruct (r_src a) as [rest|rest|data|size].
  - unfold n_get_line_posix. upt.
  - unfold n_get_line_fgets. upt.
  - upt. unfold n_get_line_buffer. match goal with |- context [skipn ?k ?l] => destruct (skipn k l) end; upt.
  - upt.
Qed.
Lemma up_read_next_loop c cap : forall f, up (n_read_next_loop c cap f).
Proof.
  induction f as [|f IH]; cbn [n_read_next_loop]; unfold n_remove_eol; [apply up_fuel|]. pose proof (up_get_line cap NextLine). upt. match goal with |- up (match ?o with _ => _ end) => destruct o end; upt.
Qed.

Section R.
Context (x : ascii) (Hx : x <> NUL) (Hlf : Ascii.eqb x LF = false).
Lemma line_work m fr n : ob (n_get_line_fgets (repeat x (127 * m)) (mkLp None 0 fr, n)) (fun _ _ n' => 127 * (m * (m - 1)) <= 2 * n') (fun _ _ => True).
Proof.
  unfold n_get_line_fgets. apply ob_bind, ob_ask, ob_bind. cbn [l_blk]. unfold n_grow. apply ob_bind, ob_ask, ob_bind, ob_spend, ob_free; [|auto].
  intros [] l1 E1. unfold grow, modify in E1. injection E1 as <-. cbn [l_blk l_fresh]. apply ob_bind.
  eapply ob_with; [apply ct_put|]. eapply ob_weaken; [apply up_put| |auto]. intros [] l2 n2 _ E2.
  rewrite (put_at _ [] None (repeat None 127) NUL 0) in E2; [|reflexivity|reflexivity]. injection E2 as <-.
  eapply ob_weaken; [apply (loop_work x Hx Hlf m _ 0)| |auto].
  - eexists _, _. split; [reflexivity|]. split; [reflexivity|]. split; [reflexivity|]. cbn [l_n]. lia.
  - intros a l n' H. cbv beta in H. lia.
Qed.

Lemma construct_work c cap name d m : c_ignhdr c = false ->
  ob (n_construct c cap (p_init name d (SPort (repeat x (127 * m))), 0)) (fun _ _ n' => 127 * (m * (m - 1)) <= 2 * n') (fun _ _ => True).
Proof.
  intros IH. unfold n_construct. apply ob_bind. unfold n_read_line. apply ob_bind. unfold n_on_rdr at 1. apply ob_inside. cbn [p_rdr p_init].
  unfold n_read_next. apply ob_bind, ob_free; [|auto]. intros [] r E. apply ob_bind, ob_ask.
  assert (R : r_src r = SPort (repeat x (127 * m)) /\ r_nlsz r = 0 /\ lp_of NextLine r = mkLp None 0 (r_fresh r)).
  { unfold on_nconv, zoom in E. destruct (cv_clear_error _) as [u [v cs]|e [v cs]|w|]; try discriminate. clear - E. assert (r = rset_nconv v (rdr_init d (SPort (repeat x (127 * m))))) as -> by congruence. repeat apply conj; reflexivity. }
  clear E. destruct R as (Rs & Rz & Rl). cbn [n_read_next_loop]. apply ob_bind, ob_free; [|auto]. intros [] r1 E1. unfold rupd, modify in E1. injection E1 as <-.
  apply ob_bind, ob_ask. cbn [r_nlsz rset_line]. rewrite Rz. cbn [Nat.ltb Nat.leb]. apply ob_bind, ob_ret, ob_bind, ob_free; [|auto]. intros [] r2 E2. unfold rupd, modify in E2. injection E2 as <-.
  apply ob_bind. unfold n_get_line. apply ob_bind, ob_ask. cbn [r_src rset_chars rset_line]. rewrite Rs. apply ob_bind. unfold n_on_lp. apply ob_inside.
  match goal with |- ob (n_get_line_fgets _ (?q, _)) _ _ => change q with (lp_of NextLine r) end. rewrite Rl.
  eapply ob_weaken; [apply line_work| |auto]. intros [o rest'] l n1 W. cbv beta. apply ob_bind, ob_free; [|auto]. intros [] r3 _. apply ob_ret.
  rewrite IH.
  match goal with |- ob (?m (?s, ?n)) _ _ => assert (T : up m) end.
  { pose proof (up_read_next_loop c cap). unfold n_remove_eol. destruct o; upt. }
  eapply ob_weaken; [apply T| |auto]. clear T. intros ok r4 n4 N4. cbv beta in N4. apply ob_free; [|auto]. intros [] p4 _.
  apply ob_bind. unfold n_on_rdr, n_get_buffer. apply ob_inside, ob_bind, ob_ask, ob_bind, ob_spend, ob_free; [|auto]. intros s5 r5 _.
  apply ob_free; [|auto]. intros. lia.
Qed.
End R.
