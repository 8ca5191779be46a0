(** A reader on a file and a reader of the same unread bytes on another source, side by side. *)
From Verif Require Import Base Setup Splitter ListFacts Extract Converter Reader LineProofs GetLineProofs ReaderBase ReaderInv Sim.

(** POSIX getline leaves nothing readable after the terminator. *)
Lemma posix_cells cap rest l n rest' l' : rest <> [] -> get_line_posix cap rest l = Ok (Some n, rest') l' ->
  exists b k, l_blk l' = Some b /\ b_cells b = map Some (fst (cut_line rest)) ++ Some NUL :: repeat None k.
Proof.
  intros Hne E. unfold get_line_posix in E. destruct rest as [|ch r0] eqn:Er; [congruence|]. rewrite <- Er in *. clear Er ch r0.
  destruct (cut_line rest) as [line rest0]. cbn [fst]. destruct (l_blk l) as [b|].
  - destruct (_ <=? _); injection E as <- <- <-; eexists _, _; (split; [reflexivity|reflexivity]).
  - injection E as <- <- <-. eexists _, _. split; reflexivity.
Qed.
Lemma rd_app_l (a b : cells) i x : rd a i = Some x -> rd (a ++ b) i = Some x.
Proof. unfold rd. intros H. rewrite nth_error_app1; [exact H|]. apply nth_error_Some. destruct (nth_error a i); [discriminate|discriminate H]. Qed.
Lemma rd_repeat k i : rd (repeat None k) i = None.
Proof. unfold rd. destruct (nth_error (repeat None k) i) as [[x|]|] eqn:E; auto. apply nth_error_In, repeat_spec in E. discriminate. Qed.
Lemma rd_repeat' k i : rd (None :: repeat None k) i = None. Proof. exact (rd_repeat (S k) i). Qed.
Lemma compat_line s k X : compat (map Some s ++ Some NUL :: repeat None k) (map Some s ++ Some NUL :: X).
Proof.
  intros i x y. unfold rd. destruct (Nat.lt_ge_cases i (length (map Some s ++ [Some NUL]))) as [L|L].
  - change (Some NUL :: repeat None k) with ([Some NUL] ++ repeat None k). change (Some NUL :: X) with ([Some NUL] ++ X).
    rewrite !app_assoc. rewrite (nth_error_app1 _ (repeat None k)), (nth_error_app1 _ X) by exact L. destruct (nth_error _ i) as [[z|]|]; congruence.
  - change (Some NUL :: repeat None k) with ([Some NUL] ++ repeat None k). rewrite app_assoc, nth_error_app2 by exact L. intros H.
    pose proof (rd_repeat k (i - length (map Some s ++ [Some NUL]))) as R. unfold rd in R. rewrite R in H. discriminate.
Qed.
Lemma rd_realloc fr p n i : rd (b_cells (realloc fr p n)) i = if i <? n then rd (cells_of p) i else None.
Proof.
  unfold realloc. cbn [b_cells]. rewrite !rd_eq. destruct (Nat.lt_ge_cases i (length (firstn n (cells_of p)))) as [L|L].
  - rewrite app_nth1 by exact L. rewrite nth_firstn. reflexivity.
  - rewrite app_nth2 by exact L. pose proof (rd_repeat (n - length (cells_of p)) (i - length (firstn n (cells_of p)))) as R. rewrite rd_eq in R. rewrite R.
    rewrite firstn_length in L. destruct (i <? n) eqn:E; [|reflexivity]. apply Nat.ltb_lt in E. rewrite nth_overflow by lia. reflexivity.
Qed.
Lemma compat_realloc f1 f2 p1 p2 n : compat (cells_of p1) (cells_of p2) -> compat (b_cells (realloc f1 p1 n)) (b_cells (realloc f2 p2 n)).
Proof. intros C i x y. rewrite !rd_realloc. destruct (i <? n); [apply C|discriminate]. Qed.
Lemma rd_copy_between src n at_ dst m i : copy_between src n at_ dst = Some m ->
  rd m i = if (at_ <=? i) && (i <? at_ + n) then rd src (i - at_) else rd dst i.
Proof.
  unfold copy_between. destruct (_ && _) eqn:L; [|discriminate]. apply andb_true_iff in L as [L1 L2]. apply Nat.leb_le in L1, L2. intros E. injection E as <-. rewrite !rd_eq.
  assert (LF : length (firstn at_ dst) = at_) by (rewrite firstn_length; lia). assert (LG : length (firstn n src) = n) by (rewrite firstn_length; lia).
  destruct (at_ <=? i) eqn:J1; [apply Nat.leb_le in J1|apply Nat.leb_gt in J1].
  - rewrite app_nth2 by lia. rewrite LF. destruct (i <? at_ + n) eqn:J2; [apply Nat.ltb_lt in J2|apply Nat.ltb_ge in J2]; cbn [andb].
    + rewrite app_nth1 by lia. rewrite nth_firstn. replace (i - at_ <? n) with true by (symmetry; apply Nat.ltb_lt; lia). reflexivity.
    + rewrite app_nth2 by lia. rewrite LG, nth_skipn. f_equal. lia.
  - rewrite app_nth1 by lia. rewrite nth_firstn. replace (i <? at_) with true by (symmetry; apply Nat.ltb_lt; lia). reflexivity.
Qed.
Lemma compat_copy_between s1 s2 n at_ d1 d2 m1 m2 : compat s1 s2 -> compat d1 d2 ->
  copy_between s1 n at_ d1 = Some m1 -> copy_between s2 n at_ d2 = Some m2 -> compat m1 m2.
Proof. intros C D E1 E2 i x y. rewrite (rd_copy_between _ _ _ _ _ _ E1), (rd_copy_between _ _ _ _ _ _ E2). destruct (_ && _); [apply C|apply D]. Qed.
Lemma copy_between_len src n at_ dst m : copy_between src n at_ dst = Some m -> length m = length dst.
Proof.
  unfold copy_between. destruct (_ && _) eqn:L; [|discriminate]. apply andb_true_iff in L as [L1 L2]. apply Nat.leb_le in L1, L2. intros E. injection E as <-.
  rewrite !app_length, !firstn_length, skipn_length. lia.
Qed.
Lemma wr_len m i ch m' : wr m i ch = Some m' -> length m' = length m.
Proof.
  unfold wr. destruct (i <? length m) eqn:L; [|discriminate]. apply Nat.ltb_lt in L. intros E. injection E as <-. rewrite app_length, firstn_length. destruct m as [|x m]; [cbn in L; lia|]. cbn [length] in *. rewrite skipn_length. lia.
Qed.

Record bufs_ok (r : rdr) : Prop := {
  k_buf : bok (r_buf r) (r_bufsz r) (r_fresh r); k_nl : bok (r_nl r) (r_nlsz r) (r_fresh r);
  k_help : bok (r_help r) (r_helpsz r) (r_fresh r); k_src : src_ok r }.
Record rr (r1 r2 : rdr) : Prop := {
  rr_ok1 : bufs_ok r1; rr_ok2 : bufs_ok r2;
  rr_file : exists rest, r_src r1 = SFile rest;
  rr_un : unread r1 = unread r2;
  rr_nl : compat (cells_of (r_nl r1)) (cells_of (r_nl r2));
  rr_buf : compat (cells_of (r_buf r1)) (cells_of (r_buf r2));
  rr_conv : veq (r_conv r1) (r_conv r2);
  rr_nconv : veq (r_nconv r1) (r_nconv r2);
  rr_delim : r_delim r1 = r_delim r2;
  rr_crlf : r_crlf r1 = r_crlf r2;
  rr_line : r_line r1 = r_line r2;
  rr_nlsize : r_nlsize r1 = r_nlsize r2 }.
(** The helper buffer is compared only after a line was read into it. *)
Definition rw (w : which) (r1 r2 : rdr) : Prop :=
  rr r1 r2 /\ match w with NextLine => True | Helper => compat (cells_of (r_help r1)) (cells_of (r_help r2)) end.
Notation rmsim := (msim eq rr).

Lemma lp_ok_of w r : bufs_ok r -> lp_ok (lp_of w r).
Proof. intros []. destruct w; assumption. Qed.
Lemma rw_compat w r1 r2 : rw w r1 r2 -> compat (cells_of (l_blk (lp_of w r1))) (cells_of (l_blk (lp_of w r2))).
Proof. intros [[] H]. destruct w; assumption. Qed.
Lemma bufs_lp w l r : bufs_ok r -> lp_ok l -> r_fresh r <= l_fresh l -> bufs_ok (lp_to w l r).
Proof. intros [] L F. destruct w; (split; cbn; [..|assumption]); try (eapply bok_mono; eassumption); exact L. Qed.
Lemma rw_lp w l1 l2 r1 r2 : rr r1 r2 -> lp_ok l1 -> lp_ok l2 -> r_fresh r1 <= l_fresh l1 -> r_fresh r2 <= l_fresh l2 ->
  compat (cells_of (l_blk l1)) (cells_of (l_blk l2)) -> rw w (lp_to w l1 r1) (lp_to w l2 r2).
Proof.
  intros R L1 L2 F1 F2 C. pose proof R as []. destruct w; (split; [|first [exact Logic.I|exact C]]); (split; [apply (bufs_lp _ _ _ rr_ok3 L1 F1)|apply (bufs_lp _ _ _ rr_ok4 L2 F2)|..]); try assumption.
Qed.
Lemma rr_lp_help l1 l2 r1 r2 : rr r1 r2 -> lp_ok l1 -> lp_ok l2 -> r_fresh r1 <= l_fresh l1 -> r_fresh r2 <= l_fresh l2 ->
  rr (lp_to Helper l1 r1) (lp_to Helper l2 r2).
Proof.
  intros R L1 L2 F1 F2. pose proof R as []. split; [apply (bufs_lp Helper _ _ rr_ok3 L1 F1)|apply (bufs_lp Helper _ _ rr_ok4 L2 F2)|..]; assumption.
Qed.
Lemma rr_src s1 s2 z1 z2 r1 r2 : rr r1 r2 -> src_okz s1 z1 -> src_okz s2 z2 -> (exists rest, s1 = SFile rest) -> unread_of s1 z1 = unread_of s2 z2 ->
  rr (rset_src s1 z1 r1) (rset_src s2 z2 r2).
Proof.
  intros [[] [] X U NL BU C1 C2 D1 D2 D3 D4] O1 O2 (rest & ->) EU. split; cbn; try assumption; try (split; assumption); try (eexists; reflexivity).
Qed.

Section R.
Context (c : cfg) (cap : nat -> nat -> nat) (Hcap : forall n need, need <= cap n need).

Lemma rs_peek w i : msim eq (rw w) (on_lp w (peek i)) (on_lp w (peek i)).
Proof.
  intros r1 r2 R. pose proof (rw_compat _ _ _ R) as C. unfold on_lp, zoom, peek. destruct (rd (cells_of (l_blk (lp_of w r1))) i) eqn:E1; [|exact Logic.I].
  destruct (rd (cells_of (l_blk (lp_of w r2))) i) eqn:E2; [|exact Logic.I]. rewrite !lp_to_of. split; [eapply C; eassumption|exact R].
Qed.
Lemma put_ok w i ch r r' : bufs_ok r -> on_lp w (put i ch) r = Ok tt r' ->
  exists b m, l_blk (lp_of w r) = Some b /\ wr (b_cells b) i ch = Some m /\ r' = lp_to w (mkLp (Some (mkB (b_id b) m)) (l_n (lp_of w r)) (r_fresh r)) r /\
    lp_ok (mkLp (Some (mkB (b_id b) m)) (l_n (lp_of w r)) (r_fresh r)).
Proof.
  intros K E. pose proof (lp_ok_of w r K) as L. unfold on_lp, zoom, put in E. destruct (l_blk (lp_of w r)) as [b|] eqn:Eb; [|discriminate].
  destruct (wr (b_cells b) i ch) as [m|] eqn:Ew; [|discriminate]. injection E as <-. exists b, m. split; [reflexivity|]. split; [exact Ew|].
  assert (F : l_fresh (lp_of w r) = r_fresh r) by (destruct w; reflexivity). rewrite F. split; [reflexivity|].
  unfold lp_ok, bok in *. rewrite Eb in L. cbn. rewrite (wr_len _ _ _ _ Ew). rewrite F in L. exact L.
Qed.
Lemma put_nothrow w i ch r e r' : on_lp w (put i ch) r = Throw e r' -> False.
Proof. unfold on_lp, zoom, put. destruct (l_blk (lp_of w r)) as [b|]; [destruct (wr (b_cells b) i ch)|]; discriminate. Qed.
Lemma rs_put w i ch : msim eq (rw w) (on_lp w (put i ch)) (on_lp w (put i ch)).
Proof.
  intros r1 r2 R. pose proof (rw_compat _ _ _ R) as C. pose proof (proj1 R) as R0.
  destruct (on_lp w (put i ch) r1) as [[] r1'|e1 r1'| |] eqn:E1; [|exfalso; exact (put_nothrow _ _ _ _ _ _ E1)|exact Logic.I|exact Logic.I].
  destruct (on_lp w (put i ch) r2) as [[] r2'|e2 r2'| |] eqn:E2; [|exfalso; exact (put_nothrow _ _ _ _ _ _ E2)|exact Logic.I|exact Logic.I].
  destruct (put_ok _ _ _ _ _ (rr_ok1 _ _ R0) E1) as (b1 & m1 & B1 & W1 & -> & L1). destruct (put_ok _ _ _ _ _ (rr_ok2 _ _ R0) E2) as (b2 & m2 & B2 & W2 & -> & L2).
  split; [reflexivity|]. apply rw_lp; [exact R0|exact L1|exact L2|apply le_n|apply le_n|]. cbn [l_blk cells_of b_cells]. rewrite B1, B2 in C. cbn in C. eapply compat_wr; eassumption.
Qed.
Lemma rw_rr w r1 r2 : rw w r1 r2 -> rr r1 r2. Proof. intros [R _]. exact R. Qed.
Lemma osim_weak {S T A} (E : str -> str -> Prop) (R R' : S -> T -> Prop) (o1 : res S A) o2 : (forall s t, R s t -> R' s t) -> osim E R o1 o2 -> osim E R' o1 o2.
Proof. intros H. unfold osim. destruct o1, o2; auto; intros [? ?]; auto. Qed.
Lemma rs_put_next i ch : rmsim (on_lp NextLine (put i ch)) (on_lp NextLine (put i ch)).
Proof. intros r1 r2 R. eapply osim_weak; [apply (rw_rr NextLine)|]. apply rs_put. exact (conj R Logic.I). Qed.
Lemma rs_upd {Q : rdr -> rdr -> Prop} f g : (forall r1 r2, Q r1 r2 -> Q (f r1) (g r2)) -> msim eq Q (rupd f) (rupd g).
Proof. intros H r1 r2 R. split; [reflexivity|]. apply H. exact R. Qed.

(** A line is read on both sides, or none. *)
Lemma gl_some w r1 r2 : rr r1 r2 -> unread r1 <> [] ->
  exists n r1' r2', get_line cap w r1 = Ok (Some n) r1' /\ get_line cap w r2 = Ok (Some n) r2' /\ rw w r1' r2'.
Proof.
  intros R Hne. pose proof R as []. destruct rr_file0 as (rest & Es).
  destruct (get_line_some cap Hcap w r2 (lp_ok_of w r2 rr_ok4) (k_src _ rr_ok4)) as (l2 & s2 & E2 & L2 & S2' & H2 & U2 & O2); [rewrite <- rr_un0; exact Hne|].
  assert (U1 : unread r1 = rest) by (unfold unread; rewrite Es; reflexivity). rewrite U1 in *.
  destruct (get_line_posix_spec cap Hcap rest (lp_of w r1) (lp_ok_of w r1 rr_ok3) Hne) as (l1 & E1 & L1 & S1' & H1).
  assert (G1 : get_line cap w r1 = Ok (Some (length (fst (cut_line rest)))) (rset_src (SFile (snd (cut_line rest))) (r_curr r1 + Z.of_nat (length (fst (cut_line rest)))) (lp_to w l1 r1))).
  { unfold get_line, bind, get. rewrite Es. rewrite (zoom_ok _ _ _ _ _ E1). reflexivity. }
  destruct (posix_cells _ _ _ _ _ _ Hne E1) as (b1 & k & B1 & C1). destruct H2 as (b2 & X & B2 & C2).
  eexists _, _, _. split; [exact G1|]. rewrite <- rr_un0 in E2. split; [exact E2|].
  assert (W : rw w (lp_to w l1 r1) (lp_to w l2 r2)).
  { apply rw_lp; [exact R|exact L1|exact L2|destruct S1' as [F _]; destruct w; exact F|destruct S2' as [F _]; destruct w; exact F|].
    rewrite B1, B2. cbn [cells_of]. rewrite C1, C2, <- rr_un0. apply compat_line. }
  destruct W as [W W']. split; [|destruct w; exact W'].
  apply rr_src; [exact W|exact Logic.I| |eexists; reflexivity|]; [rewrite <- rr_un0 in O2; exact O2|]. rewrite <- rr_un0 in U2. rewrite U2. reflexivity.
Qed.
Definition first_nul (r : rdr) : Prop := forall x, rd (cells_of (r_nl r)) 0 = Some x -> x = NUL.
Lemma gl_none w r1 r2 : rr r1 r2 -> unread r1 = [] -> (w = NextLine -> first_nul r1) ->
  exists r1' r2', get_line cap w r1 = Ok None r1' /\ get_line cap w r2 = Ok None r2' /\ rr r1' r2'.
Proof.
  intros R He HN. pose proof R as []. destruct rr_file0 as (rest & Es).
  assert (U1 : unread r1 = rest) by (unfold unread; rewrite Es; reflexivity). rewrite U1 in He. subst rest.
  assert (U2 : unread r2 = []) by congruence.
  destruct (get_line_posix_eof cap (lp_of w r1) (lp_ok_of w r1 rr_ok3)) as (l1 & E1 & L1 & S1' & _).
  assert (G1 : get_line cap w r1 = Ok None (rset_src (SFile []) (r_curr r1 + -1) (lp_to w l1 r1))).
  { unfold get_line, bind, get. rewrite Es. rewrite (zoom_ok _ _ _ _ _ E1). reflexivity. }
  assert (C1 : forall i x, rd (cells_of (l_blk l1)) i = Some x -> rd (cells_of (l_blk (lp_of w r1))) i = Some x).
  { unfold get_line_posix in E1. destruct (l_blk (lp_of w r1)) as [b|] eqn:Eb.
    - injection E1 as <-. rewrite Eb. auto.
    - destruct (cap 0 0); injection E1 as <-; [rewrite Eb; auto|]. intros i x H. cbn [l_blk cells_of b_cells] in H. rewrite rd_repeat' in H. discriminate. }
  assert (F1 : r_fresh r1 <= l_fresh l1) by (destruct S1' as [F _]; destruct w; exact F).
  assert (X : exists l2 z2, get_line cap w r2 = Ok None (rset_src (r_src r2) z2 (lp_to w l2 r2)) /\ lp_ok l2 /\ r_fresh r2 <= l_fresh l2 /\ unread_of (r_src r2) z2 = [] /\ src_okz (r_src r2) z2 /\
     (forall i x, rd (cells_of (l_blk l2)) i = Some x -> rd (cells_of (l_blk (lp_of w r2))) i = Some x \/ i = 0 /\ x = NUL)).
  { pose proof (lp_ok_of w r2 rr_ok4) as K2. pose proof (k_src _ rr_ok4) as O2. unfold src_ok in O2. unfold get_line, bind at 1, get.
    assert (F0 : l_fresh (lp_of w r2) = r_fresh r2) by (destruct w; reflexivity).
    unfold unread in U2. destruct (r_src r2) as [rest|rest|data|size] eqn:Es2; cbn [unread_of src_okz] in *.
    - subst rest. destruct (get_line_posix_eof cap (lp_of w r2) K2) as (l2 & E2 & L2 & S2' & _). unfold bind at 1. rewrite (zoom_ok _ _ _ _ _ E2).
      exists l2, (r_curr r2 + -1)%Z. split; [reflexivity|]. split; [exact L2|]. split; [destruct S2' as [F _]; lia|]. split; [reflexivity|]. split; [exact Logic.I|].
      unfold get_line_posix in E2. destruct (l_blk (lp_of w r2)) as [b|] eqn:Eb.
      + injection E2 as <-. rewrite Eb. auto.
      + destruct (cap 0 0); injection E2 as <-; [rewrite Eb; auto|]. intros i x H. cbn [l_blk cells_of b_cells] in H. rewrite rd_repeat' in H. discriminate.
    - subst rest. destruct (get_line_fgets_eof (lp_of w r2) K2) as (l2 & E2 & L2 & S2' & _). unfold bind at 1. rewrite (zoom_ok _ _ _ _ _ E2).
      exists l2, (r_curr r2 + -1)%Z. split; [reflexivity|]. split; [exact L2|]. split; [destruct S2' as [F _]; lia|]. split; [reflexivity|]. split; [exact O2|].
      intros i x H. unfold get_line_fgets, bind, get in E2.
      assert (G : forall l, (forall i x, rd (cells_of (l_blk l)) i = Some x -> rd (cells_of (l_blk (lp_of w r2))) i = Some x) ->
                   match put 0 NUL l with Ok a s => fgets_loop (S (length (@nil ascii))) 0 [] s | Throw e s => Throw e s | UB w => UB w | OutOfFuel => OutOfFuel end = Ok (None, []) l2 ->
                   rd (cells_of (l_blk (lp_of w r2))) i = Some x \/ i = 0 /\ x = NUL).
      { intros l Hl E. unfold put in E. destruct (l_blk l) as [b|]; [|discriminate]. destruct (wr (b_cells b) 0 NUL) as [m|] eqn:Ew; [|discriminate]. cbn in E. injection E as <-.
        cbn [l_blk cells_of b_cells] in *. rewrite (rd_wr _ _ _ _ Ew) in H. destruct (i =? 0) eqn:E0; [right; apply Nat.eqb_eq in E0; split; congruence|left; apply Hl; exact H]. }
      destruct (match l_blk (lp_of w r2) with Some _ => _ | None => _ end).
      + unfold grow, modify in E2. eapply G; [|exact E2]. intros j y Hj. cbn [l_blk cells_of] in Hj. rewrite rd_realloc in Hj. destruct (j <? initial_size); [exact Hj|discriminate].
      + unfold ret in E2. eapply G; [|exact E2]. auto.
    - rewrite U2. unfold bind at 1. rewrite (zoom_ok _ _ _ (None, 0) _ (get_line_buffer_eof _)). exists (lp_of w r2), (r_curr r2 + Z.of_nat 0)%Z.
      split; [reflexivity|]. split; [exact K2|]. split; [lia|]. rewrite Z.add_0_r. auto.
    - assert ((Z.of_nat size <=? r_curr r2)%Z = true) as -> by (apply Z.leb_le; exact O2). exists (lp_of w r2), (r_curr r2). split.
      { unfold ret. f_equal. destruct w, r2; cbn in *; subst; reflexivity. }
      split; [exact K2|]. split; [lia|]. auto. }
  destruct X as (l2 & z2 & G2 & L2 & F2 & UU & OO & C2). eexists _, _. split; [exact G1|]. split; [exact G2|].
  apply rr_src; [|exact Logic.I|exact OO|eexists; reflexivity|symmetry; exact UU].
  destruct w; [|apply rr_lp_help; assumption].
  apply (rw_lp NextLine); try assumption. intros i x y H1 H2. apply C1 in H1. destruct (C2 _ _ H2) as [H|[-> ->]]; [eapply rr_nl0; eassumption|]. apply HN; [reflexivity|exact H1].
Qed.

Lemma rr_crlf_set b r1 r2 : rr r1 r2 -> rr (rset_crlf b r1) (rset_crlf b r2).
Proof. intros [[] [] ]. split; cbn; try assumption; try reflexivity; split; assumption. Qed.
Lemma rr_line_set n r1 r2 : rr r1 r2 -> rr (rset_line n r1) (rset_line n r2).
Proof. intros [[] [] ]. split; cbn; try assumption; try reflexivity; split; assumption. Qed.
Lemma rr_chars_set a b r1 r2 : rr r1 r2 -> rr (rset_chars a r1) (rset_chars b r2).
Proof. intros [[] [] ]. split; cbn; try assumption; try reflexivity; split; assumption. Qed.
Lemma rr_nlsize_set n r1 r2 : rr r1 r2 -> rr (rset_nlsize n r1) (rset_nlsize n r2).
Proof. intros [[] [] ]. split; cbn; try assumption; try reflexivity; split; assumption. Qed.
Lemma rr_nconv_set u v r1 r2 : rr r1 r2 -> veq u v -> rr (rset_nconv u r1) (rset_nconv v r2).
Proof. intros [[] [] ] V. split; cbn; try assumption; try reflexivity; split; assumption. Qed.
Lemma rr_conv_set u v r1 r2 : rr r1 r2 -> veq u v -> rr (rset_conv u r1) (rset_conv v r2).
Proof. intros [[] [] ] V. split; cbn; try assumption; try reflexivity; split; assumption. Qed.
Lemma rw_crlf_set w b r1 r2 : rw w r1 r2 -> rw w (rset_crlf b r1) (rset_crlf b r2).
Proof. intros [R H]. split; [apply rr_crlf_set; exact R|destruct w; exact H]. Qed.

Lemma rs_remove_eol w n : msim eq (rw w) (remove_eol w n) (remove_eol w n).
Proof.
  unfold remove_eol. destruct n as [|k]; [intros ? ? ?; exact Logic.I|]. apply ms_bind; [apply rs_peek|]. intros a.
  assert (CR0 : forall b, msim eq (rw w) (rupd (rset_crlf b)) (rupd (rset_crlf b))) by (intros b; apply rs_upd; intros; apply rw_crlf_set; assumption).
  destruct (negb _); [apply ms_bind; [apply CR0|intros; apply ms_ret]|].
  apply ms_bind; [|intros size; apply ms_bind; [apply rs_put|intros; apply ms_ret]].
  destruct k as [|j]; [apply ms_bind; [apply CR0|intros; apply ms_ret]|]. apply ms_bind; [apply rs_peek|]. intros b.
  destruct (Ascii.eqb b CR); (apply ms_bind; [apply CR0|intros; apply ms_ret]).
Qed.
Lemma rs_on_nconv {A} (m : M (conv * cells) A) : vmsim m m -> rmsim (on_nconv m) (on_nconv m).
Proof.
  intros H r1 r2 R. specialize (H (r_nconv r1, []) (r_nconv r2, []) (conj (rr_nconv _ _ R) (compat_nil1 _))). unfold on_nconv, osim in *.
  destruct (m (r_nconv r1, [])) as [a [v1 n1]|e [v1 n1]| |], (m (r_nconv r2, [])) as [a' [v2 n2]|e' [v2 n2]| |]; try exact H; destruct H as [-> [V _]]; (split; [reflexivity|]); apply rr_nconv_set; assumption.
Qed.
Lemma seen_compat v1 v2 p1 p2 : compat (cells_of p1) (cells_of p2) -> compat (seen_by v1 p1) (seen_by v2 p2).
Proof.
  unfold seen_by. intros C. destruct p1 as [b1|]; [|apply compat_nil1]. destruct p2 as [b2|]; [|apply compat_nil2].
  destruct (_ =? b_id b1); [|apply compat_nil1]. destruct (_ =? b_id b2); [exact C|apply compat_nil2].
Qed.
Lemma rs_on_conv {A} (m : M (conv * cells) A) : vmsim m m -> rmsim (on_conv m) (on_conv m).
Proof.
  intros H r1 r2 R. specialize (H (r_conv r1, seen_by (r_conv r1) (r_buf r1)) (r_conv r2, seen_by (r_conv r2) (r_buf r2)) (conj (rr_conv _ _ R) (seen_compat _ _ _ _ (rr_buf _ _ R)))). unfold on_conv, osim in *.
  destruct (m (r_conv r1, seen_by (r_conv r1) (r_buf r1))) as [a [v1 n1]|e [v1 n1]| |], (m (r_conv r2, seen_by (r_conv r2) (r_buf r2))) as [a' [v2 n2]|e' [v2 n2]| |]; try exact H; destruct H as [-> [V _]]; (split; [reflexivity|]); apply rr_conv_set; assumption.
Qed.

(** *** read_next *)
Lemma rs_first_put r1 r2 : rr r1 r2 ->
  osim eq (fun a b => rr a b /\ first_nul a) ((if 0 <? r_nlsz r1 then on_lp NextLine (put 0 NUL) else ret tt) r1) ((if 0 <? r_nlsz r2 then on_lp NextLine (put 0 NUL) else ret tt) r2).
Proof.
  intros R. pose proof R as []. pose proof (k_nl _ rr_ok3) as K1. pose proof (k_nl _ rr_ok4) as K2.
  assert (P : forall r, bufs_ok r -> 0 < r_nlsz r -> exists b m, r_nl r = Some b /\ wr (b_cells b) 0 NUL = Some m /\ on_lp NextLine (put 0 NUL) r = Ok tt (lp_to NextLine (mkLp (Some (mkB (b_id b) m)) (r_nlsz r) (r_fresh r)) r) /\ lp_ok (mkLp (Some (mkB (b_id b) m)) (r_nlsz r) (r_fresh r))).
  { intros r K L. pose proof (k_nl _ K) as KN. unfold bok in KN. destruct (r_nl r) as [b|] eqn:Eb; [|lia]. destruct KN as [KL KI].
    destruct (wr (b_cells b) 0 NUL) as [m|] eqn:Ew; [|exfalso; unfold wr in Ew; rewrite KL in Ew; destruct (0 <? r_nlsz r) eqn:E; [discriminate|apply Nat.ltb_ge in E; lia]].
    exists b, m. split; [reflexivity|]. split; [exact Ew|]. split; [unfold on_lp, zoom, put; cbn [lp_of l_blk]; rewrite Eb, Ew; reflexivity|]. unfold lp_ok, bok. cbn. rewrite (wr_len _ _ _ _ Ew). auto. }
  assert (Z : forall r, bufs_ok r -> r_nlsz r = 0 -> cells_of (r_nl r) = []).
  { intros r K L. pose proof (k_nl _ K) as KN. unfold bok in KN. destruct (r_nl r) as [b|]; [|reflexivity]. cbn. destruct KN as [KL _]. rewrite L in KL. destruct (b_cells b); [reflexivity|discriminate]. }
  assert (FN : forall b m, wr (b_cells b) 0 NUL = Some m -> forall x, rd m 0 = Some x -> x = NUL).
  { intros b m Ew x. rewrite (rd_wr _ _ _ _ Ew). change (Some NUL = Some x -> x = NUL). intros H. injection H. auto. }
  destruct (0 <? r_nlsz r1) eqn:N1; [apply Nat.ltb_lt in N1|apply Nat.ltb_ge in N1]; (destruct (0 <? r_nlsz r2) eqn:N2; [apply Nat.ltb_lt in N2|apply Nat.ltb_ge in N2]).
  - destruct (P r1 rr_ok3 N1) as (b1 & m1 & B1 & W1 & -> & L1). destruct (P r2 rr_ok4 N2) as (b2 & m2 & B2 & W2 & -> & L2). split; [reflexivity|]. split; [|exact (FN _ _ W1)].
    apply (rw_lp NextLine); try assumption; try apply le_n. cbn [l_blk cells_of b_cells]. rewrite B1, B2 in rr_nl0. exact (compat_wr _ _ _ _ _ _ rr_nl0 W1 W2).
  - destruct (P r1 rr_ok3 N1) as (b1 & m1 & B1 & W1 & -> & L1). split; [reflexivity|]. split; [|exact (FN _ _ W1)].
    rewrite <- (lp_to_of NextLine r2). apply (rw_lp NextLine); try assumption; try apply le_n. cbn [lp_of l_blk]. rewrite (Z r2 rr_ok4) by lia. apply compat_nil2.
  - destruct (P r2 rr_ok4 N2) as (b2 & m2 & B2 & W2 & -> & L2). pose proof (Z r1 rr_ok3 ltac:(lia)) as Z1. split; [reflexivity|]. split.
    + rewrite <- (lp_to_of NextLine r1). apply (rw_lp NextLine); try assumption; try apply le_n. cbn [lp_of l_blk]. rewrite Z1. apply compat_nil1.
    + intros x. rewrite Z1. discriminate.
  - split; [reflexivity|]. split; [exact R|]. intros x. rewrite (Z r1 rr_ok3) by lia. discriminate.
Qed.
Lemma rs_read_next_loop : forall f, rmsim (read_next_loop c cap f) (read_next_loop c cap f).
Proof.
  induction f as [|f IH]; intros r1 r2 R; [exact Logic.I|]. cbn [read_next_loop].
  eapply os_bind with (R := rr); [|auto|].
  { split; [reflexivity|]. rewrite (rr_line _ _ R). apply rr_line_set. exact R. }
  intros _ s1 s2 _ _ R1. apply os_get.
  eapply os_bind; [apply rs_first_put; exact R1|intros ? ? [? _]; assumption|].
  intros _ a1 a2 _ _ [R2 FN]. eapply os_bind with (R := fun a b => rr a b /\ first_nul a); [|intros ? ? [? _]; assumption|].
  { split; [reflexivity|]. split; [apply rr_chars_set; exact R2|exact FN]. }
  intros _ t1 t2 _ _ [R3 FN3]. destruct (unread t1) as [|x u] eqn:Eu.
  - destruct (gl_none NextLine t1 t2 R3 Eu (fun _ => FN3)) as (q1 & q2 & E1 & E2 & R4). eapply os_step; [exact E1|exact E2|]. split; [reflexivity|exact R4].
  - destruct (gl_some NextLine t1 t2 R3 ltac:(congruence)) as (n & q1 & q2 & E1 & E2 & R4). eapply os_step; [exact E1|exact E2|]. cbv beta iota.
    eapply os_bind; [apply rs_remove_eol; exact R4|apply rw_rr|]. intros k v1 v2 _ _ [R5 _].
    destruct (_ && _); [apply IH; exact R5|]. split; [reflexivity|]. apply rr_nlsize_set. exact R5.
Qed.
Lemma rs_read_next : rmsim (read_next c cap) (read_next c cap).
Proof.
  intros r1 r2 R. unfold read_next. eapply os_bind; [apply rs_on_nconv; [apply vs_clear|exact R]|auto|]. intros _ s1 s2 _ _ R1. apply os_get.
  rewrite (rr_un _ _ R1). apply rs_read_next_loop. exact R1.
Qed.
End R.
