(** The reader: invariants, reading one physical line. *)
From Verif Require Import Base Setup Splitter Extract Converter Reader ListFacts LineProofs GetLineProofs.

Definition unread_of (s : source) (z : Z) : str :=
  match s with
  | SFile rest | SPort rest => rest
  | SMem data => skipn (Z.to_nat z) data
  | SNull _ => []
  end.
Lemma unread_eq r : unread r = unread_of (r_src r) (r_curr r). Proof. reflexivity. Qed.
(** The source can be read: no NUL for the portable getline, an offset inside the data, nothing to read from a null pointer. *)
Definition src_okz (s : source) (z : Z) : Prop :=
  match s with
  | SFile _ => True
  | SPort rest => nulfree rest
  | SMem data => (0 <= z <= Z.of_nat (length data))%Z
  | SNull size => (Z.of_nat size <= z)%Z
  end.
Definition src_ok (r : rdr) : Prop := src_okz (r_src r) (r_curr r).

Lemma zoom_ok {A} w (m : M lp A) r a l' : m (lp_of w r) = Ok a l' -> on_lp w m r = Ok a (lp_to w l' r).
Proof. intros E. unfold on_lp, zoom. rewrite E. reflexivity. Qed.

Lemma skipn_add {A} n k (l : list A) : skipn (n + k) l = skipn n (skipn k l).
Proof.
  revert l; induction k as [|k IH]; intros l; [rewrite Nat.add_0_r; reflexivity|].
  rewrite Nat.add_succ_r. destruct l; [rewrite !skipn_nil; reflexivity|]. cbn. apply IH.
Qed.

Section G.
Context (cap : nat -> nat -> nat) (Hcap : forall n need, need <= cap n need).

Lemma get_line_some w r : lp_ok (lp_of w r) -> src_ok r -> unread r <> [] ->
  exists l' s', get_line cap w r = Ok (Some (length (fst (cut_line (unread r)))))
                  (rset_src s' (r_curr r + Z.of_nat (length (fst (cut_line (unread r))))) (lp_to w l' r)) /\
    lp_ok l' /\ succ_lp (lp_of w r) l' /\ holds_line l' (fst (cut_line (unread r))) /\
    unread_of s' (r_curr r + Z.of_nat (length (fst (cut_line (unread r))))) = snd (cut_line (unread r)) /\
    src_okz s' (r_curr r + Z.of_nat (length (fst (cut_line (unread r))))).
Proof.
  intros Hl Hs Hne. unfold get_line, src_ok in *. rewrite unread_eq in *. unfold bind at 1, get.
  pose proof (cut_line_app (unread_of (r_src r) (r_curr r))) as CA.
  destruct (r_src r) as [rest|rest|data|size] eqn:Es; cbn [unread_of src_okz] in *; [| | |congruence].
  - destruct (get_line_posix_spec cap Hcap rest _ Hl Hne) as (l' & E & A1 & A2 & A3).
    unfold bind at 1. rewrite (zoom_ok _ _ _ _ _ E). exists l', (SFile (snd (cut_line rest))).
    split; [reflexivity|]. auto.
  - destruct (get_line_fgets_spec rest _ Hl Hs Hne) as (l' & E & A1 & A2 & A3).
    unfold bind at 1. rewrite (zoom_ok _ _ _ _ _ E). exists l', (SPort (snd (cut_line rest))).
    split; [reflexivity|]. split; [auto|]. split; [auto|]. split; [auto|]. split; [reflexivity|]. cbn.
    rewrite <- CA in Hs. apply nulfree_app in Hs as [_ Hs]. exact Hs.
  - destruct (get_line_buffer_spec _ _ Hl Hne) as (l' & E & A1 & A2 & A3).
    unfold bind at 1. rewrite (zoom_ok _ _ _ _ _ E). exists l', (SMem data).
    split; [reflexivity|]. split; [auto|]. split; [auto|]. split; [auto|].
    set (u := skipn (Z.to_nat (r_curr r)) data) in *. set (n := length (fst (cut_line u))) in *.
    assert (LU : length u = length data - Z.to_nat (r_curr r)) by (unfold u; apply skipn_length).
    assert (Ln : n <= length u) by (rewrite <- CA, app_length; unfold n; lia).
    cbn [unread_of src_okz]. split; [|lia].
    replace (Z.to_nat (r_curr r + Z.of_nat n)) with (n + Z.to_nat (r_curr r)) by lia.
    assert (SK : skipn n u = snd (cut_line u)).
    { rewrite <- CA at 1. unfold n. rewrite skipn_app, skipn_all, Nat.sub_diag. reflexivity. }
    rewrite skipn_add. exact SK.
Qed.

(** At the end of the data. *)
Lemma get_line_none w r : lp_ok (lp_of w r) -> src_ok r -> unread r = [] ->
  exists l' z', get_line cap w r = Ok None (rset_src (r_src r) z' (lp_to w l' r)) /\
    lp_ok l' /\ succ_lp (lp_of w r) l' /\ unread_of (r_src r) z' = [] /\ src_okz (r_src r) z' /\
    (z' = r_curr r \/ (z' = r_curr r - 1)%Z) /\
    (forall b T, l_blk (lp_of w r) = Some b -> b_cells b = Some NUL :: T ->
       exists b' Y, l_blk l' = Some b' /\ b_cells b' = Some NUL :: T ++ Y).
Proof.
  intros Hl Hs He. unfold get_line, src_ok in *. rewrite unread_eq in *. unfold bind at 1, get.
  destruct (r_src r) as [rest|rest|data|size] eqn:Es; cbn [unread_of src_okz] in *.
  - subst rest. destruct (get_line_posix_eof cap _ Hl) as (l' & E & A1 & A2 & A3).
    unfold bind at 1. rewrite (zoom_ok _ _ _ _ _ E). exists l', (r_curr r + -1)%Z.
    split; [reflexivity|]. split; [auto|]. split; [auto|]. split; [auto|]. split; [auto|]. split; [right; lia|].
    intros b T Hb Hc. exists b, []. rewrite A3 by congruence. rewrite app_nil_r. auto.
  - subst rest. destruct (get_line_fgets_eof _ Hl) as (l' & E & A1 & A2 & A3).
    pose proof E as E0. unfold bind at 1. rewrite (zoom_ok _ _ _ _ _ E). exists l', (r_curr r + -1)%Z.
    split; [reflexivity|]. split; [auto|]. split; [auto|]. split; [auto|]. split; [auto|]. split; [right; lia|].
    intros b T Hb Hc. clear E Es. unfold get_line_fgets, bind, get in E0. unfold lp_ok, bok in Hl. rewrite Hb in Hl, E0. destruct Hl as [L1 L2].
    destruct (l_n (lp_of w r) <? initial_size) eqn:En.
    + apply Nat.ltb_lt in En. unfold grow, modify in E0. rewrite Hb in E0.
      destruct (grow_cells (l_fresh (lp_of w r)) b [] (b_cells b) initial_size eq_refl ltac:(lia)) as (Y' & E1 & E2 & E3).
      assert (CR1 : b_cells (realloc (l_fresh (lp_of w r)) (Some b) initial_size) = Some NUL :: T ++ repeat None (initial_size - length (b_cells b))).
      { unfold realloc. cbn [b_cells cells_of]. rewrite firstn_all2 by lia. rewrite Hc. reflexivity. }
      rewrite (put_at _ [] (Some NUL) (T ++ repeat None (initial_size - length (b_cells b))) NUL 0) in E0 by auto.
      cbn in E0. injection E0 as <-. eexists _, _. split; [reflexivity|]. reflexivity.
    + unfold ret in E0. destruct (lp_of w r) as [lb ln lf]. cbn in Hb. subst lb.
      rewrite (put_at _ [] (Some NUL) T NUL 0) in E0 by auto. cbn in E0. injection E0 as <-.
      eexists _, []. split; [reflexivity|]. rewrite app_nil_r. reflexivity.
  - rewrite He. unfold bind at 1. rewrite (zoom_ok _ _ _ (None, 0) _ (get_line_buffer_eof _)). exists (lp_of w r), (r_curr r + Z.of_nat 0)%Z.
    split; [reflexivity|]. split; [auto|]. split.
    { split; [lia|]. destruct (l_blk (lp_of w r)); [left; eauto|reflexivity]. }
    rewrite Z.add_0_r. split; [exact He|]. split; [exact Hs|]. split; [left; reflexivity|].
    intros b T Hb Hc. exists b, []. rewrite app_nil_r. auto.
  - assert ((Z.of_nat size <=? r_curr r)%Z = true) as -> by (apply Z.leb_le; exact Hs).
    exists (lp_of w r), (r_curr r). split.
    { unfold ret. f_equal. destruct w, r; cbn in *; subst; reflexivity. }
    split; [auto|]. split.
    { split; [lia|]. destruct (l_blk (lp_of w r)); [left; eauto|reflexivity]. }
    split; [reflexivity|]. split; [exact Hs|]. split; [left; reflexivity|].
    intros b T Hb Hc. exists b, []. rewrite app_nil_r. auto.
Qed.
End G.

(** ** remove_eol *)
Lemma chomp_last raw : raw <> [] -> exists t0 a, raw = t0 ++ [a] /\
  (a <> LF /\ chomp raw = (raw, []) \/
   a = LF /\ t0 = [] /\ chomp raw = ([], [LF]) \/
   a = LF /\ (exists t1 b, t0 = t1 ++ [b] /\ b = CR /\ chomp raw = (t1, [CR; LF])) \/
   a = LF /\ (exists t1 b, t0 = t1 ++ [b] /\ b <> CR /\ chomp raw = (t0, [LF]))).
Proof.
  intros H. destruct (exists_last H) as (t0 & a & ->). exists t0, a. split; [reflexivity|]. unfold chomp. rewrite rev_unit.
  destruct t0 as [|x t0] using rev_ind.
  - cbn. destruct (Ascii.eqb a LF) eqn:E.
    + apply Ascii.eqb_eq in E. auto.
    + apply Ascii.eqb_neq in E. auto.
  - clear IHt0. rewrite rev_unit. destruct (Ascii.eqb a LF) eqn:E.
    + apply Ascii.eqb_eq in E. destruct (Ascii.eqb x CR) eqn:Ex.
      * apply Ascii.eqb_eq in Ex. right; right; left. split; [exact E|]. exists t0, x. rewrite rev_involutive. auto.
      * apply Ascii.eqb_neq in Ex. right; right; right. split; [exact E|]. exists t0, x. split; [auto|]. split; [auto|].
        cbn [rev]. rewrite rev_involutive. reflexivity.
    + apply Ascii.eqb_neq in E. auto.
Qed.

Definition is_crlf (e : str) : bool := match e with [_; _] => true | _ => false end.
Lemma lp_to_of w r : lp_to w (lp_of w r) r = r. Proof. destruct w, r; reflexivity. Qed.
Lemma lp_of_to w l r : lp_of w (lp_to w l r) = mkLp (l_blk l) (l_n l) (l_fresh l). Proof. destruct w; reflexivity. Qed.
Lemma lp_to_to w l l' r : lp_to w l (lp_to w l' r) = lp_to w l r. Proof. destruct w; reflexivity. Qed.
Lemma lp_of_crlf w b r : lp_of w (rset_crlf b r) = lp_of w r. Proof. destruct w; reflexivity. Qed.
Lemma lp_to_crlf w l b r : lp_to w l (rset_crlf b r) = rset_crlf b (lp_to w l r). Proof. destruct w; reflexivity. Qed.
Lemma on_lp_get {A} w (m : M lp A) r a : m (lp_of w r) = Ok a (lp_of w r) -> on_lp w m r = Ok a r.
Proof. intros E. rewrite (zoom_ok _ _ _ _ _ E), lp_to_of. reflexivity. Qed.

Lemma remove_eol_spec w r raw : lp_ok (lp_of w r) -> holds_line (lp_of w r) raw -> raw <> [] ->
  let t := fst (chomp raw) in let e := snd (chomp raw) in
  exists b b' X, l_blk (lp_of w r) = Some b /\ b_id b' = b_id b /\
    remove_eol w (length raw) r = Ok (length t) (rset_crlf (is_crlf e) (lp_to w (mkLp (Some b') (l_n (lp_of w r)) (l_fresh (lp_of w r))) r)) /\
    b_cells b' = map Some t ++ Some NUL :: X /\ length (b_cells b') = l_n (lp_of w r) /\ length e <= length X.
Proof.
  intros Hl (b & X & Hb & Hc) Hne. cbv zeta. pose proof Hl as Hl'. unfold lp_ok, bok in Hl'. rewrite Hb in Hl'. destruct Hl' as [HL HI].
  destruct (chomp_last raw Hne) as (t0 & a & Er & K).
  assert (LR : length raw = S (length t0)) by (rewrite Er, app_length; cbn; lia). rewrite LR. unfold remove_eol.
  assert (ELP : lp_of w r = mkLp (Some b) (l_n (lp_of w r)) (l_fresh (lp_of w r))).
  { destruct (lp_of w r) as [x y z]. cbn in *. subst. reflexivity. }
  assert (Pk : on_lp w (peek (length t0)) r = Ok a r).
  { apply on_lp_get. rewrite ELP. rewrite (peek_at b (map Some t0) a (Some NUL :: X)); [reflexivity| |rewrite map_length; reflexivity].
    rewrite Hc, Er, map_app, <- app_assoc. reflexivity. }
  unfold bind at 1. rewrite Pk.
  assert (PUT : forall k crlf, k < length raw -> exists Y, 
     (on_lp w (put k NUL) ;; ret k) (rset_crlf crlf r) = Ok k (rset_crlf crlf (lp_to w (mkLp (Some (mkB (b_id b) (map Some (firstn k raw) ++ Some NUL :: Y))) (l_n (lp_of w r)) (l_fresh (lp_of w r))) r))
     /\ length (map Some (firstn k raw) ++ Some NUL :: Y) = l_n (lp_of w r) /\ length raw - k <= length Y).
  { intros k crlf Hk. exists (skipn (S k) (map Some raw) ++ Some NUL :: X).
    assert (EC : b_cells b = map Some (firstn k raw) ++ Some (nth k raw NUL) :: skipn (S k) (map Some raw) ++ Some NUL :: X).
    { rewrite Hc. rewrite <- (firstn_skipn k raw) at 1. rewrite map_app, <- app_assoc. f_equal.
      rewrite skipn_map. rewrite <- (firstn_skipn k raw) at 2. clear -Hk.
      revert raw Hk; induction k as [|k IH]; intros [|x raw] Hk; cbn in *; try lia; [reflexivity|].
      specialize (IH raw ltac:(lia)). exact IH. }
    split.
    - unfold bind. unfold on_lp, zoom. rewrite lp_of_crlf, ELP.
      rewrite (put_at b (map Some (firstn k raw)) (Some (nth k raw NUL)) (skipn (S k) (map Some raw) ++ Some NUL :: X)).
      + cbn [l_n l_fresh]. rewrite lp_to_crlf. reflexivity.
      + exact EC.
      + rewrite map_length, firstn_length. lia.
    - rewrite <- HL, EC. rewrite !app_length. cbn [length]. rewrite !app_length. split; [lia|]. rewrite skipn_length, map_length. cbn [length]. lia. }
  destruct K as [[Ha Ec]|[(Ha & Et & Ec)|[(Ha & t1 & x & Et & Hx & Ec)|(Ha & t1 & x & Et & Hx & Ec)]]]; rewrite Ec; cbn [fst snd].
  - apply Ascii.eqb_neq in Ha. rewrite Ha. cbn [negb]. exists b, b, X. split; [exact Hb|]. split; [reflexivity|]. split; [|split; [exact Hc|split; [exact HL|cbn; lia]]].
    unfold bind, rupd, modify, ret. rewrite LR. rewrite <- ELP, lp_to_of. reflexivity.
  - subst a t0. cbn [length] in *. change (negb (Ascii.eqb LF LF)) with false. cbv iota.
    destruct (PUT 0 false ltac:(lia)) as (Y & P1 & P2 & P3).
    exists b, (mkB (b_id b) (Some NUL :: Y)), Y. split; [exact Hb|]. split; [reflexivity|]. split; [exact P1|]. split; [reflexivity|]. split; [exact P2|]. cbn; lia.
  - subst a x t0. change (negb (Ascii.eqb LF LF)) with false. cbv iota. rewrite app_length in *. cbn [length] in *. rewrite Nat.add_1_r in *.
    assert (Pk2 : on_lp w (peek (length t1)) r = Ok CR r).
    { apply on_lp_get. rewrite ELP. rewrite (peek_at b (map Some t1) CR (Some LF :: Some NUL :: X)); [reflexivity| |rewrite map_length; reflexivity].
      rewrite Hc, Er, !map_app, <- !app_assoc. reflexivity. }
    destruct (PUT (length t1) true ltac:(lia)) as (Y & P1 & P2 & P3).
    assert (FN : firstn (length t1) raw = t1). { rewrite Er, <- app_assoc. rewrite firstn_app, Nat.sub_diag, firstn_all. cbn. apply app_nil_r. }
    rewrite FN in *.
    exists b, (mkB (b_id b) (map Some t1 ++ Some NUL :: Y)), Y. split; [exact Hb|]. split; [reflexivity|].
    split; [|split; [reflexivity|split; [exact P2|cbn; lia]]].
    unfold bind at 1. unfold bind at 1. rewrite Pk2. exact P1.
  - subst a t0. change (negb (Ascii.eqb LF LF)) with false. cbv iota. rewrite app_length in *. cbn [length] in *. rewrite Nat.add_1_r in *.
    assert (Pk2 : on_lp w (peek (length t1)) r = Ok x r).
    { apply on_lp_get. rewrite ELP. rewrite (peek_at b (map Some t1) x (Some LF :: Some NUL :: X)); [reflexivity| |rewrite map_length; reflexivity].
      rewrite Hc, Er, !map_app, <- !app_assoc. reflexivity. }
    destruct (PUT (S (length t1)) false ltac:(lia)) as (Y & P1 & P2 & P3).
    assert (FN : firstn (S (length t1)) raw = t1 ++ [x]).
    { rewrite Er. rewrite firstn_app. rewrite firstn_all2 by (rewrite app_length; cbn; lia). rewrite app_length. cbn [length].
      replace (S (length t1) - (length t1 + 1)) with 0 by lia. cbn. apply app_nil_r. }
    rewrite FN in *. apply Ascii.eqb_neq in Hx.
    exists b, (mkB (b_id b) (map Some (t1 ++ [x]) ++ Some NUL :: Y)), Y. split; [exact Hb|]. split; [reflexivity|].
    split; [|split; [reflexivity|split; [exact P2|cbn; lia]]].
    unfold bind at 1. unfold bind at 1. rewrite Pk2, Hx. exact P1.
Qed.
