(** Reading one line: get_line in its three forms. *)
From Verif Require Import Base Setup Splitter Extract Converter Reader ListFacts LineProofs.

(** A pointer and its size agree, and its block is older than [fresh]. *)
Definition bok (p : option blk) (n fresh : nat) : Prop :=
  match p with None => n = 0 | Some b => length (b_cells b) = n /\ b_id b < fresh end.
Definition lp_ok (l : lp) : Prop := bok (l_blk l) (l_n l) (l_fresh l).
(** The buffer holds [s] and a terminator. *)
Definition holds_line (l : lp) (s : str) : Prop :=
  exists b X, l_blk l = Some b /\ b_cells b = map Some s ++ Some NUL :: X.
(** Afterwards the block is the same one or a new one; it is not forgotten. *)
Definition succ_lp (l l' : lp) : Prop :=
  l_fresh l <= l_fresh l' /\
  match l_blk l' with
  | None => l_blk l = None
  | Some b' => (exists b, l_blk l = Some b /\ b_id b' = b_id b) \/ l_fresh l <= b_id b'
  end.

Lemma wr_at P x Y ch i : i = length P -> wr (P ++ x :: Y) i ch = Some (P ++ Some ch :: Y).
Proof.
  intros ->. unfold wr. destruct (length P <? length (P ++ x :: Y)) eqn:E.
  - rewrite firstn_app, Nat.sub_diag, firstn_all, app_nil_r. rewrite skipn_app.
    replace (S (length P) - length P) with 1 by lia. rewrite skipn_all2 by lia. reflexivity.
  - apply Nat.ltb_ge in E. rewrite app_length in E. cbn in E. lia.
Qed.
Lemma put_at b P x Y ch i n fr : b_cells b = P ++ x :: Y -> i = length P ->
  put i ch (mkLp (Some b) n fr) = Ok tt (mkLp (Some (mkB (b_id b) (P ++ Some ch :: Y))) n fr).
Proof. intros E Hi. unfold put. cbn. rewrite E, (wr_at P x Y ch i Hi). reflexivity. Qed.
Lemma peek_at b P x Y i n fr : b_cells b = P ++ Some x :: Y -> i = length P ->
  peek i (mkLp (Some b) n fr) = Ok x (mkLp (Some b) n fr).
Proof. intros E Hi. unfold peek. cbn. rewrite E, rd_at by exact Hi. reflexivity. Qed.
Lemma cells_split (m : list (option ascii)) (k : nat) : k < length m -> exists x Y, skipn k m = x :: Y.
Proof.
  intros H. destruct (skipn k m) as [|x Y] eqn:E; [|eauto].
  apply (f_equal (@length _)) in E. rewrite skipn_length in E. cbn in E. lia.
Qed.
Lemma map_snoc (s : str) ch : map Some (s ++ [ch]) = map Some s ++ [Some ch].
Proof. apply map_app. Qed.

Lemma grow_cells fr (b : blk) pre Y n : b_cells b = map Some pre ++ Y -> length (b_cells b) <= n ->
  exists Y', b_cells (realloc fr (Some b) n) = map Some pre ++ Y' /\ length (b_cells (realloc fr (Some b) n)) = n
    /\ length pre + length Y' = n.
Proof.
  intros E L. unfold realloc. cbn [cells_of b_cells]. exists (Y ++ repeat None (n - length (b_cells b))).
  rewrite firstn_all2 by exact L. rewrite E in *. rewrite app_length, map_length in L. split; [rewrite app_assoc; reflexivity|].
  rewrite !app_length, map_length, !repeat_length. lia.
Qed.

Lemma glb_loop_spec : forall rest used cons b n fr pre Y,
  b_cells b = map Some pre ++ Y -> length pre = used -> length (b_cells b) = n -> used < n -> b_id b < fr ->
  exists b' n' fr' X,
    glb_loop used cons rest (mkLp (Some b) n fr)
      = Ok (used + length (fst (cut_line rest)), cons + length (fst (cut_line rest))) (mkLp (Some b') n' fr') /\
    b_cells b' = map Some (pre ++ fst (cut_line rest)) ++ Some NUL :: X /\ length (b_cells b') = n' /\
    b_id b' < fr' /\ fr <= fr' /\ (b_id b' = b_id b \/ fr <= b_id b').
Proof.
  induction rest as [|ch rest IH]; intros used cons b n fr pre Y E Hu Hn Hlt Hid.
  - cbn [glb_loop cut_line fst length]. destruct Y as [|x Y].
    { rewrite E, app_length, map_length in Hn. cbn in Hn. lia. }
    unfold bind. rewrite (put_at b (map Some pre) x Y NUL used n fr E) by (rewrite map_length; lia).
    eexists _, _, _, Y. split; [cbn; rewrite !Nat.add_0_r; reflexivity|]. rewrite app_nil_r. cbn [b_cells b_id].
    split; [reflexivity|]. split; [|auto]. rewrite E in Hn. rewrite !app_length in *. cbn [length] in *. lia.
  - cbn [glb_loop]. unfold bind at 1. unfold gets at 1. cbn [l_n].
    assert (G : exists b1 n1 fr1 Y1,
       (if n <=? used + 1 then grow (n * 2) else ret tt) (mkLp (Some b) n fr) = Ok tt (mkLp (Some b1) n1 fr1) /\
       b_cells b1 = map Some pre ++ Y1 /\ length (b_cells b1) = n1 /\ S used < n1 /\ b_id b1 < fr1 /\ fr <= fr1 /\ (b_id b1 = b_id b \/ fr <= b_id b1)).
    { destruct (n <=? used + 1) eqn:Eg.
      - apply Nat.leb_le in Eg. destruct (grow_cells fr b pre Y (n * 2) E ltac:(lia)) as (Y' & E1 & E2 & E3).
        exists (realloc fr (Some b) (n * 2)), (n * 2), (S fr), Y'. unfold grow, modify. cbn [l_blk l_fresh].
        split; [reflexivity|]. split; [exact E1|]. split; [exact E2|]. cbn [realloc b_id]. lia.
      - apply Nat.leb_gt in Eg. exists b, n, fr, Y. split; [reflexivity|]. repeat split; auto; lia. }
    destruct G as (b1 & n1 & fr1 & Y1 & EG & E1 & N1 & L1 & I1 & F1 & K1).
    unfold bind at 1. rewrite EG. destruct Y1 as [|x Y1].
    { rewrite E1, app_length, map_length in N1. cbn in N1. lia. }
    unfold bind at 1. rewrite (put_at b1 (map Some pre) x Y1 ch used n1 fr1 E1) by (rewrite map_length; lia).
    assert (N2 : length (map Some pre ++ Some ch :: Y1) = n1).
    { rewrite E1 in N1. rewrite app_length in *. exact N1. }
    cbn [cut_line]. destruct (Ascii.eqb ch LF) eqn:Ec.
    + destruct Y1 as [|y Y1]. { rewrite app_length, map_length in N2. cbn in N2. lia. }
      unfold bind. rewrite (put_at _ (map Some pre ++ [Some ch]) y Y1 NUL (S used) n1 fr1).
      2:{ cbn. rewrite <- app_assoc. reflexivity. }
      2:{ rewrite app_length, map_length. cbn. lia. }
      cbn [fst length b_id]. eexists _, _, _, Y1. split; [cbn; rewrite !Nat.add_1_r; reflexivity|]. cbn [b_cells b_id].
      split; [rewrite map_snoc, <- !app_assoc; reflexivity|]. split; [|auto].
      rewrite !app_length, map_length in *. cbn in *. lia.
    + destruct (IH (S used) (S cons) (mkB (b_id b1) (map Some pre ++ Some ch :: Y1)) n1 fr1 (pre ++ [ch]) Y1) as (b' & n' & fr' & X & EQ & A1 & A2 & A3 & A4 & A5).
      * cbn. rewrite map_snoc, <- app_assoc. reflexivity.
      * rewrite app_length. cbn. lia.
      * exact N2.
      * lia.
      * exact I1.
      * destruct (cut_line rest) as [a r]. cbn [fst length b_id] in *. exists b', n', fr', X. split.
        { rewrite EQ. f_equal. rewrite !Nat.add_succ_r. reflexivity. }
        split; [rewrite A1, <- app_assoc; reflexivity|]. split; [exact A2|]. split; [exact A3|]. split; [lia|]. lia.
Qed.

Theorem get_line_buffer_spec rest l : lp_ok l -> rest <> [] ->
  exists l', get_line_buffer rest l = Ok (Some (length (fst (cut_line rest))), length (fst (cut_line rest))) l' /\
    lp_ok l' /\ succ_lp l l' /\ holds_line l' (fst (cut_line rest)).
Proof.
  intros Hl Hne. unfold get_line_buffer. destruct rest as [|ch r0] eqn:Er; [congruence|]. rewrite <- Er in *.
  clear Er ch r0. unfold bind at 1, get. unfold lp_ok, bok in Hl.
  assert (G : exists b n fr, (if match l_blk l with None => true | Some _ => l_n l <? initial_size end then grow initial_size else ret tt) l
       = Ok tt (mkLp (Some b) n fr) /\ length (b_cells b) = n /\ 0 < n /\ b_id b < fr /\ succ_lp l (mkLp (Some b) n fr)).
  { unfold succ_lp. destruct (l_blk l) as [b|] eqn:Eb.
    - destruct Hl as [H1 H2]. destruct (l_n l <? initial_size) eqn:En.
      + apply Nat.ltb_lt in En. destruct (grow_cells (l_fresh l) b [] (b_cells b) initial_size eq_refl ltac:(lia)) as (Y' & E1 & E2 & E3).
        eexists _, _, _. unfold grow, modify. rewrite Eb. split; [reflexivity|]. split; [exact E2|].
        cbn [l_blk l_fresh realloc b_id]. unfold initial_size. repeat split; try lia; right; lia.
      + apply Nat.ltb_ge in En. unfold initial_size in En. exists b, (l_n l), (l_fresh l). split; [destruct l as [lb ln lf]; cbn in *; subst; reflexivity|].
        cbn [l_blk l_fresh]. repeat split; auto; try lia. left; eauto.
    - eexists _, _, _. unfold grow, modify. rewrite Eb. split; [reflexivity|]. cbn [l_blk l_fresh realloc b_id b_cells cells_of]. 
      rewrite firstn_nil. cbn [app length]. rewrite repeat_length. unfold initial_size. repeat split; try lia; right; lia. }
  destruct G as (b & n & fr & EG & L & N & I & S1). unfold bind at 1. rewrite EG.
  destruct (glb_loop_spec rest 0 0 b n fr [] (b_cells b) eq_refl eq_refl L N I) as (b' & n' & fr' & X & EQ & A1 & A2 & A3 & A4 & A5).
  unfold bind. rewrite EQ. cbn [Nat.add]. eexists. split; [reflexivity|]. split; [split; [exact A2|exact A3]|]. split.
  - destruct S1 as [S0 S1]. split; [cbn in *; lia|]. cbn [l_blk l_fresh] in *. destruct A5 as [->|A5]; [destruct S1; auto|right; lia].
  - exists b', X. split; [reflexivity|exact A1].
Qed.
Lemma get_line_buffer_eof l : get_line_buffer [] l = Ok (None, 0) l.
Proof. reflexivity. Qed.

Section Posix.
Context (cap : nat -> nat -> nat) (Hcap : forall n need, need <= cap n need).
Theorem get_line_posix_spec rest l : lp_ok l -> rest <> [] ->
  exists l', get_line_posix cap rest l = Ok (Some (length (fst (cut_line rest))), snd (cut_line rest)) l' /\
    lp_ok l' /\ succ_lp l l' /\ holds_line l' (fst (cut_line rest)).
Proof.
  intros Hl Hne. unfold get_line_posix. destruct rest as [|ch r0] eqn:Er; [congruence|]. rewrite <- Er in *. clear Er ch r0.
  destruct (cut_line rest) as [line rest']. cbn [fst snd]. unfold lp_ok, bok in Hl.
  assert (LN : forall n (X : cells), S (length line) <= n -> length (map Some line ++ Some NUL :: @repeat (option ascii) None (n - S (length line))) = n).
  { intros n _ Hn. rewrite app_length, map_length. cbn [length]. rewrite repeat_length. lia. }
  destruct (l_blk l) as [b|] eqn:Eb.
  - destruct Hl as [H1 H2]. destruct (S (length line) <=? l_n l) eqn:En.
    + apply Nat.leb_le in En. eexists. split; [reflexivity|]. split; [|split].
      * split; cbn [l_n l_fresh b_id b_cells]; [apply LN; [exact []|exact En]|exact H2].
      * split; [cbn; lia|]. cbn. left. eauto.
      * eexists _, _. split; [reflexivity|]. reflexivity.
    + eexists. split; [reflexivity|]. split; [|split].
      * split; cbn [l_n l_fresh b_id b_cells]; [apply LN; [exact []|apply Hcap]|lia].
      * split; [cbn; lia|]. cbn. right. lia.
      * eexists _, _. split; [reflexivity|]. reflexivity.
  - eexists. split; [reflexivity|]. split; [|split].
    * split; cbn [l_n l_fresh b_id b_cells]; [apply LN; [exact []|apply Hcap]|lia].
    * split; [cbn; lia|]. cbn. right. lia.
    * eexists _, _. split; [reflexivity|]. reflexivity.
Qed.
(** At the end of the file. *)
Theorem get_line_posix_eof l : lp_ok l ->
  exists l', get_line_posix cap [] l = Ok (None, []) l' /\ lp_ok l' /\ succ_lp l l' /\ (l_blk l <> None -> l' = l).
Proof.
  intros Hl. unfold get_line_posix. unfold lp_ok, bok in *.
  assert (Same : exists l', Ok (None, []) l = @Ok lp (option nat * str) (None, []) l' /\ match l_blk l' with None => l_n l' = 0 | Some b => length (b_cells b) = l_n l' /\ b_id b < l_fresh l' end /\ succ_lp l l' /\ (l_blk l <> None -> l' = l)).
  { exists l. split; [reflexivity|]. split; [exact Hl|]. split; [|auto]. split; [lia|]. destruct (l_blk l); eauto. }
  destruct (l_blk l) eqn:Eb; [exact Same|]. destruct (cap 0 0); [exact Same|].
  eexists. split; [reflexivity|]. cbn [l_blk l_n l_fresh]. split; [cbn; rewrite repeat_length; lia|]. split; [|congruence].
  split; [cbn; lia|]. cbn. right. lia.
Qed.
End Posix.

(** ** The portable version *)
Lemma strlen_nulfree s : nulfree s -> strlen s = length s.
Proof.
  induction s as [|x s IH]; [reflexivity|]. intros H. apply nulfree_cons in H as [Hx H]. cbn [strlen].
  destruct (Ascii.eqb x NUL) eqn:E; [apply Ascii.eqb_eq in E; congruence|]. cbn. rewrite IH by exact H. reflexivity.
Qed.
Lemma strlen_from_spec b n fr X : forall s P fuel, b_cells b = map Some (P ++ s) ++ Some NUL :: X -> nulfree s ->
  length s < fuel -> strlen_from fuel (length P) (mkLp (Some b) n fr) = Ok (length (P ++ s)) (mkLp (Some b) n fr).
Proof.
  induction s as [|x s IH]; intros P fuel E H L; (destruct fuel as [|f]; [cbn in L; lia|]); cbn [strlen_from]; unfold bind.
  - rewrite app_nil_r in *. rewrite (peek_at b (map Some P) NUL X _ n fr E) by (rewrite map_length; reflexivity). reflexivity.
  - apply nulfree_cons in H as [Hx H].
    rewrite (peek_at b (map Some P) x (map Some s ++ Some NUL :: X) _ n fr).
    2:{ rewrite E, map_app, <- app_assoc. reflexivity. }
    2:{ rewrite map_length; reflexivity. }
    destruct (Ascii.eqb x NUL) eqn:Ex; [apply Ascii.eqb_eq in Ex; congruence|].
    replace (P ++ x :: s) with ((P ++ [x]) ++ s) in * by (rewrite <- app_assoc; reflexivity).
    replace (S (length P)) with (length (P ++ [x])) by (rewrite app_length; cbn; lia).
    apply IH; auto. cbn in L. lia.
Qed.
Lemma put_all_spec n fr : forall s b P Y Z, b_cells b = map Some P ++ Y ++ Z -> length Y = length s ->
  put_all (length P) s (mkLp (Some b) n fr) = Ok tt (mkLp (Some (mkB (b_id b) (map Some (P ++ s) ++ Z))) n fr).
Proof.
  induction s as [|x s IH]; intros b P Y Z E L.
  - destruct Y; [|discriminate]. rewrite app_nil_r. cbn in *. unfold ret. rewrite <- E. destruct b; reflexivity.
  - destruct Y as [|y Y]; [discriminate|]. cbn [put_all]. unfold bind.
    rewrite (put_at b (map Some P) y (Y ++ Z) x _ n fr) by (auto; rewrite map_length; reflexivity).
    replace (S (length P)) with (length (P ++ [x])) by (rewrite app_length; cbn; lia).
    rewrite (IH _ (P ++ [x]) Y Z); [|cbn; rewrite map_snoc, <- app_assoc; reflexivity|cbn in L; lia].
    cbn [b_id]. rewrite <- app_assoc. reflexivity.
Qed.

Lemma fgets_take_spec : forall k s a r, fgets_take k s = (a, r) ->
  a ++ r = s /\ length a <= k /\ (s <> [] -> 0 < k -> a <> []) /\
  ((exists t, a = t ++ [LF] /\ ~ In LF t /\ cut_line s = (a, r)) \/
   (~ In LF a /\ cut_line s = (a ++ fst (cut_line r), snd (cut_line r)))).
Proof.
  assert (Z : forall s : str, cut_line s = (fst (cut_line s), snd (cut_line s))) by (intros; destruct (cut_line _); reflexivity).
  induction k as [|k IH]; intros s a r E.
  - destruct s; cbn in E; injection E as <- <-; (split; [reflexivity|]; split; [cbn; lia|]; split; [lia|right; split; [auto|apply Z]]).
  - destruct s as [|ch s]; cbn [fgets_take] in E.
    + injection E as <- <-. split; [reflexivity|]. split; [cbn; lia|]. split; [congruence|]. right. split; [auto|reflexivity].
    + cbn [cut_line]. destruct (Ascii.eqb ch LF) eqn:Ec.
      * injection E as <- <-. split; [reflexivity|]. split; [cbn; lia|]. split; [discriminate|]. left. exists [].
        apply Ascii.eqb_eq in Ec as ->. repeat split; auto.
      * destruct (fgets_take k s) as [a0 b0] eqn:E0. injection E as <- <-. destruct (IH _ _ _ E0) as (A1 & A2 & _ & A4).
        assert (ch <> LF) by (intros ->; rewrite Ascii.eqb_refl in Ec; discriminate).
        split; [cbn; congruence|]. split; [cbn; lia|]. split; [discriminate|]. destruct A4 as [(t & -> & Ht & Hc)|[Ht Hc]]; rewrite Hc.
        -- left. exists (ch :: t). split; [reflexivity|]. split; [|reflexivity]. intros [|]; auto.
        -- right. split; [|reflexivity]. intros [|]; auto.
Qed.

Lemma fgets_loop_spec : forall fuel rest b n fr pre X,
  length rest < fuel -> nulfree (pre ++ rest) -> b_cells b = map Some pre ++ Some NUL :: X ->
  length (b_cells b) = n -> initial_size <= n -> b_id b < fr -> pre ++ rest <> [] ->
  exists b' n' fr' X',
    fgets_loop fuel (length pre) rest (mkLp (Some b) n fr)
      = Ok (Some (length (pre ++ fst (cut_line rest))), snd (cut_line rest)) (mkLp (Some b') n' fr') /\
    b_cells b' = map Some (pre ++ fst (cut_line rest)) ++ Some NUL :: X' /\ length (b_cells b') = n' /\
    b_id b' < fr' /\ fr <= fr' /\ (b_id b' = b_id b \/ fr <= b_id b') /\
    n' <= Nat.max n (2 * length (pre ++ fst (cut_line rest))).
Proof.
  induction fuel as [|f IH]; intros rest b n fr pre X Hf Hnf E Hn Hi Hid Hne; [lia|].
  cbn [fgets_loop]. destruct rest as [|ch r0] eqn:Er.
  - exists b, n, fr, X. cbn [cut_line fst snd]. rewrite !app_nil_r in *.
    destruct pre; [congruence|]. repeat split; auto; lia.
  - rewrite <- Er in *. assert (Hr : rest <> []) by (rewrite Er; discriminate). clear Er ch r0.
    destruct (fgets_take (initial_size - 1) rest) as [buff rest'] eqn:Et.
    destruct (fgets_take_spec _ _ _ _ Et) as (T1 & T2 & T3 & T4). specialize (T3 Hr ltac:(unfold initial_size; lia)).
    assert (Nb : nulfree buff /\ nulfree pre /\ nulfree rest').
    { rewrite <- T1 in Hnf. apply nulfree_app in Hnf as [? Hnf]. apply nulfree_app in Hnf as [? ?]. auto. }
    destruct Nb as (Nb & Np & Nr).
    unfold bind at 1, get. cbn [l_blk cells_of]. unfold bind at 1.
    pose proof (strlen_from_spec b n fr X pre [] (S (length (b_cells b)))) as SL. cbn [app length] in SL.
    rewrite SL; [|exact E|exact Np|rewrite E, app_length, map_length; cbn; lia].
    rewrite (strlen_nulfree _ Nb). unfold bind at 1, gets. cbn [l_n].
    assert (G : exists b1 n1 fr1 Y1,
       (if n <=? length buff + length pre then grow (n * 2) else ret tt) (mkLp (Some b) n fr) = Ok tt (mkLp (Some b1) n1 fr1) /\
       b_cells b1 = map Some pre ++ Y1 /\ length (b_cells b1) = n1 /\ length pre + length buff < n1 /\ n <= n1 /\ b_id b1 < fr1 /\ fr <= fr1 /\ (b_id b1 = b_id b \/ fr <= b_id b1) /\ n1 <= Nat.max n (2 * (length pre + length buff))).
    { assert (length pre < n) by (rewrite <- Hn, E, app_length, map_length; cbn; lia).
      destruct (n <=? length buff + length pre) eqn:Eg.
      - apply Nat.leb_le in Eg. destruct (grow_cells fr b pre (Some NUL :: X) (n * 2) E ltac:(lia)) as (Y' & E1 & E2 & E3).
        exists (realloc fr (Some b) (n * 2)), (n * 2), (S fr), Y'. unfold grow, modify. cbn [l_blk l_fresh].
        split; [reflexivity|]. split; [exact E1|]. split; [exact E2|]. cbn [realloc b_id]. lia.
      - apply Nat.leb_gt in Eg. exists b, n, fr, (Some NUL :: X). split; [reflexivity|]. repeat split; auto; lia. }
    destruct G as (b1 & n1 & fr1 & Y1 & EG & E1 & N1 & L1 & G1 & I1 & F1 & K1 & M1).
    unfold bind at 1. rewrite EG. rewrite firstn_all.
    assert (LY : length buff < length Y1). { rewrite E1, app_length, map_length in N1. lia. }
    assert (SY : exists x Y2, Y1 = firstn (length buff) Y1 ++ x :: Y2).
    { destruct (cells_split Y1 (length buff) LY) as (x & Y2 & EY). exists x, Y2. rewrite <- EY, firstn_skipn. reflexivity. }
    destruct SY as (x & Y2 & EY).
    assert (LF1 : length (firstn (length buff) Y1) = length buff) by (apply firstn_length_le; lia).
    unfold bind at 1. rewrite (put_all_spec n1 fr1 buff b1 pre (firstn (length buff) Y1) (x :: Y2)); [|rewrite <- EY; exact E1|exact LF1].
    unfold bind at 1.
    rewrite (put_at _ (map Some (pre ++ buff)) x Y2 NUL (length pre + length buff) n1 fr1) by (cbn; rewrite ?map_length, ?app_length; auto).
    cbn [b_id]. set (b2 := mkB (b_id b1) (map Some (pre ++ buff) ++ Some NUL :: Y2)).
    assert (N2 : length (b_cells b2) = n1).
    { cbn [b_cells b2]. rewrite E1, EY in N1. rewrite !app_length, !map_length in *. rewrite LF1 in N1. cbn [length] in *. rewrite app_length. lia. }
    destruct (length pre + length buff) as [|k] eqn:Ek.
    { destruct buff; [congruence|cbn in Ek; lia]. }
    unfold bind.
    destruct T4 as [(t & Et1 & Ht & Hc)|[Ht Hc]].
    + rewrite (peek_at b2 (map Some (pre ++ t)) LF (Some NUL :: Y2) k n1 fr1).
      2:{ cbn. rewrite Et1, !map_app, <- !app_assoc. reflexivity. }
      2:{ rewrite map_length, app_length. rewrite Et1, app_length in Ek. cbn in Ek. lia. }
      rewrite Ascii.eqb_refl. exists b2, n1, fr1, Y2. rewrite Hc. cbn [fst snd]. rewrite <- Ek, app_length. repeat split; auto; lia.
    + destruct (exists_last T3) as (t & z & Ez). 
      rewrite (peek_at b2 (map Some (pre ++ t)) z (Some NUL :: Y2) k n1 fr1).
      2:{ cbn. rewrite Ez, !map_app, <- !app_assoc. reflexivity. }
      2:{ rewrite map_length, app_length. rewrite Ez, app_length in Ek. cbn in Ek. lia. }
      assert (Ascii.eqb z LF = false) as ->.
      { destruct (Ascii.eqb z LF) eqn:Ex; [|reflexivity]. apply Ascii.eqb_eq in Ex as ->. exfalso. apply Ht. rewrite Ez, in_app_iff. right; left; reflexivity. }
      destruct (IH rest' b2 n1 fr1 (pre ++ buff) Y2) as (b' & n' & fr' & X' & A0 & A1 & A2 & A3 & A4 & A5 & A6).
      * rewrite <- T1, app_length in Hf. destruct buff; [congruence|cbn in Hf; lia].
      * rewrite <- app_assoc. rewrite T1. exact Hnf.
      * reflexivity.
      * exact N2.
      * lia.
      * exact I1.
      * rewrite <- app_assoc, T1. exact Hne.
      * exists b', n', fr', X'. rewrite app_length, Ek in A0. rewrite A0, Hc. cbn [fst snd b_id b2] in *. rewrite !app_assoc. rewrite <- app_assoc in A1.
        split; [|split; [rewrite <- app_assoc; exact A1|split; [exact A2|split; [exact A3|split; [lia|split]]]]].
        { rewrite <- app_assoc. reflexivity. }
        { destruct A5 as [->|]; [destruct K1; auto; right; lia|right; lia]. }
        rewrite <- app_assoc. rewrite !app_length in *. lia.
Qed.

Lemma fgets_start l : lp_ok l ->
  exists b n fr X, (bind (if match l_blk l with None => true | Some _ => l_n l <? initial_size end then grow initial_size else ret tt) (fun _ => put 0 NUL)) l
       = Ok tt (mkLp (Some b) n fr) /\ b_cells b = Some NUL :: X /\ length (b_cells b) = n /\ initial_size <= n /\ b_id b < fr /\ succ_lp l (mkLp (Some b) n fr).
Proof.
  intros Hl. unfold lp_ok, bok in Hl. unfold bind, succ_lp. destruct (l_blk l) as [b|] eqn:Eb.
  - destruct Hl as [H1 H2]. destruct (l_n l <? initial_size) eqn:En.
    + apply Nat.ltb_lt in En. destruct (grow_cells (l_fresh l) b [] (b_cells b) initial_size eq_refl ltac:(lia)) as (Y' & E1 & E2 & E3).
      unfold grow, modify. rewrite Eb. destruct Y' as [|x Y']; [cbn in E3; unfold initial_size in E3; lia|].
      rewrite (put_at _ [] x Y' NUL 0) by auto. eexists _, _, _, Y'. split; [reflexivity|]. split; [reflexivity|].
      cbn [b_cells length l_blk l_fresh realloc b_id app] in *. repeat split; try lia; right; lia.
    + apply Nat.ltb_ge in En. pose proof En as En'. unfold initial_size in En'. destruct b as [i [|x Y]]; [cbn in *; lia|].
      destruct l as [lb ln lf]. cbn [l_blk l_n l_fresh] in *. subst lb. unfold ret.
      rewrite (put_at _ [] x Y NUL 0) by auto. eexists _, _, _, Y. split; [reflexivity|]. split; [reflexivity|].
      cbn [b_cells length b_id app] in *. repeat split; try lia; left; eauto.
  - unfold grow, modify. rewrite Eb. cbn [realloc cells_of]. unfold realloc. cbn [cells_of]. rewrite firstn_nil. cbn [length app].
    change (repeat None (initial_size - 0)) with (@None ascii :: repeat None 127).
    rewrite (put_at _ [] None (repeat None 127) NUL 0) by auto. eexists _, _, _, _. split; [reflexivity|]. split; [reflexivity|].
    cbn [b_cells length l_blk l_fresh b_id app]. rewrite repeat_length. unfold initial_size. repeat split; try lia; right; lia.
Qed.
Lemma bind_assoc {S A B C} (m : M S A) (f : A -> M S B) (g : B -> M S C) s :
  bind m (fun x => bind (f x) g) s = bind (bind m f) g s.
Proof. unfold bind. destruct (m s); reflexivity. Qed.

Theorem get_line_fgets_spec rest l : lp_ok l -> nulfree rest -> rest <> [] ->
  exists l', get_line_fgets rest l = Ok (Some (length (fst (cut_line rest))), snd (cut_line rest)) l' /\
    lp_ok l' /\ succ_lp l l' /\ holds_line l' (fst (cut_line rest)).
Proof.
  intros Hl Hn Hne. unfold get_line_fgets. unfold bind at 1, get.
  destruct (fgets_start l Hl) as (b & n & fr & X & EG & E & L & N & I & S1).
  rewrite bind_assoc. unfold bind at 1. rewrite EG.
  destruct (fgets_loop_spec (S (length rest)) rest b n fr [] X) as (b' & n' & fr' & X' & A0 & A1 & A2 & A3 & A4 & A5 & _); auto.
  cbn [length app] in A0. rewrite A0. eexists. split; [reflexivity|]. split; [split; [exact A2|exact A3]|]. split.
  - destruct S1 as [S0 S1]. split; [cbn in *; lia|]. cbn [l_blk l_fresh] in *. destruct A5 as [->|A5]; [destruct S1; auto|right; lia].
  - exists b', X'. split; [reflexivity|exact A1].
Qed.
Theorem get_line_fgets_eof l : lp_ok l ->
  exists l', get_line_fgets [] l = Ok (None, []) l' /\ lp_ok l' /\ succ_lp l l' /\ holds_line l' [].
Proof.
  intros Hl. unfold get_line_fgets. unfold bind at 1, get.
  destruct (fgets_start l Hl) as (b & n & fr & X & EG & E & L & N & I & S1).
  rewrite bind_assoc. unfold bind at 1. rewrite EG. cbn. eexists. split; [reflexivity|]. split; [split; [exact L|exact I]|]. split; [exact S1|].
  exists b, X. split; [reflexivity|exact E].
Qed.
(** The size of the buffer. *)
Theorem get_line_fgets_size rest l o l' : lp_ok l -> nulfree rest -> rest <> [] -> get_line_fgets rest l = Ok o l' ->
  l_n l' <= Nat.max (Nat.max (l_n l) initial_size) (2 * length (fst (cut_line rest))).
Proof.
  intros Hl Hn Hne E0. unfold get_line_fgets in E0. unfold bind at 1, get in E0.
  assert (M : forall b n fr, bind (if match l_blk l with None => true | Some _ => l_n l <? initial_size end then grow initial_size else ret tt) (fun _ => put 0 NUL) l
     = Ok tt (mkLp (Some b) n fr) -> n <= Nat.max (l_n l) initial_size).
  { intros b n fr. unfold bind. match goal with |- context [(if ?b then _ else _) l] => destruct b end; unfold grow, modify, ret, put; cbn [l_blk l_n l_fresh].
    - destruct (wr _ _ _); [|discriminate]. intros E; injection E as _ <- _. lia.
    - destruct (l_blk l); [|discriminate]. destruct (wr _ _ _); [|discriminate]. intros E; injection E as _ <- _. lia. }
  destruct (fgets_start l Hl) as (b & n & fr & X & EG & E & L & N & I & S1). specialize (M _ _ _ EG).
  rewrite bind_assoc in E0. unfold bind at 1 in E0. rewrite EG in E0.
  destruct (fgets_loop_spec (S (length rest)) rest b n fr [] X) as (b' & n' & fr' & X' & A0 & A1 & A2 & A3 & A4 & A5 & A6); auto.
  cbn [length app] in A0. rewrite A0 in E0. injection E0 as <- <-. cbn [l_n app] in *. lia.
Qed.
Lemma get_line_fgets_size_eof l o l' : get_line_fgets [] l = Ok o l' -> l_n l' <= Nat.max (l_n l) initial_size.
Proof.
  unfold get_line_fgets, bind, get. match goal with |- context [(if ?b then _ else _) l] => destruct b end; unfold grow, modify, ret, put; cbn [l_blk l_n l_fresh].
  - destruct (wr _ _ _); [|discriminate]. cbn. intros E; injection E as <- <-. cbn. lia.
  - destruct (l_blk l); [|discriminate]. destruct (wr _ _ _); [|discriminate]. cbn. intros E; injection E as <- <-. cbn. lia.
Qed.
Lemma glb_loop_size : forall rest used cons l u k l', glb_loop used cons rest l = Ok (u, k) l' -> used <= u /\ l_n l' <= Nat.max (l_n l) (2 * u).
Proof.
  assert (P : forall i ch l a l', put i ch l = Ok a l' -> l_n l' = l_n l).
  { intros i ch l a l'. unfold put. destruct (l_blk l); [|discriminate]. destruct (wr _ _ _); [|discriminate]. intros E; injection E as _ <-. reflexivity. }
  induction rest as [|ch rest IH]; intros used cons l u k l' E; cbn [glb_loop] in E.
  - unfold bind in E. destruct (put used NUL l) as [a l1| | |] eqn:E1; try discriminate. apply P in E1. injection E as <- _ <-. lia.
  - unfold bind at 1, gets at 1 in E. unfold bind at 1 in E.
    destruct ((if l_n l <=? used + 1 then grow (l_n l * 2) else ret tt) l) as [a l1| | |] eqn:E1; try discriminate.
    assert (L1 : l_n l1 <= Nat.max (l_n l) (2 * (used + 1))).
    { destruct (l_n l <=? used + 1) eqn:Eg; [apply Nat.leb_le in Eg; unfold grow, modify in E1|unfold ret in E1]; injection E1 as _ <-; cbn; lia. }
    unfold bind at 1 in E. destruct (put used ch l1) as [a2 l2| | |] eqn:E2; try discriminate. apply P in E2.
    destruct (Ascii.eqb ch LF).
    + unfold bind in E. destruct (put (S used) NUL l2) as [a3 l3| | |] eqn:E3; try discriminate. apply P in E3. injection E as <- _ <-. lia.
    + apply IH in E. lia.
Qed.
Lemma get_line_buffer_size rest l u k l' : get_line_buffer rest l = Ok (u, k) l' ->
  l_n l' <= Nat.max (Nat.max (l_n l) initial_size) (match u with Some n => 2 * n | None => 0 end).
Proof.
  unfold get_line_buffer. destruct rest as [|ch r0]; [intros E; injection E as <- _ <-; lia|]. unfold bind, get.
  match goal with |- context [(if ?b then _ else _) l] => destruct b end; unfold grow, modify, ret.
  - destruct (glb_loop _ _ _ _) as [[v j] l1| | |] eqn:E1; try discriminate. apply glb_loop_size in E1. intros E; injection E as <- _ <-. cbn [l_n] in *. lia.
  - destruct (glb_loop _ _ _ _) as [[v j] l1| | |] eqn:E1; try discriminate. apply glb_loop_size in E1. intros E; injection E as <- _ <-. cbn [l_n] in *. lia.
Qed.
