(** The reader's invariant; read_next. *)
From Verif Require Import Base Setup Splitter Extract Converter Reader ListFacts LineProofs GetLineProofs ReaderBase.
From Coq Require Permutation.

Definition ids (p : option blk) : list nat := match p with Some b => [b_id b] | None => [] end.
Lemma owned_eq r : owned r = ids (r_buf r) ++ ids (r_nl r) ++ ids (r_help r).
Proof. unfold owned. destruct (r_buf r), (r_nl r), (r_help r); reflexivity. Qed.

Definition cvok (c : cfg) (v : conv) : Prop :=
  s_resp (v_sp v) = false /\ (c_mode c = EThrow -> s_err (v_sp v) = None) /\ Forall (fun p => p < v_ncols v) (v_map v) /\
  (c_mode c = EBool -> s_err (v_sp v) = None \/ s_err (v_sp v) = Some []).

Record rinv (c : cfg) (d : str) (r : rdr) : Prop := {
  i_buf : bok (r_buf r) (r_bufsz r) (r_fresh r);
  i_nl : bok (r_nl r) (r_nlsz r) (r_fresh r);
  i_help : bok (r_help r) (r_helpsz r) (r_fresh r);
  i_nd : NoDup (owned r);
  i_src : src_ok r;
  i_conv : cvok c (r_conv r);
  i_nconv : cvok c (r_nconv r);
  i_delim : r_delim r = d;
  i_map : v_map (r_nconv r) = v_map (r_conv r) /\ v_ncols (r_nconv r) = v_ncols (r_conv r);
}.

(** What reading leaves alone. *)
Definition stable (r r' : rdr) : Prop := r_buf r' = r_buf r /\ r_bufsz r' = r_bufsz r /\ r_conv r' = r_conv r.
Lemma stable_refl r : stable r r. Proof. repeat split. Qed.
Lemma stable_trans a b c : stable a b -> stable b c -> stable a c.
Proof. unfold stable. intuition congruence. Qed.

Lemma bok_mono p n f f' : bok p n f -> f <= f' -> bok p n f'.
Proof. unfold bok. destruct p; [|auto]. intros [? ?]; split; [auto|lia]. Qed.
Lemma ids_lt p n f x : bok p n f -> In x (ids p) -> x < f.
Proof. unfold bok, ids. destruct p; [|contradiction]. intros [_ H] [<-|[]]. exact H. Qed.
Lemma bok_ids p n f p' n' f' x : bok p n f -> succ_lp (mkLp p n f) (mkLp p' n' f') -> In x (ids p') -> In x (ids p) \/ f <= x.
Proof.
  unfold succ_lp, ids. cbn. destruct p' as [b'|]; [|contradiction]. intros _ [_ [(b & -> & E)|H]] [<-|[]]; [left; left; congruence|right; exact H].
Qed.

Lemma nodup3 (a b c : option blk) f b' :
  NoDup (ids a ++ ids b ++ ids c) ->
  (forall x, In x (ids a) -> x < f) -> (forall x, In x (ids c) -> x < f) ->
  (forall x, In x (ids b') -> In x (ids b) \/ f <= x) ->
  NoDup (ids a ++ ids b' ++ ids c).
Proof.
  intros ND Ha Hc Hb.
  assert (D : forall x y, In x (ids a) -> In y (ids b) -> x <> y).
  { intros x y Hx Hy ->. destruct a, b; cbn in *; try contradiction. destruct Hx as [<-|[]], Hy as [E|[]]. inversion ND as [|? ? N _]. apply N. left. exact E. }
  assert (D2 : forall x y, In x (ids b) -> In y (ids c) -> x <> y).
  { intros x y Hx Hy ->. destruct b, c; cbn in *; try contradiction. destruct Hx as [<-|[]], Hy as [E|[]].
    assert (ND1 : NoDup [b_id b; b_id b0]) by (destruct a; cbn in ND; [inversion ND; assumption|exact ND]). inversion ND1 as [|? ? N _]. apply N. left. exact E. }
  assert (D3 : forall x y, In x (ids a) -> In y (ids c) -> x <> y).
  { intros x y Hx Hy ->. destruct a, c; cbn in *; try contradiction. destruct Hx as [<-|[]], Hy as [E|[]]. inversion ND as [|? ? N _]. apply N. apply in_or_app. right; left; exact E. }
  assert (N1 : forall p, NoDup (ids p)) by (intros [|]; repeat constructor; auto).
  clear ND. destruct b' as [b'|].
  2:{ cbn [ids app]. destruct a as [a|], c as [c|]; cbn in *; repeat constructor; auto. intros [E|[]]. eapply D3; eauto. }
  assert (Hb1 := Hb (b_id b') (or_introl eq_refl)).
  assert (X1 : forall x, In x (ids a) -> x <> b_id b').
  { intros x Hx ->. destruct Hb1 as [H|H]; [exact (D _ _ Hx H eq_refl)|]. specialize (Ha _ Hx). lia. }
  assert (X2 : forall x, In x (ids c) -> b_id b' <> x).
  { intros x Hx <-. destruct Hb1 as [H|H]; [exact (D2 _ _ H Hx eq_refl)|]. specialize (Hc _ Hx). lia. }
  destruct a as [a|], c as [c|]; cbn in *; repeat constructor; cbn; intuition (try congruence; eauto).
Qed.

Section I.
Context (c : cfg) (d : str) (cap : nat -> nat -> nat) (Hcap : forall n need, need <= cap n need).

(** Replacing one of the two line buffers, and moving on in the source. *)
Lemma rinv_lp w r l' s' z' : rinv c d r -> lp_ok l' -> succ_lp (lp_of w r) l' -> src_okz s' z' ->
  rinv c d (rset_src s' z' (lp_to w l' r)).
Proof.
  intros [B N H ND S C1 C2 D M] L SU SO. destruct SU as [F SU0]. assert (SU : succ_lp (lp_of w r) l') by (split; assumption).
  assert (F0 : l_fresh (lp_of w r) = r_fresh r) by (destruct w; reflexivity). rewrite F0 in F.
  rewrite owned_eq in ND. destruct w.
  - split; cbn -[owned]; try assumption.
    + eapply bok_mono; eauto.
    + eapply bok_mono; eauto.
    + rewrite owned_eq. cbn -[ids]. apply (nodup3 (r_buf r) (r_nl r) (r_help r) (r_fresh r)); [exact ND|..].
      * intros x. eapply ids_lt; eauto.
      * intros x. eapply ids_lt; eauto.
      * intros x Hx. destruct l' as [p' n' f']. eapply (bok_ids (r_nl r) (r_nlsz r) (r_fresh r) p' n' f'); eauto.
  - split; cbn -[owned]; try assumption.
    + eapply bok_mono; eauto.
    + eapply bok_mono; eauto.
    + rewrite owned_eq. cbn -[ids].
      assert (ND' : NoDup (ids (r_buf r) ++ ids (r_help r) ++ ids (r_nl r))).
      { eapply Permutation.Permutation_NoDup; [|exact ND]. apply Permutation.Permutation_app_head, Permutation.Permutation_app_comm. }
      eapply Permutation.Permutation_NoDup; [apply Permutation.Permutation_app_head, Permutation.Permutation_app_comm|].
      apply (nodup3 (r_buf r) (r_help r) (r_nl r) (r_fresh r)); [exact ND'|..].
      * intros x. eapply ids_lt; eauto.
      * intros x. eapply ids_lt; eauto.
      * intros x Hx. destruct l' as [p' n' f']. eapply (bok_ids (r_help r) (r_helpsz r) (r_fresh r) p' n' f'); eauto.
Qed.
Lemma rset_src_same r : rset_src (r_src r) (r_curr r) r = r. Proof. destruct r; reflexivity. Qed.
Lemma rinv_lp0 w r l' : rinv c d r -> lp_ok l' -> succ_lp (lp_of w r) l' -> rinv c d (lp_to w l' r).
Proof.
  intros I L S. pose proof (rinv_lp w r l' (r_src r) (r_curr r) I L S (i_src _ _ _ I)) as K.
  replace (rset_src (r_src r) (r_curr r) (lp_to w l' r)) with (lp_to w l' r) in K by (destruct w, r; reflexivity). exact K.
Qed.
Lemma rinv_crlf b r : rinv c d r -> rinv c d (rset_crlf b r).
Proof. intros []. split; assumption. Qed.
Lemma rinv_line n r : rinv c d r -> rinv c d (rset_line n r).
Proof. intros []. split; assumption. Qed.
Lemma rinv_chars z r : rinv c d r -> rinv c d (rset_chars z r).
Proof. intros []. split; assumption. Qed.
Lemma rinv_nlsize n r : rinv c d r -> rinv c d (rset_nlsize n r).
Proof. intros []. split; assumption. Qed.
Lemma lp_ok_inv w r : rinv c d r -> lp_ok (lp_of w r).
Proof. intros []. destruct w; assumption. Qed.
Lemma succ_same b b' n fr : b_id b' = b_id b -> succ_lp (mkLp (Some b) n fr) (mkLp (Some b') n fr).
Proof. intros E. split; [cbn; lia|]. cbn. left. eauto. Qed.

(** ** The buffered line *)
Definition eol (r : rdr) (e : str) : Prop :=
  (e = [] /\ r_crlf r = false /\ unread r = []) \/ (e = [LF] /\ r_crlf r = false) \/ (e = [CR; LF] /\ r_crlf r = true).
(** The next-line buffer holds [B] (terminated), whose line end [e] was removed. *)
Definition bufline (r : rdr) (B e : str) : Prop :=
  exists b X, r_nl r = Some b /\ b_cells b = map Some B ++ Some NUL :: X /\ r_nlsize r = length B /\ eol r e /\ length e <= length X.
(** An empty string is in the buffer; anything may follow. *)
Definition stale0 (r : rdr) : Prop := exists b T, r_nl r = Some b /\ b_cells b = Some NUL :: T.

Lemma chomp_cut u : u <> [] ->
  (snd (chomp (fst (cut_line u))) = [] /\ snd (cut_line u) = []) \/
  snd (chomp (fst (cut_line u))) = [LF] \/ snd (chomp (fst (cut_line u))) = [CR; LF].
Proof.
  intros H. destruct (cut_line_shape u) as (t & Ht & K). destruct (chomp_spec (fst (cut_line u)) t Ht) as [C1 C2].
  destruct K as [[K1 K2]|K1].
  - rewrite (C1 K1). auto.
  - rewrite (C2 K1). destruct (rev t) as [|x l]; [auto|]. destruct (Ascii.eqb x CR); auto.
Qed.

Fixpoint skip_blank (ie : bool) (ls : list (str * str)) : nat * list (str * str) :=
  match ls with
  | [] => (0, [])
  | (t, e) :: ls' =>
      if ie && match t with [] => true | _ => false end then let '(k, l) := skip_blank ie ls' in (S k, l)
      else (0, ls)
  end.

Lemma lenb {A} (t : list A) : (length t =? 0) = match t with [] => true | _ => false end.
Proof. destruct t; reflexivity. Qed.

Lemma read_next_loop_spec : forall fuel r, rinv c d r -> length (unread r) < fuel ->
  let ls := skip_blank (c_ignempty c) (lines (unread r)) in
  exists r', read_next_loop c cap fuel r = Ok (match snd ls with [] => false | _ => true end) r' /\
    rinv c d r' /\ stable r r' /\ r_nconv r' = r_nconv r /\ r_line r' = r_line r + S (fst ls) /\
    match snd ls with
    | [] => unread r' = [] /\ (r_chars r' = r_curr r + Z.of_nat (length (unread r)))%Z /\ 
            (forall b, r_nl r = Some b -> 0 < r_nlsz r -> stale0 r') /\
            (forall B e, fst ls = 0 -> bufline r B e -> exists B', bufline r' B' e /\ length B' = length B)
    | (t, e) :: ls' => bufline r' t e /\ lines (unread r') = ls' /\ (nulfree (unread r) -> nulfree (unread r')) /\
            (r_curr r' + Z.of_nat (length (unread r')) = r_curr r + Z.of_nat (length (unread r)))%Z /\
            (r_chars r' = r_curr r' - Z.of_nat (length (t ++ e)))%Z
    end.
Proof.
  induction fuel as [|f IH]; intros r I Hf; [lia|]. cbv zeta. cbn [read_next_loop].
  unfold bind at 1. unfold rupd at 1, modify at 1. unfold bind at 1, get at 1.
  set (r1 := rset_line (S (r_line r)) r).
  assert (I1 : rinv c d r1) by (apply rinv_line; exact I).
  (* lineptr[0] = NUL *)
  assert (P : exists l1, (if 0 <? r_nlsz r1 then on_lp NextLine (put 0 NUL) else ret tt) r1 = Ok tt (lp_to NextLine l1 r1) /\
     lp_ok l1 /\ succ_lp (lp_of NextLine r1) l1 /\
     (forall b, r_nl r = Some b -> 0 < r_nlsz r -> exists b', l_blk l1 = Some b' /\ b_cells b' = Some NUL :: tl (b_cells b)) /\
     (r_nl r = None -> l_blk l1 = None)).
  { pose proof (lp_ok_inv NextLine r1 I1) as L. unfold lp_ok, bok in L. cbn [lp_of l_blk l_n l_fresh] in L.
    destruct (0 <? r_nlsz r1) eqn:E0.
    - apply Nat.ltb_lt in E0. destruct (r_nl r1) as [b|] eqn:Eb; [|lia]. destruct L as [L1 L2].
      destruct b as [i [|x Y]]; [rewrite <- L1 in E0; cbn in E0; lia|]. eexists (mkLp _ _ _). split; [|split; [|split; [|split]]].
      + apply zoom_ok. cbn [lp_of]. rewrite Eb. rewrite (put_at _ [] x Y NUL 0) by auto. reflexivity.
      + split; cbn in *; auto.
      + cbn [lp_of]. rewrite Eb. apply succ_same. reflexivity.
      + intros b Hb _. change (r_nl r1) with (r_nl r) in Eb. rewrite Hb in Eb. injection Eb as ->. eexists. split; [reflexivity|]. reflexivity.
      + intros N. change (r_nl r1) with (r_nl r) in Eb. congruence.
    - apply Nat.ltb_ge in E0. exists (lp_of NextLine r1). rewrite lp_to_of. split; [reflexivity|]. split; [apply lp_ok_inv; exact I1|].
      split; [split; [lia|]; destruct (l_blk (lp_of NextLine r1)); [left; eauto|reflexivity]|]. split; [intros b _ Hn; change (r_nlsz r1) with (r_nlsz r) in E0; lia|]. auto. }
  destruct P as (l1 & E1 & L1 & S1 & K1 & N1). unfold bind at 1. rewrite E1. clear E1.
  unfold bind at 1. unfold rupd at 1, modify at 1.
  set (r2 := rset_chars (r_curr (lp_to NextLine l1 r1)) (lp_to NextLine l1 r1)).
  assert (I2 : rinv c d r2) by (apply rinv_chars, rinv_lp0; auto).
  assert (U2 : unread r2 = unread r) by reflexivity.
  unfold bind at 1.
  destruct (unread r) as [|u0 u1] eqn:Eu.
  - destruct (get_line_none cap NextLine r2 (lp_ok_inv _ _ I2) (i_src _ _ _ I2) U2) as (l' & z' & E & A1 & A2 & A3 & A4 & A5 & A6).
    rewrite E. rewrite lines_nil. cbn [skip_blank fst snd]. eexists. split; [reflexivity|].
    split; [apply rinv_lp; auto|]. split; [repeat split|]. split; [reflexivity|]. split; [cbn; lia|].
    split; [cbn; exact A3|]. split; [cbn; lia|]. split.
    + intros b Hb Hn. destruct (K1 b Hb Hn) as (b' & Hb' & Hc). destruct (A6 b' (tl (b_cells b))) as (b2 & Y & B1 & B2).
      { cbn. exact Hb'. } { exact Hc. } exists b2. eexists. split; [cbn; exact B1|exact B2].
    + intros B e _ (b & X & Hb & Hc & Hn & He & Hx).
      assert (0 < r_nlsz r). { pose proof (i_nl _ _ _ I) as L. unfold bok in L. rewrite Hb in L. destruct L as [<- _]. rewrite Hc, app_length. cbn. lia. }
      destruct (K1 b Hb H) as (b' & Hb' & Hc'). destruct (A6 b' (tl (b_cells b))) as (b2 & Y & B1 & B2); [exact Hb'|exact Hc'|].
      rewrite Hc in B2.
      assert (Ev : eol (rset_src (r_src r2) z' (lp_to NextLine l' r2)) e).
      { destruct He as [(-> & H1 & H2)|[(-> & H1)|(-> & H1)]]; unfold eol; cbn; auto. }
      destruct B as [|x B].
      * exists []. split; [|reflexivity]. exists b2, (X ++ Y). cbn in B2. split; [cbn; exact B1|]. split; [cbn; exact B2|]. split; [cbn; exact Hn|]. split; [exact Ev|]. rewrite app_length. lia.
      * exists (NUL :: B). split; [|reflexivity]. exists b2, (X ++ Y). cbn in B2. split; [cbn; exact B1|].
        split; [rewrite B2; cbn; rewrite <- app_assoc; reflexivity|]. split; [cbn; exact Hn|]. split; [exact Ev|]. rewrite app_length. lia.
  - assert (Hne : unread r2 <> []) by (rewrite U2; discriminate).
    destruct (get_line_some cap Hcap NextLine r2 (lp_ok_inv _ _ I2) (i_src _ _ _ I2) Hne) as (l' & s' & E & A1 & A2 & A3 & A4 & A5).
    rewrite E. clear E. rewrite U2 in *. set (u := u0 :: u1) in *. assert (Hu : u <> []) by discriminate.
    rewrite lines_cons by exact Hu. pose proof (cut_line_ne u Hu) as Hraw. pose proof (cut_line_len u Hu) as HL.
    pose proof (cut_line_app u) as CA. pose proof (chomp_app (fst (cut_line u))) as CH. pose proof (chomp_cut u Hu) as CC.
    set (raw := fst (cut_line u)) in *. set (rest := snd (cut_line u)) in *.
    set (r3 := rset_src s' _ _). assert (I3 : rinv c d r3) by (apply rinv_lp; auto).
    assert (U3 : unread r3 = rest) by exact A4.
    assert (HL3 : holds_line (lp_of NextLine r3) raw) by exact A3.
    unfold bind at 1.
    destruct (remove_eol_spec NextLine r3 raw (lp_ok_inv _ _ I3) HL3 Hraw) as (b & b' & X & B1 & B2 & B3 & B4 & B5 & B6).
    rewrite B3. clear B3. destruct (chomp raw) as [t e] eqn:Ech. cbn [fst snd] in *.
    set (r4 := rset_crlf _ _).
    assert (I4 : rinv c d r4).
    { apply rinv_crlf, rinv_lp0; auto.
      - split; [exact B5|]. cbn. rewrite B2. pose proof (i_nl _ _ _ I3) as L. unfold bok in L. cbn in L, B1. rewrite B1 in L. apply L.
      - split; [cbn; lia|]. cbn. left. exists b. split; [exact B1|exact B2]. }
    assert (U4 : unread r4 = rest) by exact U3.
    assert (BL : eol r4 e).
    { destruct CC as [[-> C2]|[->| ->]]; unfold eol; cbn [is_crlf r4 rset_crlf r_crlf]; auto. left. split; [reflexivity|]. split; [reflexivity|]. rewrite U4. exact C2. }
    cbn [skip_blank]. rewrite lenb. destruct (c_ignempty c && match t with [] => true | _ => false end) eqn:Eb.
    + specialize (IH r4 I4 ltac:(rewrite U4; cbn in HL, Hf |- *; lia)). cbv zeta in IH. rewrite U4 in IH.
      destruct IH as (r' & D1 & D2 & D3 & D4 & D5 & D6). rewrite D1.
      destruct (skip_blank (c_ignempty c) (lines rest)) as [k ls] eqn:Es. cbn [fst snd] in *.
      exists r'. split; [reflexivity|]. split; [exact D2|]. split; [eapply stable_trans; [|exact D3]; repeat split|]. split; [rewrite D4; reflexivity|].
      split; [rewrite D5; cbn; lia|].
      assert (LEN : length raw + length rest = length u) by (rewrite <- app_length, CA; reflexivity).
      destruct ls as [|[t' e'] ls'].
      * destruct D6 as (G1 & G2 & G3 & G4). split; [exact G1|]. split; [rewrite G2; cbn [r_curr r4 r3 rset_crlf rset_src lp_to rset_nl rset_chars r2 r1 rset_line]; lia|].
        split; [|discriminate]. intros b0 _ _. apply (G3 b'); [reflexivity|]. change (r_nlsz r4) with (l_n (lp_of NextLine r3)). rewrite <- B5, B4, app_length. cbn. lia.
      * destruct D6 as (G1 & G2 & G3 & G4 & G5). split; [exact G1|]. split; [exact G2|]. split.
        { intros HN. apply G3. rewrite <- CA in HN. apply nulfree_app in HN. apply HN. }
        split; [rewrite G4; cbn [r_curr r4 r3 rset_crlf rset_src lp_to rset_nl rset_chars r2 r1 rset_line]; lia|exact G5].
    + cbn [fst snd]. unfold bind, rupd, modify, ret.
      assert (LEN : length raw + length rest = length u) by (rewrite <- app_length, CA; reflexivity).
      eexists. split; [reflexivity|]. split; [apply rinv_nlsize; exact I4|]. split; [repeat split|]. split; [reflexivity|]. split; [cbn; lia|].
      split.
      { exists b', X. split; [reflexivity|]. split; [exact B4|]. split; [reflexivity|]. split; [exact BL|exact B6]. }
      change (unread (rset_nlsize (length t) r4)) with (unread r4). rewrite U4. split; [reflexivity|]. split.
      { intros HN. rewrite <- CA in HN. apply nulfree_app in HN. apply HN. }
      cbn [r_curr r_chars r4 r3 rset_crlf rset_src lp_to rset_nl rset_chars r2 r1 rset_line rset_nlsize]. split; [lia|].
      rewrite <- CH. lia.
Qed.

Lemma rinv_nconv v r : rinv c d r -> cvok c v -> v_map v = v_map (r_nconv r) -> v_ncols v = v_ncols (r_nconv r) -> rinv c d (rset_nconv v r).
Proof. intros [] K M1 M2. split; cbn; try assumption. destruct i_map0. split; congruence. Qed.

(** read_next: the next line that counts. *)
Theorem read_next_spec r : rinv c d r ->
  let ls := skip_blank (c_ignempty c) (lines (unread r)) in
  exists r', read_next c cap r = Ok (match snd ls with [] => false | _ => true end) r' /\
    rinv c d r' /\ stable r r' /\ r_nconv r' = vup_err None (r_nconv r) /\ r_line r' = r_line r + S (fst ls) /\
    match snd ls with
    | [] => unread r' = [] /\ (r_chars r' = r_curr r + Z.of_nat (length (unread r)))%Z /\ 
            (forall b, r_nl r = Some b -> 0 < r_nlsz r -> stale0 r') /\
            (forall B e, fst ls = 0 -> bufline r B e -> exists B', bufline r' B' e /\ length B' = length B)
    | (t, e) :: ls' => bufline r' t e /\ lines (unread r') = ls' /\ (nulfree (unread r) -> nulfree (unread r')) /\
            (r_curr r' + Z.of_nat (length (unread r')) = r_curr r + Z.of_nat (length (unread r)))%Z /\
            (r_chars r' = r_curr r' - Z.of_nat (length (t ++ e)))%Z
    end.
Proof.
  intros I. cbv zeta. unfold read_next. unfold bind at 1. unfold on_nconv, cv_clear_error, vupd, modify. cbn [fst snd].
  unfold bind, get.
  set (r1 := rset_nconv (vup_err None (r_nconv r)) r).
  assert (I1 : rinv c d r1).
  { apply rinv_nconv; auto. destruct (i_nconv _ _ _ I) as (A & B & C & E). repeat split; assumption. }
  destruct (read_next_loop_spec (S (length (unread r1))) r1 I1 ltac:(lia)) as (r' & E & A). exists r'. split; [exact E|]. exact A.
Qed.
End I.
