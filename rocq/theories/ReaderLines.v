(** Appending a line to the buffer; escaped line ends. *)
From Verif Require Import Base Setup Splitter Extract Converter Reader ListFacts LineProofs GetLineProofs ReaderBase ReaderInv.

(** The next-line buffer holds [B], whatever follows. *)
Definition nlbuf (r : rdr) (B : str) (Y : list (option ascii)) : Prop :=
  exists b, r_nl r = Some b /\ b_cells b = map Some B ++ Y /\ r_nlsize r = length B.
Definition quiet (r r' : rdr) : Prop := stable r r' /\ r_nconv r' = r_nconv r.
Lemma quiet_refl r : quiet r r. Proof. repeat split. Qed.
Lemma quiet_trans a b c : quiet a b -> quiet b c -> quiet a c.
Proof. unfold quiet. intros [H1 H2] [H3 H4]. split; [eapply stable_trans; eauto|congruence]. Qed.
Lemma bufline_nlbuf r B e : bufline r B e -> exists Y, nlbuf r B Y /\ eol r e /\ length e < length Y.
Proof. intros (b & X & H1 & H2 & H3 & H4 & H5). exists (Some NUL :: X). split; [exists b; auto|]. split; [auto|]. cbn; lia. Qed.

Section I.
Context (c : cfg) (d : str) (cap : nat -> nat -> nat) (Hcap : forall n need, need <= cap n need).

Definition nl_set (r : rdr) (b : blk) (cs : list (option ascii)) (n : nat) : rdr :=
  rset_nlsize n (lp_to NextLine (mkLp (Some (mkB (b_id b) cs)) (r_nlsz r) (r_fresh r)) r).
Lemma rinv_nl_set r b cs n : rinv c d r -> r_nl r = Some b -> length cs = length (b_cells b) -> rinv c d (nl_set r b cs n).
Proof.
  intros I Hb HL. apply rinv_nlsize. apply rinv_lp0; [exact I| |].
  - pose proof (i_nl _ _ _ I) as K. unfold bok in K. rewrite Hb in K. destruct K as [K1 K2]. split; cbn; congruence.
  - cbn [lp_of]. rewrite Hb. apply succ_same. reflexivity.
Qed.

Lemma nlsz_eq r b : rinv c d r -> r_nl r = Some b -> r_nlsz r = length (b_cells b).
Proof. intros I Hb. pose proof (i_nl _ _ _ I) as K. unfold bok in K. rewrite Hb in K. symmetry. apply K. Qed.

Lemma undo_spec r B Y e b : rinv c d r -> r_nl r = Some b -> b_cells b = map Some B ++ Y -> r_nlsize r = length B ->
  eol r e -> length e <= length Y ->
  exists e' Y', (e <> [] -> e' = e) /\ undo_remove_eol r = Ok tt (nl_set r b (map Some (B ++ e') ++ Y') (length (B ++ e'))) /\
    length (e' ++ B) + length Y' = length (b_cells b).
Proof.
  intros I Hb Hc Hn He HY. pose proof (nlsz_eq r b I Hb) as HS. rewrite Hc, app_length, map_length in HS.
  assert (PUT : forall e', length e' <= length Y -> exists Y', put_all (length B) e' (lp_of NextLine r) = Ok tt (mkLp (Some (mkB (b_id b) (map Some (B ++ e') ++ Y'))) (r_nlsz r) (r_fresh r))
     /\ length (e' ++ B) + length Y' = length (b_cells b)).
  { intros e' HL. exists (skipn (length e') Y). cbn [lp_of]. rewrite Hb. split.
    - apply (put_all_spec _ _ e' b B (firstn (length e') Y) (skipn (length e') Y)); [rewrite firstn_skipn; exact Hc|]. rewrite firstn_length. lia.
    - rewrite Hc, !app_length, map_length, skipn_length. lia. }
  unfold undo_remove_eol. unfold bind at 1, get. cbv zeta. rewrite Hn.
  assert (ONE : r_crlf r = false -> (e <> [] -> e = [LF]) -> exists e' Y', (e <> [] -> e' = e) /\
     (if length B <? r_nlsz r then on_lp NextLine (put (length B) LF) ;; rupd (rset_nlsize (length B + 1)) else ret tt) r =
     Ok tt (nl_set r b (map Some (B ++ e') ++ Y') (length (B ++ e'))) /\ length (e' ++ B) + length Y' = length (b_cells b)).
  { intros _ Hne. destruct (length B <? r_nlsz r) eqn:E.
    - apply Nat.ltb_lt in E. destruct (PUT [LF]) as (Y' & P1 & P2); [cbn; lia|]. exists [LF], Y'.
      split; [intros X; symmetry; auto|]. split; [|exact P2]. unfold bind.
      assert (P1' : put (length B) LF (lp_of NextLine r) = Ok tt (mkLp (Some (mkB (b_id b) (map Some (B ++ [LF]) ++ Y'))) (r_nlsz r) (r_fresh r))).
      { cbn [put_all] in P1. unfold bind in P1. destruct (put (length B) LF (lp_of NextLine r)) as [[] ?| | |]; try discriminate. exact P1. }
      rewrite (zoom_ok _ _ _ _ _ P1'). unfold rupd, modify, nl_set. rewrite app_length. reflexivity.
    - apply Nat.ltb_ge in E. assert (length Y = 0) by lia. exists [], Y. split.
      { intros X. specialize (Hne X). rewrite Hne in HY. cbn in HY. lia. }
      rewrite !app_nil_r. split; [|rewrite Hc, !app_length, map_length; cbn; lia].
      unfold ret, nl_set. f_equal. rewrite <- Hc. destruct r; cbn in *. subst. destruct b; reflexivity. }
  destruct He as [(-> & Hcr & Hu)|[(-> & Hcr)|(-> & Hcr)]]; rewrite Hcr; cbn [andb].
  - apply ONE; [exact Hcr|congruence].
  - apply ONE; [exact Hcr|reflexivity].
  - assert (length B + 2 <=? r_nlsz r = true) as -> by (apply Nat.leb_le; cbn in HY; lia).
    destruct (PUT [CR; LF] HY) as (Y' & P1 & P2). exists [CR; LF], Y'. split; [reflexivity|]. split; [|exact P2].
    unfold bind. rewrite (zoom_ok _ _ _ _ _ P1). unfold rupd, modify, nl_set. rewrite app_length. reflexivity.
Qed.

Lemma lines_nil_inv u : lines u = [] -> u = [].
Proof. destruct u; [reflexivity|]. rewrite lines_cons by discriminate. discriminate. Qed.

Theorem append_spec r B Y e : rinv c d r -> nlbuf r B Y -> eol r e -> length e <= length Y ->
  match lines (unread r) with
  | [] => exists r', append_next_line_to_buffer cap r = Ok false r' /\ rinv c d r' /\ quiet r r' /\ unread r' = [] /\
            r_line r' = r_line r /\
            (exists b b' Y', r_nl r = Some b /\ r_nl r' = Some b' /\ b_id b' = b_id b /\ b_cells b' = map Some B ++ Y')
  | (t, e') :: more => exists r', append_next_line_to_buffer cap r = Ok true r' /\ rinv c d r' /\ quiet r r' /\
            r_line r' = S (r_line r) /\ bufline r' (B ++ e ++ t) e' /\ lines (unread r') = more /\
            (nulfree (unread r) -> nulfree (e ++ t ++ unread r')) /\ length (unread r') < length (unread r) /\
            (exists y w, e = y :: w /\ (y = LF \/ y = CR)) /\
            (r_curr r' + Z.of_nat (length (unread r')) = r_curr r + Z.of_nat (length (unread r)))%Z /\
            (r_chars r' = r_curr r' - Z.of_nat (length (t ++ e')))%Z
  end.
Proof.
  intros I (b & Hb & Hc & Hn) He HY. remember (append_next_line_to_buffer cap r) as o eqn:Eo. unfold append_next_line_to_buffer in Eo.
  destruct (undo_spec r B Y e b I Hb Hc Hn He HY) as (e1 & Y1 & K1 & E1 & K2).
  unfold bind at 1 in Eo. rewrite E1 in Eo. clear E1. unfold bind at 1, rupd at 1, modify at 1 in Eo.
  set (r1 := nl_set _ _ _ _) in Eo. assert (I1 : rinv c d r1) by (apply rinv_nl_set; auto; rewrite app_length, map_length; rewrite app_length in *; lia).
  set (r2 := rset_chars (r_curr r1) r1) in Eo. assert (I2 : rinv c d r2) by (apply rinv_chars; exact I1).
  assert (U2 : unread r2 = unread r) by reflexivity.
  unfold bind at 1 in Eo.
  destruct (unread r) as [|u0 u1] eqn:Eu.
  - cbn [lines raw_lines map].
    destruct (get_line_none cap Helper r2 (lp_ok_inv _ _ _ _ I2) (i_src _ _ _ I2) U2) as (l' & z' & E & A1 & A2 & A3 & A4 & A5 & A6).
    rewrite E in Eo. eexists. split; [exact Eo|]. split; [apply rinv_lp; auto|]. split; [repeat split|]. split; [exact A3|]. split; [reflexivity|].
    eexists b, _, _. split; [exact Hb|]. split; [reflexivity|]. split; [reflexivity|]. cbn [b_cells]. rewrite map_app, <- app_assoc. reflexivity.
  - assert (Hne : unread r2 <> []) by (rewrite U2; discriminate).
    destruct (get_line_some cap Hcap Helper r2 (lp_ok_inv _ _ _ _ I2) (i_src _ _ _ I2) Hne) as (l' & s' & E & A1 & A2 & A3 & A4 & A5).
    rewrite E in Eo. clear E. rewrite U2 in *. set (u := u0 :: u1) in *. assert (Hu : u <> []) by discriminate.
    rewrite lines_cons by exact Hu. pose proof (cut_line_ne u Hu) as Hraw. pose proof (cut_line_len u Hu) as HL.
    pose proof (cut_line_app u) as CA. pose proof (chomp_app (fst (cut_line u))) as CH. pose proof (chomp_cut u Hu) as CC.
    set (raw := fst (cut_line u)) in *. set (rest := snd (cut_line u)) in *.
    set (r3 := rset_src s' _ _) in Eo. assert (I3 : rinv c d r3) by (apply rinv_lp; auto).
    assert (U3 : unread r3 = rest) by exact A4.
    unfold bind at 1, rupd at 1, modify at 1 in Eo. set (r4 := rset_line _ r3) in Eo. assert (I4 : rinv c d r4) by (apply rinv_line; exact I3).
    assert (HL4 : holds_line (lp_of Helper r4) raw) by exact A3.
    unfold bind at 1 in Eo.
    destruct (remove_eol_spec Helper r4 raw (lp_ok_inv _ _ _ _ I4) HL4 Hraw) as (h & h' & X & B1 & B2 & B3 & B4 & B5 & B6).
    rewrite B3 in Eo. clear B3. destruct (chomp raw) as [t e'] eqn:Ech. cbn [fst snd] in *.
    set (r5 := rset_crlf _ _) in Eo.
    assert (I5 : rinv c d r5).
    { apply rinv_crlf, rinv_lp0; auto.
      - split; [exact B5|]. cbn [b_id l_fresh l_blk]. rewrite B2. pose proof (i_help _ _ _ I4) as L. unfold bok in L. change (r_help r4) with (l_blk (lp_of Helper r4)) in L. rewrite B1 in L. apply L.
      - split; [cbn [l_fresh]; lia|]. cbn [l_blk]. left. exists h. split; [exact B1|exact B2]. }
    assert (U5 : unread r5 = rest) by exact U3.
    assert (BL : eol r5 e').
    { destruct CC as [[-> C2]|[->| ->]]; unfold eol; cbn [is_crlf r5 rset_crlf r_crlf]; auto. left. split; [reflexivity|]. split; [reflexivity|]. rewrite U5. exact C2. }
    assert (Ene : e <> []). { destruct He as [(_ & _ & H)|[(-> & _)|(-> & _)]]; [rewrite H in Eu; discriminate|discriminate|discriminate]. }
    assert (Ee : e1 = e) by (apply K1; exact Ene). clear K1.
    (* realloc_concat *)
    set (B' := B ++ e1).
    assert (N5 : r_nl r5 = Some (mkB (b_id b) (map Some B' ++ Y1))) by reflexivity.
    assert (S5 : r_nlsize r5 = length B') by reflexivity.
    assert (Hp5 : r_help r5 = Some h') by reflexivity.
    assert (RC : exists b2 X2, realloc_concat (length t) r5 = Ok tt (rset_nlsize (length (B' ++ t)) (rset_nl (Some b2) (length (B' ++ t) + 3) (S (r_fresh r5)) r5)) /\
       b_id b2 = r_fresh r5 /\ b_cells b2 = map Some (B' ++ t) ++ Some NUL :: X2 /\ length X2 = 2).
    { unfold realloc_concat. unfold bind at 1, get at 1.
      unfold bind at 1. unfold on_lp, zoom. cbn [lp_of]. unfold grow, modify. cbn [l_blk l_n l_fresh lp_to].
      unfold bind at 1, get at 1. unfold bind at 1. cbn [r_nl r_help rset_nl r_nlsize].
      rewrite Hp5, N5, S5.
      set (n3 := length B' + length t + 3).
      assert (RC : exists W, b_cells (realloc (r_fresh r5) (Some (mkB (b_id b) (map Some B' ++ Y1))) n3) = map Some B' ++ W /\ length W = length t + 3).
      { unfold realloc. cbn [b_cells cells_of]. rewrite firstn_app, map_length. rewrite firstn_all2 by (rewrite map_length; unfold n3; lia).
        rewrite <- app_assoc. eexists. split; [reflexivity|]. rewrite !app_length, firstn_length, repeat_length, map_length. unfold n3. lia. }
      destruct RC as (W & RC & LW). rewrite RC, B4.
      unfold copy_between.
      assert (((length t + 1 <=? length (map Some t ++ Some NUL :: X)) && (length B' + (length t + 1) <=? length (map Some B' ++ W))) = true) as ->.
      { apply andb_true_iff. split; apply Nat.leb_le; rewrite !app_length, !map_length; cbn [length]; lia. }
      exists (mkB (r_fresh r5) (map Some (B' ++ t) ++ Some NUL :: skipn (length t + 1) W)), (skipn (length t + 1) W).
      split; [|split; [reflexivity|split; [reflexivity|rewrite skipn_length; lia]]].
      unfold rupd, modify.
      assert (CELLS : firstn (length B') (map Some B' ++ W) ++ firstn (length t + 1) (map Some t ++ Some NUL :: X) ++ skipn (length B' + (length t + 1)) (map Some B' ++ W)
         = map Some (B' ++ t) ++ Some NUL :: skipn (length t + 1) W).
      { rewrite firstn_app, map_length, Nat.sub_diag, firstn_O, app_nil_r. rewrite firstn_all2 by (rewrite map_length; lia).
        rewrite firstn_app, map_length. replace (length t + 1 - length t) with 1 by lia. rewrite firstn_all2 by (rewrite map_length; lia).
        rewrite skipn_app, map_length. rewrite skipn_all2 by (rewrite map_length; lia).
        replace (length B' + (length t + 1) - length B') with (length t + 1) by lia.
        rewrite map_app, <- !app_assoc. reflexivity. }
      rewrite CELLS. rewrite app_length. reflexivity. }
    destruct RC as (b2 & X2 & RC & C1 & C2 & C3). unfold bind in Eo. rewrite RC in Eo. unfold ret in Eo.
    set (r6 := rset_nlsize _ _) in Eo.
    assert (I6 : rinv c d r6).
    { apply rinv_nlsize. change (rset_nl (Some b2) (length (B' ++ t) + 3) (S (r_fresh r5)) r5) with (lp_to NextLine (mkLp (Some b2) (length (B' ++ t) + 3) (S (r_fresh r5))) r5).
      apply rinv_lp0; auto.
      - split; cbn [l_blk l_n l_fresh]; [rewrite C2, app_length, map_length; cbn [length]; lia|lia].
      - split; [cbn; lia|]. cbn [l_blk]. right. rewrite C1. cbn. lia. }
    assert (LEN : length raw + length rest = length u) by (rewrite <- app_length, CA; reflexivity).
    exists r6. split; [exact Eo|]. split; [exact I6|]. split; [repeat split|]. split; [reflexivity|]. split.
    { exists b2, X2. split; [reflexivity|]. split; [rewrite C2; unfold B'; rewrite Ee, <- app_assoc; reflexivity|]. split; [cbn [r6 rset_nlsize r_nlsize]; unfold B'; rewrite Ee, <- app_assoc; reflexivity|].
      split; [exact BL|]. rewrite C3. destruct CC as [[-> _]|[->| ->]]; cbn; lia. }
    change (unread r6) with (unread r5). rewrite U5. split; [reflexivity|]. split.
    { intros HN. rewrite <- CA, <- CH in HN. rewrite !nulfree_app in *. split; [|tauto].
      destruct He as [(-> & _)|[(-> & _)|(-> & _)]]; unfold nulfree; cbn; intuition discriminate. }
    split; [exact HL|]. split.
    { destruct He as [(-> & _)|[(-> & _)|(-> & _)]]; [congruence| |]; eauto. }
    cbn [r_curr r_chars r6 r5 r4 r3 r2 r1 nl_set rset_crlf rset_src lp_to rset_nl rset_help rset_chars rset_line rset_nlsize]. split; [lia|].
    rewrite <- CH. lia.
Qed.
End I.
