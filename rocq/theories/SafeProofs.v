(** Memory safety of the parser, for any data and any history of calls. *)
From Verif Require Import Base Setup Splitter SplitPure ListFacts SplitApi SplitRefine SplitKeeps SplitModes SplitContinue SplitWhole SplitLocal SplitSafe Extract Converter ConvSpec ConvProofs Reader LineSpec LineProofs GetLineProofs ReaderBase ReaderInv ReaderEscape ReaderParse Parser ParserSpec ParserApi ParserInv ParserRows ParserOpen ParserSession SessionApi SessionSpec SessionHeader.

(** *** The portable getline never gives a small buffer *)
Lemma put_n i ch l u l' : put i ch l = Ok u l' -> l_n l' = l_n l.
Proof. unfold put. destruct (l_blk l); [|discriminate]. destruct (wr _ _ _); [|discriminate]. intros E. injection E as _ <-. reflexivity. Qed.
Lemma put_all_n : forall s i l u l', put_all i s l = Ok u l' -> l_n l' = l_n l.
Proof.
  induction s as [|x s IH]; intros i l u l' E; cbn [put_all] in E; [injection E as _ <-; reflexivity|]. unfold bind in E.
  destruct (put i x l) as [u1 l1| | |] eqn:E1; try discriminate. apply put_n in E1. apply IH in E. congruence.
Qed.
Lemma peek_same i l a l' : peek i l = Ok a l' -> l' = l.
Proof. unfold peek. destruct (rd _ _); [|discriminate]. intros E. injection E as _ <-. reflexivity. Qed.
Lemma strlen_same : forall f i l a l', strlen_from f i l = Ok a l' -> l' = l.
Proof.
  induction f as [|f IH]; intros i l a l' E; cbn [strlen_from] in E; [discriminate|]. unfold bind in E. destruct (peek i l) as [x l1| | |] eqn:E1; try discriminate.
  apply peek_same in E1. subst l1. destruct (Ascii.eqb x NUL); [injection E as _ <-; reflexivity|]. eapply IH. exact E.
Qed.
Lemma fgets_loop_n : forall f k rest l a l', fgets_loop f k rest l = Ok a l' -> l_n l <= l_n l'.
Proof.
  induction f as [|f IH]; intros k rest l a l' E; cbn [fgets_loop] in E; [discriminate|]. destruct rest as [|x0 s0]; [injection E as _ <-; lia|].
  destruct (fgets_take (initial_size - 1) (x0 :: s0)) as [bf rest']. unfold bind at 1, get at 1 in E. unfold bind at 1 in E.
  destruct (strlen_from _ 0 l) as [u0 l0| | |] eqn:E0; try discriminate. apply strlen_same in E0. subst l0. cbv zeta in E. unfold bind at 1, gets at 1 in E. unfold bind at 1 in E.
  destruct ((if l_n l <=? strlen bf + u0 then grow (l_n l * 2) else ret tt) l) as [u1 l1| | |] eqn:E1; try discriminate.
  assert (L1 : l_n l <= l_n l1). { destruct (l_n l <=? strlen bf + u0); [unfold grow, modify in E1|unfold ret in E1]; injection E1 as _ <-; cbn; lia. }
  unfold bind at 1 in E. destruct (put_all u0 _ l1) as [u2 l2| | |] eqn:E2; try discriminate. apply put_all_n in E2.
  unfold bind at 1 in E. destruct (put (u0 + strlen bf) NUL l2) as [u3 l3| | |] eqn:E3; try discriminate. apply put_n in E3.
  destruct (u0 + strlen bf) as [|k']; [discriminate|]. unfold bind at 1 in E. destruct (peek k' l3) as [x l4| | |] eqn:E4; try discriminate. apply peek_same in E4. subst l4.
  destruct (Ascii.eqb x LF); [injection E as _ <-; lia|]. apply IH in E. lia.
Qed.
Lemma fgets_n rest l a l' : lp_ok l -> get_line_fgets rest l = Ok a l' -> initial_size <= l_n l'.
Proof.
  intros Hl. unfold get_line_fgets. destruct (fgets_start l Hl) as (b & n & fr & X & E & _ & _ & Hn & _).
  unfold bind at 1, get at 1. unfold bind at 1. unfold bind at 1 in E.
  destruct ((if match l_blk l with None => true | Some _ => l_n l <? initial_size end then grow initial_size else ret tt) l) as [u1 l1| | |]; try discriminate.
  unfold bind at 1. rewrite E. intros K. apply fgets_loop_n in K. cbn in K. unfold initial_size in *. lia.
Qed.

(** *** Lines that are still there *)
Definition good (v : conv) (buf : option blk) : Prop :=
  s_sd (v_sp v) = [] \/ exists b B X, buf = Some b /\ b_cells b = tm B ++ X /\ s_blk (v_sp v) = b_id b /\ Forall (within (length B)) (s_sd (v_sp v)).
Lemma good_convok r : good (r_conv r) (r_buf r) -> convok r.
Proof.
  unfold convok, seen_by. intros [E|(b & B & X & E1 & E2 & E3 & F)].
  - rewrite E. exists []. constructor.
  - rewrite E1, E3, Nat.eqb_refl, E2. apply inr_holds. exact F.
Qed.
Lemma rowok_good r : rowok r -> good (r_nconv r) (r_nl r).
Proof. intros (b & B & X & Hb & Hc & [E|E] & F); [left; exact E|right; exists b, B, X; auto]. Qed.
Lemma good_err e v buf : good v buf -> good (vup_err e v) buf. Proof. exact (fun x => x). Qed.
Lemma good_map mp n v buf : good v buf -> good (vup_map mp n v) buf. Proof. exact (fun x => x). Qed.
Lemma good_init buf : good conv_init buf. Proof. left. reflexivity. Qed.
(** The first byte may be overwritten. *)
Lemma good_first v b b' T : good v (Some b) -> b_id b' = b_id b -> (exists x, b_cells b = x :: T) -> b_cells b' = Some NUL :: T -> good v (Some b').
Proof.
  intros [E|(b0 & B & X & E1 & E2 & E3 & F)] Hi (x & Hx) Hc; [left; exact E|]. injection E1 as <-. right.
  destruct B as [|y B].
  - exists b', [], X. split; [reflexivity|]. split; [|split; [congruence|exact F]]. rewrite Hc. rewrite Hx in E2. cbn in E2. injection E2 as _ ->. reflexivity.
  - exists b', (NUL :: B), X. split; [reflexivity|]. split; [|split; [congruence|exact F]]. rewrite Hc. rewrite Hx in E2. cbn in E2. injection E2 as _ ->. reflexivity.
Qed.

(** With the portable getline every buffer in use has the initial size at least. *)
Definition big (r : rdr) : Prop :=
  match r_src r with
  | SPort _ => (r_buf r = None \/ initial_size <= r_bufsz r) /\ (r_nl r = None \/ initial_size <= r_nlsz r)
  | _ => True
  end.
Lemma big_swapped r : big r -> big (swapped r).
Proof. unfold big. cbn. destruct (r_src r); tauto. Qed.

Section B.
Context (c : cfg) (d : str) (cap : nat -> nat -> nat) (Hcap : enough cap).

Lemma get_line_big r o r' : lp_ok (lp_of NextLine r) -> get_line cap NextLine r = Ok o r' ->
  match r_src r with
  | SPort _ => (exists x, r_src r' = SPort x) /\ initial_size <= r_nlsz r'
  | _ => match r_src r' with SPort _ => False | _ => True end
  end.
Proof.
  intros Hl. unfold get_line, bind, get. destruct (r_src r) as [x|x|x|x] eqn:Es.
  - destruct (on_lp _ _ r) as [[a b] r1| | |]; try discriminate. cbn. intros E. injection E as <- <-. exact Logic.I.
  - unfold on_lp, zoom. destruct (get_line_fgets x (lp_of NextLine r)) as [[a b] l1| | |] eqn:E1; try discriminate. cbn. intros E. injection E as <- <-. cbn.
    split; [eauto|]. eapply fgets_n; eauto.
  - destruct (on_lp _ _ r) as [[a b] r1| | |]; try discriminate. cbn. intros E. injection E as <- <-. exact Logic.I.
  - destruct (_ <=? _)%Z; [|discriminate]. intros E. injection E as <- <-. rewrite Es. exact Logic.I.
Qed.
Lemma get_line_same r b T o r' : lp_ok (lp_of NextLine r) -> unread r = [] -> r_nl r = Some b -> b_cells b = Some NUL :: T ->
  (forall x, r_src r = SPort x -> initial_size <= r_nlsz r) -> get_line cap NextLine r = Ok o r' -> r_nl r' = Some b.
Proof.
  intros Hl Hu Hb Hc Hn. unfold get_line, bind, get. unfold unread in Hu. destruct (r_src r) as [x|x|x|x] eqn:Es.
  - rewrite Hu. unfold on_lp, zoom, get_line_posix. cbn [lp_of l_blk]. rewrite Hb. cbn. intros E. injection E as <- <-. reflexivity.
  - rewrite Hu. specialize (Hn x eq_refl). unfold on_lp, zoom, get_line_fgets. unfold bind, get. cbn [lp_of l_blk l_n]. rewrite Hb.
    replace (r_nlsz r <? initial_size) with false by (symmetry; apply Nat.ltb_ge; exact Hn). unfold ret at 1.
    rewrite (put_at b [] (Some NUL) T NUL 0 _ _ Hc eq_refl). cbn. intros E. injection E as <- <-. cbn. destruct b as [i cs]. cbn in *. congruence.
  - rewrite Hu. unfold on_lp, zoom. rewrite get_line_buffer_eof. cbn. intros E. injection E as <- <-. exact Hb.
  - destruct (_ <=? _)%Z; [|discriminate]. intros E. injection E as <- <-. exact Hb.
Qed.
Definition kept (r r' : rdr) : Prop := r_src r' = r_src r /\ r_nlsz r' = r_nlsz r /\ r_buf r' = r_buf r /\ r_bufsz r' = r_bufsz r.
Lemma kept_trans r1 r2 r3 : kept r1 r2 -> kept r2 r3 -> kept r1 r3.
Proof. unfold kept. intuition congruence. Qed.
Lemma on_peek_kept w i r a r' : on_lp w (peek i) r = Ok a r' -> kept r r'.
Proof.
  unfold on_lp, zoom. destruct (peek i (lp_of w r)) as [x l| | |] eqn:E; try discriminate. apply peek_same in E. subst l. intros K. injection K as <- <-.
  destruct w; repeat split.
Qed.
Lemma on_put_kept i ch r a r' : on_lp NextLine (put i ch) r = Ok a r' -> kept r r'.
Proof.
  unfold on_lp, zoom. destruct (put i ch (lp_of NextLine r)) as [x l| | |] eqn:E; try discriminate. apply put_n in E. intros K. injection K as <- <-.
  unfold kept. cbn in *. auto.
Qed.
Lemma remove_eol_kept n r k r' : remove_eol NextLine n r = Ok k r' -> kept r r'.
Proof.
  unfold remove_eol. destruct n as [|n]; [discriminate|]. unfold bind at 1.
  destruct (on_lp NextLine (peek n) r) as [a r1| | |] eqn:E1; try discriminate. apply on_peek_kept in E1.
  assert (CR1 : forall b r2, kept r r2 -> kept r (rset_crlf b r2)) by (intros b r2 X; exact X).
  destruct (negb (Ascii.eqb a LF)).
  - cbn. intros X. injection X as <- <-. apply CR1. exact E1.
  - unfold bind at 1. destruct n as [|j].
    + cbn. unfold bind. destruct (on_lp NextLine _ _) as [u r2| | |] eqn:E2; try discriminate. apply on_put_kept in E2.
      intros X. injection X as <- <-. eapply kept_trans; [|exact E2]. apply CR1. exact E1.
    + unfold bind at 1. destruct (on_lp NextLine (peek j) r1) as [b r2| | |] eqn:E2; try discriminate. apply on_peek_kept in E2.
      destruct (Ascii.eqb b CR); cbn; unfold bind; destruct (on_lp NextLine _ _) as [u r3| | |] eqn:E3; try discriminate; apply on_put_kept in E3;
      intros X; injection X as <- <-; (eapply kept_trans; [|exact E3]); apply CR1; eapply kept_trans; eassumption.
Qed.

(** read_next without ignore_empty. *)
Lemma read_next_calm r b r' : c_ignempty c = false -> rinv c d r -> big r -> read_next c cap r = Ok b r' ->
  big r' /\ (b = false -> forall v, good v (r_nl r) -> good v (r_nl r')).
Proof.
  intros Hi I HB E. unfold read_next in E. unfold bind at 1 in E. unfold on_nconv, cv_clear_error, vupd, modify in E. cbn [fst snd] in E. unfold bind at 1, get at 1 in E.
  set (r0 := rset_nconv _ r) in E. cbn [read_next_loop] in E. unfold bind at 1, rupd at 1, modify at 1 in E. unfold bind at 1, get at 1 in E.
  set (r1 := rset_line _ r0) in E. unfold bind at 1 in E.
  assert (I1 : rinv c d r1). { apply rinv_line. apply rinv_nconv; auto. destruct (i_nconv _ _ _ I) as (A & B & C & D). repeat split; assumption. }
  destruct ((if 0 <? r_nlsz r1 then on_lp NextLine (put 0 NUL) else ret tt) r1) as [u1 r2| | |] eqn:E1; try discriminate.
  (* lineptr[0] = NUL *)
  assert (K2 : kept r1 r2).
  { destruct (0 <? r_nlsz r1); [eapply on_put_kept; exact E1|]. injection E1 as _ <-. repeat split. }
  assert (L2 : lp_ok (lp_of NextLine r2) /\ unread r2 = unread r /\
     forall v, good v (r_nl r) -> s_sd (v_sp v) = [] \/ exists b2 T, r_nl r2 = Some b2 /\ b_cells b2 = Some NUL :: T /\ good v (Some b2)).
  { pose proof (lp_ok_inv c d NextLine r1 I1) as L. unfold lp_ok, bok in *. cbn [lp_of l_blk l_n l_fresh] in *. change (r_nl r1) with (r_nl r) in *. change (r_nlsz r1) with (r_nlsz r) in *.
    destruct (0 <? r_nlsz r) eqn:E0.
    - apply Nat.ltb_lt in E0. destruct (r_nl r) as [b0|] eqn:Eb; [|lia]. destruct L as [L1 L2]. destruct b0 as [i [|x Y]]; [cbn in L1; lia|].
      unfold on_lp, zoom in E1. cbn [lp_of] in E1. change (r_nl r1) with (r_nl r) in E1. rewrite Eb in E1. rewrite (put_at _ [] x Y NUL 0) in E1 by auto. injection E1 as _ <-. cbn.
      split; [auto|]. split; [reflexivity|]. intros v G. right. eexists _, Y. split; [reflexivity|]. split; [reflexivity|]. eapply good_first; [exact G|reflexivity|cbn; eauto|reflexivity].
    - apply Nat.ltb_ge in E0. injection E1 as _ <-. split; [exact L|]. split; [reflexivity|]. intros v [G|(b0 & B & X & G1 & G2 & _)]; [auto|]. exfalso.
      rewrite G1 in L. destruct L as [L _]. rewrite G2, app_length, tm_len in L. lia. }
  destruct L2 as (L2 & U2 & G2). unfold bind at 1, rupd at 1, modify at 1 in E. set (r3 := rset_chars _ r2) in E.
  unfold bind at 1 in E. destruct (get_line cap NextLine r3) as [o r4| | |] eqn:E4; try discriminate.
  assert (L3 : lp_ok (lp_of NextLine r3)) by exact L2.
  assert (BF4 : r_buf r4 = r_buf r /\ r_bufsz r4 = r_bufsz r).
  { destruct K2 as (_ & _ & K3 & K4).
    assert (X : r_buf r4 = r_buf r3 /\ r_bufsz r4 = r_bufsz r3); [|destruct X as [-> ->]; split; [exact K3|exact K4]]. clear - E4. unfold get_line, bind, get in E4. unfold on_lp, zoom in E4. destruct (r_src r3).
    - destruct (get_line_posix _ _ _) as [[? ?] ?| | |]; try discriminate. injection E4 as <- <-. split; reflexivity.
    - destruct (get_line_fgets _ _) as [[? ?] ?| | |]; try discriminate. injection E4 as <- <-. split; reflexivity.
    - destruct (get_line_buffer _ _) as [[? ?] ?| | |]; try discriminate. injection E4 as <- <-. split; reflexivity.
    - destruct (_ <=? _)%Z; [|discriminate]. injection E4 as <- <-. split; reflexivity. }
  assert (S3 : r_src r3 = r_src r) by (destruct K2 as (X & _); exact X).
  assert (N3 : r_nlsz r3 = r_nlsz r) by (destruct K2 as (_ & X & _); exact X).
  assert (B4 : big r4).
  { pose proof (get_line_big r3 o r4 L3 E4) as GB. rewrite S3 in GB. destruct BF4 as [X1 X2]. unfold big in *. rewrite X1, X2.
    destruct (r_src r); try (destruct (r_src r4); [exact Logic.I|contradiction|exact Logic.I|exact Logic.I]).
    destruct GB as ((y & ->) & GB). split; [apply HB|right; exact GB]. }
  destruct o as [ssize|].
  - unfold bind at 1 in E. destruct (remove_eol NextLine ssize r4) as [k r5| | |] eqn:E5; try discriminate. apply remove_eol_kept in E5.
    rewrite Hi in E. cbn [andb] in E. unfold bind, rupd, modify, ret in E. injection E as <- <-. split; [|discriminate].
    destruct E5 as (X1 & X2 & X3 & X4). unfold big in *. cbn. rewrite X1, X3, X4, X2.
    destruct (r_src r4) as [|y| |] eqn:Es; auto. destruct B4 as [Q1 Q2]. split; [exact Q1|]. right.
    pose proof (get_line_big r3 (Some ssize) r4 L3 E4) as GB. destruct (r_src r3); rewrite Es in GB; try contradiction. apply GB.
  - injection E as <- <-. split; [exact B4|]. intros _ v G. destruct (G2 v G) as [G0|(b2 & T & Q1 & Q2 & Q3)]; [left; exact G0|].
    assert (UN : unread r3 = []).
    { change (unread r3) with (unread r2). rewrite U2. pose proof (get_line_some cap Hcap NextLine r3 L3) as GS. change (unread r3) with (unread r2) in GS. rewrite U2 in GS.
      destruct (unread r) as [|z zs]; [reflexivity|]. destruct GS as (l' & s' & GE & _); [|discriminate|].
      - unfold src_ok. rewrite S3. assert (CU : r_curr r3 = r_curr r). { clear - E1. destruct (0 <? r_nlsz r1); [|injection E1 as _ <-; reflexivity]. unfold on_lp, zoom in E1. destruct (put _ _ _); try discriminate. injection E1 as _ <-. reflexivity. }
        rewrite CU. apply (i_src _ _ _ I).
      - rewrite E4 in GE. discriminate. }
    rewrite (get_line_same r3 b2 T None r4 L3 UN Q1 Q2); [exact Q3| |exact E4]. rewrite S3, N3. intros x Ex. unfold big in HB. rewrite Ex in HB.
    destruct HB as [_ [Hn|Hn]]; [|exact Hn]. exfalso. destruct K2 as (_ & _ & _). destruct G as [G|(b9 & _ & _ & G & _)]; [|congruence].
    (* no buffer before *)
    clear - E1 Hn Q1 I. pose proof (i_nl _ _ _ I) as L. unfold bok in L. rewrite Hn in L. replace (r_nlsz r1) with 0 in E1 by (symmetry; exact L). cbn in E1. injection E1 as _ <-.
    change (r_nl (rset_chars _ r1)) with (r_nl r) in Q1. change (r_nl r1) with (r_nl r) in Q1. congruence.
Qed.
End B.

(** Reading a line uses up data. *)
Lemma skip_blank_bytes ie : forall ls, bytes (snd (skip_blank ie ls)) <= bytes ls.
Proof.
  induction ls as [|[t e] ls IH]; [cbn; lia|]. cbn [skip_blank]. destruct (ie && _); [|cbn [snd]; lia].
  destruct (skip_blank ie ls) as [j L]. cbn [snd] in *. rewrite bytes_cons. lia.
Qed.
Lemma lines_full : forall u, Forall (fun l => fst l ++ snd l <> []) (lines u).
Proof.
  intros u. remember (length u) as k eqn:Ek. revert u Ek. induction k as [k IH] using lt_wf_ind. intros u ->.
  destruct (list_eq_dec ascii_dec u []) as [->|Hu]; [constructor|]. rewrite lines_cons by exact Hu.
  constructor; [rewrite chomp_app; apply cut_line_ne; exact Hu|]. eapply IH; [apply (cut_line_len u Hu)|reflexivity].
Qed.
Lemma skip_blank_all (P : str * str -> Prop) ie : forall ls, Forall P ls -> Forall P (snd (skip_blank ie ls)).
Proof.
  induction 1 as [|[t e] ls H F IH]; [constructor|]. cbn [skip_blank]. destruct (ie && _); [|constructor; assumption].
  destruct (skip_blank ie ls). exact IH.
Qed.
Lemma read_next_uses c d cap r b r' : enough cap -> rinv c d r -> read_next c cap r = Ok b r' ->
  length (unread r') <= length (unread r) /\ (b = true -> length (unread r') < length (unread r)).
Proof.
  intros Hcap I E. destruct (read_next_spec c d cap Hcap r I) as (r2 & E2 & _ & _ & _ & _ & REST). rewrite E2 in E. injection E as Eb <-.
  pose proof (skip_blank_bytes (c_ignempty c) (lines (unread r))) as HB. rewrite lines_bytes in HB.
  pose proof (skip_blank_all _ (c_ignempty c) _ (lines_full (unread r))) as HF.
  destruct (snd (skip_blank (c_ignempty c) (lines (unread r)))) as [|[t e] ls].
  - destruct REST as (-> & _). cbn. split; [lia|]. congruence.
  - destruct REST as (_ & EL & _). rewrite bytes_cons, <- EL, lines_bytes in HB.
    assert (0 < length (t ++ e)) by (inversion HF as [|? ? NE _]; cbn in NE; destruct (t ++ e); [congruence|cbn; lia]). lia.
Qed.

Section P.
Context (c hc : cfg) (d : str) (cap : nat -> nat -> nat) (NB : nat).
Context (Hc : cfg_ok c) (Hd : nulfree d) (Hcap : enough cap) (HS : header_setup c hc).

(** How much a get_next loop can still read. *)
Definition left_over (p : prs) : nat := if p_eof p then 0 else S (length (unread (p_rdr p))).
Definition calm : Prop := c_ml c = false /\ c_ignempty c = false /\ c_mode c <> EThrow.
Definition sinv (p : prs) : Prop :=
  pinv c d p /\ (calm -> big (p_rdr p) /\ good (r_conv (p_rdr p)) (r_buf (p_rdr p)) /\
    (p_eof p = true -> good (r_nconv (p_rdr p)) (r_nl (p_rdr p)))) /\
  left_over p <= NB.
Lemma sinv_eq p p' : p_rdr p' = p_rdr p -> p_eof p' = p_eof p -> sinv p -> sinv p'.
Proof. unfold sinv, pinv, left_over. intros -> ->. exact (fun x => x). Qed.

Lemma split_err d' id v cs a v' cs' : cv_split c id d' (v, cs) = Ok a (v', cs') -> v_err v' = v_err v.
Proof.
  unfold cv_split, bind, on_sp, zoom. cbn [fst snd].
  destruct (upd (up_sd []) (v_sp v, cs)) as [u1 [s1 m1]| | |]; try discriminate. cbn [fst snd].
  destruct (load 0 _) as [ch [s2 m2]| | |]; try discriminate. cbn [fst snd].
  destruct (Ascii.eqb ch NUL); [intros E; injection E as _ <- _; reflexivity|].
  destruct (sp_split c id d' _) as [u3 [s3 m3]| | |]; try discriminate. intros E. injection E as _ <- _. reflexivity.
Qed.
Lemma parse_calm r r1 : c_ml c = false -> parse c cap r = Ok tt r1 -> v_err (r_nconv r1) = v_err (r_nconv r) /\ kept r r1.
Proof.
  intros Hm. unfold parse, escape_part. replace (escaped_multiline c) with false by (unfold escaped_multiline; rewrite Hm; reflexivity).
  replace (quoted_multiline c) with false by (unfold quoted_multiline; rewrite Hm; reflexivity).
  unfold bind at 1, ret at 1. unfold bind at 1, get at 1. unfold bind at 1. unfold on_next. destruct (r_nl r) as [b|]; [|discriminate].
  destruct (cv_split c (b_id b) (r_delim r) (r_nconv r, b_cells b)) as [u [v cs]|e [v cs]| |] eqn:E; try discriminate.
  intros K. injection K as <-. cbn. apply split_err in E. split; [exact E|]. repeat split.
Qed.

Lemma read_pinv r b r' p : rinv c d r -> (uqs c r \/ unread r = []) -> read_next c cap r = Ok b r' -> p_rdr p = r' -> p_eof p = negb b -> pinv c d p.
Proof.
  intros I U E Er Ee. destruct (read_next_spec c d cap Hcap r I) as (r2 & E2 & I2 & ST & NC & LN & REST). rewrite E2 in E. injection E as Eb <-.
  unfold pinv. rewrite Er, Ee. split; [exact I2|]. rewrite <- Eb. destruct (skip_blank (c_ignempty c) (lines (unread r))) as [j L] eqn:EL. cbn [fst snd] in *.
  destruct L as [|[t e] ls]; cbn [negb].
  - split; [intros _; apply REST|discriminate].
  - split; [discriminate|]. intros _. rewrite NC. split; [reflexivity|]. split.
    + intros Hq. destruct ST as (_ & _ & ->). rewrite NC. destruct U as [U|U]; [apply U; exact Hq|]. rewrite U, lines_nil in EL. discriminate EL.
    + left. exists t, e. apply REST.
Qed.

(** get_next in front of a row. *)
Lemma live_safe p es : sinv p -> p_eof p = false -> types es ->
  get_obs c (get_next c cap es p) <> GCrash /\ sinv (after p (get_next c cap es p)).
Proof.
  intros (P & CA & LN0) He [W _]. destruct (get_next_live c Hc d Hd cap Hcap p es P He W) as (r1 & r2 & o & b & r' & p' & SO & FD & I2 & U2 & _ & _ & EU2 & ER & EP & TD & HOW & _).
  destruct (told_obs _ _ _ _ _ _ p _ TD) as [B1 B2]. rewrite B2. split; [intros X; rewrite X in B1; unfold shown in B1; destruct o; [discriminate|]; destruct (c_mode c); discriminate|].
  split; [|split].
  - eapply read_pinv; [exact I2|exact U2|exact ER|rewrite EP; reflexivity|rewrite EP; reflexivity].
  - intros CM. destruct (CA CM) as (BG & G1 & _). destruct CM as (Hm & Hi & Ht).
    destruct HOW as [(X & _)|(EO & x & E2)]; [congruence|]. destruct (parse_calm _ _ Hm EO) as (VE & K).
    destruct P as (I & _ & PF). destruct (PF He) as (V0 & _).
    destruct SO as (I1 & (ST1 & ST2 & ST3) & _ & _ & SO). assert (RO : rowok r1).
    { destruct SO as [(_ & _ & [(_ & RO)|(X & _)])|(s & r0 & E3 & _)]; [exact RO|congruence|]. exfalso. rewrite V0 in VE. rewrite E3 in VE. cbn [r_nconv rset_nconv] in VE.
      rewrite fail_err in VE by exact Ht. unfold stop_err in VE. destruct (c_mode c); [discriminate| |congruence]. discriminate. }
    assert (BG1 : big r1). { destruct K as (K1 & K2 & K3 & K4). unfold big in *. rewrite K1, K2, K3, K4. destruct (r_src (p_rdr p)); auto. destruct BG as [Q1 [Q2|Q2]]; [|auto].
      exfalso. destruct RO as (b0 & ? & ? & RB & _). unfold parse, escape_part in EO. replace (escaped_multiline c) with false in EO by (unfold escaped_multiline; rewrite Hm; reflexivity).
      unfold bind at 1, ret at 1 in EO. unfold bind at 1, get at 1 in EO. unfold bind at 1, on_next in EO. rewrite Q2 in EO. discriminate. }
    assert (BG2 : big r2) by (rewrite E2; exact (big_swapped _ BG1)).
    destruct (read_next_calm c d cap Hcap r2 b r' Hi I2 BG2 ER) as (BG' & KG).
    destruct (read_next_spec c d cap Hcap r2 I2) as (r3 & E3 & _ & (S1 & S2 & S3) & NC & _). rewrite ER in E3. injection E3 as _ <-.
    rewrite EP. cbn [p_rdr p_eof]. split; [exact BG'|]. rewrite S1, S3. split.
    + rewrite E2. cbn. apply (rowok_good _ RO).
    + intros Hb. destruct b; [discriminate|]. rewrite NC. apply good_err. apply KG; [reflexivity|]. rewrite E2. cbn. rewrite ST3, ST1. exact G1.
  - rewrite EP. unfold left_over in *. cbn [p_rdr p_eof]. rewrite He in LN0. destruct (negb b); [lia|].
    destruct (read_next_uses _ _ _ _ _ _ Hcap I2 ER) as [U _]. destruct SO as (_ & _ & U1 & _). rewrite EU2 in U. lia.
Qed.
(** The row in front of the parser is given up: too many lines, or the data ends within it. *)
Definition gives_up (p : prs) : Prop := exists r, parse c cap (p_rdr p) = Ok tt r /\ v_err (r_nconv r) <> None.
(** The columns of the row read last are there. *)
Definition present (p : prs) : Prop := good (r_conv (p_rdr p)) (r_buf (p_rdr p)).
Lemma live_present p es : sinv p -> p_eof p = false -> types es -> c_mode c <> EThrow -> ~ gives_up p -> present (after p (get_next c cap es p)).
Proof.
  intros (P & _) He [W _] Ht NG. destruct (get_next_live c Hc d Hd cap Hcap p es P He W) as (r1 & r2 & o & b & r' & p' & SO & FD & I2 & U2 & _ & _ & EU2 & ER & EP & TD & HOW & _).
  destruct (told_obs _ _ _ _ _ _ p _ TD) as [_ B2]. rewrite B2. unfold present.
  destruct HOW as [(X & _)|(EO & x & E2)]; [congruence|].
  assert (VE : v_err (r_nconv r1) = None). { destruct (v_err (r_nconv r1)) eqn:V; [|reflexivity]. exfalso. apply NG. exists r1. split; [exact EO|congruence]. }
  destruct SO as (_ & _ & _ & _ & SO). assert (RO : rowok r1).
  { destruct SO as [(_ & _ & [(_ & RO)|(X & _)])|(s & r0 & E3 & _)]; [exact RO|congruence|]. exfalso. rewrite E3 in VE. cbn [r_nconv rset_nconv] in VE.
    rewrite fail_err in VE by exact Ht. unfold stop_err in VE. destruct (c_mode c); [discriminate| |congruence]. discriminate. }
  destruct (read_next_spec c d cap Hcap r2 I2) as (r3 & E3 & _ & (S1 & S2 & S3) & NC & _). rewrite ER in E3. injection E3 as _ <-.
  rewrite EP. cbn [p_rdr]. rewrite S1, S3, E2. cbn. apply (rowok_good _ RO).
Qed.
(** Every call before the end uses some data or reaches the end. *)
Lemma live_uses p es : sinv p -> p_eof p = false -> types es -> left_over (after p (get_next c cap es p)) < left_over p.
Proof.
  intros (P & _) He [W _]. destruct (get_next_live c Hc d Hd cap Hcap p es P He W) as (r1 & r2 & o & b & r' & p' & SO & FD & I2 & U2 & _ & _ & EU2 & ER & EP & TD & HOW & _).
  destruct (told_obs _ _ _ _ _ _ p _ TD) as [B1 B2]. rewrite B2, EP. unfold left_over. cbn [p_rdr p_eof]. rewrite He. destruct b; cbn [negb]; [|lia].
  destruct (read_next_uses _ _ _ _ _ _ Hcap I2 ER) as [_ U]. specialize (U eq_refl). destruct SO as (_ & _ & U1 & _). rewrite EU2 in U. lia.
Qed.

(** get_next at the end. *)
Lemma end_shape p es : pend c d p ->
  exists e, after p (get_next c cap es p) = mkP (p_name p) e (swapped (p_rdr p)) (p_header p) (p_raw p) true \/
   exists r', read_next c cap (swapped (p_rdr p)) = Ok false r' /\ after p (get_next c cap es p) = mkP (p_name p) e r' (p_header p) (p_raw p) true.
Proof.
  intros (I & He & HU). set (r := p_rdr p) in *.
  pose proof (rinv_swapped _ _ _ I) as I2.
  destruct (read_next_spec c d cap Hcap (swapped r) I2) as (r' & E & _).
  change (unread (swapped r)) with (unread r) in *. rewrite HU in *. rewrite lines_nil in *. cbn [skip_blank fst snd] in *.
  remember (get_next c cap es p) as g eqn:Eg. unfold get_next in Eg. unfold bind at 1, get at 1 in Eg. rewrite He in Eg.
  unfold bind at 1, ret at 1 in Eg. unfold bind at 1 in Eg. unfold on_rdr at 1, zoom at 1 in Eg. fold r in Eg. rewrite update_eq in Eg.
  unfold bind at 1, get at 1 in Eg. cbn [p_rdr pset_rdr p_eof] in Eg. rewrite He in Eg.
  destruct (cv_valid c (r_conv (swapped r))) eqn:Ev; cbn [negb] in Eg.
  - rewrite Eg. unfold p_clear_error, p_error, pupd, bind, modify, get, throw, ret. destruct (c_mode c); eexists; left; unfold after, pset_err, pset_rdr; cbn -[S2 msg_eof]; rewrite He; reflexivity.
  - assert (Em : c_mode c <> EThrow) by (intros Em; unfold cv_valid in Ev; rewrite Em in Ev; discriminate).
    assert (PE' : forall q, p_rdr q = swapped r -> read_line c cap q = Ok tt (pset_eof true (pset_rdr r' q))).
    { intros q Hq. rewrite (read_line_eq c cap q false r'); [reflexivity|]. rewrite Hq. exact E. }
    unfold handle_error_invalid_conversion in Eg. unfold bind at 1 2, get at 1 in Eg.
    destruct (c_mode c) eqn:Em'; [| |congruence].
    + unfold pupd, modify in Eg. unfold bind at 1 in Eg. rewrite PE' in Eg by auto. unfold ret in Eg. rewrite Eg. eexists. right. exists r'. split; [exact E|reflexivity].
    + unfold pupd, modify in Eg. unfold bind at 1 in Eg. rewrite PE' in Eg by auto. unfold ret in Eg. rewrite Eg. eexists. right. exists r'. split; [exact E|reflexivity].
Qed.
Lemma end_safe p es : sinv p -> p_eof p = true -> get_obs c (get_next c cap es p) <> GCrash /\ sinv (after p (get_next c cap es p)).
Proof.
  intros (P & CA & LN0) He. pose proof P as (I & PU & _). assert (PE : pend c d p) by (split; [exact I|split; [exact He|apply PU; exact He]]).
  destruct (pend_next c d cap Hcap p es PE) as (p' & E & PE' & _ & _ & _ & K). split.
  { destruct (c_mode c); [|destruct K as (m & K & _)|]; rewrite K; discriminate. }
  split.
  { rewrite E. destruct PE' as (I' & He' & U'). split; [exact I'|]. split; [intros _; exact U'|congruence]. }
  split; [|destruct PE' as (_ & EE & _); unfold left_over; rewrite E, EE; lia].
  intros CM. destruct (CA CM) as (BG & G1 & G2). specialize (G2 He). destruct CM as (Hm & Hi & Ht). pose proof (big_swapped _ BG) as BG'.
  destruct (end_shape p es PE) as (e & [ES|(r' & ER & ES)]); rewrite ES; cbn [p_rdr p_eof].
  - split; [exact BG'|]. cbn. auto.
  - pose proof (rinv_swapped _ _ _ I) as I2. destruct (read_next_calm c d cap Hcap _ false r' Hi I2 BG' ER) as (BG2 & KG).
    destruct (read_next_spec c d cap Hcap _ I2) as (r3 & E3 & _ & (S1 & S2 & S3) & NC & _). rewrite ER in E3. injection E3 as _ <-.
    split; [exact BG2|]. rewrite S1, S3. split; [exact G2|]. intros _. rewrite NC. apply good_err, KG; [reflexivity|]. exact G1.
Qed.
Lemma next_safe p es : sinv p -> types es -> get_obs c (get_next c cap es p) <> GCrash /\ sinv (after p (get_next c cap es p)).
Proof. intros SI W. destruct (p_eof p) eqn:He; [apply end_safe; auto|apply live_safe; auto]. Qed.

(** ignore_next *)
Definition may_skip : Prop := escaped_multiline c && c_ignempty c = false.
(** A further line with contents is left. *)
Definition line_left (p : prs) : Prop := exists l, In l (lines (unread (p_rdr p))) /\ fst l <> [].
Definition skip_ok (p : prs) : Prop := may_skip \/ line_left p.
Lemma skip_blank_left ie : forall ls l, In l ls -> fst l <> [] -> snd (skip_blank ie ls) <> [].
Proof.
  induction ls as [|[t e] ls IH]; intros l H N; [contradiction|]. cbn [skip_blank]. destruct H as [E|H].
  - subst l. cbn in N. destruct t; [congruence|]. rewrite andb_false_r. discriminate.
  - destruct (ie && match t with [] => true | _ => false end) eqn:B; [|discriminate]. specialize (IH l H N). destruct (skip_blank ie ls). exact IH.
Qed.
(** Two lines with contents. *)
Definition two_lines (data : str) : Prop := exists pre l1 rest l2, lines data = pre ++ l1 :: rest /\ fst l1 <> [] /\ In l2 rest /\ fst l2 <> [].
Lemma skip_blank_two ie l1 rest l2 : fst l1 <> [] -> In l2 rest -> forall pre, exists x ls, snd (skip_blank ie (pre ++ l1 :: rest)) = x :: ls /\ In l2 ls.
Proof.
  intros N H. induction pre as [|[t e] pre IH]; cbn [app skip_blank].
  - destruct l1 as [[|a t] e]; [cbn in N; congruence|]. rewrite andb_false_r. eexists _, rest. split; [reflexivity|exact H].
  - destruct (ie && match t with [] => true | _ => false end); [destruct (skip_blank ie (pre ++ l1 :: rest)); exact IH|]. eexists _, _. split; [reflexivity|]. apply in_or_app. right. right. exact H.
Qed.
Lemma ignore_safe p : skip_ok p -> sinv p -> exists b p', ignore_next c cap p = Ok b p' /\ sinv p' /\ p_header p' = p_header p.
Proof.
  intros MS (P & CA & LN0). pose proof P as (I & PU & PF).
  destruct (read_next_spec c d cap Hcap (p_rdr p) I) as (r' & E & I' & (S1 & S2 & S3) & NC & LN & REST).
  exists (match snd (skip_blank (c_ignempty c) (lines (unread (p_rdr p)))) with [] => false | _ => true end), (pset_rdr r' p).
  split; [unfold ignore_next, on_rdr, zoom; rewrite E; reflexivity|]. split; [|reflexivity]. split; [|split; [|destruct (read_next_uses _ _ _ _ _ _ Hcap I E) as [U _]; unfold left_over in *; cbn [p_rdr p_eof pset_rdr]; destruct (p_eof p); lia]].
  - split; [exact I'|]. cbn [p_rdr p_eof pset_rdr]. split.
    + intros He. rewrite (PU He), lines_nil in REST. cbn in REST. apply REST.
    + intros He. destruct (PF He) as (V0 & U & LR). split; [rewrite NC; reflexivity|]. split.
      { intros Hq. rewrite S3, NC. apply U. exact Hq. }
      destruct (skip_blank (c_ignempty c) (lines (unread (p_rdr p)))) as [j L] eqn:EL. cbn [fst snd] in *. destruct L as [|[t e] ls].
      2:{ left. exists t, e. apply REST. }
      destruct MS as [MS|(l & L1 & L2)]; [|exfalso; apply (skip_blank_left (c_ignempty c) _ l L1 L2); rewrite EL; reflexivity].
      destruct REST as (_ & _ & R3 & R4). unfold may_skip in MS. destruct (escaped_multiline c) eqn:Em.
      * assert (Hi : c_ignempty c = false) by (destruct (c_ignempty c); [discriminate MS|reflexivity]).
        destruct LR as [(B & e & HB)|[_ X]]; [|congruence]. left.
        assert (Hj : j = 0). { rewrite Hi in EL. destruct (lines (unread (p_rdr p))) as [|[t0 e0] l0]; cbn in EL; congruence. }
        destruct (R4 B e Hj HB) as (B' & HB' & _). exists B', e. exact HB'.
      * right. split; [|exact Em].
        assert (X : exists b, r_nl (p_rdr p) = Some b /\ b_cells b <> []).
        { destruct LR as [(B & e & (b & X & Hb & Hcl & _))|[(b & T & Hb & Hcl) _]]; exists b; (split; [exact Hb|]); rewrite Hcl; [destruct B|]; discriminate. }
        destruct X as (b & Hb & Hne). apply (R3 b Hb). pose proof (i_nl _ _ _ I) as L. unfold bok in L. rewrite Hb in L. destruct L as [<- _].
        destruct (b_cells b); [congruence|cbn; lia].
  - intros CM. destruct (CA CM) as (BG & G1 & G2). destruct CM as (Hm & Hi & Ht). cbn [p_rdr p_eof pset_rdr].
    destruct (read_next_calm c d cap Hcap _ _ _ Hi I BG E) as (BG' & KG). split; [exact BG'|]. rewrite S1, S3. split; [exact G1|].
    intros He. rewrite NC. apply good_err. rewrite (PU He), lines_nil in KG. apply KG; [reflexivity|]. apply G2. exact He.
Qed.

(** The header functions *)
Definition alikep (p p' : prs) : Prop := p_rdr p' = p_rdr p /\ p_eof p' = p_eof p /\ p_raw p' = p_raw p.
Lemma alikep_trans p q r : alikep p q -> alikep q r -> alikep p r.
Proof. unfold alikep. intuition congruence. Qed.
Definition ends_as {A} (p : prs) (o : res prs A) : Prop := match o with Ok _ p' | Throw _ p' => alikep p p' | _ => False end.

Lemma p_error_as msg p : ends_as p (p_error c msg p).
Proof. unfold p_error, bind, get, pupd, modify, throw. destruct (c_mode c); cbn; repeat split. Qed.
Lemma ends_bind {A B} p (m : M prs A) (k : A -> M prs B) : ends_as p (m p) -> (forall a p', m p = Ok a p' -> alikep p p' -> ends_as p' (k a p')) -> ends_as p (bind m k p).
Proof.
  unfold bind. intros H K. destruct (m p) as [a p'|e p'| |]; try exact H. specialize (K a p' eq_refl H). cbn in H.
  destruct (k a p'); cbn in *; try exact K; eapply alikep_trans; eauto.
Qed.
Lemma ends_ret {A} (a : A) p : ends_as p (ret a p). Proof. repeat split. Qed.
Lemma texts_within m B rs : m = tm B -> Forall (within (length B)) rs -> exists l, texts m rs = Some l.
Proof.
  intros ->. induction 1 as [|[b e] rs [H1 H2] F [l IH]]; [exists []; reflexivity|]. cbn in *. destruct (inited_range (tm B) b e (tm_inited B) H1) as (f & ->); [rewrite tm_len; lia|].
  rewrite IH. eauto.
Qed.
Lemma strict_as p : r_delim (p_rdr p) = d -> ends_as p (strict_split c hc p) /\
  (forall sm p', strict_split c hc p = Ok (Some sm) p' -> exists l, texts (snd sm) (s_sd (fst sm)) = Some l).
Proof.
  intros Edl. unfold strict_split. rewrite Edl.
  destruct (split_tm hc (hc_ok c hc Hc HS) d Hd 0 sp_init (p_raw p) eq_refl) as (s' & B' & LB & _ & _ & _ & K).
  change (map Some (p_raw p) ++ [Some NUL]) with (tm (p_raw p)).
  destruct K as [(E & F & _)|(Em & e & E & _)]; rewrite E.
  - destruct (sp_valid hc s').
    + split; [repeat split|]. intros sm p' X. injection X as <- <-. cbn [fst snd]. eapply texts_within; [reflexivity|]. rewrite LB. exact F.
    + split; [|intros sm p' X; unfold bind in X; destruct (p_error c _ p); discriminate X].
      apply ends_bind; [apply p_error_as|]. intros a p' _ _. apply ends_ret.
  - split; [repeat split|]. intros sm p' X. discriminate X.
Qed.
Lemma add_fields_as : forall l p, ends_as p (add_fields c l p).
Proof.
  induction l as [|f l IH]; intros p; [apply ends_ret|]. cbn [add_fields]. unfold bind at 1, get at 1. destruct (find_index f (p_header p)).
  - apply ends_bind; [apply p_error_as|]. intros a p' _ _. repeat split.
  - apply ends_bind; [repeat split|]. intros a p' _ _. apply IH.
Qed.
Lemma header_as p : r_delim (p_rdr p) = d -> ends_as p (header c hc p).
Proof.
  intros Edl. unfold header. apply ends_bind; [repeat split|]. intros a p' E _. injection E as _ <-. destruct (strict_as (pset_err None p) Edl) as [A B].
  apply ends_bind; [exact A|]. intros [sm|] p' E _; [|apply ends_ret]. destruct (B sm p' E) as (l & El). unfold texts_of. rewrite El. apply ends_ret.
Qed.
Lemma split_header_as p : r_delim (p_rdr p) = d -> ends_as p (split_header_data c hc p).
Proof.
  intros Edl. unfold split_header_data. destruct (strict_as p Edl) as [A B]. apply ends_bind; [exact A|].
  intros [sm|] p' E _; [|apply ends_ret]. destruct (B sm p' E) as (l & El). unfold texts_of. rewrite El. unfold bind, ret. apply add_fields_as.
Qed.
Lemma field_as f p : r_delim (p_rdr p) = d -> ends_as p (field_exists c hc f p).
Proof.
  intros Edl. unfold field_exists. apply ends_bind; [repeat split|]. intros a p0 E _. injection E as _ <-. unfold bind at 1, get at 1.
  apply ends_bind; [destruct (p_header _); [apply split_header_as; exact Edl|apply ends_ret]|].
  intros u p1 _ _. unfold bind, get. destruct (negb (p_valid c p1)); apply ends_ret.
Qed.
Lemma find_columns_as all : forall fs p, ends_as p (find_columns c all fs p) /\
  (forall l p', find_columns c all fs p = Ok (Some l) p' -> p' = p /\ Forall (fun i => i < length (p_header p)) l).
Proof.
  induction fs as [|f fs IH]; intros p.
  - split; [apply ends_ret|]. intros l p' E. injection E as <- <-. auto.
  - assert (EQ : find_columns c all (f :: fs) p = (if negb (count_str f all =? 1) then bind (p_error c (msg_field_twice f)) (fun _ => ret None)
      else match find_index f (p_header p) with
           | None => bind (p_error c (msg_invalid_field f)) (fun _ => ret None)
           | Some i => bind (find_columns c all fs) (fun o => match o with Some l => ret (Some (i :: l)) | None => ret None end)
           end) p) by (cbn [find_columns]; destruct (negb _); [reflexivity|]; unfold bind at 1, get at 1, header_index; destruct (find_index f (p_header p)); reflexivity).
    rewrite EQ. clear EQ. destruct (negb (count_str f all =? 1)).
    + split; [apply ends_bind; [apply p_error_as|intros; apply ends_ret]|]. intros l p' E. unfold bind in E. destruct (p_error c _ p); discriminate E.
    + destruct (find_index f (p_header p)) as [i|] eqn:Ei.
      * destruct (IH p) as [A B]. split.
        -- apply ends_bind; [exact A|]. intros [l|] p' _ _; apply ends_ret.
        -- intros l p' E. unfold bind in E. destruct (find_columns c all fs p) as [[l0|] p0| | |] eqn:E0; try discriminate. injection E as <- <-.
           destruct (B l0 p0 eq_refl) as [-> F]. split; [reflexivity|]. constructor; [|exact F]. apply find_index_some in Ei. apply nth_error_Some. congruence.
      * split; [apply ends_bind; [apply p_error_as|intros; apply ends_ret]|]. intros l p' E. unfold bind in E. destruct (p_error c _ p); discriminate E.
Qed.
Lemma sinv_as {A} p (o : res prs A) : sinv p -> ends_as p o -> sinv (after p o).
Proof. intros SI H. destruct o; cbn in *; try contradiction; destruct H as (H1 & H2 & _); eapply sinv_eq; eauto. Qed.

Lemma sinv_map mp n p : Forall (fun i => i < n) mp -> sinv p ->
  sinv (pset_rdr (rset_nconv (vup_map mp n (r_nconv (p_rdr p))) (rset_conv (vup_map mp n (r_conv (p_rdr p))) (p_rdr p))) p).
Proof.
  intros F ((I & PU & PF) & CA & LN0). split.
  - split; [|split; [exact PU|exact PF]]. destruct I. split; cbn; try assumption; auto.
    + destruct i_conv as (A & B & C & D). repeat split; assumption.
    + destruct i_nconv as (A & B & C & D). repeat split; assumption.
  - split; [exact CA|exact LN0].
Qed.
Definition ends_safe {A} (o : res prs A) : Prop := match o with Ok _ p' | Throw _ p' => sinv p' | _ => False end.
Lemma as_safe {A} p (o : res prs A) : sinv p -> ends_as p o -> ends_safe o.
Proof. intros SI H. destruct o; cbn in *; try contradiction; destruct H as (H1 & H2 & _); eapply sinv_eq; eauto. Qed.
Lemma safe_bind {A B} p (m : M prs A) (k : A -> M prs B) : ends_safe (m p) -> (forall a p', m p = Ok a p' -> sinv p' -> ends_safe (k a p')) -> ends_safe (bind m k p).
Proof. unfold bind. intros H K. destruct (m p) as [a p'|e p'| |]; try exact H. apply (K a p' eq_refl H). Qed.
Lemma sinv_delim p : sinv p -> r_delim (p_rdr p) = d.
Proof. intros ((I & _) & _). apply (i_delim _ _ _ I). Qed.
Lemma use_safe fs p : p_line p <> 0 \/ skip_ok p -> sinv p -> ends_safe (use_fields c hc cap fs p).
Proof.
  intros MS SI. unfold use_fields. apply safe_bind; [exact SI|]. intros a p0 E SI0. injection E as _ <-. unfold bind at 1, get at 1.
  match goal with |- ends_safe (bind ?m _ _) => assert (EA : ends_as (pset_err None p) (m (pset_err None p))) end.
  { destruct (p_header _); [|apply ends_ret]. destruct (p_eof _); [apply ends_ret|]. apply split_header_as. apply sinv_delim. exact SI0. }
  apply safe_bind; [apply (as_safe (pset_err None p)); [exact SI0|exact EA]|].
  intros u p1 E1 SI1. rewrite E1 in EA. destruct EA as (RE & _). assert (MS1 : p_line p1 <> 0 \/ skip_ok p1) by (unfold p_line, skip_ok, line_left in *; rewrite RE; exact MS). clear MS. unfold bind at 1, get at 1. destruct (negb (p_valid c p1)); [exact SI1|].
  destruct fs as [|f fs]; [apply (as_safe p1); [exact SI1|apply p_error_as]|].
  destruct (find_columns_as (f :: fs) (f :: fs) p1) as [A B]. apply safe_bind; [apply (as_safe p1); [exact SI1|exact A]|].
  intros [mp|] p2 E2 SI2; [|exact SI2]. destruct (B mp p2 E2) as [-> F]. cbv zeta.
  unfold bind at 1, on_rdr at 1, zoom at 1, rupd at 1, modify at 1. unfold bind at 1, on_rdr at 1, zoom at 1, rupd at 1, modify at 1.
  pose proof (sinv_map mp _ _ F SI1) as SM.
  match goal with |- ends_safe (bind get ?k ?q) => change (ends_safe (k q q)); assert (SQ : sinv q) by exact SM; assert (MQ : p_line q <> 0 \/ skip_ok q) by exact MS1; generalize dependent q end.
  intros q SQ MQ. cbv beta. destruct (p_line q =? 0) eqn:EL; [|exact SQ]. apply Nat.eqb_eq in EL. destruct MQ as [MQ|MQ]; [congruence|]. destruct (ignore_safe q MQ SQ) as (b & q' & E & SQ' & _). unfold bind. rewrite E. exact SQ'.
Qed.

(** Chains *)
Definition filled (vs : list (option (list slot))) : Prop := all_given vs <> None.
Lemma filled_snoc vs o : filled vs -> match o with None => True | Some xs => given xs <> None end -> filled (vs ++ [o]).
Proof.
  unfold filled. induction vs as [|v vs IH]; intros H K; cbn in *.
  - destruct o as [xs|]; [|discriminate]. destruct (given xs); congruence.
  - destruct v as [xs|].
    + destruct (given xs); [|congruence]. destruct (all_given vs); [|congruence]. specialize (IH ltac:(discriminate) K). destruct (all_given (vs ++ [o])); congruence.
    + destruct (all_given vs); [|congruence]. specialize (IH ltac:(discriminate) K). destruct (all_given (vs ++ [o])); congruence.
Qed.
Definition chain_safe {A} (Q : A -> prs -> Prop) (o : res chain A) : Prop :=
  match o with Ok a (p, _) => sinv p /\ Q a p | Throw _ (p, _) => sinv p | _ => False end.
Lemma chain_bind {A B} (Q : A -> prs -> Prop) (R : B -> prs -> Prop) (m : M chain A) (k : A -> M chain B) t :
  chain_safe Q (m t) -> (forall a p l, sinv p -> Q a p -> chain_safe R (k a (p, l))) -> chain_safe R (bind m k t).
Proof. unfold bind. intros H K. destruct (m t) as [a [p l]|e [p l]| |]; try exact H. destruct H as [H1 H2]. apply K; assumption. Qed.
Lemma chain_weak {A} (Q R : A -> prs -> Prop) o : (forall a p, Q a p -> R a p) -> chain_safe Q o -> chain_safe R o.
Proof. intros H. destruct o as [a [p l]|e [p l]| |]; cbn; auto. intros [A1 A2]. auto. Qed.

Lemma invoke_safe arg cb p l : sinv p -> chain_safe (fun _ q => p_rdr q = p_rdr p) (try_invoke c arg cb (p, l)).
Proof.
  intros SI. destruct cb as [|k|k f]; cbn; auto. unfold bind, log, modify. cbn [fst snd]. destruct (f arg); [cbn; auto|].
  unfold on_p, zoom. cbn [fst]. pose proof (p_error_as msg_failed_check p) as H. destruct (p_error c msg_failed_check p); cbn in *; try contradiction; destruct H as (H1 & H2 & _).
  - split; [eapply sinv_eq; eauto|exact H1].
  - eapply sinv_eq; eauto.
Qed.
Lemma get_values_given es p xs p' : get_obs c (get_next c cap es p) <> GCrash -> get_next c cap es p = Ok xs p' -> p_valid c p' = true -> given xs <> None.
Proof. intros N E V. rewrite E in N. cbn in N. rewrite V in N. destruct (given xs); congruence. Qed.
Definition may_retry : Prop := c_mode c = EThrow \/ c_ml c = false /\ c_ignempty c = false.
Definition retry_ok (p : prs) : Prop := may_retry \/ p_eof p = false /\ ~ gives_up p.
(** In a chain: or_else does not look at columns (it never does with throw_on_error), or they are there. *)
Definition ready (p : prs) : Prop := c_mode c = EThrow \/ present p.
Lemma try_next_safe es cb p l : sinv p -> types es -> chain_safe (fun vs q => filled vs /\ (retry_ok p -> ready q)) (try_next c cap es cb (p, l)).
Proof.
  intros SI W. destruct (next_safe p es SI W) as [N SN]. unfold try_next.
  assert (RD : retry_ok p -> ready (after p (get_next c cap es p))).
  { intros R. unfold ready. assert (D : c_mode c = EThrow \/ c_mode c <> EThrow) by (destruct (c_mode c); auto; right; discriminate). destruct D as [D|D]; [auto|]. right.
    destruct R as [[R|[R1 R2]]|[R1 R2]]; [congruence| |apply live_present; assumption]. destruct SN as (_ & CA & _). apply CA. repeat split; assumption. }
  apply chain_bind with (Q := fun xs p' => (p_valid c p' = true -> given xs <> None) /\ (retry_ok p -> ready p')).
  - unfold on_p, zoom. cbn [fst]. pose proof (get_values_given es p) as GV. destruct (get_next c cap es p) as [xs p'|e p'| |]; cbn in *; auto; try congruence. split; [exact SN|]. split; [eauto|exact RD].
  - clear RD. intros xs p1 l1 S1 [G1 RD]. unfold bind at 1, get at 1. cbn [fst].
    apply chain_bind with (Q := fun _ p' => (p_valid c p' = true -> given xs <> None) /\ p_rdr p' = p_rdr p1).
    { destruct (p_valid c p1) eqn:V1; [|cbn; split; [exact S1|split; [congruence|reflexivity]]]. eapply chain_weak; [|apply invoke_safe; exact S1]. cbn. auto. }
    intros u p2 l2 S2 [G2 R2]. unfold bind, get, ret. cbn. split; [exact S2|]. split; [|unfold ready, present in *; rewrite R2; exact RD]. unfold filled. cbn. destruct (p_valid c p2); [|discriminate].
    specialize (G2 eq_refl). destruct (given xs); congruence.
Qed.
Lemma or_else_safe vs es cb p l : ready p -> sinv p -> types es -> filled vs -> chain_safe (fun vs' q => filled vs' /\ ready q) (or_else c vs es cb (p, l)).
Proof.
  intros MR SI [W _] FV. unfold or_else. unfold bind at 1, get at 1. cbn [fst].
  apply chain_bind with (Q := fun o p' => ready p' /\ match o with None => True | Some xs => given xs <> None end).
  - destruct (p_valid c p) eqn:V; [cbn; auto|].
    assert (Ht : c_mode c <> EThrow) by (intros X; unfold p_valid in V; rewrite X in V; discriminate).
    destruct MR as [X|G1]; [congruence|].
    apply chain_bind with (Q := fun xs p' => ready p' /\ (p_valid c p' = true -> given xs <> None)).
    + pose proof SI as ((I & PU & PF) & CA & LN0).
      destruct (on_conv_ends c d es (p_rdr p) I (good_convok _ G1) W) as (o & _ & EC).
      assert (SV : forall x e, sinv (pset_err e (pset_rdr (rset_conv (vup_err x (r_conv (p_rdr p))) (p_rdr p)) p))).
      { intros x e. split.
        - split; [|split; [exact PU|exact PF]]. cbn [p_rdr pset_err pset_rdr]. apply rinv_conv; auto. destruct (i_conv _ _ _ I) as (A & B & C & D). repeat split; assumption.
        - split; [|exact LN0]. intros CM. destruct (CA CM) as (BG & _ & G2). split; [exact BG|]. split; [exact G1|exact G2]. }
      assert (RD : forall x e, ready (pset_err e (pset_rdr (rset_conv (vup_err x (r_conv (p_rdr p))) (p_rdr p)) p))) by (intros x e; right; exact G1).
      unfold on_p, zoom. cbn [fst]. remember (try_same c es p) as o' eqn:Eo. unfold try_same in Eo. unfold bind at 1, p_clear_error, pupd, modify in Eo. unfold bind at 1 in Eo. unfold on_rdr at 1, zoom at 1 in Eo.
      change (p_rdr (pset_err None p)) with (p_rdr p) in Eo. destruct o as [ws|m].
      * rewrite EC in Eo. unfold bind at 1, get at 1 in Eo. change (r_conv (p_rdr (pset_rdr (rset_conv (vup_err None (r_conv (p_rdr p))) (p_rdr p)) (pset_err None p)))) with (vup_err None (r_conv (p_rdr p))) in Eo.
        replace (cv_valid c (vup_err None (r_conv (p_rdr p)))) with true in Eo by (unfold cv_valid, err_valid; destruct (c_mode c); reflexivity). cbn [negb] in Eo. unfold bind, ret in Eo.
        rewrite Eo. cbn. split; [apply (SV None None)|]. split; [apply (RD None None)|]. intros _. rewrite given_some. discriminate.
      * destruct (c_mode c) eqn:Em; [| |congruence]; destruct EC as (xs & EC); rewrite EC in Eo; unfold bind at 1, get at 1 in Eo;
        change (r_conv (p_rdr (pset_rdr (rset_conv (vup_err (after_error c m) (r_conv (p_rdr p))) (p_rdr p)) (pset_err None p)))) with (vup_err (after_error c m) (r_conv (p_rdr p))) in Eo;
        replace (cv_valid c (vup_err (after_error c m) (r_conv (p_rdr p)))) with false in Eo by (unfold cv_valid, err_valid, after_error; rewrite Em; reflexivity); cbn [negb] in Eo;
        unfold bind at 1, handle_error_invalid_conversion in Eo; rewrite Em in Eo; unfold bind at 1, get at 1, pupd at 1, modify at 1 in Eo; unfold ret in Eo; rewrite Eo; cbn -[S2 dec];
        (split; [apply (SV (after_error c m) _)|]); (split; [apply (RD (after_error c m) _)|]); unfold p_valid; rewrite Em; discriminate.
    + intros xs p1 l1 S1 [R1 G2]. unfold bind at 1, get at 1. cbn [fst]. destruct (p_valid c p1) eqn:V1; cbn [negb]; [|cbn; auto].
      apply chain_bind with (Q := fun _ q => p_rdr q = p_rdr p1); [apply invoke_safe; exact S1|]. intros u p2 l2 S2 R2. cbn. split; [exact S2|]. split; [|apply G2; reflexivity].
      unfold ready, present in *. rewrite R2. exact R1.
  - intros o p1 l1 S1 [R1 G1]. unfold bind, get, ret. cbn. split; [exact S1|]. split; [|exact R1]. apply filled_snoc; [exact FV|]. destruct (p_valid c p1); [exact G1|exact Logic.I].
Qed.
Definition has_else (ls : list link) : Prop := Exists (fun k => match k with LElse _ _ => True | _ => False end) ls.
Lemma links_safe : forall ls vs p l, (has_else ls -> ready p) -> sinv p -> filled vs ->
  Forall (fun l => match l with LElse es' _ => types es' | LOnError _ => True end) ls -> chain_safe (fun vs' _ => filled vs') (follow_links c vs ls (p, l)).
Proof.
  induction ls as [|k ls IH]; intros vs p l MR SI FV W; [cbn; auto|]. inversion W as [|? ? W1 W2]; subst. cbn [follow_links]. destruct k as [es cb|k].
  - apply chain_bind with (Q := fun vs' q => filled vs' /\ ready q); [apply or_else_safe; auto; apply MR; constructor; exact Logic.I|]. intros vs' p' l' S' [F' R']. apply IH; auto.
  - assert (MR' : has_else ls -> ready p) by (intros X; apply MR; right; exact X).
    unfold bind at 1. unfold on_error. unfold bind at 1, get at 1. destruct (p_valid c _); apply IH; auto.
Qed.
Lemma chain_call_safe es cb ls p : (has_else ls -> retry_ok p) -> sinv p -> types es ->
  Forall (fun l => match l with LElse es' _ => types es' | LOnError _ => True end) ls -> chain_safe (fun vs' _ => filled vs') (chain_call c cap es cb ls (p, [])).
Proof.
  intros MR SI W WL. unfold chain_call. apply chain_bind with (Q := fun vs' q => filled vs' /\ (retry_ok p -> ready q)); [apply try_next_safe; auto|].
  intros vs p' l' S' [F' R']. apply links_safe; auto.
Qed.

(** Any call. *)
Definition permitted (p : prs) (k : call) : Prop :=
  match k with
  | CTry _ _ ls => has_else ls -> retry_ok p
  | CIgnore => skip_ok p
  | CUse _ => p_line p <> 0 \/ skip_ok p
  | _ => True
  end.
Definition crashed (y : reply) : Prop := y = YCrash \/ y = YGet GCrash.
Theorem call_safe k p : permitted p k -> call_ok k -> sinv p -> ~ crashed (fst (do_call c hc cap p k)) /\ sinv (snd (do_call c hc cap p k)).
Proof.
  intros PM KO SI. unfold crashed. destruct k as [es|es cb ls| | | |f|fs]; cbn [do_call fst snd] in *.
  - destruct (next_safe p es SI KO) as [A B]. split; [|exact B]. intros [X|X]; congruence.
  - destruct KO as [W WL]. pose proof (chain_call_safe es cb ls p PM SI W WL) as H. destruct (chain_call c cap es cb ls (p, [])) as [vs [p' l]|m [p' l]| |]; cbn in H |- *; try contradiction.
    + destruct H as [S' F']. unfold filled in F'. split; [|exact S']. destruct (all_given vs); [|congruence]. intros [X|X]; discriminate.
    + split; [|exact H]. intros [X|X]; discriminate.
  - destruct (ignore_safe p PM SI) as (b & p' & E & S' & _). rewrite E. cbn. split; [|exact S']. intros [X|X]; discriminate.
  - split; [|exact SI]. intros [X|X]; discriminate.
  - pose proof (header_as p (sinv_delim _ SI)) as H. split; [|apply sinv_as; assumption]. destruct (header c hc p); cbn in H |- *; try contradiction; try (destruct (p_valid c s)); intros [X|X]; discriminate.
  - pose proof (field_as f p (sinv_delim _ SI)) as H. split; [|apply sinv_as; assumption]. destruct (field_exists c hc f p); cbn in H |- *; try contradiction; try (destruct (p_valid c s)); intros [X|X]; discriminate.
  - pose proof (use_safe fs p PM SI) as H. destruct (use_fields c hc cap fs p); cbn in H |- *; try contradiction; (split; [|exact H]); try (destruct (p_valid c s)); intros [X|X]; discriminate.
Qed.

(** Constructing *)
Lemma read_line_init src name : src_okz src 0 -> S (length (unread (rdr_init d src))) <= NB -> exists p, read_line c cap (p_init name d src) = Ok tt p /\ sinv p /\ p_name p = name /\
  ((exists t e, bufline (p_rdr p) t e) \/ r_nlsize (p_rdr p) = 0) /\ (two_lines (unread (rdr_init d src)) -> line_left p).
Proof.
  intros SO LU. pose proof (rinv_init c d src SO) as I.
  destruct (read_next_spec c d cap Hcap _ I) as (r' & E & I' & (S1 & S2 & S3) & NC & LN & REST).
  eexists. split; [apply read_line_eq; exact E|]. split; [|split; [reflexivity|split]].
  3:{ intros (pre & l1 & rest & l2 & Q1 & Q2 & Q3 & Q4). unfold line_left. cbn [p_rdr pset_eof pset_rdr].
      destruct (skip_blank_two (c_ignempty c) l1 rest l2 Q2 Q3 pre) as ([t e] & ls & X1 & X2). rewrite <- Q1 in X1. rewrite X1 in REST. destruct REST as (_ & RL & _). rewrite RL. eauto. }
  - split.
    + eapply read_pinv; [exact I| |exact E|reflexivity|reflexivity]. left. intros _. split; reflexivity.
    + split; [|destruct (read_next_uses _ _ _ _ _ _ Hcap I E) as [U _]; unfold left_over; cbn [p_rdr p_eof pset_eof pset_rdr p_init]; destruct (negb _); lia].
      intros (Hm & Hi & Ht). cbn [p_rdr pset_eof pset_rdr p_init]. assert (BG : big (rdr_init d src)) by (unfold big; cbn; destruct src; auto).
      destruct (read_next_calm c d cap Hcap _ _ _ Hi I BG E) as (BG' & _). split; [exact BG'|]. rewrite S3, NC. split; [apply good_init|]. intros _. left. reflexivity.
  - cbn [p_rdr pset_eof pset_rdr]. destruct (snd (skip_blank (c_ignempty c) (lines (unread (rdr_init d src))))) as [|[t e] ls] eqn:EL.
    + right. apply read_next_nlsize in E. exact E.
    + left. exists t, e. apply REST.
Qed.
Lemma construct_ends src name msg : src_okz src 0 -> exists p, construct c cap true msg (p_init name d src) = Ok tt p.
Proof.
  intros SO. pose proof (rinv_init c d src SO) as I. destruct (read_next_spec c d cap Hcap _ I) as (r' & E & I' & (S1 & S2 & S3) & NC & LN & REST).
  unfold construct. unfold bind at 1. rewrite (read_line_eq c cap (p_init name d src) _ _ E). destruct (c_ignhdr c).
  - destruct (read_next_spec c d cap Hcap r' I') as (r2 & E2 & _). unfold bind at 1, ignore_next, on_rdr, zoom. cbn [p_rdr pset_eof pset_rdr]. rewrite E2. eexists. reflexivity.
  - assert (GB : exists s, get_buffer r' = Ok s r').
    { destruct (snd (skip_blank (c_ignempty c) (lines (unread (rdr_init d src))))) as [|[t e] ls]; [|exists t; eapply get_buffer_line; apply REST].
      apply read_next_nlsize in E. exists []. unfold get_buffer. rewrite E. reflexivity. }
    destruct GB as (s & GB). unfold bind, on_rdr, zoom. cbn [p_rdr pset_eof pset_rdr]. rewrite GB. eexists. reflexivity.
Qed.
Lemma construct_safe src name msg : src_okz src 0 -> S (length (unread (rdr_init d src))) <= NB -> (c_ignhdr c = true -> may_skip \/ two_lines (unread (rdr_init d src))) -> exists p, construct c cap true msg (p_init name d src) = Ok tt p /\ sinv p /\ p_name p = name.
Proof.
  intros SO LU MS. destruct (read_line_init src name SO LU) as (p & E & SI & Nm & BL & LL). unfold construct. unfold bind at 1. rewrite E.
  destruct (c_ignhdr c).
  - destruct (ignore_safe p ltac:(destruct (MS eq_refl) as [X|X]; [left; exact X|right; exact (LL X)]) SI) as (b & p' & E' & SI' & _). unfold bind. rewrite E'. exists p'. split; [reflexivity|]. split; [exact SI'|].
    unfold ignore_next, on_rdr, zoom in E'. destruct (read_next c cap (p_rdr p)); try discriminate. injection E' as _ <-. exact Nm.
  - assert (GB : exists s, get_buffer (p_rdr p) = Ok s (p_rdr p)).
    { destruct BL as [(t & e & BL)|Z]; [exists t; eapply get_buffer_line; exact BL|]. exists []. unfold get_buffer. rewrite Z. reflexivity. }
    destruct GB as (s & GB). exists (pset_raw s p). unfold bind, on_rdr, zoom. rewrite GB. split; [destruct p; reflexivity|]. split; [|exact Nm]. eapply sinv_eq; [reflexivity|reflexivity|exact SI].
Qed.
End P.
