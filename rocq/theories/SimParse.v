(** Two readers side by side: parse. *)
From Verif Require Import Base Setup Splitter ListFacts Extract Converter Reader LineProofs GetLineProofs ReaderBase ReaderInv SplitKeeps Sim SimReader.

Definition room (r : rdr) : Prop := r_nlsize r + (if r_crlf r then 2 else 1) <= r_nlsz r.
Lemma bufline_room r B e : bok (r_nl r) (r_nlsz r) (r_fresh r) -> bufline r B e -> room r.
Proof.
  intros K (b & X & Hb & HC & HN & HE & HX). unfold bok in K. rewrite Hb in K. destruct K as [K _]. rewrite HC, app_length, map_length in K. cbn [length] in K.
  unfold room. rewrite HN. destruct HE as [(-> & -> & _)|[(-> & ->)|(-> & ->)]]; cbn in HX; lia.
Qed.

Section R.
Context (c : cfg) (cap : nat -> nat -> nat) (Hcap : forall n need, need <= cap n need).

Lemma rs_put_all : forall s i, rmsim (on_lp NextLine (put_all i s)) (on_lp NextLine (put_all i s)).
Proof.
  assert (ZB : forall (A B : Type) (m : M lp A) (k : A -> M lp B) r, on_lp NextLine (bind m k) r = bind (on_lp NextLine m) (fun a => on_lp NextLine (k a)) r).
  { intros A B m k r. unfold on_lp, zoom, bind. destruct (m (lp_of NextLine r)) as [a l|e l| |]; try reflexivity. rewrite lp_of_to. destruct l as [x y z]. cbn [l_blk l_n l_fresh].
    destruct (k a _); try rewrite lp_to_to; reflexivity. }
  induction s as [|ch s IH]; intros i r1 r2 R.
  - split; [reflexivity|]. rewrite !lp_to_of. exact R.
  - cbn [put_all]. rewrite !ZB. eapply os_bind; [apply rs_put_next; exact R|auto|]. intros _ s1 s2 _ _ R1. apply IH. exact R1.
Qed.
Lemma rs_undo r1 r2 : rr r1 r2 -> room r1 -> room r2 -> osim eq rr (undo_remove_eol r1) (undo_remove_eol r2).
Proof.
  intros R M1 M2. unfold undo_remove_eol. apply os_get. cbv zeta. unfold room in *. rewrite <- (rr_crlf _ _ R), <- (rr_nlsize _ _ R) in *.
  assert (P : forall s, osim eq rr ((on_lp NextLine (put_all (r_nlsize r1) s) ;; rupd (rset_nlsize (r_nlsize r1 + length s))) r1) ((on_lp NextLine (put_all (r_nlsize r1) s) ;; rupd (rset_nlsize (r_nlsize r1 + length s))) r2)).
  { intros s. eapply os_bind; [apply rs_put_all; exact R|auto|]. intros _ s1 s2 _ _ R1. split; [reflexivity|]. apply rr_nlsize_set. exact R1. }
  destruct (r_crlf r1); cbn [andb].
  - replace (r_nlsize r1 + 2 <=? r_nlsz r1) with true by (symmetry; apply Nat.leb_le; exact M1). replace (r_nlsize r1 + 2 <=? r_nlsz r2) with true by (symmetry; apply Nat.leb_le; exact M2). apply (P [CR; LF]).
  - replace (r_nlsize r1 <? r_nlsz r1) with true by (symmetry; apply Nat.ltb_lt; lia). replace (r_nlsize r1 <? r_nlsz r2) with true by (symmetry; apply Nat.ltb_lt; lia).
    eapply os_bind; [apply rs_put_next; exact R|auto|]. intros _ s1 s2 _ _ R1. split; [reflexivity|]. apply rr_nlsize_set. exact R1.
Qed.
Lemma grow_ok n r : bufs_ok r ->
  on_lp NextLine (grow n) r = Ok tt (lp_to NextLine (mkLp (Some (realloc (r_fresh r) (r_nl r) n)) n (S (r_fresh r))) r) /\
  lp_ok (mkLp (Some (realloc (r_fresh r) (r_nl r) n)) n (S (r_fresh r))).
Proof.
  intros K. split; [reflexivity|]. unfold lp_ok, bok. cbn [l_blk l_n l_fresh]. split; [|cbn; lia].
  unfold realloc. cbn [b_cells]. rewrite app_length, firstn_length, repeat_length. lia.
Qed.
Lemma rs_concat k r1 r2 : rw Helper r1 r2 -> osim eq rr (realloc_concat k r1) (realloc_concat k r2).
Proof.
  intros [R RH]. unfold realloc_concat. apply os_get. pose proof R as [K1 K2 KF KU KN KB KC KD D1 D2 D3 D4].
  rewrite <- (rr_nlsize _ _ R).
  set (n := r_nlsize r1 + k + 3).
  destruct (grow_ok n r1 K1) as [E1 L1]. destruct (grow_ok n r2 K2) as [E2 L2]. eapply os_step; [exact E1|exact E2|].
  set (l1 := mkLp _ _ (S (r_fresh r1))) in *. set (l2 := mkLp _ _ (S (r_fresh r2))) in *.
  assert (CC : compat (cells_of (l_blk l1)) (cells_of (l_blk l2))) by (apply compat_realloc; exact KN).
  assert (W : rr (lp_to NextLine l1 r1) (lp_to NextLine l2 r2)) by (apply (rw_lp NextLine); try assumption; cbn; lia).
  apply os_get. change (r_nl (lp_to NextLine l1 r1)) with (Some (realloc (r_fresh r1) (r_nl r1) n)). change (r_nl (lp_to NextLine l2 r2)) with (Some (realloc (r_fresh r2) (r_nl r2) n)).
  change (r_help (lp_to NextLine l1 r1)) with (r_help r1). change (r_help (lp_to NextLine l2 r2)) with (r_help r2).
  change (r_nlsize (lp_to NextLine l1 r1)) with (r_nlsize r1). change (r_nlsize (lp_to NextLine l2 r2)) with (r_nlsize r2). rewrite <- (rr_nlsize _ _ R).
  destruct (r_help r1) as [h1|]; [|exact Logic.I]. destruct (r_help r2) as [h2|]; [|unfold ub, bind; apply osim_ub2].
  destruct (copy_between (b_cells h1) _ _ _) as [m1|] eqn:C1; [|exact Logic.I]. destruct (copy_between (b_cells h2) _ _ _) as [m2|] eqn:C2; [|apply osim_ub2].
  eapply os_bind with (R := rr); [|auto|].
  - split; [reflexivity|].
    change (rr (lp_to NextLine (mkLp (Some (mkB (b_id (realloc (r_fresh r1) (r_nl r1) n)) m1)) n (S (r_fresh r1))) (lp_to NextLine l1 r1))
               (lp_to NextLine (mkLp (Some (mkB (b_id (realloc (r_fresh r2) (r_nl r2) n)) m2)) n (S (r_fresh r2))) (lp_to NextLine l2 r2))).
    apply (rw_lp NextLine); try assumption; try apply le_n.
    + unfold lp_ok, bok in *. cbn [l_blk l_n l_fresh b_cells b_id l1] in *. rewrite (copy_between_len _ _ _ _ _ C1). exact L1.
    + unfold lp_ok, bok in *. cbn [l_blk l_n l_fresh b_cells b_id l2] in *. rewrite (copy_between_len _ _ _ _ _ C2). exact L2.
    + cbn [l_blk cells_of b_cells]. eapply compat_copy_between; [|exact CC|exact C1|exact C2]. exact RH.
  - intros _ s1 s2 _ _ R1. split; [reflexivity|]. rewrite (rr_nlsize _ _ R1). apply rr_nlsize_set. exact R1.
Qed.
Lemma rs_append r1 r2 : rr r1 r2 -> room r1 -> room r2 -> osim eq rr (append_next_line_to_buffer cap r1) (append_next_line_to_buffer cap r2).
Proof.
  intros R M1 M2. unfold append_next_line_to_buffer. eapply os_bind; [apply rs_undo; assumption|auto|]. intros _ s1 s2 _ _ R1.
  eapply os_bind with (R := rr); [|auto|]. { split; [reflexivity|]. apply rr_chars_set. exact R1. }
  intros _ t1 t2 _ _ R2. destruct (unread t1) as [|x u] eqn:Eu.
  - destruct (gl_none cap Helper t1 t2 R2 Eu ltac:(discriminate)) as (q1 & q2 & E1 & E2 & R3). eapply os_step; [exact E1|exact E2|]. split; [reflexivity|exact R3].
  - destruct (gl_some cap Hcap Helper t1 t2 R2 ltac:(congruence)) as (n & q1 & q2 & E1 & E2 & R3). eapply os_step; [exact E1|exact E2|]. cbv beta iota.
    eapply os_bind with (R := rw Helper); [|apply rw_rr|].
    { split; [reflexivity|]. destruct R3 as [R3 H3]. split; [|exact H3]. rewrite (rr_line _ _ R3). apply rr_line_set. exact R3. }
    intros _ v1 v2 _ _ R4. eapply os_bind; [apply rs_remove_eol; exact R4|apply rw_rr|]. intros k w1 w2 _ _ R5.
    eapply os_bind; [apply rs_concat; exact R5|auto|]. intros _ y1 y2 _ _ R6. split; [reflexivity|exact R6].
Qed.
Lemma append_room r r' : append_next_line_to_buffer cap r = Ok true r' -> room r'.
Proof.
  unfold append_next_line_to_buffer. unfold bind at 1. destruct (undo_remove_eol r) as [u s|e s| |]; try discriminate. unfold bind at 1, rupd at 1, modify.
  unfold bind at 1. destruct (get_line cap Helper _) as [[n|] s1|e s1| |]; try discriminate. unfold bind at 1, rupd at 1, modify. unfold bind at 1. destruct (remove_eol Helper n _) as [k s2|e s2| |]; try discriminate.
  unfold bind at 1. destruct (realloc_concat k s2) as [u2 s3|e s3| |] eqn:E; try discriminate. unfold ret. intros H. injection H as <-.
  unfold realloc_concat, bind at 1, get in E. unfold bind at 1 in E.
  change (on_lp NextLine (grow (r_nlsize s2 + k + 3)) s2) with (@Ok rdr unit tt (lp_to NextLine (mkLp (Some (realloc (r_fresh s2) (r_nl s2) (r_nlsize s2 + k + 3))) (r_nlsize s2 + k + 3) (S (r_fresh s2))) s2)) in E.
  cbv iota in E. unfold bind at 1 in E. unfold bind at 1 in E. cbn [lp_to rset_nl r_nl r_help l_blk] in E. destruct (r_help s2) as [h|]; [|discriminate].
  cbn [r_nlsize rset_nl] in E. destruct (copy_between _ _ _ _) as [m|]; [|discriminate]. unfold rupd, modify in E. injection E as _ <-. unfold room. cbn. destruct (r_crlf s2); lia.
Qed.

Lemma rs_limit k : rmsim (multiline_limit_reached c k) (multiline_limit_reached c k).
Proof.
  unfold multiline_limit_reached. destruct (0 <? c_mlsize c); [|apply ms_ret]. destruct (_ <=? _); [|apply ms_ret]. apply ms_bind; [apply rs_on_nconv, vs_limit|intros; apply ms_ret].
Qed.
Lemma on_nconv_room {A} (m : M (conv * cells) A) r a r' : on_nconv m r = Ok a r' -> room r -> room r'.
Proof. unfold on_nconv. destruct (m _) as [b [v n]|e [v n]| |]; try discriminate. intros H. injection H as _ <-. auto. Qed.
Lemma limit_room k r x r' : multiline_limit_reached c k r = Ok x r' -> room r -> room r'.
Proof.
  unfold multiline_limit_reached. destruct (0 <? c_mlsize c); [|intros H; injection H as _ <-; auto]. destruct (_ <=? _); [|intros H; injection H as _ <-; auto].
  unfold bind. destruct (on_nconv _ r) as [a s|e s| |] eqn:E; try discriminate. intros H. injection H as _ <-. eapply on_nconv_room; exact E.
Qed.
Lemma rs_count : forall i, rmsim (count_escapes c i) (count_escapes c i).
Proof.
  induction i as [|i IH]; [apply ms_ret|]. cbn [count_escapes]. intros r1 r2 R. eapply os_bind with (R := rw NextLine); [apply rs_peek; exact (conj R Logic.I)|apply rw_rr|].
  intros a s1 s2 _ _ [R1 _]. destruct (escape_match c a); [|split; auto]. eapply os_bind; [apply IH; exact R1|auto|]. intros k t1 t2 _ _ R2. split; [reflexivity|exact R2].
Qed.
Lemma count_same : forall i r k r', count_escapes c i r = Ok k r' -> r' = r.
Proof.
  induction i as [|i IH]; intros r k r'; cbn [count_escapes]; [intros H; injection H as _ <-; reflexivity|].
  unfold bind at 1, on_lp, zoom, peek. destruct (rd _ i) as [x|]; [|discriminate]. rewrite lp_to_of. destruct (escape_match c x); [|intros H; injection H as _ <-; reflexivity].
  unfold bind. destruct (count_escapes c i r) as [k' s|e s| |] eqn:E; try discriminate. intros H. injection H as _ <-. eapply IH. exact E.
Qed.
Definition rro (r1 r2 : rdr) : Prop := rr r1 r2 /\ room r1 /\ room r2.
Lemma rs_escape_loop : forall f k r1 r2, rro r1 r2 ->
  osim eq rr (escape_loop c cap f k r1) (escape_loop c cap f k r2) /\
  (forall l r1', escape_loop c cap f k r1 = Ok (true, l) r1' -> room r1') /\ (forall l r2', escape_loop c cap f k r2 = Ok (true, l) r2' -> room r2').
Proof.
  assert (ONE : forall f k r, room r -> forall l r', escape_loop c cap f k r = Ok (true, l) r' -> room r').
  { induction f as [|f IH]; intros k r M l r'; [discriminate|]. cbn [escape_loop]. unfold bind at 1, get. unfold bind at 1. unfold escaped_eol, bind at 1.
    destruct (count_escapes c (r_nlsize r) r) as [x s|e s| |] eqn:E; try discriminate. apply count_same in E. subst s. unfold ret at 1. destruct (Nat.even (S x)).
    - unfold bind at 1. destruct (multiline_limit_reached c k r) as [[lim re] s|e s| |] eqn:E; try discriminate. pose proof (limit_room _ _ _ _ E M) as M1.
      destruct re; [discriminate|]. unfold bind at 1. destruct (append_next_line_to_buffer cap s) as [b t|e t| |] eqn:E2; try discriminate. destruct b.
      + apply IH. eapply append_room. exact E2.
      + unfold bind. destruct (on_nconv _ t); discriminate.
    - intros H. injection H as _ <-. exact M. }
  intros f k r1 r2 (R & M1 & M2). split; [|split; eauto]. revert k r1 r2 R M1 M2. induction f as [|f IH]; intros k r1 r2 R M1 M2; [exact Logic.I|]. cbn [escape_loop].
  apply os_get. rewrite <- (rr_nlsize _ _ R). unfold escaped_eol.
  eapply os_bind with (R := rr); [|auto|].
  { eapply os_bind; [apply rs_count; exact R|auto|]. intros x s1 s2 _ _ R1. split; [reflexivity|exact R1]. }
  intros e s1 s2 E1 E2 _. assert (s1 = r1).
  { unfold bind in E1. destruct (count_escapes c (r_nlsize r1) r1) as [x s|y s| |] eqn:E; try discriminate. apply count_same in E. subst s. injection E1 as _ <-. reflexivity. }
  assert (s2 = r2).
  { unfold bind in E2. destruct (count_escapes c (r_nlsize r1) r2) as [x s|y s| |] eqn:E; try discriminate. apply count_same in E. subst s. injection E2 as _ <-. reflexivity. }
  subst s1 s2. clear E1 E2. destruct e; [|split; auto].
  eapply os_bind; [apply rs_limit; exact R|auto|]. intros [lim re] s1 s2 E1 E2 R1. pose proof (limit_room _ _ _ _ E1 M1) as N1. pose proof (limit_room _ _ _ _ E2 M2) as N2.
  destruct re; [split; auto|]. eapply os_bind; [apply rs_append; assumption|auto|]. intros b t1 t2 F1 F2 R2. destruct b.
  - apply IH; [exact R2|eapply append_room; exact F1|eapply append_room; exact F2].
  - eapply os_bind; [apply rs_on_nconv; [apply vs_unt_escape|exact R2]|auto|]. intros _ u1 u2 _ _ R3. split; auto.
Qed.
Lemma rs_escape_part k r1 r2 : rr r1 r2 -> (escaped_multiline c = true -> room r1 /\ room r2) ->
  osim eq rr (escape_part c cap k r1) (escape_part c cap k r2) /\
  (room r1 -> forall l r1', escape_part c cap k r1 = Ok (true, l) r1' -> room r1') /\ (room r2 -> forall l r2', escape_part c cap k r2 = Ok (true, l) r2' -> room r2').
Proof.
  intros R M. unfold escape_part. destruct (escaped_multiline c).
  - destruct (M eq_refl) as [M1 M2]. unfold bind, get. rewrite (rr_un _ _ R). destruct (rs_escape_loop (S (length (unread r2))) k r1 r2 (conj R (conj M1 M2))) as (A & B & D). split; [exact A|]. split; intros _; assumption.
  - split; [split; auto|]. split; intros H l r' E; injection E as _ <-; exact H.
Qed.

Lemma rs_on_next {A} (m1 m2 : nat -> M (conv * cells) A) : (forall i j, vmsim (m1 i) (m2 j)) ->
  forall r1 r2, rr r1 r2 -> (forall i s, match m1 i s with Ok _ s' | Throw _ s' => length (snd s') = length (snd s) | _ => True end) ->
  (forall i s, match m2 i s with Ok _ s' | Throw _ s' => length (snd s') = length (snd s) | _ => True end) -> osim eq rr (on_next m1 r1) (on_next m2 r2).
Proof.
  intros H r1 r2 R P1 P2. unfold on_next. pose proof R as [K1 K2 KF KU KN KB KC KD D1 D2 D3 D4]. pose proof (k_nl _ K1) as L1. pose proof (k_nl _ K2) as L2.
  destruct (r_nl r1) as [b1|]; [|exact Logic.I]. destruct (r_nl r2) as [b2|]; [|apply osim_ub2].
  specialize (H (b_id b1) (b_id b2) (r_nconv r1, b_cells b1) (r_nconv r2, b_cells b2) (conj KD KN)). specialize (P1 (b_id b1) (r_nconv r1, b_cells b1)). specialize (P2 (b_id b2) (r_nconv r2, b_cells b2)).
  assert (G : forall v1 v2 cs1 cs2, veq v1 v2 -> compat cs1 cs2 -> length cs1 = length (b_cells b1) -> length cs2 = length (b_cells b2) ->
     rr (rset_nl (Some (mkB (b_id b1) cs1)) (r_nlsz r1) (r_fresh r1) (rset_nconv v1 r1)) (rset_nl (Some (mkB (b_id b2) cs2)) (r_nlsz r2) (r_fresh r2) (rset_nconv v2 r2))).
  { intros v1 v2 cs1 cs2 V CC N1 N2. apply (rw_lp NextLine (mkLp (Some (mkB (b_id b1) cs1)) (r_nlsz r1) (r_fresh r1)) (mkLp (Some (mkB (b_id b2) cs2)) (r_nlsz r2) (r_fresh r2))); try apply le_n; [apply rr_nconv_set; assumption|..]; [| |exact CC].
    - unfold lp_ok, bok in *. cbn. rewrite N1. exact L1.
    - unfold lp_ok, bok in *. cbn. rewrite N2. exact L2. }
  unfold osim in *. destruct (m1 _ _) as [a [v1 cs1]|e [v1 cs1]| |], (m2 _ _) as [a' [v2 cs2]|e' [v2 cs2]| |]; try exact H; destruct H as [-> [V CC]]; (split; [reflexivity|]); apply G; assumption.
Qed.

Lemma copyn_len m a n b m' : copyn m a n b = Some m' -> length m' = length m.
Proof.
  unfold copyn. destruct (_ && _) eqn:L; [|discriminate]. apply andb_true_iff in L as [L1 L2]. apply Nat.leb_le in L1, L2. intros E. injection E as <-.
  rewrite !app_length, !firstn_length, !skipn_length. lia.
Qed.
Lemma split_len blk d n : keeps (fun st => length (snd st) = n) (sp_split c blk d).
Proof. apply keeps_split; auto. intros _ s m a b k m' E <-. cbn. eapply copyn_len. exact E. Qed.
Lemma resplit_len blk k d n : keeps (fun st => length (snd st) = n) (sp_resplit c blk k d).
Proof. apply keeps_resplit; auto. intros _ s m a b j m' E <-. cbn. eapply copyn_len. exact E. Qed.
Lemma on_sp_len {A} (m : M (sp * cells) A) : (forall n, keeps (fun st => length (snd st) = n) m) -> forall n, keeps (fun st => length (snd st) = n) (on_sp m).
Proof.
  intros H n [v cs] E. specialize (H n (v_sp v, cs) E). unfold on_sp, zoom. cbn [fst snd]. destruct (m (v_sp v, cs)) as [a [s cs']|e [s cs']| |]; exact H.
Qed.
Lemma cv_split_len i d : forall s, match cv_split c i d s with Ok _ s' | Throw _ s' => length (snd s') = length (snd s) | _ => True end.
Proof.
  intros s. apply (keeps_bind (fun st => length (snd st) = length (snd s))); [|intros _|reflexivity].
  - apply on_sp_len. intros n. apply keeps_upd. auto.
  - apply keeps_bind; [apply on_sp_len; intros n; apply keeps_load|]. intros a. destruct (Ascii.eqb a NUL); [apply keeps_ret|]. apply on_sp_len. intros n. apply split_len.
Qed.
Lemma cv_resplit_len i k d : forall s, match cv_resplit c i k d s with Ok _ s' | Throw _ s' => length (snd s') = length (snd s) | _ => True end.
Proof. intros s. apply (on_sp_len _ (fun n => resplit_len i k d n) (length (snd s)) s eq_refl). Qed.
Lemma rs_next_split d1 d2 r1 r2 : rr r1 r2 -> d1 = d2 -> osim eq rr (on_next (fun id => cv_split c id d1) r1) (on_next (fun id => cv_split c id d2) r2).
Proof. intros R <-. apply rs_on_next; [intros; apply vs_split|exact R|intros; apply cv_split_len|intros; apply cv_split_len]. Qed.
Lemma rs_next_resplit n1 n2 d1 d2 r1 r2 : rr r1 r2 -> n1 = n2 -> d1 = d2 -> osim eq rr (on_next (fun id => cv_resplit c id n1 d1) r1) (on_next (fun id => cv_resplit c id n2 d2) r2).
Proof. intros R <- <-. apply rs_on_next; [intros; apply vs_resplit|exact R|intros; apply cv_resplit_len|intros; apply cv_resplit_len]. Qed.
Lemma on_next_room {A} (m : nat -> M (conv * cells) A) r a r' : on_next m r = Ok a r' -> room r -> room r'.
Proof. unfold on_next. destruct (r_nl r); [|discriminate]. destruct (m _ _) as [x [v cs]|e [v cs]| |]; try discriminate. intros H. injection H as _ <-. auto. Qed.
Lemma veq_uq v1 v2 : veq v1 v2 -> cv_unterminated_quote v1 = cv_unterminated_quote v2. Proof. intros [B _]. apply beq_uq. exact B. Qed.
Lemma veq_esc v1 v2 : veq v1 v2 -> cv_size_shifted v1 = cv_size_shifted v2. Proof. intros [B _]. apply beq_esc. exact B. Qed.
Lemma rs_quote_loop : forall f k r1 r2, rro r1 r2 -> osim eq rr (quote_loop c cap f k r1) (quote_loop c cap f k r2).
Proof.
  induction f as [|f IH]; intros k r1 r2 (R & M1 & M2); [exact Logic.I|]. cbn [quote_loop]. apply os_get. rewrite <- (veq_uq _ _ (rr_nconv _ _ R)), <- (veq_esc _ _ (rr_nconv _ _ R)), <- (rr_nlsize _ _ R).
  destruct (cv_unterminated_quote (r_nconv r1)); [|split; auto].
  destruct (r_nlsize r1 <? cv_size_shifted (r_nconv r1)); [exact Logic.I|]. set (n := r_nlsize r1 - cv_size_shifted (r_nconv r1)).
  assert (Hn : n <= r_nlsize r1) by (unfold n; lia). clearbody n.
  eapply os_step; [reflexivity|reflexivity|]. eapply os_step; [reflexivity|reflexivity|].
  assert (R1 : rr (rset_nlsize n r1) (rset_nlsize n r2)) by (apply rr_nlsize_set; exact R).
  assert (N1 : room (rset_nlsize n r1)) by (unfold room in *; cbn; lia). assert (N2 : room (rset_nlsize n r2)) by (unfold room in *; cbn; rewrite <- (rr_nlsize _ _ R) in M2; lia).
  eapply os_bind; [apply rs_limit; exact R1|auto|]. intros [lim re] s1 s2 E1 E2 R2. pose proof (limit_room _ _ _ _ E1 N1) as P1. pose proof (limit_room _ _ _ _ E2 N2) as P2.
  destruct re; [split; auto|]. eapply os_bind; [apply rs_append; assumption|auto|]. intros b t1 t2 F1 F2 R3. destruct b; [|apply rs_on_nconv; [apply vs_unt_quote|exact R3]].
  pose proof (append_room _ _ F1) as Q1. pose proof (append_room _ _ F2) as Q2. destruct (rs_escape_part lim t1 t2 R3 (fun _ => conj Q1 Q2)) as (X & X1 & X2).
  eapply os_bind; [exact X|auto|]. intros [go l] u1 u2 G1 G2 R4. destruct go; [|split; auto]. specialize (X1 Q1 _ _ G1). specialize (X2 Q2 _ _ G2). apply os_get.
  eapply os_bind; [apply rs_next_resplit; [exact R4|apply (rr_nlsize _ _ R4)|apply (rr_delim _ _ R4)]|auto|]. intros [] v1 v2 H1 H2 R5.
  apply IH. split; [exact R5|]. split; [eapply on_next_room; [exact H1|exact X1]|eapply on_next_room; [exact H2|exact X2]].
Qed.
Lemma split_nul id d v m v' m' : rd m 0 = Some NUL -> cv_split c id d (v, m) = Ok tt (v', m') -> s_uq (v_sp v') = s_uq (v_sp v).
Proof. intros H E. unfold cv_split, on_sp, zoom, bind, upd, modify, load in E. cbn [fst snd] in E. rewrite H in E. cbn in E. injection E as <- _. reflexivity. Qed.
(** Nothing to append: the line is empty and no quote is open. *)
Definition nothing_open (r1 r2 : rdr) : Prop :=
  escaped_multiline c = false /\ (quoted_multiline c = true -> s_uq (v_sp (r_nconv r1)) = false) /\
  (rd (cells_of (r_nl r1)) 0 = Some NUL \/ rd (cells_of (r_nl r2)) 0 = Some NUL).
Lemma rs_parse r1 r2 : rr r1 r2 -> (room r1 /\ room r2) \/ nothing_open r1 r2 -> osim eq rr (parse c cap r1) (parse c cap r2).
Proof.
  intros R H. unfold parse.
  assert (HE : escaped_multiline c = true -> room r1 /\ room r2) by (intros Q; destruct H as [H|(H & _)]; [exact H|congruence]).
  destruct (rs_escape_part 0 r1 r2 R HE) as (X & X1 & X2).
  eapply os_bind; [exact X|auto|]. intros [go l] s1 s2 E1 E2 R1. destruct go; [|split; auto]. apply os_get.
  eapply os_bind; [apply rs_next_split; [exact R1|apply (rr_delim _ _ R1)]|auto|]. intros [] t1 t2 F1 F2 R2.
  destruct (quoted_multiline c) eqn:Q; [|split; auto]. apply os_get. rewrite (rr_un _ _ R2).
  destruct H as [[M1 M2]|(HN & HU & HZ)].
  - apply rs_quote_loop. split; [exact R2|]. split; [eapply on_next_room; [exact F1|eauto]|eapply on_next_room; [exact F2|eauto]].
  - assert (s1 = r1 /\ s2 = r2) as [-> ->].
    { unfold escape_part in E1, E2. rewrite HN in E1, E2. injection E1 as _ <-. injection E2 as _ <-. auto. }
    assert (U : forall r t dl, rd (cells_of (r_nl r)) 0 = Some NUL -> on_next (fun id => cv_split c id dl) r = Ok tt t -> s_uq (v_sp (r_nconv t)) = s_uq (v_sp (r_nconv r))).
    { intros r t dl HR E. unfold on_next in E. destruct (r_nl r) as [b|]; [|discriminate]. destruct (cv_split c (b_id b) dl (r_nconv r, b_cells b)) as [[] [v cs]|e [v cs]| |] eqn:Ec; try discriminate. injection E as <-.
      cbn. eapply split_nul; [exact HR|exact Ec]. }
    pose proof (veq_uq _ _ (rr_nconv _ _ R)) as V. pose proof (veq_uq _ _ (rr_nconv _ _ R2)) as V2. unfold cv_unterminated_quote in *.
    assert (Z : s_uq (v_sp (r_nconv t1)) = false).
    { destruct HZ as [HZ|HZ]; [rewrite (U _ _ _ HZ F1); auto|]. rewrite V2, (U _ _ _ HZ F2), <- V. auto. }
    cbn [quote_loop]. apply os_get. unfold cv_unterminated_quote. rewrite <- V2, Z. split; auto.
Qed.
Lemma rs_get_buffer : rmsim get_buffer get_buffer.
Proof.
  intros r1 r2 R. unfold get_buffer. rewrite <- (rr_nlsize _ _ R). destruct (range_str (cells_of (r_nl r1)) _ _) as [x|] eqn:E1; [|exact Logic.I].
  destruct (range_str (cells_of (r_nl r2)) _ _) as [y|] eqn:E2; [|exact Logic.I]. split; [|exact R]. eapply compat_range; [apply (rr_nl _ _ R)|exact E1|exact E2].
Qed.
Lemma rs_update : rmsim update update.
Proof. intros r1 r2 [[] [] ]. split; [reflexivity|]. split; cbn; try assumption; split; assumption. Qed.
End R.
