(** How much memory the line buffers take: partial correctness of the reader and the parser, one bound at a time. *)
From Verif Require Import Base Setup Splitter Extract Converter Reader ListFacts LineProofs GetLineProofs ReaderBase ReaderInv SplitKeeps Parser SimParse ParserApi SessionApi.
From Verif Require Export Ends. From Verif Require Import SplitCount.
From Coq Require Permutation.

(** Each line with its line end and a terminator. *)
Definition weight (u : str) : nat := length u + length (lines u).
Lemma weight_cut u : u <> [] -> weight u = S (length (fst (cut_line u))) + weight (snd (cut_line u)).
Proof. intros H. unfold weight. rewrite (lines_cons u H) at 1. rewrite <- (cut_line_app u) at 1. rewrite app_length. cbn [length]. lia. Qed.

Lemma wr_len m i ch m' : wr m i ch = Some m' -> length m' = length m.
Proof.
  unfold wr. destruct (i <? length m) eqn:Ei; [|discriminate]. apply Nat.ltb_lt in Ei. intros E. assert (m' = firstn i m ++ Some ch :: skipn (S i) m) as -> by congruence.
  rewrite app_length, firstn_length. cbn [length]. rewrite skipn_length. lia.
Qed.
Definition kept_lp (l l' : lp) : Prop := l_fresh l' = l_fresh l /\ option_map b_id (l_blk l') = option_map b_id (l_blk l).
Lemma kept_succ l l' : kept_lp l l' -> succ_lp l l'.
Proof.
  intros [H1 H2]. split; [lia|]. destruct (l_blk l') as [b'|]; [|destruct (l_blk l); [discriminate|reflexivity]]. left. destruct (l_blk l) as [b|]; [|discriminate]. exists b. split; [reflexivity|]. cbn in H2. congruence.
Qed.
Lemma put_lp i ch l : lp_ok l -> ends (fun _ l' => lp_ok l' /\ l_n l' = l_n l /\ kept_lp l l') (fun _ => False) (put i ch l).
Proof.
  unfold put, lp_ok, bok, kept_lp. destruct (l_blk l) as [b|]; cbn; auto. intros [H1 H2]. destruct (wr _ _ _) as [m|] eqn:E; cbn; auto. apply wr_len in E.
  split; [split; [congruence|exact H2]|]. split; [reflexivity|]. split; reflexivity.
Qed.
Lemma put_all_lp : forall s i l, lp_ok l -> ends (fun _ l' => lp_ok l' /\ l_n l' = l_n l /\ kept_lp l l') (fun _ => False) (put_all i s l).
Proof.
  induction s as [|x s IH]; intros i l Hl; cbn [put_all]; [cbn; split; [exact Hl|]; split; [reflexivity|]; split; reflexivity|]. eapply ends_bind; [apply put_lp; exact Hl|]. intros _ l1 (A & A2 & A3).
  eapply ends_weaken; [apply IH; exact A| |auto]. intros _ l2 (B1 & B2 & B3 & B4). split; [exact B1|]. destruct A3 as [A3 A4]. split; [congruence|]. split; congruence.
Qed.

Section W.
Context (c : cfg) (cap : nat -> nat -> nat).
Context (Hcap : enough cap) (Hmod : forall n need, n < need -> cap n need <= 128 + 2 * need) (Hmod0 : cap 0 0 <= 128).
Context (L R T : nat) (HLR : L <= R) (Hlim : c_ml c = true -> 0 < c_mlsize c -> S (c_mlsize c) * L <= R \/ T <= R) (Hunl : c_ml c = true -> c_mlsize c = 0 -> T <= R).
Context (fl : bool * nat).                (* does the reader own an open file?  how many blocks does it own at least? *)
Definition B : nat := 128 + 2 * R.
Definition short (u : str) : Prop := Forall (fun l => S (length (fst l ++ snd l)) <= L) (lines u).
Lemma short_cut u : u <> [] -> short u -> S (length (fst (cut_line u))) <= L /\ short (snd (cut_line u)).
Proof. unfold short. intros H S. rewrite (lines_cons u H) in S. inversion S as [|? ? S1 S2]; subst. rewrite chomp_app in S1. auto. Qed.

Record W (r : rdr) : Prop := {
  w_buf : bok (r_buf r) (r_bufsz r) (r_fresh r); w_bufsz : r_bufsz r <= B;
  w_nl : bok (r_nl r) (r_nlsz r) (r_fresh r); w_nlsz : r_nlsz r <= B;
  w_help : bok (r_help r) (r_helpsz r) (r_fresh r); w_helpsz : r_helpsz r <= B;
  w_nd : NoDup (owned r); w_file : open_file r = fst fl; w_own : snd fl <= length (owned r);
  w_size : r_nlsize r <= B;
  w_src : src_ok r; w_short : short (unread r); w_weight : weight (unread r) <= T;
  w_conv : few c B (v_sp (r_conv r)); w_nconv : few c B (v_sp (r_nconv r)) }.
(** Replacing one of the two line buffers by itself or by a new block leaves the blocks different. *)
Lemma nd_lp w r l' : bok (r_buf r) (r_bufsz r) (r_fresh r) -> bok (r_nl r) (r_nlsz r) (r_fresh r) -> bok (r_help r) (r_helpsz r) (r_fresh r) ->
  NoDup (owned r) -> succ_lp (lp_of w r) l' -> NoDup (owned (lp_to w l' r)).
Proof.
  intros B N H ND SU. rewrite owned_eq in *. destruct w; cbn [lp_to rset_nl rset_help r_buf r_nl r_help].
  - apply (nodup3 (r_buf r) (r_nl r) (r_help r) (r_fresh r)); [exact ND|intros x; eapply ids_lt; eauto|intros x; eapply ids_lt; eauto|].
    intros x Hx. destruct l' as [p' n' f']. eapply (bok_ids (r_nl r) (r_nlsz r) (r_fresh r) p' n' f'); eauto.
  - eapply Permutation.Permutation_NoDup; [apply Permutation.Permutation_app_head, Permutation.Permutation_app_comm|].
    apply (nodup3 (r_buf r) (r_help r) (r_nl r) (r_fresh r)); [|intros x; eapply ids_lt; eauto|intros x; eapply ids_lt; eauto|].
    + eapply Permutation.Permutation_NoDup; [|exact ND]. apply Permutation.Permutation_app_head, Permutation.Permutation_app_comm.
    + intros x Hx. destruct l' as [p' n' f']. eapply (bok_ids (r_help r) (r_helpsz r) (r_fresh r) p' n' f'); eauto.
Qed.
Lemma own_lp w r l' : snd fl <= length (owned r) -> succ_lp (lp_of w r) l' -> snd fl <= length (owned (lp_to w l' r)).
Proof.
  intros H [_ S]. rewrite owned_eq, !app_length in *. destruct w; cbn [lp_of lp_to rset_nl rset_help r_buf r_nl r_help l_blk] in *; (destruct (l_blk l'); [|rewrite S in H; exact H]).
  - cbn [ids length] in *. destruct (r_nl r); cbn in *; clear - H; lia.
  - cbn [ids length] in *. destruct (r_help r); cbn in *; clear - H; lia.
Qed.
Lemma W_lp w r l' : W r -> lp_ok l' -> l_n l' <= B -> succ_lp (lp_of w r) l' -> W (lp_to w l' r).
Proof.
  intros [] H1 H2 H3. pose proof (proj1 H3) as H4. assert (ND : NoDup (owned (lp_to w l' r))) by (apply nd_lp; assumption).
  assert (OW : snd fl <= length (owned (lp_to w l' r))) by (apply own_lp; assumption). destruct w; constructor; try exact ND; try exact OW; cbn in *; auto; try (eapply bok_mono; eauto; fail).
Qed.
Definition is_file (s : source) : bool := match s with SFile _ | SPort _ => true | _ => false end.
Lemma W_src r s z : W r -> is_file s = is_file (r_src r) -> src_okz s z -> short (unread_of s z) -> weight (unread_of s z) <= T -> W (rset_src s z r).
Proof. intros [] H0 H1 H2 H3. constructor; cbn; auto. unfold open_file in *. cbn. change (is_file s = fst fl). rewrite H0. exact w_file0. Qed.
Lemma W_lp_ok w r : W r -> lp_ok (lp_of w r). Proof. intros []. destruct w; assumption. Qed.
Lemma W_n w r : W r -> l_n (lp_of w r) <= B. Proof. intros []. destruct w; assumption. Qed.

Lemma get_line_size w r o r' : W r -> get_line cap w r = Ok o r' -> l_n (lp_of w r') <= B.
Proof.
  intros HW E. pose proof (W_lp_ok w r HW) as HL. pose proof (W_n w r HW) as HN. pose proof (w_src _ HW) as HS. pose proof (w_short _ HW) as SH.
  unfold get_line, bind, get in E. unfold src_ok, src_okz in HS. unfold unread in SH.
  assert (FIN : forall l', l_n l' <= B -> forall s z, l_n (lp_of w (rset_src s z (lp_to w l' r))) <= B) by (intros l' Hl s z; destruct w; exact Hl).
  assert (CUT : forall u, u <> [] -> short u -> 2 * S (length (fst (cut_line u))) <= 2 * R) by (intros u H1 H2; destruct (short_cut u H1 H2); lia).
  destruct (r_src r) as [rest|rest|data|size].
  - unfold on_lp, zoom in E. destruct (get_line_posix cap rest (lp_of w r)) as [[a b] l'| | |] eqn:E1; try discriminate. unfold rupd, modify, ret in E. injection E as <- <-. apply FIN.
    unfold get_line_posix in E1. destruct rest as [|x u].
    + destruct (l_blk (lp_of w r)); [injection E1 as _ _ <-; exact HN|]. destruct (cap 0 0) as [|k] eqn:Ek; injection E1 as _ _ <-; [exact HN|]. cbn [l_n]. unfold B. lia.
    + specialize (CUT (x :: u) ltac:(discriminate) SH). destruct (cut_line (x :: u)) as [line rest']. cbn [fst snd] in *.
      destruct (l_blk (lp_of w r)).
      * destruct (S (length line) <=? l_n (lp_of w r)) eqn:En; injection E1 as _ _ <-; cbn [l_n]; [exact HN|]. apply Nat.leb_gt in En. specialize (Hmod _ _ En). unfold B. lia.
      * injection E1 as _ _ <-. cbn [l_n]. pose proof (Hmod 0 (S (length line)) ltac:(lia)). unfold B. lia.
  - unfold on_lp, zoom in E. destruct (get_line_fgets rest (lp_of w r)) as [[a b] l'| | |] eqn:E1; try discriminate. unfold rupd, modify, ret in E. injection E as <- <-. apply FIN.
    destruct rest as [|x u]; [apply get_line_fgets_size_eof in E1; unfold B, initial_size in *; lia|].
    apply get_line_fgets_size in E1; [|assumption|assumption|discriminate]. specialize (CUT (x :: u) ltac:(discriminate) SH). unfold B, initial_size in *. lia.
  - unfold on_lp, zoom in E. pose proof (get_line_buffer_spec (skipn (Z.to_nat (r_curr r)) data) (lp_of w r) HL) as SP.
    destruct (get_line_buffer _ (lp_of w r)) as [[a b] l'| | |] eqn:E1; try discriminate. unfold rupd, modify, ret in E. injection E as <- <-. apply FIN.
    pose proof (get_line_buffer_size _ _ _ _ _ E1) as SZ. destruct (skipn (Z.to_nat (r_curr r)) data) as [|x u] eqn:Eu.
    + cbn in E1. injection E1 as <- _ <-. exact HN.
    + destruct SP as (l2 & E2 & _); [discriminate|]. assert (a = Some (length (fst (cut_line (x :: u))))) as -> by congruence. specialize (CUT (x :: u) ltac:(discriminate) SH). unfold B, initial_size in *. lia.
  - destruct (_ <=? _)%Z; [|discriminate]. injection E as <- <-. exact HN.
Qed.
Lemma get_line_file w r o r' : get_line cap w r = Ok o r' -> is_file (r_src r') = is_file (r_src r).
Proof.
  unfold get_line, bind, get, rupd, modify, ret. destruct (r_src r) as [rest|rest|data|size] eqn:Es.
  - destruct (on_lp w (get_line_posix cap rest) r) as [[a b] r1| | |]; try discriminate. intros E. injection E as _ <-. reflexivity.
  - destruct (on_lp w (get_line_fgets rest) r) as [[a b] r1| | |]; try discriminate. intros E. injection E as _ <-. reflexivity.
  - destruct (on_lp w (get_line_buffer _) r) as [[a b] r1| | |]; try discriminate. intros E. injection E as _ <-. reflexivity.
  - destruct (_ <=? _)%Z; [|discriminate]. intros E. injection E as _ <-. rewrite Es. reflexivity.
Qed.
Lemma get_line_w w r : W r ->
  ends (fun o r' => W r' /\ r_nlsize r' = r_nlsize r /\ r_crlf r' = r_crlf r /\
          match o with
          | None => unread r = [] /\ unread r' = []
          | Some n => unread r <> [] /\ 0 < n /\ S n <= L /\ weight (unread r) = S n + weight (unread r')
          end) (fun _ => False) (get_line cap w r).
Proof.
  intros HW. pose proof (W_lp_ok w r HW) as HL. pose proof (get_line_size w r) as SZ. pose proof (get_line_file w r) as FI.
  destruct (list_eq_dec ascii_dec (unread r) []) as [U|U].
  - destruct (get_line_none cap w r HL (w_src _ HW) U) as (l' & z' & E & A1 & A2 & A3 & A4 & _). rewrite E in *. cbn [ends].
    specialize (SZ _ _ HW eq_refl). replace (lp_of w (rset_src (r_src r) z' (lp_to w l' r))) with l' in SZ by (destruct w, l'; reflexivity).
    split; [|destruct w; auto]. apply W_src; [apply W_lp; auto|destruct w; reflexivity|exact A4| |]; rewrite A3; [constructor|cbn; lia].
  - destruct (get_line_some cap Hcap w r HL (w_src _ HW) U) as (l' & s' & E & A1 & A2 & A3 & A4 & A5). rewrite E in *. cbn [ends].
    specialize (SZ _ _ HW eq_refl). match type of SZ with l_n (lp_of w ?x) <= _ => replace (lp_of w x) with l' in SZ by (destruct w, l'; reflexivity) end.
    destruct (short_cut _ U (w_short _ HW)) as [C1 C2]. pose proof (weight_cut _ U) as WC. pose proof (w_weight _ HW) as WW.
    split; [apply W_src; [apply W_lp; auto|specialize (FI _ _ eq_refl); destruct w; exact FI|exact A5| |]; rewrite A4; [exact C2|lia]|]. split; [destruct w; reflexivity|]. split; [destruct w; reflexivity|].
    split; [exact U|]. split; [pose proof (cut_line_ne _ U); destruct (fst (cut_line (unread r))); [congruence|cbn; lia]|]. split; [exact C1|].
    rewrite WC. f_equal. f_equal. rewrite <- A4. destruct w; reflexivity.
Qed.

(** Line ends. *)
Definition ew (r : rdr) : nat := if r_crlf r then 2 else 1.
Definition same_but (P : rdr -> rdr -> Prop) (r r' : rdr) : Prop := W r' /\ unread r' = unread r /\ P r r'.
Lemma peek_w w i r : W r -> ends (fun _ r' => r' = r) (fun _ => False) (on_lp w (peek i) r).
Proof. intros _. unfold on_lp, zoom, peek. destruct (rd _ _); cbn; auto. apply lp_to_of. Qed.
Definition untouched (r r' : rdr) : Prop := W r' /\ unread r' = unread r /\ r_nlsize r' = r_nlsize r /\ r_crlf r' = r_crlf r /\ r_nlsz r' = r_nlsz r.
Lemma untouched_refl r : W r -> untouched r r. Proof. intros H. split; [exact H|auto]. Qed.
Lemma untouched_trans a b e : untouched a b -> untouched b e -> untouched a e.
Proof. intros (A1 & A2 & A3 & A4 & A5) (B1 & B2 & B3 & B4 & B5). split; [exact B1|]. repeat split; congruence. Qed.
Lemma on_lp_put {A} w (m : M lp A) r : W r -> ends (fun _ l' => lp_ok l' /\ l_n l' = l_n (lp_of w r) /\ kept_lp (lp_of w r) l') (fun _ => False) (m (lp_of w r)) ->
  ends (fun _ r' => untouched r r') (fun _ => False) (on_lp w m r).
Proof.
  intros HW H. unfold on_lp, zoom. destruct (m (lp_of w r)) as [a l'|e l'| |]; cbn in *; auto. destruct H as (H1 & H2 & H3).
  split; [apply W_lp; auto; [rewrite H2; apply W_n; exact HW|apply kept_succ; exact H3]|]. destruct w; repeat split; exact H2.
Qed.
Lemma put_w w i ch r : W r -> ends (fun _ r' => untouched r r') (fun _ => False) (on_lp w (put i ch) r).
Proof. intros HW. apply on_lp_put; [exact HW|]. apply put_lp. apply W_lp_ok. exact HW. Qed.
Lemma remove_eol_w w n r : W r ->
  ends (fun k r' => W r' /\ unread r' = unread r /\ r_nlsize r' = r_nlsize r /\ k + ew r' <= S n) (fun _ => False) (remove_eol w n r).
Proof.
  intros HW. destruct n as [|n]; [exact Logic.I|]. cbn [remove_eol]. eapply ends_bind; [apply peek_w; exact HW|]. intros a r1 ->.
  assert (WC : forall b r, W r -> W (rset_crlf b r)) by (intros b r0 []; constructor; assumption).
  destruct (negb (Ascii.eqb a LF)).
  - cbn. split; [apply WC; exact HW|]. repeat split. lia.
  - eapply ends_bind with (Q := fun size r' => W r' /\ unread r' = unread r /\ r_nlsize r' = r_nlsize r /\ size + ew r' <= S n).
    + destruct n as [|j].
      * cbn. split; [apply WC; exact HW|]. repeat split. unfold ew; cbn; lia.
      * eapply ends_bind; [apply peek_w; exact HW|]. intros b r1 ->. destruct (Ascii.eqb b CR); cbn; (split; [apply WC; exact HW|]; repeat split; cbn; lia).
    + intros size r1 (A1 & A2 & A3 & A4). eapply ends_bind; [apply put_w; exact A1|]. intros u r2 (B1 & B2 & B3 & B4 & _). cbn. split; [exact B1|].
      split; [congruence|]. split; [congruence|]. unfold ew in *. rewrite B4. lia.
Qed.
Lemma read_next_loop_w : forall f r, W r ->
  ends (fun b r' => W r' /\ (unread r' = [] \/ (r_nlsize r' + ew r' <= L /\ r_nlsize r' + ew r' + weight (unread r') <= T))) (fun _ => False) (read_next_loop c cap f r).
Proof.
  induction f as [|f IH]; intros r HW; [exact Logic.I|]. cbn [read_next_loop].
  assert (W0 : W (rset_line (S (r_line r)) r)) by (destruct HW; constructor; assumption).
  unfold bind at 1, rupd at 1, modify at 1. unfold bind at 1, get at 1.
  set (r0 := rset_line (S (r_line r)) r) in *. clearbody r0. clear r HW.
  eapply ends_bind with (Q := fun _ r' => W r').
  { destruct (0 <? r_nlsz r0); [|exact W0]. eapply ends_weaken; [apply put_w; exact W0| |auto]. intros _ s (X & _). exact X. }
  intros _ r1 W1. unfold bind at 1, rupd at 1, modify at 1. assert (W2 : W (rset_chars (r_curr r1) r1)) by (destruct W1; constructor; assumption).
  set (r2 := rset_chars (r_curr r1) r1) in *. clearbody r2. clear r1 W1. pose proof (w_weight _ W2) as WW.
  eapply ends_bind; [apply get_line_w; exact W2|]. intros o r3 (W3 & _ & _ & K). destruct o as [n|]; [|cbn; split; [exact W3|left; apply K]].
  destruct K as (K1 & K2 & K3 & K4). eapply ends_bind; [apply remove_eol_w; exact W3|]. intros k r4 (W4 & U4 & _ & N4).
  destruct (c_ignempty c && (k =? 0)); [apply IH; exact W4|]. cbn. split; [assert (r_nlsize (rset_nlsize k r4) <= B) by (cbn; unfold B, ew in *; destruct (r_crlf r4); lia); destruct W4; constructor; assumption|]. right.
  unfold ew in *. cbn. change (unread (rset_nlsize k r4)) with (unread r4). rewrite U4. lia.
Qed.
Definition ready (r : rdr) : Prop := unread r = [] \/ (r_nlsize r + ew r <= L /\ r_nlsize r + ew r + weight (unread r) <= T).
Lemma read_next_w r : W r -> ends (fun _ r' => W r' /\ ready r') (fun _ => False) (read_next c cap r).
Proof.
  intros HW. unfold read_next. unfold bind at 1, on_nconv, cv_clear_error, vupd, modify. cbn [fst snd]. unfold bind, get. apply read_next_loop_w. destruct HW; constructor; assumption.
Qed.

(** Joining lines. *)
Definition row (n : nat) (r : rdr) : Prop := unread r = [] \/ (r_nlsize r + ew r <= S n * L /\ r_nlsize r + ew r + weight (unread r) <= T).
Lemma undo_w r : W r -> ends (fun _ r' => W r' /\ unread r' = unread r /\ r_crlf r' = r_crlf r /\ r_nlsize r' <= r_nlsize r + ew r) (fun _ => False) (undo_remove_eol r).
Proof.
  intros HW. unfold undo_remove_eol. unfold bind at 1, get at 1. cbv zeta.
  assert (WN : forall n r, W r -> n <= r_nlsz r -> W (rset_nlsize n r)) by (intros n r0 X Hn; assert (r_nlsize (rset_nlsize n r0) <= B) by (pose proof (w_nlsz _ X) as Y; change (n <= B); lia); destruct X; constructor; assumption). unfold ew.
  destruct (r_crlf r) eqn:Ec; cbn [andb].
  - destruct (r_nlsize r + 2 <=? r_nlsz r) eqn:E2; [apply Nat.leb_le in E2|].
    + eapply ends_bind; [apply on_lp_put; [exact HW|apply put_all_lp; apply W_lp_ok; exact HW]|]. intros _ r1 (A1 & A2 & A3 & A4 & A5). cbn. split; [apply WN; [exact A1|rewrite A5; lia]|]. repeat split; auto. congruence.
    + destruct (r_nlsize r <? r_nlsz r) eqn:E2'; [apply Nat.ltb_lt in E2'|].
      * eapply ends_bind; [apply put_w; exact HW|]. intros _ r1 (A1 & A2 & A3 & A4 & A5). cbn. split; [apply WN; [exact A1|rewrite A5; lia]|]. repeat split; auto; [congruence|lia].
      * cbn. split; [exact HW|]. repeat split; auto. lia.
  - destruct (r_nlsize r <? r_nlsz r) eqn:E2; [apply Nat.ltb_lt in E2|].
    + eapply ends_bind; [apply put_w; exact HW|]. intros _ r1 (A1 & A2 & A3 & A4 & A5). cbn. split; [apply WN; [exact A1|rewrite A5; lia]|]. repeat split; auto. congruence.
    + cbn. split; [exact HW|]. repeat split; auto. lia.
Qed.
Lemma realloc_concat_w n r : W r -> r_nlsize r + n + 3 <= B ->
  ends (fun _ r' => W r' /\ unread r' = unread r /\ r_crlf r' = r_crlf r /\ r_nlsize r' = r_nlsize r + n) (fun _ => False) (realloc_concat n r).
Proof.
  intros HW HB. unfold realloc_concat. unfold bind at 1, get at 1. unfold bind at 1, on_lp at 1, zoom at 1, grow at 1, modify at 1. unfold bind at 1, get at 1. cbn [lp_of lp_to l_blk l_n l_fresh rset_nl r_nl r_help r_nlsize].
  destruct (r_help r) as [h|]; [|exact Logic.I]. eapply ends_bind with (Q := fun _ r' => W r' /\ unread r' = unread r /\ r_crlf r' = r_crlf r /\ r_nlsize r' = r_nlsize r).
  - destruct (copy_between _ _ _ _) as [m|] eqn:E; [|exact Logic.I]. cbn. split; [|auto].
    assert (LM : length m = r_nlsize r + n + 3).
    { unfold copy_between in E. destruct (_ && _) eqn:Eb; [|discriminate]. apply andb_true_iff in Eb as [E1 E2]. apply Nat.leb_le in E1, E2. injection E as <-.
      rewrite !app_length, !firstn_length, skipn_length in *. unfold realloc in *. cbn [b_cells] in *. rewrite !app_length, !firstn_length, !repeat_length in *. lia. }
    pose proof HW as HW'. destruct HW. constructor; cbn -[owned]; auto; try (eapply bok_mono; eauto; fail).
    all: assert (SU : succ_lp (lp_of NextLine r) (mkLp (Some (mkB (r_fresh r) m)) (r_nlsize r + n + 3) (S (r_fresh r)))) by (split; [cbn; lia|]; right; cbn; lia).
    + apply (nd_lp NextLine r (mkLp (Some (mkB (r_fresh r) m)) (r_nlsize r + n + 3) (S (r_fresh r)))); auto.
    + apply (own_lp NextLine r (mkLp (Some (mkB (r_fresh r) m)) (r_nlsize r + n + 3) (S (r_fresh r)))); auto.
  - intros _ r1 (A1 & A2 & A3 & A4). cbn. split; [assert (r_nlsize (rset_nlsize (r_nlsize r1 + n) r1) <= B) by (change (r_nlsize r1 + n <= B); lia); destruct A1; constructor; assumption|]. rewrite A4. auto.
Qed.
Lemma append_w n r : W r -> row n r -> (c_mlsize c = 0 \/ n < c_mlsize c) -> c_ml c = true ->
  ends (fun _ r' => W r' /\ row (S n) r') (fun _ => False) (append_next_line_to_buffer cap r).
Proof.
  intros HW HR HN HM. unfold append_next_line_to_buffer. eapply ends_bind; [apply undo_w; exact HW|]. intros _ r1 (W1 & U1 & C1 & N1).
  unfold bind at 1, rupd at 1, modify at 1. assert (W2 : W (rset_chars (r_curr r1) r1)) by (destruct W1; constructor; assumption).
  eapply ends_bind; [apply get_line_w; exact W2|]. change (unread (rset_chars (r_curr r1) r1)) with (unread r1). intros o r3 (W3 & S3 & _ & K). cbn in S3.
  destruct o as [k|]; [|cbn; split; [exact W3|left; apply K]]. destruct K as (K1 & K2 & K3 & K4).
  unfold bind at 1, rupd at 1, modify at 1. assert (W4 : W (rset_line (S (r_line r3)) r3)) by (destruct W3; constructor; assumption).
  eapply ends_bind; [apply remove_eol_w; exact W4|]. intros j r5 (W5 & U5 & S5 & N5). change (unread (rset_line (S (r_line r3)) r3)) with (unread r3) in U5. cbn in S5.
  destruct HR as [HR|[HR1 HR2]]; [congruence|]. rewrite U1 in *.
  assert (J : r_nlsize r5 + j + ew r5 <= S (S n) * L /\ r_nlsize r5 + j + ew r5 + weight (unread r5) <= T) by (rewrite S5, S3, U5; cbn [Nat.mul] in *; lia).
  assert (JB : r_nlsize r5 + j + ew r5 <= R).
  { destruct (Nat.eq_dec (c_mlsize c) 0) as [Z|Z]; [specialize (Hunl HM Z); lia|]. destruct (Hlim HM ltac:(lia)) as [HL|HL]; [|lia].
    assert (S (S n) * L <= S (c_mlsize c) * L) by (apply Nat.mul_le_mono_r; lia). lia. }
  assert (1 <= ew r5) by (unfold ew; destruct (r_crlf r5); lia).
  eapply ends_bind; [apply realloc_concat_w; [exact W5|unfold B; lia]|]. intros _ r6 (W6 & U6 & C6 & N6). cbn. split; [exact W6|]. right. unfold ew in *. rewrite N6, C6, U6. lia.
Qed.
Lemma W_nconv v r : few c B (v_sp v) -> W r -> W (rset_nconv v r). Proof. intros F []. constructor; assumption. Qed.
Lemma on_nconv_w {A} (m : M (conv * list (option ascii)) A) n r : tame c B m -> W r -> row n r -> ends (fun _ r' => W r' /\ row n r') (fun r' => W r' /\ row n r') (on_nconv m r).
Proof.
  intros Hm HW HR. unfold on_nconv. specialize (Hm (r_nconv r, []) (w_nconv _ HW)). destruct (m _) as [a [v cs]|e [v cs]| |]; [| |exact Logic.I..]; (split; [apply W_nconv; [exact Hm|exact HW]|exact HR]).
Qed.
Lemma row_mono n m r : row n r -> n <= m -> row m r.
Proof. intros [H|[H1 H2]] Hm; [left; exact H|right]. split; [|exact H2]. assert (S n * L <= S m * L) by (apply Nat.mul_le_mono_r; lia). lia. Qed.
(** [k] is the variable limit; [n] lines were appended. *)
Definition counted (n k : nat) : Prop := 0 < c_mlsize c -> n <= k.
Lemma limit_w n k r : W r -> row n r -> counted n k ->
  ends (fun a r' => W r' /\ row n r' /\ (snd a = false -> (c_mlsize c = 0 \/ n < c_mlsize c) /\ counted (S n) (fst a))) W (multiline_limit_reached c k r).
Proof.
  intros HW HR HC. unfold multiline_limit_reached. destruct (0 <? c_mlsize c) eqn:E0; [apply Nat.ltb_lt in E0|apply Nat.ltb_ge in E0].
  - specialize (HC E0). destruct (c_mlsize c <=? k) eqn:E1.
    + eapply ends_bind; [eapply ends_weaken; [apply on_nconv_w; [apply tame_limit|eassumption..]|intros a s H; exact H|intros s [H _]; exact H]|]. intros _ r1 [W1 R1]. cbn. split; [exact W1|]. split; [exact R1|discriminate].
    + apply Nat.leb_gt in E1. cbn. split; [exact HW|]. split; [exact HR|]. intros _. split; [right; lia|]. intros _. lia.
  - cbn. split; [exact HW|]. split; [exact HR|]. intros _. split; [left; lia|]. intros H. lia.
Qed.
Lemma escaped_w i r : W r -> ends (fun _ r' => r' = r) (fun _ => False) (escaped_eol c i r).
Proof.
  intros HW. unfold escaped_eol.
  assert (G : forall i, ends (fun _ r' => r' = r) (fun _ => False) (count_escapes c i r)).
  { induction i0 as [|j IH]; cbn [count_escapes]; [reflexivity|]. eapply ends_bind; [apply peek_w; exact HW|]. intros a r1 ->. destruct (escape_match c a); [|reflexivity].
    eapply ends_bind; [exact IH|]. intros k r1 ->. reflexivity. }
  eapply ends_bind; [apply G|]. intros k r1 ->. reflexivity.
Qed.
Lemma escape_loop_w : c_ml c = true -> forall f n k r, W r -> row n r -> counted n k ->
  ends (fun a r' => W r' /\ (fst a = true -> exists n', row n' r' /\ counted n' (snd a))) W (escape_loop c cap f k r).
Proof.
  intros HM. induction f as [|f IH]; intros n k r HW HR HC; [exact Logic.I|]. cbn [escape_loop]. unfold bind at 1, get at 1.
  eapply ends_bind; [eapply ends_weaken; [apply escaped_w; exact HW|intros a s H; exact H|contradiction]|]. intros e r1 ->. destruct e; [|cbn; eauto].
  eapply ends_bind; [apply limit_w; eassumption|]. intros [k' re] r1 (W1 & R1 & K1). destruct re; [cbn; split; [exact W1|discriminate]|].
  cbn in K1. destruct (K1 eq_refl) as [K2 K3].
  eapply ends_bind; [eapply ends_weaken; [apply append_w; eassumption|intros a s H; exact H|contradiction]|]. intros more r2 [W2 R2]. destruct more; [eapply IH; eauto|].
  eapply ends_bind; [eapply ends_weaken; [apply on_nconv_w; [apply tame_unterm_escape|eassumption..]|intros a s H; exact H|intros s [H _]; exact H]|]. intros _ r3 [W3 R3]. cbn. split; [exact W3|discriminate].
Qed.
Lemma escape_part_w n k r : W r -> row n r -> counted n k ->
  ends (fun a r' => W r' /\ (fst a = true -> exists n', row n' r' /\ counted n' (snd a))) W (escape_part c cap k r).
Proof.
  intros HW HR HC. unfold escape_part, escaped_multiline. case_eq (c_ml c); intros HM; cbn [andb].
  - destruct (escape_enabled c); [|cbn; eauto]. unfold bind, get. eapply escape_loop_w; eauto.
  - cbn. eauto.
Qed.
(** A splitter call on the next line: it does not resize the line, and finds few columns in it. *)
Definition splits {A} (m : nat -> M (conv * list (option ascii)) A) : Prop :=
  (forall i s, match m i s with Ok _ s' | Throw _ s' => length (snd s') = length (snd s) | _ => True end) /\
  (forall i s, length (snd s) <= B -> vfew c B s -> ends (fun _ => vfew c B) (vfew c B) (m i s)).
Lemma splits_split d : splits (fun i => cv_split c i d).
Proof. split; [intros; apply cv_split_len|]. intros i s H _. apply cv_split_few. exact H. Qed.
Lemma splits_resplit n d : splits (fun i => cv_resplit c i n d).
Proof. split; [intros; apply cv_resplit_len|]. intros i s H F. apply cv_resplit_few; assumption. Qed.
Lemma on_next_w {A} (m : nat -> M (conv * list (option ascii)) A) n r : splits m -> W r -> row n r -> ends (fun _ r' => W r' /\ row n r') W (on_next m r).
Proof.
  intros [Hm Hf] HW HR. unfold on_next. destruct (r_nl r) as [b|] eqn:Eb; [|exact Logic.I]. specialize (Hm (b_id b) (r_nconv r, b_cells b)). specialize (Hf (b_id b) (r_nconv r, b_cells b)).
  assert (LB : length (b_cells b) <= B) by (pose proof (w_nl _ HW) as X; pose proof (w_nlsz _ HW); rewrite Eb in X; destruct X as [X _]; rewrite X; assumption).
  specialize (Hf LB (w_nconv _ HW)).
  assert (G : forall v cs, few c B (v_sp v) -> length cs = length (b_cells b) -> W (rset_nl (Some (mkB (b_id b) cs)) (r_nlsz r) (r_fresh r) (rset_nconv v r))).
  { intros v cs Hv Hc. destruct HW. rewrite Eb in *. constructor; try assumption; cbn -[owned B]; auto; [cbn in w_nl0; destruct w_nl0; split; [congruence|assumption]| |]; rewrite owned_eq in *; rewrite Eb in w_nd0, w_own0; [exact w_nd0|exact w_own0]. }
  destruct (m _ _) as [a [v cs]|e [v cs]| |]; [| |exact Logic.I..]; cbn [ends snd] in *; [split; [apply G; assumption|exact HR]|apply G; assumption].
Qed.
Lemma quote_loop_w : c_ml c = true -> forall f n k r, W r -> row n r -> counted n k -> ends (fun _ r' => W r') W (quote_loop c cap f k r).
Proof.
  intros HM. induction f as [|f IH]; intros n k r HW HR HC; [exact Logic.I|]. cbn [quote_loop]. unfold bind at 1, get at 1. destruct (cv_unterminated_quote (r_nconv r)); [|exact HW].
  destruct (r_nlsize r <? cv_size_shifted (r_nconv r)); [exact Logic.I|]. unfold bind at 1, ret at 1. unfold bind at 1, rupd at 1, modify at 1.
  set (r0 := rset_nlsize _ r). assert (W0 : W r0) by (assert (r_nlsize r0 <= B) by (pose proof (w_size _ HW); subst r0; match goal with |- r_nlsize (rset_nlsize ?x r) <= _ => change (x <= B) end; lia); destruct HW; constructor; assumption).
  assert (R0 : row n r0). { destruct HR as [HR|HR]; [left; exact HR|right]. unfold ew in *. subst r0. cbn. change (unread (rset_nlsize _ r)) with (unread r). lia. }
  clearbody r0. clear r HW HR.
  eapply ends_bind; [apply limit_w; eassumption|]. intros [k' re] r1 (W1 & R1 & K1). destruct re; [exact W1|]. destruct (K1 eq_refl) as [K2 K3]. cbn [fst] in K3.
  eapply ends_bind; [eapply ends_weaken; [apply append_w; eassumption|intros a s H; exact H|contradiction]|]. intros more r2 [W2 R2]. destruct more.
  - eapply ends_bind; [eapply escape_part_w; eassumption|]. intros [go k2] r3 [W3 K4]. destruct go; [|exact W3]. destruct (K4 eq_refl) as (n3 & R3 & C3). cbn [snd] in C3.
    unfold bind at 1, get at 1. eapply ends_bind; [apply on_next_w; [apply splits_resplit|exact W3|exact R3]|]. intros _ r4 [W4 R4]. eapply IH; eauto.
  - eapply ends_weaken; [apply on_nconv_w; [apply tame_unterm_quote|eassumption..]| |]; intros; apply H.
Qed.
Lemma parse_w r : W r -> ready r -> ends (fun _ r' => W r') W (parse c cap r).
Proof.
  intros HW HR. unfold parse. assert (R0 : row 0 r) by (destruct HR as [HR|HR]; [left; exact HR|right; cbn [Nat.mul]; lia]).
  eapply ends_bind; [eapply escape_part_w; [exact HW|exact R0|intros _; lia]|]. intros [go k2] r3 [W3 K4]. destruct go; [|exact W3]. destruct (K4 eq_refl) as (n3 & R3 & C3). cbn [snd] in C3.
  unfold bind at 1, get at 1. eapply ends_bind; [apply on_next_w; [apply splits_split|exact W3|exact R3]|]. intros _ r4 [W4 R4].
  unfold quoted_multiline. case_eq (c_ml c); intros HM; cbn [andb]; [|exact W4]. destruct (quote_enabled c); [|exact W4]. unfold bind, get. eapply quote_loop_w; eauto.
Qed.
Lemma update_w r : W r -> ends (fun _ r' => W r' /\ (ready r -> ready r')) (fun _ => False) (update r).
Proof.
  intros HW. cbn. split; [|exact (fun x => x)]. destruct HW; constructor; try assumption; rewrite owned_eq in *; cbn -[ids Nat.add].
  - eapply Permutation.Permutation_NoDup; [|exact w_nd0]. rewrite !app_assoc. apply Permutation.Permutation_app_tail, Permutation.Permutation_app_comm.
  - rewrite !app_length in *. rewrite Nat.add_assoc, (Nat.add_comm (length (ids (r_nl r)))), <- Nat.add_assoc. exact w_own0.
Qed.
Lemma on_conv_w {A} (m : M (conv * list (option ascii)) A) r : tame c B m -> W r -> ends (fun _ r' => W r' /\ (ready r -> ready r')) (fun r' => W r' /\ (ready r -> ready r')) (on_conv m r).
Proof.
  intros Hm HW. unfold on_conv. specialize (Hm (r_conv r, seen_by (r_conv r) (r_buf r)) (w_conv _ HW)).
  destruct (m _) as [a [v cs]|e [v cs]| |]; [| |exact Logic.I..]; (split; [destruct HW; constructor; assumption|exact (fun x => x)]).
Qed.
End W.
