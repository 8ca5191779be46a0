(** Running out of memory: what interrupted calls leave behind. *)
From Verif Require Import Base Setup Splitter Extract Converter Reader ListFacts LineProofs GetLineProofs ReaderBase ReaderInv Parser ConvProofs ParserApi SessionApi NoThrow MemBound SimParse PropMemory Fault.

(** [mf] is [m] until it is interrupted. *)
Definition sim {S A} (Bad : S -> Prop) (m : M S A) (mf : F S A) (s : S) : Prop := mf s = inl (m s) \/ exists s', mf s = inr s' /\ Bad s'.
Lemma sim_lift {S A} Bad (m : M S A) s : sim Bad m (lift m) s. Proof. left. reflexivity. Qed.
Lemma sim_bind {S A B} Bad (Q : A -> S -> Prop) (E : S -> Prop) (m : M S A) mf (k : A -> M S B) kf s :
  sim Bad m mf s -> ends Q E (m s) -> (forall a s', Q a s' -> sim Bad (k a) (kf a) s') -> sim Bad (bind m k) (fbind mf kf) s.
Proof.
  intros [H|(s' & H & HB)] HE HK; unfold sim, bind, fbind; rewrite H; [|right; eauto].
  destruct (m s) as [a s'|e s'|w|]; cbn in HE; [exact (HK a s' HE)|left; reflexivity|left; reflexivity|left; reflexivity].
Qed.
(** After a step that cannot be interrupted. *)
Lemma sim_step {S A B} Bad (Q : A -> S -> Prop) (E : S -> Prop) (m : M S A) (k : A -> M S B) kf s :
  ends Q E (m s) -> (forall a s', Q a s' -> sim Bad (k a) (kf a) s') -> sim Bad (bind m k) (fbind (lift m) kf) s.
Proof. intros HE HK. eapply sim_bind; [apply sim_lift|exact HE|exact HK]. Qed.
Lemma sim_get {S B} Bad (k : S -> M S B) kf s : sim Bad (k s) (kf s) s -> sim Bad (bind get k) (fbind (lift get) kf) s.
Proof. exact (fun x => x). Qed.
Lemma sim_catch {S A} Bad (Q : A -> S -> Prop) (E : S -> Prop) (m : M S A) mf (h : str -> M S A) hf s :
  sim Bad m mf s -> ends Q E (m s) -> (forall e s', E s' -> sim Bad (h e) (hf e) s') -> sim Bad (catch m h) (fcatch mf hf) s.
Proof.
  intros [H|(s' & H & HB)] HE HK; unfold sim, catch, fcatch; rewrite H; [|right; eauto].
  destruct (m s) as [a s'|e s'|w|]; cbn in HE; [left; reflexivity|exact (HK e s' HE)|left; reflexivity|left; reflexivity].
Qed.
Lemma sim_weaken {S A} (Bad Bad' : S -> Prop) (m : M S A) mf s : sim Bad m mf s -> (forall s', Bad s' -> Bad' s') -> sim Bad' m mf s.
Proof. intros [H|(s' & H & HB)] K; [left; exact H|right; eauto]. Qed.
Lemma sim_zoom {T S A} (Bad : S -> Prop) (Bad' : T -> Prop) (g : T -> S) (p : S -> T -> T) (m : M S A) mf t :
  sim Bad m mf (g t) -> (forall s, Bad s -> Bad' (p s t)) -> sim Bad' (zoom g p m) (fzoom g p mf) t.
Proof.
  intros [H|(s' & H & HB)] K; unfold sim, zoom, fzoom; rewrite H; [|right; eauto]. left. destruct (m (g t)); reflexivity.
Qed.

Section Fault.
Context (fails : nat -> nat -> bool) (stale : rdr -> bool).

(** ** One buffer *)
Definition step {A} (m : M lp A) (l : lp) : Prop := ends (fun _ l' => lp_ok l' /\ succ_lp l l' /\ l_n l <= l_n l') (fun _ => False) (m l).
Definition lbad {A} (m : M lp A) (l l' : lp) : Prop := succ_lp l l' /\ exists i n, fails i n = true /\ forall a l2, m l = Ok a l2 -> n <= l_n l2.
Definition lgood {A} (m : M lp A) (mf : F lp A) (l : lp) : Prop := sim (lbad m l) m mf l /\ step m l.
Lemma succ_refl l : succ_lp l l. Proof. split; [lia|]. destruct (l_blk l) as [b|]; [left; eauto|reflexivity]. Qed.
Lemma succ_trans a b e : succ_lp a b -> succ_lp b e -> succ_lp a e.
Proof.
  intros [A1 A2] [B1 B2]. split; [lia|]. destruct (l_blk e) as [be|]; [|rewrite B2 in A2; exact A2]. destruct B2 as [(bb & Hb & Ib)|B2]; [|right; lia].
  rewrite Hb in A2. destruct A2 as [(ba & Ha & Ia)|A2]; [left; exists ba; split; [exact Ha|congruence]|right; congruence].
Qed.
Lemma lgood_lift {A} (m : M lp A) l : step m l -> lgood m (lift m) l. Proof. intros H. split; [apply sim_lift|exact H]. Qed.
Lemma lgood_bind {A B} (m : M lp A) mf (k : A -> M lp B) kf l :
  lgood m mf l -> (forall a l2, lp_ok l2 -> lgood (k a) (kf a) l2) -> lgood (bind m k) (fbind mf kf) l.
Proof.
  intros [Hm Sm] HK. assert (SB : step (bind m k) l).
  { unfold step in *. eapply ends_bind; [exact Sm|]. intros a l2 (H1 & H2 & H3). eapply ends_weaken; [apply (HK a l2 H1)| |contradiction].
    intros b l3 (K1 & K2 & K3). split; [exact K1|]. split; [eapply succ_trans; eauto|lia]. }
  split; [|exact SB]. unfold step in *. destruct Hm as [Hm|(l' & Hm & Bm)]; unfold sim, fbind; rewrite Hm.
  - unfold lbad, bind. destruct (m l) as [a l2|e l2|w|] eqn:E; cbn in Sm; try (left; reflexivity).
    destruct Sm as (S1 & S2 & S3). destruct (HK a l2 S1) as [[Hk|(l3 & Hk & K1 & i & n & K2 & K3)] _]; rewrite Hk; [left; reflexivity|right].
    exists l3. split; [reflexivity|]. split; [eapply succ_trans; eauto|]. exists i, n. auto.
  - right. exists l'. split; [reflexivity|]. destruct Bm as (B1 & i & n & B2 & B3). split; [exact B1|]. exists i, n. split; [exact B2|].
    intros b l3. unfold bind. destruct (m l) as [a l2|e l2|w|] eqn:E; try discriminate. cbn in Sm. destruct Sm as (S1 & _). specialize (B3 _ _ eq_refl).
    destruct (HK a l2 S1) as [_ Sk]. unfold step in Sk. intros Ek. rewrite Ek in Sk. cbn in Sk. lia.
Qed.
Lemma step_ret {A} (a : A) l : lp_ok l -> step (ret a) l.
Proof. intros H. split; [exact H|]. split; [apply succ_refl|lia]. Qed.
Lemma step_put i ch l : lp_ok l -> step (put i ch) l.
Proof. intros H. eapply ends_weaken; [apply put_lp; exact H| |auto]. intros _ l' (H1 & H2 & H3). split; [exact H1|]. split; [apply kept_succ; exact H3|lia]. Qed.
Lemma step_put_all s i l : lp_ok l -> step (put_all i s) l.
Proof. intros H. eapply ends_weaken; [apply put_all_lp; exact H| |auto]. intros _ l' (H1 & H2 & H3). split; [exact H1|]. split; [apply kept_succ; exact H3|lia]. Qed.
Lemma step_peek i l : lp_ok l -> step (peek i) l.
Proof. intros H. unfold step, peek. destruct (rd _ _) as [ch|]; [|exact Logic.I]. exact (step_ret ch l H). Qed.
Lemma step_bind {A B} (m : M lp A) (k : A -> M lp B) l : step m l -> (forall a l2, lp_ok l2 -> step (k a) l2) -> step (bind m k) l.
Proof. intros H K. apply (lgood_bind m (lift m) k (fun a => lift (k a)) l); [apply lgood_lift; exact H|]. intros a l2 H2. apply lgood_lift. auto. Qed.
Lemma step_strlen : forall f i l, lp_ok l -> step (strlen_from f i) l.
Proof.
  induction f as [|f IH]; intros i l H; [exact Logic.I|]. cbn [strlen_from]. apply step_bind; [apply step_peek; exact H|]. intros ch l2 H2.
  destruct (Ascii.eqb ch NUL); [apply step_ret; exact H2|apply IH; exact H2].
Qed.
Lemma step_gets {A} (f : lp -> A) l : lp_ok l -> step (gets f) l. Proof. exact (step_ret (f l) l). Qed.
Lemma step_get l : lp_ok l -> step get l. Proof. intros H. split; [exact H|]. split; [apply succ_refl|lia]. Qed.
Lemma lgood_grow n l : lp_ok l -> l_n l <= n -> lgood (grow n) (fgrow fails n) l.
Proof.
  intros H Hn. split.
  - unfold sim, fgrow. destruct (fails (l_fresh l) n) eqn:Ef; [right|left; reflexivity]. exists l. split; [reflexivity|]. split; [apply succ_refl|].
    exists (l_fresh l), n. split; [exact Ef|]. intros a l2 E. injection E as _ <-. cbn. lia.
  - cbn. split; [|split].
    + split; [|cbn; lia]. cbn [b_cells]. unfold lp_ok, bok in H. rewrite app_length, firstn_length, repeat_length. destruct (l_blk l) as [b|]; cbn in *; lia.
    + split; [cbn; lia|]. right. cbn. lia.
    + cbn. exact Hn.
Qed.
Lemma lgood_gets {A B} (f : lp -> A) (k : A -> M lp B) kf l : lgood (k (f l)) (kf (f l)) l -> lgood (bind (gets f) k) (fbind (lift (gets f)) kf) l.
Proof. exact (fun x => x). Qed.
Lemma lgood_get {B} (k : lp -> M lp B) kf l : lgood (k l) (kf l) l -> lgood (bind get k) (fbind (lift get) kf) l.
Proof. exact (fun x => x). Qed.
Lemma lgood_step {A B} (m : M lp A) (k : A -> M lp B) kf l : step m l -> (forall a l2, lp_ok l2 -> lgood (k a) (kf a) l2) -> lgood (bind m k) (fbind (lift m) kf) l.
Proof. intros H. apply lgood_bind. apply lgood_lift. exact H. Qed.
Lemma lgood_room b n l : lp_ok l -> (b = true -> l_n l <= n) -> lgood (if b then grow n else ret tt) (if b then fgrow fails n else lift (ret tt)) l.
Proof. intros H Hb. destruct b; [apply lgood_grow; auto|apply lgood_lift, step_ret, H]. Qed.
Lemma lgood_glb : forall rest u k l, lp_ok l -> lgood (glb_loop u k rest) (fglb_loop fails u k rest) l.
Proof.
  induction rest as [|ch rest IH]; intros u k l H; cbn [glb_loop fglb_loop].
  - apply lgood_lift. apply step_bind; [apply step_put; exact H|]. intros _ l2 H2. apply step_ret. exact H2.
  - apply lgood_gets. apply lgood_bind; [apply lgood_room; [exact H|intros _; lia]|]. intros _ l1 H1.
    apply lgood_step; [apply step_put; exact H1|]. intros _ l2 H2. destruct (Ascii.eqb ch LF); [|apply IH; exact H2].
    apply lgood_lift. apply step_bind; [apply step_put; exact H2|]. intros _ l3 H3. apply step_ret. exact H3.
Qed.
Lemma first_room l : lp_ok l -> match l_blk l with None => true | Some _ => l_n l <? initial_size end = true -> l_n l <= initial_size.
Proof. unfold lp_ok, bok. destruct (l_blk l); [intros _ E; apply Nat.ltb_lt in E; lia|intros -> _; lia]. Qed.
Lemma lgood_buffer rest l : lp_ok l -> lgood (get_line_buffer rest) (fget_line_buffer fails rest) l.
Proof.
  intros H. destruct rest as [|ch rest]; [apply lgood_lift, step_ret, H|]. unfold get_line_buffer, fget_line_buffer. apply lgood_get.
  apply lgood_bind; [apply lgood_room; [exact H|apply first_room; exact H]|]. intros _ l1 H1.
  apply lgood_bind; [apply lgood_glb; exact H1|]. intros [u k] l2 H2. apply lgood_lift, step_ret, H2.
Qed.
Lemma lgood_fgets_loop : forall f u rest l, lp_ok l -> lgood (fgets_loop f u rest) (ffgets_loop fails f u rest) l.
Proof.
  induction f as [|f IH]; intros u rest l H; [split; [left; reflexivity|exact Logic.I]|]. cbn [fgets_loop ffgets_loop].
  destruct rest as [|ch rest]; [apply lgood_lift, step_ret, H|]. destruct (fgets_take (initial_size - 1) (ch :: rest)) as [buff rest'].
  apply lgood_get. apply lgood_step; [apply step_strlen; exact H|]. intros lu l1 H1. cbv zeta. apply lgood_gets.
  apply lgood_bind; [apply lgood_room; [exact H1|intros _; lia]|]. intros _ l2 H2. apply lgood_step; [apply step_put_all; exact H2|]. intros _ l3 H3.
  apply lgood_step; [apply step_put; exact H3|]. intros _ l4 H4. destruct (lu + strlen buff) as [|k]; [apply lgood_lift; exact Logic.I|].
  apply lgood_step; [apply step_peek; exact H4|]. intros a l5 H5. destruct (Ascii.eqb a LF); [apply lgood_lift, step_ret, H5|apply IH; exact H5].
Qed.
Lemma lgood_fgets rest l : lp_ok l -> lgood (get_line_fgets rest) (fget_line_fgets fails rest) l.
Proof.
  intros H. unfold get_line_fgets, fget_line_fgets. apply lgood_get. apply lgood_bind; [apply lgood_room; [exact H|apply first_room; exact H]|]. intros _ l1 H1.
  apply lgood_step; [apply step_put; exact H1|]. intros _ l2 H2. apply lgood_fgets_loop. exact H2.
Qed.
Lemma sim_posix cap rest l : lp_ok l -> sim (lbad (get_line_posix cap rest) l) (get_line_posix cap rest) (fget_line_posix fails cap rest) l.
Proof.
  intros H. unfold sim, fget_line_posix. destruct (get_line_posix cap rest l) as [a l'|e l'|w|] eqn:E; try (left; unfold lift; congruence).
  destruct (_ && _) eqn:Ef; [right|left; unfold lift; congruence]. apply andb_true_iff in Ef as [_ Ef]. exists (spoilt l). split; [reflexivity|]. split.
  - apply kept_succ. split; [reflexivity|]. cbn. destruct (l_blk l); reflexivity.
  - exists (l_fresh l), (l_n l'). split; [exact Ef|]. intros a2 l2 E2. rewrite E in E2. injection E2 as _ <-. lia.
Qed.

(** ** The reader *)
Context (c : cfg) (cap : nat -> nat -> nat).
Context (Hcap : enough cap) (Hmod : forall n need, n < need -> cap n need <= 128 + 2 * need) (Hmod0 : cap 0 0 <= 128).
Context (L R T : nat) (HLR : L <= R) (Hlim : c_ml c = true -> 0 < c_mlsize c -> S (c_mlsize c) * L <= R \/ T <= R) (Hunl : c_ml c = true -> c_mlsize c = 0 -> T <= R) (fl : bool * nat).
Notation W := (W c L R T fl). Notation ready := (ready L T). Notation row := (row L T).
(** Why it failed: a request of at most [B R] bytes, or the stale error number. *)
Definition cause : Prop := (exists i n, n <= B R /\ fails i n = true) \/ (exists r, stale r = true).
(** What is left: different blocks, none forgotten, and the file. *)
Definition wreck (r : rdr) : Prop := NoDup (owned r) /\ open_file r = fst fl /\ snd fl <= length (owned r) /\ cause.
Lemma W_wreck r : W r -> cause -> wreck r. Proof. intros [] H. split; [assumption|]. split; [assumption|]. split; assumption. Qed.
Lemma wreck_lp w r l' : W r -> succ_lp (lp_of w r) l' -> cause -> wreck (lp_to w l' r).
Proof. intros HW H HC. destruct HW. split; [apply nd_lp; assumption|]. split; [destruct w; assumption|]. split; [apply own_lp; assumption|exact HC]. Qed.

(** A read of one line: the buffer, the position, the error number. *)
Lemma sim_line w r {A} (m : M lp A) mf (nx : A -> rdr -> rdr) (sz : A -> option nat) :
  (forall r', (a <- on_lp w m ;; rupd (nx a) ;; ret (sz a)) r = Ok (snd r') (fst r') -> l_n (lp_of w (fst r')) <= B R) ->
  (forall a r, lp_of w (nx a r) = lp_of w r) ->
  W r -> ends (fun _ r' => W r') (fun _ => False) ((a <- on_lp w m ;; rupd (nx a) ;; ret (sz a)) r) ->
  (exists o r', (a <- on_lp w m ;; rupd (nx a) ;; ret (sz a)) r = Ok o r') ->
  sim (lbad m (lp_of w r)) m mf (lp_of w r) ->
  sim wreck (a <- on_lp w m ;; rupd (nx a) ;; ret (sz a)) (a <~ fon_lp w mf ;; lift (rupd (nx a)) ;~ fend_of_data stale (sz a)) r.
Proof.
  intros HB Hnx HW HE (o & r' & EO) [H|(l' & H & H1 & i & n & H2 & H3)]; unfold sim, fbind, fon_lp, fzoom, lift; rewrite H.
  - revert EO HB HE. unfold bind, on_lp, zoom. destruct (m (lp_of w r)) as [a l2|e l2|x|]; try discriminate. intros EO HB HE.
    unfold rupd, modify, fend_of_data, ret in *. destruct (sz a) as [n|] eqn:Es; [left; reflexivity|]. destruct (stale _) eqn:St; [right|left; reflexivity].
    eexists. split; [reflexivity|]. cbn in HE. apply W_wreck; [exact HE|]. right. eauto.
  - right. eexists. split; [reflexivity|]. apply wreck_lp; [exact HW|exact H1|]. left. exists i, n. split; [|exact H2].
    specialize (HB (r', o) EO). revert EO HB. cbn [fst snd]. unfold bind, on_lp, zoom. destruct (m (lp_of w r)) as [a l2|e l2|x|]; try discriminate. specialize (H3 _ _ eq_refl).
    unfold rupd, modify, ret. intros EO. injection EO as _ <-. rewrite Hnx. destruct w; cbn; lia.
Qed.
Lemma sim_get_line w r : W r -> sim wreck (get_line cap w) (fget_line fails stale cap w) r.
Proof.
  intros HW. pose proof (get_line_w c cap Hcap Hmod Hmod0 L R T HLR Hlim Hunl fl w r HW) as GW.
  assert (GO : exists o r', get_line cap w r = Ok o r').
  { destruct (list_eq_dec ascii_dec (unread r) []) as [U|U].
    - destruct (get_line_none cap w r (W_lp_ok _ _ _ _ _ w r HW) (w_src _ _ _ _ _ _ HW) U) as (l' & z' & E & _). eauto.
    - destruct (get_line_some cap Hcap w r (W_lp_ok _ _ _ _ _ w r HW) (w_src _ _ _ _ _ _ HW) U) as (l' & s' & E & _). eauto. }
  pose proof (fun o r' => get_line_size c cap Hmod Hmod0 L R T HLR Hlim Hunl fl w r o r' HW) as GS.
  assert (GE : ends (fun _ r' => W r') (fun _ => False) (get_line cap w r)) by (eapply ends_weaken; [exact GW|intros ? ? X; apply X|auto]). clear GW.
  assert (GEN : forall A (m : M lp A) mf nx sz, get_line cap w r = (a <- on_lp w m ;; rupd (nx a) ;; ret (sz a)) r ->
    fget_line fails stale cap w r = (a <~ fon_lp w mf ;; lift (rupd (nx a)) ;~ fend_of_data stale (sz a)) r ->
    (forall a r, lp_of w (nx a r) = lp_of w r) -> sim (lbad m (lp_of w r)) m mf (lp_of w r) -> sim wreck (get_line cap w) (fget_line fails stale cap w) r).
  { intros A m mf nx sz E1 E2 Hnx HS. unfold sim. rewrite E1, E2. rewrite E1 in GO, GE. apply (sim_line w r m mf nx sz); auto. intros [r' o] E. rewrite E1 in GS. eapply GS. exact E. }
  pose proof (W_lp_ok _ _ _ _ _ w r HW) as HL. 
  destruct (r_src r) as [rest|rest|data|size] eqn:Es.
  - apply (GEN _ (get_line_posix cap rest) (fget_line_posix fails cap rest)
      (fun a => rset_src (SFile (snd a)) (r_curr r + match fst a with Some n => Z.of_nat n | None => -1 end)) fst).
    + unfold get_line, bind, get. rewrite Es. destruct (on_lp _ _ _) as [[a b] r1| | |]; reflexivity.
    + unfold fget_line, fbind, lift, get. rewrite Es. destruct (fon_lp _ _ _) as [[[a b] r1| | |]|]; reflexivity.
    + intros a r0. destruct w; reflexivity.
    + apply sim_posix. exact HL.
  - apply (GEN _ (get_line_fgets rest) (fget_line_fgets fails rest)
      (fun a => rset_src (SPort (snd a)) (r_curr r + match fst a with Some n => Z.of_nat n | None => -1 end)) fst).
    + unfold get_line, bind, get. rewrite Es. destruct (on_lp _ _ _) as [[a b] r1| | |]; reflexivity.
    + unfold fget_line, fbind, lift, get. rewrite Es. destruct (fon_lp _ _ _) as [[[a b] r1| | |]|]; reflexivity.
    + intros a r0. destruct w; reflexivity.
    + apply lgood_fgets. exact HL.
  - apply (GEN _ (get_line_buffer (skipn (Z.to_nat (r_curr r)) data)) (fget_line_buffer fails (skipn (Z.to_nat (r_curr r)) data))
      (fun a => rset_src (SMem data) (r_curr r + Z.of_nat (snd a))) fst).
    + unfold get_line, bind, get. rewrite Es. destruct (on_lp _ _ _) as [[a b] r1| | |]; reflexivity.
    + unfold fget_line, fbind, lift, get. rewrite Es. destruct (fon_lp _ _ _) as [[[a b] r1| | |]|]; reflexivity.
    + intros a r0. destruct w; reflexivity.
    + apply lgood_buffer. exact HL.
  - clear GEN. unfold sim, get_line, fget_line, bind, fbind, lift, get. rewrite Es. destruct (_ <=? _)%Z; [|left; reflexivity].
    unfold fend_of_data, ret. destruct (stale r) eqn:St; [right|left; reflexivity]. exists r. split; [reflexivity|]. apply W_wreck; [exact HW|]. right. eauto.
Qed.
Notation B := (B R).
Ltac wk := eapply ends_weaken; [|intros ? ? X; exact X|first [contradiction|intros ? X; exact X]].
Lemma sim_read_next_loop : forall f r, W r -> sim wreck (read_next_loop c cap f) (fread_next_loop fails stale cap c f) r.
Proof.
  induction f as [|f IH]; intros r HW; [left; reflexivity|]. cbn [read_next_loop fread_next_loop].
  eapply sim_step with (Q := fun _ => W) (E := fun _ => False); [cbn; destruct HW; constructor; assumption|]. intros _ r0 W0. apply sim_get.
  eapply sim_step with (Q := fun _ => W) (E := fun _ => False).
  { destruct (0 <? r_nlsz r0); [|exact W0]. eapply ends_weaken; [apply (put_w c L R T fl); exact W0| |auto]. intros _ s (X & _). exact X. }
  intros _ r1 W1. eapply sim_step with (Q := fun _ => W) (E := fun _ => False); [cbn; destruct W1; constructor; assumption|]. intros _ r2 W2.
  eapply sim_bind; [apply sim_get_line; exact W2|exact (get_line_w c cap Hcap Hmod Hmod0 L R T HLR Hlim Hunl fl NextLine r2 W2)|].
  intros o r3 (W3 & _). destruct o as [n|]; [|apply sim_lift]. eapply sim_step; [apply (remove_eol_w c cap Hmod0 L R T HLR Hlim Hunl fl); exact W3|]. intros k r4 (W4 & _).
  destruct (c_ignempty c && (k =? 0)); [apply IH; exact W4|apply sim_lift].
Qed.
Lemma sim_read_next r : W r -> sim wreck (read_next c cap) (fread_next fails stale cap c) r.
Proof.
  intros HW. unfold read_next, fread_next. eapply sim_step with (Q := fun _ => W) (E := fun _ => False); [cbn; destruct HW; constructor; assumption|]. intros _ r0 W0.
  apply sim_get. apply sim_read_next_loop. exact W0.
Qed.
Lemma sim_concat n r : W r -> r_nlsize r + n + 3 <= B -> sim wreck (realloc_concat n) (frealloc_concat fails n) r.
Proof.
  intros HW HB. unfold realloc_concat, frealloc_concat. apply sim_get.
  eapply sim_bind with (Q := fun _ _ => True) (E := fun _ => True); [|unfold on_lp, zoom, grow, modify; exact Logic.I|intros; apply sim_lift].
  unfold sim, fon_lp, fzoom, fgrow_sized. destruct (fails _ _) eqn:Ef; [right|left; reflexivity]. eexists. split; [reflexivity|].
  assert (CS : cause) by (left; eauto). destruct HW. split; [exact w_nd|]. split; [exact w_file|]. split; [exact w_own|exact CS].
Qed.
Lemma sim_append n r : W r -> row n r -> (c_mlsize c = 0 \/ n < c_mlsize c) -> c_ml c = true ->
  sim wreck (append_next_line_to_buffer cap) (fappend_next_line_to_buffer fails stale cap) r.
Proof.
  intros HW HR HN HM. unfold append_next_line_to_buffer, fappend_next_line_to_buffer. eapply sim_step; [apply (undo_w c cap Hmod0 L R T HLR Hlim Hunl fl); exact HW|]. intros _ r1 (W1 & U1 & C1 & N1).
  eapply sim_step with (Q := fun _ r2 => r2 = rset_chars (r_curr r1) r1) (E := fun _ => False); [reflexivity|]. intros _ r2 ->.
  assert (W2 : W (rset_chars (r_curr r1) r1)) by (destruct W1; constructor; assumption).
  eapply sim_bind; [apply sim_get_line; exact W2|exact (get_line_w c cap Hcap Hmod Hmod0 L R T HLR Hlim Hunl fl Helper _ W2)|].
  change (unread (rset_chars (r_curr r1) r1)) with (unread r1). intros o r3 (W3 & S3 & _ & K). cbn in S3. destruct o as [k|]; [|apply sim_lift]. destruct K as (K1 & K2 & K3 & K4).
  eapply sim_step with (Q := fun _ r4 => r4 = rset_line (S (r_line r3)) r3) (E := fun _ => False); [reflexivity|]. intros _ r4 ->.
  assert (W4 : W (rset_line (S (r_line r3)) r3)) by (destruct W3; constructor; assumption).
  eapply sim_step; [apply (remove_eol_w c cap Hmod0 L R T HLR Hlim Hunl fl); exact W4|]. intros j r5 (W5 & U5 & S5 & N5). change (unread (rset_line (S (r_line r3)) r3)) with (unread r3) in U5. cbn in S5.
  destruct HR as [HR|[HR1 HR2]]; [congruence|]. rewrite U1 in *.
  assert (J : r_nlsize r5 + j + ew r5 <= S (S n) * L /\ r_nlsize r5 + j + ew r5 + weight (unread r5) <= T) by (rewrite S5, S3, U5; cbn [Nat.mul] in *; lia).
  assert (JB : r_nlsize r5 + j + ew r5 <= R).
  { destruct (Nat.eq_dec (c_mlsize c) 0) as [Z|Z]; [specialize (Hunl HM Z); lia|]. destruct (Hlim HM ltac:(lia)) as [HL|HL]; [|lia].
    assert (S (S n) * L <= S (c_mlsize c) * L) by (apply Nat.mul_le_mono_r; lia). lia. }
  assert (1 <= ew r5) by (unfold ew; destruct (r_crlf r5); lia).
  eapply sim_bind; [apply sim_concat; [exact W5|unfold MemBound.B; lia]| |intros; apply sim_lift].
  instantiate (1 := fun _ => True). instantiate (1 := fun _ _ => True). destruct (realloc_concat j r5); exact Logic.I.
Qed.
Lemma append_ends n r : W r -> row n r -> (c_mlsize c = 0 \/ n < c_mlsize c) -> c_ml c = true -> ends (fun _ r' => W r' /\ row (S n) r') (fun _ => False) (append_next_line_to_buffer cap r).
Proof. exact (append_w c cap Hcap Hmod Hmod0 L R T HLR Hlim Hunl fl n r). Qed.
Lemma sim_escape_loop : c_ml c = true -> forall f n k r, W r -> row n r -> counted c n k -> sim wreck (escape_loop c cap f k) (fescape_loop fails stale cap c f k) r.
Proof.
  intros HM. induction f as [|f IH]; intros n k r HW HR HC; [left; reflexivity|]. cbn [escape_loop fescape_loop]. apply sim_get.
  eapply sim_step; [eapply (escaped_w c L R T fl); exact HW|]. intros e r1 ->. destruct e; [|apply sim_lift].
  eapply sim_step; [apply (limit_w c cap Hmod0 L R T HLR Hlim Hunl fl); eassumption|]. intros [k' re] r1 (W1 & R1 & K1). destruct re; [apply sim_lift|]. destruct (K1 eq_refl) as [K2 K3]. cbn [fst] in K3.
  eapply sim_bind; [eapply sim_append; eassumption|apply append_ends; eassumption|]. intros more r2 [W2 R2]. destruct more; [|apply sim_lift]. eapply IH; eauto.
Qed.
Lemma sim_escape_part n k r : W r -> row n r -> counted c n k -> sim wreck (escape_part c cap k) (fescape_part fails stale cap c k) r.
Proof.
  intros HW HR HC. unfold escape_part, fescape_part. destruct (escaped_multiline c) eqn:EM; [|apply sim_lift]. apply sim_get. eapply sim_escape_loop; eauto.
  unfold escaped_multiline in EM. apply andb_true_iff in EM. apply EM.
Qed.
Lemma escape_ends n k r : W r -> row n r -> counted c n k -> ends (fun a r' => W r' /\ (fst a = true -> exists n', row n' r' /\ counted c n' (snd a))) W (escape_part c cap k r).
Proof. exact (escape_part_w c cap Hcap Hmod Hmod0 L R T HLR Hlim Hunl fl n k r). Qed.
Lemma sim_quote_loop : c_ml c = true -> forall f n k r, W r -> row n r -> counted c n k -> sim wreck (quote_loop c cap f k) (fquote_loop fails stale cap c f k) r.
Proof.
  intros HM. induction f as [|f IH]; intros n k r HW HR HC; [left; reflexivity|]. cbn [quote_loop fquote_loop]. apply sim_get.
  destruct (cv_unterminated_quote (r_nconv r)); [|apply sim_lift].
  eapply sim_step with (Q := fun _ r0 => r0 = r) (E := fun _ => False); [destruct (_ <? _); [exact Logic.I|reflexivity]|]. intros _ r0 ->.
  eapply sim_step with (Q := fun _ r0 => r0 = rset_nlsize (r_nlsize r - cv_size_shifted (r_nconv r)) r) (E := fun _ => False); [reflexivity|]. intros _ r0 E0.
  assert (W0 : W r0).
  { pose proof (w_size _ _ _ _ _ _ HW) as Y. assert (r_nlsize r0 <= B) by (subst r0; change (r_nlsize r - cv_size_shifted (r_nconv r) <= B); lia). subst r0; destruct HW; constructor; assumption. }
  assert (R0 : row n r0). { subst r0. destruct HR as [HR|HR]; [left; exact HR|right]. unfold ew in *. cbn. change (unread (rset_nlsize _ r)) with (unread r). lia. }
  clear E0 HW HR r. eapply sim_step; [apply (limit_w c cap Hmod0 L R T HLR Hlim Hunl fl); eassumption|]. intros [k' re] r1 (W1 & R1 & K1). destruct re; [apply sim_lift|]. destruct (K1 eq_refl) as [K2 K3]. cbn [fst] in K3.
  eapply sim_bind; [eapply sim_append; eassumption|apply append_ends; eassumption|]. intros more r2 [W2 R2]. destruct more; [|apply sim_lift].
  eapply sim_bind; [eapply sim_escape_part; eassumption|eapply escape_ends; eassumption|]. intros [go k2] r3 [W3 K4]. destruct go; [|apply sim_lift]. destruct (K4 eq_refl) as (n3 & R3 & C3). cbn [snd] in C3.
  apply sim_get. eapply sim_step; [apply (on_next_w c L R T fl); [apply splits_resplit|exact W3|exact R3]|]. intros _ r4 [W4 R4]. eapply IH; eauto.
Qed.
Lemma sim_parse r : W r -> ready r -> sim wreck (parse c cap) (fparse fails stale cap c) r.
Proof.
  intros HW HR. unfold parse, fparse. assert (R0 : row 0 r) by (destruct HR as [HR|HR]; [left; exact HR|right; cbn [Nat.mul]; lia]).
  assert (C0 : counted c 0 0) by (intros _; lia).
  eapply sim_bind; [eapply sim_escape_part; eassumption|eapply escape_ends; eassumption|]. intros [go k2] r3 [W3 K4]. destruct go; [|apply sim_lift]. destruct (K4 eq_refl) as (n3 & R3 & C3). cbn [snd] in C3.
  apply sim_get. eapply sim_step; [apply (on_next_w c L R T fl); [apply splits_split|exact W3|exact R3]|]. intros _ r4 [W4 R4].
  destruct (quoted_multiline c) eqn:EM; [|apply sim_lift]. apply sim_get. eapply sim_quote_loop; eauto. unfold quoted_multiline in EM. apply andb_true_iff in EM. apply EM.
Qed.

(** ** The parser *)
Context (hc : cfg).
Notation G := (G c L R T fl).
Definition pwreck (p : prs) : Prop := wreck (p_rdr p).
Lemma sim_rdr {A} (m : M rdr A) mf p : sim wreck m mf (p_rdr p) -> sim pwreck (on_rdr m) (fon_rdr mf) p.
Proof. intros H. unfold on_rdr, fon_rdr. eapply sim_zoom; [exact H|]. intros s K. exact K. Qed.
Lemma sim_read_line p : W (p_rdr p) -> sim pwreck (read_line c cap) (fread_line fails stale cap c) p.
Proof.
  intros HW. unfold read_line, fread_line. eapply sim_bind; [apply sim_rdr; apply sim_read_next; exact HW| |intros; apply sim_lift].
  instantiate (1 := fun _ => True). instantiate (1 := fun _ _ => True). destruct (on_rdr (read_next c cap) p); exact Logic.I.
Qed.
Lemma sim_ignore p : W (p_rdr p) -> sim pwreck (ignore_next c cap) (fignore_next fails stale cap c) p.
Proof. intros HW. apply sim_rdr. apply sim_read_next. exact HW. Qed.
Notation RG := (read_line_g c cap Hcap Hmod Hmod0 L R T HLR Hlim Hunl fl).
Notation IG := (ignore_g c cap Hcap Hmod Hmod0 L R T HLR Hlim Hunl fl).
Notation QG := (quiet_g c L R T fl).
Lemma ends_any {S A} (o : res S A) : ends (fun _ _ => True) (fun _ => True) o. Proof. destruct o; exact Logic.I. Qed.
Lemma sim_rethrow {A} e p : W (p_rdr p) -> sim pwreck (@bind _ _ A (read_line c cap) (fun _ => decorate_rethrow e)) (fbind (fread_line fails stale cap c) (fun _ => lift (decorate_rethrow e))) p.
Proof. intros HW. eapply sim_bind; [apply sim_read_line; exact HW|apply ends_any|intros; apply sim_lift]. Qed.
Lemma sim_ret_after {A} (a : A) p : W (p_rdr p) -> sim pwreck (read_line c cap ;; ret a) (fread_line fails stale cap c ;~ lift (ret a)) p.
Proof. intros HW. eapply sim_bind; [apply sim_read_line; exact HW|apply ends_any|intros; apply sim_lift]. Qed.
Lemma sim_use fs p : G p -> sim pwreck (use_fields c hc cap fs) (fuse_fields fails stale cap c hc fs) p.
Proof.
  intros HG. unfold use_fields, fuse_fields. eapply sim_step; [apply QG; [apply quiet_clear|exact HG]|]. intros ? p0 G0. apply sim_get.
  eapply sim_step; [apply QG; [destruct (p_header p0); [|apply quiet_ret]; destruct (p_eof p0); [apply quiet_ret|apply quiet_split_header]|exact G0]|]. intros ? p1 G1.
  apply sim_get. destruct (negb _); [apply sim_lift|]. destruct fs as [|f fs]; [apply sim_lift|].
  eapply sim_step; [apply QG; [apply quiet_columns|exact G1]|]. intros [mp|] p2 G2; [|apply sim_lift]. cbv zeta.
  eapply sim_step with (Q := fun _ q => G q) (E := fun _ => False).
  { destruct G2 as [[] G3]. split; [constructor; assumption|exact G3]. }
  intros ? p3 G3. eapply sim_step with (Q := fun _ q => G q) (E := fun _ => False).
  { destruct G3 as [[] G4]. split; [constructor; assumption|exact G4]. }
  intros ? p4 G4. apply sim_get. destruct (p_line p4 =? 0); [|apply sim_lift].
  eapply sim_bind; [apply sim_ignore; apply G4|apply ends_any|intros; apply sim_lift].
Qed.
Lemma sim_get_next es p : G p -> sim pwreck (get_next c cap es) (fget_next fails stale cap c es) p.
Proof.
  intros HG. unfold get_next, fget_next. apply sim_get.
  assert (PW : p_eof p = false -> ends (fun _ q => WP c L R T fl q) (fun q => W (p_rdr q)) (on_rdr (parse c cap) p)).
  { intros He. destruct HG as [HW HR]. eapply ends_weaken; [apply lift_rdr; apply (parse_w c cap Hcap Hmod Hmod0 L R T HLR Hlim Hunl fl); eassumption| |].
    - intros ? q [H1 H2]. split; [exact H1|]. rewrite H2, He. discriminate.
    - intros q [H1 _]. exact H1. }
  assert (PS : sim pwreck (on_rdr (parse c cap)) (fon_rdr (fparse fails stale cap c)) p) by (apply sim_rdr; apply sim_parse; apply HG).
  eapply sim_bind with (Q := fun _ q => WP c L R T fl q) (E := fun _ => True).
  { destruct (p_eof p); [apply sim_lift|]. destruct (c_mode c); try exact PS. eapply sim_catch; [exact PS|apply PW; reflexivity|].
    intros e q HW. apply sim_rethrow. exact HW. }
  { destruct (p_eof p) eqn:He; [cbn; split; [apply HG|intros _; apply HG]|]. specialize (PW eq_refl). case_eq (c_mode c); intros Em.
    1,2: eapply ends_weaken; [exact PW|intros ? ? X; exact X|intros; exact Logic.I].
    eapply ends_catch; [exact PW|]. intros e q HW. eapply ends_weaken; [apply (rethrow_g c cap Hcap Hmod Hmod0 L R T HLR Hlim Hunl fl (A := unit)); exact HW| |intros; exact Logic.I]. intros ? s [H1 H2]. split; auto. }
  clear p HG PW PS. intros ? p1 W1.
  eapply sim_step with (Q := fun _ q => WP c L R T fl q) (E := fun _ => False).
  { destruct W1 as [H1 H2]. eapply ends_weaken; [apply lift_rdr; apply (update_w c L R T fl); exact H1| |intros q [[] _]]. intros ? q [[A1 A2] A3]. split; [exact A1|]. rewrite A3. auto. }
  intros ? p2 W2. apply sim_get. destruct (negb _).
  { eapply sim_step; [apply quiet_conversion|]. intros ? q Q. apply sim_ret_after. destruct Q as [-> _]. apply W2. }
  eapply sim_step with (Q := fun _ q => W (p_rdr q)) (E := fun _ => False); [apply W2|]. intros ? p3 W3. destruct (p_eof p2); [apply sim_lift|].
  pose proof (fun es => convert_w c L R T fl es p3 W3) as CW.
  destruct (c_mode c) eqn:Em.
  1,2: eapply sim_step; [apply CW|]; intros xs p4 W4; apply sim_get; eapply sim_step with (Q := fun _ q => W (p_rdr q)) (E := fun _ => True);
    [destruct (negb _); [|exact W4]; unfold handle_error_invalid_conversion, bind, get; rewrite Em; exact W4|]; intros ? p5 W5; apply sim_ret_after; exact W5.
  eapply sim_catch with (Q := fun _ _ => True) (E := fun q => W (p_rdr q)).
  - eapply sim_step; [apply CW|]. intros xs p4 W4. apply sim_ret_after. exact W4.
  - eapply ends_bind; [apply CW|]. intros xs p4 W4. eapply ends_bind; [eapply ends_weaken; [apply RG; exact W4|intros ? s H; exact H|contradiction]|]. intros; exact Logic.I.
  - intros e q HW. apply sim_rethrow. exact HW.
Qed.
Lemma sim_chain es cb ls p : G p -> sim (fun t => pwreck (fst t)) (chain_call c cap es cb ls) (fchain_call fails stale cap c es cb ls) (p, []).
Proof.
  intros HG. unfold chain_call, fchain_call. eapply sim_bind; [|apply ends_any|intros; apply sim_lift].
  unfold try_next, ftry_next. eapply sim_bind; [|apply ends_any|intros; apply sim_lift].
  unfold on_p, fon_p. eapply sim_zoom; [apply sim_get_next; exact HG|]. intros s K. exact K.
Qed.
(** Every call: the reply of the parser with enough memory, or a wreck. *)
Lemma call_or_wreck k p : G p -> fdo_call fails stale cap c hc p k = inl (do_call c hc cap p k) \/ exists q, fdo_call fails stale cap c hc p k = inr q /\ pwreck q.
Proof.
  intros HG. destruct k as [es|es cb ls| | | |f|fs]; cbn [do_call fdo_call].
  - destruct (sim_get_next es p HG) as [->|(q & -> & H)]; [left; reflexivity|right; exists q; split; [reflexivity|exact H]].
  - destruct (sim_chain es cb ls p HG) as [->|([q l] & -> & H)]; [left|right; exists q; split; [reflexivity|exact H]].
    destruct (chain_call c cap es cb ls (p, [])) as [vs [q l]|e [q l]| |]; reflexivity.
  - destruct (sim_ignore p (proj1 HG)) as [->|(q & -> & H)]; [left; reflexivity|right; exists q; split; [reflexivity|exact H]].
  - left. reflexivity.
  - left. reflexivity.
  - left. reflexivity.
  - destruct (sim_use fs p HG) as [->|(q & -> & H)]; [left; reflexivity|right; exists q; split; [reflexivity|exact H]].
Qed.
Lemma sim_construct msg name d src : is_file src = fst fl -> snd fl = 0 -> src_okz src 0 -> short L (unread_of src 0) -> weight (unread_of src 0) <= T ->
  sim pwreck (construct c cap true msg) (fconstruct fails stale cap c true msg) (p_init name d src).
Proof.
  intros S0 SN S1 S2 S3. assert (W0 : W (rdr_init d src)) by (constructor; try exact S0; try (rewrite SN; apply Nat.le_0_l); try exact (SplitCount.few_init _ _); try constructor; cbn; unfold MemBound.B; auto; lia).
  unfold construct, fconstruct. eapply sim_bind; [apply sim_read_line; exact W0|apply RG; exact W0|]. intros ? q Gq. destruct (c_ignhdr c); [|apply sim_lift].
  eapply sim_bind; [apply sim_ignore; apply Gq|apply ends_any|intros; apply sim_lift].
Qed.
End Fault.
