(** Two runs on memory that agrees where both are initialised: the splitter and the converter do not notice the difference.
    (Used to compare parsers that read the same bytes from different sources.)  Undefined behaviour on one side is compared
    with anything: memory safety is proved elsewhere. *)
From Verif Require Import Base Setup Splitter ListFacts Extract Converter ExtractProofs.

Section O.
Context {S T A : Type} (E : str -> str -> Prop) (R : S -> T -> Prop).
Definition osim (o1 : res S A) (o2 : res T A) : Prop :=
  match o1, o2 with
  | Ok a s, Ok b t => a = b /\ R s t
  | Throw e s, Throw f t => E e f /\ R s t
  | Ok _ _, Throw _ _ | Throw _ _, Ok _ _ => False
  | _, _ => True
  end.
Definition msim (m1 : M S A) (m2 : M T A) : Prop := forall s t, R s t -> osim (m1 s) (m2 t).
Lemma osim_ub w o : osim (UB w) o. Proof. exact Logic.I. Qed.
Lemma osim_fuel o : osim OutOfFuel o. Proof. exact Logic.I. Qed.
Lemma osim_ub2 w o : osim o (UB w). Proof. destruct o; exact Logic.I. Qed.
Lemma osim_fuel2 o : osim o OutOfFuel. Proof. destruct o; exact Logic.I. Qed.
End O.
Lemma os_bind {S T A B} E (R R' : S -> T -> Prop) (m1 : M S A) (m2 : M T A) (k1 : A -> M S B) (k2 : A -> M T B) s t :
  osim E R (m1 s) (m2 t) -> (forall s t, R s t -> R' s t) ->
  (forall a s' t', m1 s = Ok a s' -> m2 t = Ok a t' -> R s' t' -> osim E R' (k1 a s') (k2 a t')) ->
  osim E R' (bind m1 k1 s) (bind m2 k2 t).
Proof.
  unfold bind, osim. intros Hm HR Hk. destruct (m1 s) as [a s'|e s'| |] eqn:E1, (m2 t) as [b t'|f t'| |] eqn:E2; try contradiction; try exact Logic.I.
  - destruct Hm as [-> H]. apply Hk; auto.
  - destruct (k1 a s'); exact Logic.I.
  - destruct (k1 a s'); exact Logic.I.
  - destruct Hm. auto.
Qed.
Lemma os_get {S T A} E (R : S -> T -> Prop) (k1 : S -> M S A) (k2 : T -> M T A) s t : osim E R (k1 s s) (k2 t t) -> osim E R (bind get k1 s) (bind get k2 t).
Proof. exact (fun H => H). Qed.
Lemma os_step {S T A B C} E (R : S -> T -> Prop) (m1 : M S A) (m2 : M T B) (k1 : A -> M S C) (k2 : B -> M T C) s t a s' b t' :
  m1 s = Ok a s' -> m2 t = Ok b t' -> osim E R (k1 a s') (k2 b t') -> osim E R (bind m1 k1 s) (bind m2 k2 t).
Proof. unfold bind. intros -> ->. auto. Qed.
Lemma ms_bind {S T A B} E (R : S -> T -> Prop) (m1 : M S A) (m2 : M T A) (k1 : A -> M S B) (k2 : A -> M T B) :
  msim E R m1 m2 -> (forall a, msim E R (k1 a) (k2 a)) -> msim E R (bind m1 k1) (bind m2 k2).
Proof. intros Hm Hk s t H. eapply os_bind; [apply Hm; exact H|auto|]. intros a s' t' _ _ H'. apply Hk. exact H'. Qed.
Lemma ms_ret {S T A} E (R : S -> T -> Prop) (a : A) : msim E R (ret a) (ret a).
Proof. intros s t H. split; auto. Qed.
Lemma ms_fuel {S T A} E (R : S -> T -> Prop) m : msim E R (fun _ : S => @OutOfFuel S A) m.
Proof. intros s t H. exact Logic.I. Qed.
Lemma ms_fuel2 {S T A} E (R : S -> T -> Prop) m : msim E R m (fun _ : T => @OutOfFuel T A).
Proof. intros s t H. apply osim_fuel2. Qed.
Lemma ms_when {S T} E (R : S -> T -> Prop) b m1 m2 : msim E R m1 m2 -> msim E R (when b m1) (when b m2).
Proof. destruct b; [auto|intros _; apply ms_ret]. Qed.

(** *** Memory *)
Definition compat (m1 m2 : cells) : Prop := forall i x y, rd m1 i = Some x -> rd m2 i = Some y -> x = y.
Lemma compat_nil1 m : compat [] m. Proof. intros [|i] x y H; discriminate. Qed.
Lemma compat_nil2 m : compat m []. Proof. intros [|i] x y _ H; discriminate. Qed.
Lemma rd_eq (m : cells) i : rd m i = nth i m None.
Proof. unfold rd. revert i. induction m as [|x m IH]; intros [|i]; cbn; auto; try apply IH; destruct x; reflexivity. Qed.
Lemma nth_firstn {A} (d : A) : forall k i l, nth i (firstn k l) d = if i <? k then nth i l d else d.
Proof.
  induction k as [|k IH]; intros i l; [destruct i; reflexivity|]. destruct l as [|x l]; [destruct i; cbn [firstn nth]; match goal with |- context[if ?b then _ else _] => destruct b; reflexivity end|].
  destruct i as [|i]; [reflexivity|]. cbn [firstn nth]. rewrite IH. reflexivity.
Qed.
Lemma nth_skipn {A} (d : A) : forall k i l, nth i (skipn k l) d = nth (k + i) l d.
Proof. induction k as [|k IH]; intros i l; [reflexivity|]. destruct l as [|x l]; [destruct i; reflexivity|]. apply IH. Qed.
Lemma rd_wr m i ch m' : wr m i ch = Some m' -> forall j, rd m' j = if j =? i then Some ch else rd m j.
Proof.
  unfold wr. destruct (i <? length m) eqn:L; [|discriminate]. apply Nat.ltb_lt in L. intros E. injection E as <-. intros j. rewrite !rd_eq.
  assert (LF : length (firstn i m) = i) by (rewrite firstn_length; lia).
  destruct (Nat.lt_trichotomy j i) as [H|[H|H]].
  - rewrite app_nth1 by lia. rewrite nth_firstn. replace (j <? i) with true by (symmetry; apply Nat.ltb_lt; exact H). replace (j =? i) with false by (symmetry; apply Nat.eqb_neq; lia). reflexivity.
  - subst j. rewrite app_nth2 by lia. rewrite LF, Nat.sub_diag, Nat.eqb_refl. reflexivity.
  - rewrite app_nth2 by lia. rewrite LF. replace (j =? i) with false by (symmetry; apply Nat.eqb_neq; lia). destruct (j - i) as [|k] eqn:K; [lia|]. change (nth k (skipn (S i) m) None = nth j m None). rewrite nth_skipn. f_equal. lia.
Qed.
Lemma rd_copyn m a n b m' : copyn m a n b = Some m' -> forall j, rd m' j = if (b <=? j) && (j <? b + n) then rd m (a + (j - b)) else rd m j.
Proof.
  unfold copyn. destruct (_ && _) eqn:L; [|discriminate]. apply andb_true_iff in L as [L1 L2]. apply Nat.leb_le in L1, L2. intros E. injection E as <-. intros j. rewrite !rd_eq.
  assert (LF : length (firstn b m) = b) by (rewrite firstn_length; lia). assert (LG : length (firstn n (skipn a m)) = n) by (rewrite firstn_length, skipn_length; lia).
  destruct (b <=? j) eqn:J1; [apply Nat.leb_le in J1|apply Nat.leb_gt in J1].
  - rewrite app_nth2 by lia. rewrite LF. destruct (j <? b + n) eqn:J2; [apply Nat.ltb_lt in J2|apply Nat.ltb_ge in J2]; cbn [andb].
    + rewrite app_nth1 by lia. rewrite nth_firstn, nth_skipn. replace (j - b <? n) with true by (symmetry; apply Nat.ltb_lt; lia). reflexivity.
    + rewrite app_nth2 by lia. rewrite LG, nth_skipn. f_equal. lia.
  - rewrite app_nth1 by lia. rewrite nth_firstn. replace (j <? b) with true by (symmetry; apply Nat.ltb_lt; lia). reflexivity.
Qed.
Lemma compat_wr m1 m2 i ch m1' m2' : compat m1 m2 -> wr m1 i ch = Some m1' -> wr m2 i ch = Some m2' -> compat m1' m2'.
Proof. intros C E1 E2 j x y. rewrite (rd_wr _ _ _ _ E1), (rd_wr _ _ _ _ E2). destruct (j =? i); [congruence|apply C]. Qed.
Lemma compat_copyn m1 m2 a n b m1' m2' : compat m1 m2 -> copyn m1 a n b = Some m1' -> copyn m2 a n b = Some m2' -> compat m1' m2'.
Proof. intros C E1 E2 j x y. rewrite (rd_copyn _ _ _ _ _ E1), (rd_copyn _ _ _ _ _ E2). destruct (_ && _); apply C. Qed.
Lemma unopt_len : forall l s, unopt l = Some s -> l = map Some s.
Proof. induction l as [|[x|] l IH]; intros s E; cbn in E; [injection E as <-; reflexivity| |discriminate]. destruct (unopt l); [|discriminate]. injection E as <-. cbn. rewrite (IH _ eq_refl). reflexivity. Qed.
Lemma range_rd m b e s : range_str m b e = Some s -> length s = e - b /\ forall i, i < e - b -> rd m (b + i) = nth_error s i.
Proof.
  unfold range_str. destruct (_ && _) eqn:L; [|discriminate]. apply andb_true_iff in L as [L1 L2]. apply Nat.leb_le in L1, L2. intros E. apply unopt_len in E.
  assert (LL : length s = e - b) by (rewrite <- (map_length Some s), <- E, firstn_length, skipn_length; lia). split; [exact LL|]. intros i Hi.
  rewrite rd_eq. assert (X : nth i (firstn (e - b) (skipn b m)) None = nth (b + i) m None) by (rewrite nth_firstn, nth_skipn; replace (i <? e - b) with true by (symmetry; apply Nat.ltb_lt; lia); reflexivity).
  rewrite <- X, E. clear - LL Hi. rewrite <- LL in Hi. clear LL. revert i Hi. induction s as [|x s IH]; intros [|i] Hi; cbn in *; try lia; [reflexivity|]. apply IH. lia.
Qed.
Lemma nth_ext_err {A} : forall a b : list A, length a = length b -> (forall i, i < length a -> nth_error a i = nth_error b i) -> a = b.
Proof.
  induction a as [|x a IH]; intros [|y b] L H; try discriminate L; [reflexivity|]. pose proof (H 0 ltac:(cbn; lia)) as H0. cbn in H0. injection H0 as ->. f_equal. apply IH; [cbn in L; lia|].
  intros i Hi. exact (H (S i) ltac:(cbn; lia)).
Qed.
Lemma compat_range m1 m2 b e s1 s2 : compat m1 m2 -> range_str m1 b e = Some s1 -> range_str m2 b e = Some s2 -> s1 = s2.
Proof.
  intros C E1 E2. destruct (range_rd _ _ _ _ E1) as [L1 N1], (range_rd _ _ _ _ E2) as [L2 N2]. apply nth_ext_err; [congruence|]. intros i Hi. rewrite L1 in Hi.
  pose proof (N1 i Hi) as X1. pose proof (N2 i Hi) as X2. destruct (nth_error s1 i) as [x|] eqn:Y1; [|apply nth_error_None in Y1; lia].
  destruct (nth_error s2 i) as [y|] eqn:Y2; [|apply nth_error_None in Y2; lia]. f_equal. eapply C; eassumption.
Qed.

(** *** The splitter *)
Definition beq (s1 s2 : sp) : Prop := exists b, s2 = up_blk b s1.
Definition srel (t1 t2 : sp * cells) : Prop := beq (fst t1) (fst t2) /\ compat (snd t1) (snd t2).
Notation smsim := (msim eq srel).
Lemma beq_refl s : beq s s. Proof. exists (s_blk s). destruct s; reflexivity. Qed.
Lemma ss_upd f : (forall s b, f (up_blk b s) = up_blk b (f s)) -> smsim (upd f) (upd f).
Proof. intros Hf [s m] [s' m'] [[b Hb] C]. cbn in Hb. subst s'. split; [reflexivity|]. split; [|exact C]. cbn. exists b. apply Hf. Qed.
Lemma ss_sget {A} (f : sp -> A) : (forall s b, f (up_blk b s) = f s) -> smsim (sget f) (sget f).
Proof. intros Hf [s m] [s' m'] [[b Hb] C]. cbn in Hb. subst s'. split; [cbn; symmetry; apply Hf|]. split; [exists b; reflexivity|exact C]. Qed.
Lemma ss_throw {A} e : smsim (@throw _ A e) (throw e).
Proof. intros s t H. split; auto. Qed.
Lemma ss_load p : smsim (load p) (load p).
Proof.
  intros [s m] [s' m'] [B C]. unfold load. cbn [snd]. destruct (rd m p) eqn:E1; [|exact Logic.I]. destruct (rd m' p) eqn:E2; [|exact Logic.I].
  split; [|split; assumption]. eapply C; eassumption.
Qed.
Lemma ss_fuel {A} (k1 k2 : nat -> M (sp * cells) A) : (forall f f', smsim (k1 f) (k2 f')) -> smsim (bind fuel_of k1) (bind fuel_of k2).
Proof. intros H s t R. unfold bind, fuel_of, gets. apply H. exact R. Qed.
Lemma ss_whole {A} (k1 k2 : sp -> M (sp * cells) A) : (forall s b, smsim (k1 s) (k2 (up_blk b s))) -> smsim (bind (sget (fun s => s)) k1) (bind (sget (fun s => s)) k2).
Proof. intros H [s m] [s' m'] [[b Hb] C]. cbn in Hb. subst s'. unfold bind, sget, gets. cbn [fst]. apply H. split; [exists b; reflexivity|exact C]. Qed.

Ltac su := apply ss_upd; intros [] ?; reflexivity.
Ltac sg := apply ss_sget; intros [] ?; reflexivity.
Section L.
Context (c : cfg).
Lemma ss_error msg : smsim (sp_error c msg) (sp_error c msg).
Proof. unfold sp_error. destruct (set_error _ _); [su|apply ss_throw]. Qed.
Lemma ss_trim_loop cs : forall f f' p, smsim (trim_loop f cs p) (trim_loop f' cs p).
Proof.
  induction f as [|f IH]; intros f' p; [apply ms_fuel|]. destruct f' as [|f']; [apply ms_fuel2|]. cbn [trim_loop].
  apply ms_bind; [apply ss_load|]. intros a. destruct (mem a cs); [apply IH|apply ms_ret].
Qed.
Lemma ss_trim cs p : smsim (trim_if_enabled cs p) (trim_if_enabled cs p).
Proof. unfold trim_if_enabled. destruct cs; [apply ms_ret|]. apply ss_fuel. intros; apply ss_trim_loop. Qed.
Lemma ss_strncmp : forall d p, smsim (strncmp_eq p d) (strncmp_eq p d).
Proof.
  induction d as [|x d IH]; intros p; cbn [strncmp_eq]; [apply ms_ret|].
  apply ms_bind; [apply ss_load|]. intros a. destruct (negb _); [apply ms_ret|]. destruct (Ascii.eqb a NUL); [apply ms_ret|apply IH].
Qed.
Lemma ss_match p d : smsim (sp_match p d) (sp_match p d).
Proof. destruct d; [|apply ss_strncmp]. apply ms_bind; [apply ss_load|]. intros; apply ms_ret. Qed.
Lemma ss_shift : smsim (shift_and_set_current c) (shift_and_set_current c).
Proof.
  unfold shift_and_set_current. apply ss_whole. intros s b. cbn [s_esc s_end s_curr up_blk].
  destruct (_ && _); [|su]. apply ms_bind; [|intros; su].
  intros [s0 m] [s0' m'] [B C]. cbn [fst snd]. destruct (copyn m _ _ _) eqn:E1; [|exact Logic.I]. destruct (copyn m' _ _ _) eqn:E2; [|exact Logic.I].
  split; [reflexivity|]. split; [exact B|]. eapply compat_copyn; eassumption.
Qed.
Lemma ss_jump : smsim (shift_and_jump_escape c) (shift_and_jump_escape c).
Proof. apply ms_bind; [apply ss_shift|]. intros _. apply ms_bind; [apply ms_when; su|]. intros; su. Qed.
Lemma ss_push : smsim (shift_and_push c) (shift_and_push c).
Proof. apply ms_bind; [apply ss_shift|]. intros; su. Qed.
Lemma ss_push_next n : smsim (shift_push_and_start_next c n) (shift_push_and_start_next c n).
Proof. apply ms_bind; [apply ss_push|]. intros; su. Qed.
Lemma ss_sie p : smsim (shift_if_escaped c p) (shift_if_escaped c p).
Proof.
  unfold shift_if_escaped. destruct (escape_enabled c); [|apply ms_ret].
  apply ms_bind; [apply ss_load|]. intros a. destruct (escape_match c a); [|apply ms_ret].
  apply ms_bind; [apply ss_load|]. intros b. destruct (Ascii.eqb b NUL); [|apply ss_jump].
  apply ms_bind; [apply ms_when, ss_error|]. intros; su.
Qed.
Lemma ss_md p d : smsim (match_delimiter c p d) (match_delimiter c p d).
Proof.
  unfold match_delimiter. apply ms_bind; [apply ss_trim|]. intros e.
  apply ms_bind; [apply ss_load|]. intros a. destruct (Ascii.eqb a NUL); [apply ms_ret|].
  apply ms_bind; [apply ss_match|]. intros b. destruct (negb b).
  - apply ms_bind; [apply ss_sie|]. intros; apply ms_ret.
  - apply ms_bind; [apply ss_trim|]. intros; apply ms_ret.
Qed.
Lemma ss_normal d : forall f f', smsim (read_normal c f d) (read_normal c f' d).
Proof.
  induction f as [|f IH]; intros f'; [apply ms_fuel|]. destruct f' as [|f']; [apply ms_fuel2|]. cbn [read_normal].
  apply ms_bind; [sg|]. intros e.
  apply ms_bind; [apply ss_md|]. intros [w v]. destruct (negb v); [|apply ss_push_next].
  destruct (w =? 0).
  - apply ms_bind; [apply ss_push|]. intros; su.
  - apply ms_bind; [su|]. intros; apply IH.
Qed.
Lemma ss_quoted d : forall f f', smsim (read_quoted c f d) (read_quoted c f' d).
Proof.
  induction f as [|f IH]; intros f'; [apply ms_fuel|]. destruct f' as [|f']; [apply ms_fuel2|].
  pose proof (IH f') as IH'. cbn [read_quoted].
  apply ms_bind; [sg|]. intros e.
  apply ms_bind; [apply ss_load|]. intros a. destruct (negb (quote_match c a)).
  - destruct (escape_enabled c && escape_match c a).
    + apply ms_bind; [apply ss_load|]. intros b. destruct (Ascii.eqb b NUL).
      * apply ms_bind; [apply ms_when, ss_error|]. intros; su.
      * apply ms_bind; [apply ss_jump|]. intros _. apply ms_bind; [su|]. intros _; exact IH'.
    + destruct (Ascii.eqb a NUL).
      * apply ms_bind; [apply ss_shift|]. intros _. apply ms_bind; [su|]. intros _.
        apply ms_bind; [apply ms_when, ss_error|]. intros _. apply ms_bind; [su|]. intros; su.
      * apply ms_bind; [su|]. intros _; exact IH'.
  - apply ms_bind; [apply ss_md|]. intros [w v]. destruct v; [apply ss_push_next|].
    apply ms_bind; [sg|]. intros e'.
    apply ms_bind; [apply ss_load|]. intros b. destruct (quote_match c b).
    + apply ms_bind; [apply ss_jump|]. intros _. apply ms_bind; [su|]. intros _; exact IH'.
    + apply ms_bind; [|intros; su].
      destruct (w =? 0); [apply ss_push|].
      apply ms_bind; [sg|]. intros e''. apply ms_bind; [apply ss_error|]. intros; su.
Qed.
Lemma ss_read d : smsim (sp_read c d) (sp_read c d).
Proof.
  unfold sp_read. apply ss_fuel. intros f f'. apply ms_bind; [su|]. intros _.
  assert (Hn : forall b, smsim (upd (fun s => up_curr b (up_end b s)) ;; read_normal c f d)
                               (upd (fun s => up_curr b (up_end b s)) ;; read_normal c f' d)).
  { intros b. apply ms_bind; [su|]. intros _; apply ss_normal. }
  destruct (quote_enabled c).
  - apply ms_bind; [sg|]. intros r. destruct (c_ml c && r).
    + apply ms_bind; [su|]. intros _. apply ms_bind; [su|]. intros _; apply ss_quoted.
    + apply ms_bind; [sg|]. intros b. apply ms_bind; [apply ss_load|]. intros a.
      destruct (quote_match c a); [|apply Hn]. apply ms_bind; [su|]. intros _; apply ss_quoted.
  - apply ms_bind; [sg|]. intros b. apply Hn.
Qed.
Lemma ss_loop d : forall f f', smsim (split_loop c f d) (split_loop c f' d).
Proof.
  induction f as [|f IH]; intros f'; [apply ms_fuel|]. destruct f' as [|f']; [apply ms_fuel2|]. cbn [split_loop].
  apply ms_bind; [sg|]. intros dn. destruct dn; [apply ms_ret|].
  apply ms_bind; [apply ss_read|]. intros _; apply IH.
Qed.
Lemma ss_impl d : smsim (split_impl c d) (split_impl c d).
Proof.
  unfold split_impl. apply ms_bind; [sg|]. intros b. apply ms_bind; [apply ss_trim|]. intros b'.
  apply ms_bind; [su|]. intros _. apply ms_bind; [su|]. intros _.
  apply ss_fuel. intros f f'. apply ss_loop.
Qed.
Lemma ss_clear : smsim (sp_clear_error c) (sp_clear_error c).
Proof. apply ss_upd. intros [] b. destruct (c_mode c); reflexivity. Qed.
Lemma ss_select d : smsim (split_impl_select_delim c d) (split_impl_select_delim c d).
Proof. apply ms_bind; [apply ss_clear|]. intros _. destruct d as [|x [|y d]]; [apply ss_error|apply ss_impl|apply ss_impl]. Qed.
Lemma ss_upd2 f g : (forall s b, exists b', g (up_blk b s) = up_blk b' (f s)) -> smsim (upd f) (upd g).
Proof. intros Hf [s m] [s' m'] [[b Hb] C]. cbn in Hb. subst s'. split; [reflexivity|]. split; [|exact C]. cbn. destruct (Hf s b) as (b' & ->). exists b'. reflexivity. Qed.
Lemma ss_split k1 k2 d : smsim (sp_split c k1 d) (sp_split c k2 d).
Proof. apply ms_bind; [apply ss_upd2; intros [] ?; exists k2; reflexivity|]. intros _; apply ss_select. Qed.
Lemma ss_resplit k1 k2 n d : smsim (sp_resplit c k1 n d) (sp_resplit c k2 n d).
Proof.
  unfold sp_resplit. apply ss_whole. intros s b. cbn [s_sd s_uq up_blk]. destruct (_ || _); [apply ss_error|].
  destruct (last (s_sd s) (0, 0)) as [x ob]. destruct (n <? ob - 1); [apply ss_error|].
  apply ms_bind; [apply ss_upd2; intros [] ?; exists k2; reflexivity|]. intros _; apply ss_select.
Qed.
End L.

(** *** The converter *)
Definition veq (v1 v2 : conv) : Prop := beq (v_sp v1) (v_sp v2) /\ v_err v1 = v_err v2 /\ v_map v1 = v_map v2 /\ v_ncols v1 = v_ncols v2.
Definition vrel (t1 t2 : conv * cells) : Prop := veq (fst t1) (fst t2) /\ compat (snd t1) (snd t2).
Notation vmsim := (msim eq vrel).
Lemma veq_refl v : veq v v. Proof. split; [apply beq_refl|auto]. Qed.
Lemma vs_on_sp {A} (m1 m2 : M (sp * cells) A) : smsim m1 m2 -> vmsim (on_sp m1) (on_sp m2).
Proof.
  intros H [v m] [v' m'] [(B & E1 & E2 & E3) C]. unfold on_sp, zoom. cbn [fst snd] in *. specialize (H (v_sp v, m) (v_sp v', m') (conj B C)). unfold osim in *.
  destruct (m1 (v_sp v, m)) as [a [s n]|e [s n]| |], (m2 (v_sp v', m')) as [a' [s' n']|e' [s' n']| |]; try exact H; destruct H as [-> [B' C']]; (split; [reflexivity|]); cbn in *; (split; [|exact C']); (split; [exact B'|auto]).
Qed.
Lemma vs_upd f g : (forall v v', veq v v' -> veq (f v) (g v')) -> vmsim (vupd f) (vupd g).
Proof. intros Hf [v m] [v' m'] [V C]. split; [reflexivity|]. split; [apply Hf; exact V|exact C]. Qed.
Lemma vs_get {A} (f : conv -> A) : (forall v v', veq v v' -> f v = f v') -> vmsim (vget f) (vget f).
Proof. intros Hf [v m] [v' m'] [V C]. split; [apply Hf; exact V|]. split; assumption. Qed.
Lemma vs_throw {A} e : vmsim (@throw _ A e) (throw e).
Proof. intros s t H. split; auto. Qed.
Lemma vs_ub {A} w w' : vmsim (@ub _ A w) (ub w').
Proof. intros s t H. exact Logic.I. Qed.
Lemma vs_whole {A} (k1 k2 : conv -> M (conv * cells) A) : (forall v v', veq v v' -> vmsim (k1 v) (k2 v')) -> vmsim (bind (vget (fun v => v)) k1) (bind (vget (fun v => v)) k2).
Proof. intros H [v m] [v' m'] [V C]. unfold bind, vget, gets. cbn [fst]. apply H; [exact V|]. split; assumption. Qed.
Lemma vs_sp {A} (k1 k2 : sp -> M (conv * cells) A) : (forall s s', beq s s' -> vmsim (k1 s) (k2 s')) -> vmsim (bind (vget v_sp) k1) (bind (vget v_sp) k2).
Proof. intros H [v m] [v' m'] [V C]. unfold bind, vget, gets. cbn [fst]. apply H; [apply V|]. split; assumption. Qed.
Lemma veq_err e v v' : veq v v' -> veq (vup_err e v) (vup_err e v'). Proof. intros (A & B & C & D). split; [exact A|auto]. Qed.
Lemma beq_err s s' : beq s s' -> s_err s = s_err s'. Proof. intros [b ->]. reflexivity. Qed.
Lemma beq_sd s s' : beq s s' -> s_sd s = s_sd s'. Proof. intros [b ->]. reflexivity. Qed.
Lemma beq_uq s s' : beq s s' -> s_uq s = s_uq s'. Proof. intros [b ->]. reflexivity. Qed.
Lemma beq_esc s s' : beq s s' -> s_esc s = s_esc s'. Proof. intros [b ->]. reflexivity. Qed.

Section V.
Context (c : cfg).
Lemma vs_clear : vmsim cv_clear_error cv_clear_error.
Proof. apply vs_upd. intros v v' V. apply veq_err. exact V. Qed.
Lemma vs_error msg : vmsim (cv_error c msg) (cv_error c msg).
Proof. unfold cv_error. destruct (c_mode c); [|destruct msg|]; try apply vs_throw; apply vs_upd; intros v v' V; apply veq_err; exact V. Qed.
Lemma vs_copy_err : vmsim (s <- vget v_sp ;; vupd (vup_err (s_err s))) (s <- vget v_sp ;; vupd (vup_err (s_err s))).
Proof. apply vs_sp. intros s s' B. rewrite (beq_err _ _ B). apply vs_upd. intros v v' V. apply veq_err. exact V. Qed.
Lemma vs_set_err e : vmsim (vupd (vup_err e)) (vupd (vup_err e)).
Proof. apply vs_upd. intros v v' V. apply veq_err. exact V. Qed.
Lemma vs_bad_split : vmsim (handle_error_bad_split c) (handle_error_bad_split c).
Proof. unfold handle_error_bad_split. destruct (c_mode c); [apply vs_set_err|apply vs_copy_err|apply ms_ret]. Qed.
Lemma vs_unt_escape : vmsim (handle_error_unterminated_escape c) (handle_error_unterminated_escape c).
Proof.
  unfold handle_error_unterminated_escape. destruct (c_mode c); [apply vs_set_err| |apply vs_on_sp, ss_error]. apply ms_bind; [apply vs_on_sp, ss_error|]. intros _. apply vs_copy_err.
Qed.
Lemma vs_unt_quote : vmsim (handle_error_unterminated_quote c) (handle_error_unterminated_quote c).
Proof.
  unfold handle_error_unterminated_quote. destruct (c_mode c); [apply vs_set_err| |apply vs_on_sp, ss_error]. apply ms_bind; [apply vs_on_sp, ss_error|]. intros _. apply vs_copy_err.
Qed.
Lemma vs_limit : vmsim (handle_error_multiline_limit_reached c) (handle_error_multiline_limit_reached c).
Proof.
  apply ms_bind; [|intros; apply vs_error]. apply vs_upd. intros v v' ([b Hb] & A). split; [|exact A]. cbn. rewrite Hb. exists b. reflexivity.
Qed.
Lemma vs_split k1 k2 d : vmsim (cv_split c k1 d) (cv_split c k2 d).
Proof.
  unfold cv_split. apply ms_bind; [apply vs_on_sp; su|]. intros _. apply ms_bind; [apply vs_on_sp, ss_load|]. intros a. destruct (Ascii.eqb a NUL); [apply ms_ret|apply vs_on_sp, ss_split].
Qed.
Lemma vs_resplit k1 k2 n d : vmsim (cv_resplit c k1 n d) (cv_resplit c k2 n d).
Proof. apply vs_on_sp, ss_resplit. Qed.

Definition xsim (a b : xres) : Prop := match a, b with Some x, Some y => x = y | _, _ => True end.
Lemma xsim_refl a : xsim a a. Proof. destruct a; reflexivity. Qed.
Lemma xsim_none a : xsim a None. Proof. destruct a; exact Logic.I. Qed.
Lemma extract_sim m1 m2 r : compat m1 m2 -> forall t, xsim (extract m1 r t) (extract m2 r t).
Proof.
  intros C. destruct r as [b e]. destruct (range_str m1 b e) as [s1|] eqn:E1.
  2:{ intros t. destruct t; cbn [extract]; rewrite E1; exact Logic.I. }
  destruct (range_str m2 b e) as [s2|] eqn:E2.
  2:{ intros t. assert (X : extract m2 (b, e) t = None) by (destruct t; cbn [extract]; rewrite E2; reflexivity). rewrite X. unfold xsim. destruct (extract m1 (b, e) t); exact Logic.I. }
  pose proof (compat_range _ _ _ _ _ _ C E1 E2) as <-.
  intros t. induction t as [i|i|f| | | | |t IH|ts IH|f] using ty_rect'; cbn [extract]; rewrite E1, E2; try apply xsim_refl.
  - destruct (rd m1 b) eqn:R1; [|exact Logic.I]. destruct (rd m2 b) eqn:R2; [|exact Logic.I]. pose proof (C _ _ _ R1 R2) as <-. reflexivity.
  - unfold xsim in IH. destruct (extract m1 (b, e) t) as [[ok v]|]; [|exact Logic.I]. destruct (extract m2 (b, e) t) as [[ok' v']|].
    + injection IH as <- <-. destruct ok; [destruct v|]; first [exact Logic.I|reflexivity].
    + destruct ok; [destruct v|]; exact Logic.I.
  - generalize 0 as i. induction IH as [|t ts IH1 IH2 IHts]; intros i; [reflexivity|]. unfold xsim in IH1.
    destruct (extract m1 (b, e) t) as [[ok v]|]; [|exact Logic.I]. destruct (extract m2 (b, e) t) as [[ok' v']|].
    + injection IH1 as <- <-. destruct ok; [destruct v; first [exact Logic.I|reflexivity]|apply IHts].
    + apply xsim_none.
Qed.
Lemma vs_mem {A} (k1 k2 : cells -> M (conv * cells) A) : (forall m m', compat m m' -> vmsim (k1 m) (k2 m')) -> vmsim (bind (gets snd) k1) (bind (gets snd) k2).
Proof. intros H [v m] [v' m'] [V C]. unfold bind, gets. cbn [snd]. apply H; [exact C|]. split; assumption. Qed.
Lemma vs_extract_one e old range pos : vmsim (extract_one c e old range pos) (extract_one c e old range pos).
Proof.
  unfold extract_one. apply vs_whole. intros v v' (_ & EE & _ & _). unfold cv_valid. rewrite EE. destruct (negb _); [apply ms_ret|].
  apply vs_mem. intros m m' C. destruct e as [|t|t r]; [apply ms_ret| |].
  - pose proof (extract_sim m m' range C t) as X. unfold xsim in X. destruct (extract m range t) as [[ok st]|]; [|intros ? ? ?; exact Logic.I].
    destruct (range_str m (fst range) (snd range)) as [tx|] eqn:E1; [|intros ? ? ?; exact Logic.I].
    destruct (extract m' range t) as [[ok' st']|]; [|intros s0 t0 _; apply osim_ub2].
    destruct (range_str m' (fst range) (snd range)) as [tx'|] eqn:E2; [|intros s0 t0 _; apply osim_ub2].
    injection X as <- <-. pose proof (compat_range _ _ _ _ _ _ C E1 E2) as <-. cbv zeta. destruct ok; [apply ms_ret|].
    destruct t; try apply ms_ret; (apply ms_bind; [apply vs_error|intros; apply ms_ret]).
  - pose proof (extract_sim m m' range C t) as X. unfold xsim in X. destruct (extract m range t) as [[ok st]|]; [|intros ? ? ?; exact Logic.I].
    destruct (range_str m (fst range) (snd range)) as [tx|] eqn:E1; [|intros ? ? ?; exact Logic.I].
    destruct (extract m' range t) as [[ok' st']|]; [|intros s0 t0 _; apply osim_ub2].
    destruct (range_str m' (fst range) (snd range)) as [tx'|] eqn:E2; [|intros s0 t0 _; apply osim_ub2].
    injection X as <- <-. pose proof (compat_range _ _ _ _ _ _ C E1 E2) as <-. cbv zeta. destruct ok.
    + destruct st as [x|]; [|intros ? ? ?; exact Logic.I]. destruct (ss_valid _ _ _); [apply ms_ret|]. apply ms_bind; [apply vs_error|intros; apply ms_ret].
    + apply ms_bind; [apply vs_error|intros; apply ms_ret].
Qed.
Lemma vs_extract_multiple elems : forall es argn, vmsim (extract_multiple c argn es elems) (extract_multiple c argn es elems).
Proof.
  induction es as [|e es IH]; intros argn; cbn [extract_multiple]; [apply ms_ret|].
  assert (G : vmsim (v <- vget (fun v => v) ;; match column_position v argn with
      | Some p => match nth_error elems p with Some r => x <- extract_one c e None r argn ;; xs <- extract_multiple c (S argn) es elems ;; ret (x :: xs) | None => ub "converter: elems[] out of range" end
      | None => ub "converter: column_mappings_[] out of range" end)
     (v <- vget (fun v => v) ;; match column_position v argn with
      | Some p => match nth_error elems p with Some r => x <- extract_one c e None r argn ;; xs <- extract_multiple c (S argn) es elems ;; ret (x :: xs) | None => ub "converter: elems[] out of range" end
      | None => ub "converter: column_mappings_[] out of range" end)).
  { apply vs_whole. intros v v' (_ & _ & EM & _). unfold column_position, columns_mapped. rewrite EM.
    destruct (if match v_map v' with [] => false | _ => true end then nth_error (v_map v') argn else Some argn) as [p|]; [|intros ? ? ?; exact Logic.I].
    destruct (nth_error elems p); [|intros ? ? ?; exact Logic.I]. apply ms_bind; [apply vs_extract_one|]. intros x. apply ms_bind; [apply IH|]. intros; apply ms_ret. }
  destruct e; [apply IH|exact G|exact G].
Qed.
Lemma vs_convert_impl es elems : vmsim (convert_impl c es elems) (convert_impl c es elems).
Proof.
  unfold convert_impl. apply ms_bind; [apply vs_clear|]. intros _. apply vs_whole. intros v v' (B & _ & EM & EN). unfold sp_valid, columns_mapped. rewrite (beq_err _ _ B), EM, EN.
  assert (X : forall msg, vmsim (cv_error c msg ;; ret (defaults es)) (cv_error c msg ;; ret (defaults es))) by (intros msg; apply ms_bind; [apply vs_error|intros; apply ms_ret]).
  destruct (negb (err_valid _ _)); [apply ms_bind; [apply vs_bad_split|intros; apply ms_ret]|].
  destruct (negb _).
  - destruct (negb _); [apply X|apply vs_extract_multiple].
  - destruct (negb _); [apply X|]. destruct (negb _); [apply X|apply vs_extract_multiple].
Qed.
Lemma vs_convert es : vmsim (cv_convert c es) (cv_convert c es).
Proof. apply vs_sp. intros s s' B. rewrite (beq_sd _ _ B). apply vs_convert_impl. Qed.
End V.
