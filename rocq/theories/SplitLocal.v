(** The splitter neither reads nor writes behind the memory it succeeds in: bytes appended to the block
    change nothing. *)
From Verif Require Import Base Setup Splitter ListFacts.

Notation sst := (sp * list (option ascii))%type (only parsing).

(** [op1] on [m] against [op2] on [m ++ X]. *)
Definition local {A} (op1 op2 : M sst A) : Prop :=
  forall s m X, match op1 (s, m) with
    | Ok a (s', m') => op2 (s, m ++ X) = Ok a (s', m' ++ X) /\ length m' = length m
    | Throw e (s', m') => op2 (s, m ++ X) = Throw e (s', m' ++ X) /\ length m' = length m
    | _ => True
    end.

Lemma lo_bind {A B} (m1 m2 : M sst A) (k1 k2 : A -> M sst B) :
  local m1 m2 -> (forall a, local (k1 a) (k2 a)) -> local (bind m1 k1) (bind m2 k2).
Proof.
  intros Hm Hk s m X. unfold bind. specialize (Hm s m X).
  destruct (m1 (s, m)) as [a [s' m']|e [s' m']|w|]; auto.
  - destruct Hm as [-> L]. specialize (Hk a s' m' X). destruct (k1 a (s', m')) as [b [s2 m2']|e [s2 m2']|w|]; auto;
      destruct Hk as [-> L2]; (split; [reflexivity|congruence]).
  - destruct Hm as [-> L]. auto.
Qed.
Lemma lo_ret {A} (a : A) : local (ret a) (ret a).
Proof. intros s m X. split; reflexivity. Qed.
Lemma lo_upd f : local (upd f) (upd f).
Proof. intros s m X. split; reflexivity. Qed.
Lemma lo_sget {A} (f : sp -> A) : local (sget f) (sget f).
Proof. intros s m X. split; reflexivity. Qed.
Lemma lo_throw {A} e : local (@throw _ A e) (throw e).
Proof. intros s m X. split; reflexivity. Qed.
Lemma lo_fuel0 {A} (op : M sst A) : local (fun _ => OutOfFuel) op.
Proof. intros s m X. exact I. Qed.
Lemma rd_app m X p x : rd m p = Some x -> rd (m ++ X) p = Some x.
Proof.
  unfold rd. intros H. destruct (nth_error m p) as [[y|]|] eqn:E; try discriminate.
  rewrite nth_error_app1; [rewrite E; exact H|]. apply nth_error_Some. congruence.
Qed.
Lemma lo_load p : local (load p) (load p).
Proof.
  intros s m X. unfold load. cbn [snd]. destruct (rd m p) eqn:E; [|exact I]. rewrite (rd_app _ _ _ _ E). auto.
Qed.
Lemma lo_when b m1 m2 : local m1 m2 -> local (when b m1) (when b m2).
Proof. destruct b; [auto|intros _; apply lo_ret]. Qed.

Section L.
Context (c : cfg).
Lemma lo_error msg : local (sp_error c msg) (sp_error c msg).
Proof. unfold sp_error. destruct (set_error _ _); [apply lo_upd|apply lo_throw]. Qed.
Lemma lo_trim_loop cs : forall f f' p, f <= f' -> local (trim_loop f cs p) (trim_loop f' cs p).
Proof.
  induction f as [|f IH]; intros f' p Hf; [apply lo_fuel0|]. destruct f' as [|f']; [lia|]. cbn [trim_loop].
  apply lo_bind; [apply lo_load|]. intros a. destruct (mem a cs); [apply IH; lia|apply lo_ret].
Qed.
(** Continuations that get the loop bound. *)
Lemma lo_fuel {A} (k1 k2 : nat -> M sst A) : (forall f f', f <= f' -> local (k1 f) (k2 f')) ->
  local (bind fuel_of k1) (bind fuel_of k2).
Proof.
  intros H s m X. unfold bind, fuel_of, gets. cbn [snd]. apply H. rewrite app_length. lia.
Qed.
Lemma lo_trim cs p : local (trim_if_enabled cs p) (trim_if_enabled cs p).
Proof.
  unfold trim_if_enabled. destruct cs; [apply lo_ret|]. apply lo_fuel. intros; apply lo_trim_loop; assumption.
Qed.
Lemma lo_strncmp : forall d p, local (strncmp_eq p d) (strncmp_eq p d).
Proof.
  induction d as [|x d IH]; intros p; cbn [strncmp_eq]; [apply lo_ret|].
  apply lo_bind; [apply lo_load|]. intros a. destruct (negb _); [apply lo_ret|]. destruct (Ascii.eqb a NUL); [apply lo_ret|apply IH].
Qed.
Lemma lo_match p d : local (sp_match p d) (sp_match p d).
Proof. destruct d; [|apply lo_strncmp]. apply lo_bind; [apply lo_load|]. intros; apply lo_ret. Qed.
Lemma copyn_app m X a n b m' : copyn m a n b = Some m' -> copyn (m ++ X) a n b = Some (m' ++ X) /\ length m' = length m.
Proof.
  unfold copyn. destruct (_ && _) eqn:E; [|discriminate]. intros H; injection H as <-.
  apply andb_true_iff in E as [E1 E2]. apply Nat.leb_le in E1, E2.
  assert (E3 : ((a + n <=? length (m ++ X)) && (b + n <=? length (m ++ X))) = true)
    by (apply andb_true_iff; rewrite app_length; split; apply Nat.leb_le; lia).
  rewrite E3. split.
  - f_equal. rewrite <- !app_assoc. f_equal.
    { rewrite firstn_app. replace (b - length m) with 0 by lia. rewrite firstn_O, app_nil_r. reflexivity. }
    f_equal.
    { rewrite skipn_app. replace (a - length m) with 0 by lia. rewrite skipn_O, firstn_app.
      replace (n - length (skipn a m)) with 0 by (rewrite skipn_length; lia). rewrite firstn_O, app_nil_r. reflexivity. }
    { rewrite skipn_app. replace (b + n - length m) with 0 by lia. reflexivity. }
  - rewrite !app_length, firstn_length, firstn_length, !skipn_length. lia.
Qed.
Lemma lo_shift : local (shift_and_set_current c) (shift_and_set_current c).
Proof.
  unfold shift_and_set_current. apply lo_bind; [apply lo_sget|]. intros s.
  destruct (_ && _); [|apply lo_upd]. apply lo_bind; [|intros; apply lo_upd].
  intros s0 m X. cbn [fst snd]. destruct (copyn m _ _ _) eqn:E; [|exact I]. apply (copyn_app _ X) in E as [-> L]. auto.
Qed.
Lemma lo_jump : local (shift_and_jump_escape c) (shift_and_jump_escape c).
Proof.
  apply lo_bind; [apply lo_shift|]. intros _. apply lo_bind; [apply lo_when, lo_upd|]. intros; apply lo_upd.
Qed.
Lemma lo_push : local (shift_and_push c) (shift_and_push c).
Proof. apply lo_bind; [apply lo_shift|]. intros; apply lo_upd. Qed.
Lemma lo_push_next n : local (shift_push_and_start_next c n) (shift_push_and_start_next c n).
Proof. apply lo_bind; [apply lo_push|]. intros; apply lo_upd. Qed.
Lemma lo_sie p : local (shift_if_escaped c p) (shift_if_escaped c p).
Proof.
  unfold shift_if_escaped. destruct (escape_enabled c); [|apply lo_ret].
  apply lo_bind; [apply lo_load|]. intros a. destruct (escape_match c a); [|apply lo_ret].
  apply lo_bind; [apply lo_load|]. intros b. destruct (Ascii.eqb b NUL); [|apply lo_jump].
  apply lo_bind; [apply lo_when, lo_error|]. intros; apply lo_upd.
Qed.
Lemma lo_md p d : local (match_delimiter c p d) (match_delimiter c p d).
Proof.
  unfold match_delimiter. apply lo_bind; [apply lo_trim|]. intros e.
  apply lo_bind; [apply lo_load|]. intros a. destruct (Ascii.eqb a NUL); [apply lo_ret|].
  apply lo_bind; [apply lo_match|]. intros b. destruct (negb b).
  - apply lo_bind; [apply lo_sie|]. intros; apply lo_ret.
  - apply lo_bind; [apply lo_trim|]. intros; apply lo_ret.
Qed.
Lemma lo_normal d : forall f f', f <= f' -> local (read_normal c f d) (read_normal c f' d).
Proof.
  induction f as [|f IH]; intros f' Hf; [apply lo_fuel0|]. destruct f' as [|f']; [lia|]. cbn [read_normal].
  apply lo_bind; [apply lo_sget|]. intros e.
  apply lo_bind; [apply lo_md|]. intros [w v]. destruct (negb v); [|apply lo_push_next].
  destruct (w =? 0).
  - apply lo_bind; [apply lo_push|]. intros; apply lo_upd.
  - apply lo_bind; [apply lo_upd|]. intros; apply IH; lia.
Qed.
Lemma lo_quoted d : forall f f', f <= f' -> local (read_quoted c f d) (read_quoted c f' d).
Proof.
  induction f as [|f IH]; intros f' Hf; [apply lo_fuel0|]. destruct f' as [|f']; [lia|].
  assert (IH' : local (read_quoted c f d) (read_quoted c f' d)) by (apply IH; lia). cbn [read_quoted].
  apply lo_bind; [apply lo_sget|]. intros e.
  apply lo_bind; [apply lo_load|]. intros a. destruct (negb (quote_match c a)).
  - destruct (escape_enabled c && escape_match c a).
    + apply lo_bind; [apply lo_load|]. intros b. destruct (Ascii.eqb b NUL).
      * apply lo_bind; [apply lo_when, lo_error|]. intros; apply lo_upd.
      * apply lo_bind; [apply lo_jump|]. intros _. apply lo_bind; [apply lo_upd|]. intros _; exact IH'.
    + destruct (Ascii.eqb a NUL).
      * apply lo_bind; [apply lo_shift|]. intros _. apply lo_bind; [apply lo_upd|]. intros _.
        apply lo_bind; [apply lo_when, lo_error|]. intros _. apply lo_bind; [apply lo_upd|]. intros; apply lo_upd.
      * apply lo_bind; [apply lo_upd|]. intros _; exact IH'.
  - apply lo_bind; [apply lo_md|]. intros [w v]. destruct v; [apply lo_push_next|].
    apply lo_bind; [apply lo_sget|]. intros e'.
    apply lo_bind; [apply lo_load|]. intros b. destruct (quote_match c b).
    + apply lo_bind; [apply lo_jump|]. intros _. apply lo_bind; [apply lo_upd|]. intros _; exact IH'.
    + apply lo_bind; [|intros; apply lo_upd].
      destruct (w =? 0); [apply lo_push|].
      apply lo_bind; [apply lo_sget|]. intros e''. apply lo_bind; [apply lo_error|]. intros; apply lo_upd.
Qed.
Lemma lo_read d : local (sp_read c d) (sp_read c d).
Proof.
  unfold sp_read. apply lo_fuel. intros f f' Hf. apply lo_bind; [apply lo_upd|]. intros _.
  assert (Hn : forall b, local (upd (fun s => up_curr b (up_end b s)) ;; read_normal c f d)
                               (upd (fun s => up_curr b (up_end b s)) ;; read_normal c f' d)).
  { intros b. apply lo_bind; [apply lo_upd|]. intros _; apply lo_normal; exact Hf. }
  destruct (quote_enabled c).
  - apply lo_bind; [apply lo_sget|]. intros r. destruct (c_ml c && r).
    + apply lo_bind; [apply lo_upd|]. intros _. apply lo_bind; [apply lo_upd|]. intros _; apply lo_quoted; exact Hf.
    + apply lo_bind; [apply lo_sget|]. intros b. apply lo_bind; [apply lo_load|]. intros a.
      destruct (quote_match c a); [|apply Hn]. apply lo_bind; [apply lo_upd|]. intros _; apply lo_quoted; exact Hf.
  - apply lo_bind; [apply lo_sget|]. intros b. apply Hn.
Qed.
Lemma lo_loop d : forall f f', f <= f' -> local (split_loop c f d) (split_loop c f' d).
Proof.
  induction f as [|f IH]; intros f' Hf; [apply lo_fuel0|]. destruct f' as [|f']; [lia|]. cbn [split_loop].
  apply lo_bind; [apply lo_sget|]. intros dn. destruct dn; [apply lo_ret|].
  apply lo_bind; [apply lo_read|]. intros _; apply IH; lia.
Qed.
Lemma lo_impl d : local (split_impl c d) (split_impl c d).
Proof.
  unfold split_impl. apply lo_bind; [apply lo_sget|]. intros b. apply lo_bind; [apply lo_trim|]. intros b'.
  apply lo_bind; [apply lo_upd|]. intros _. apply lo_bind; [apply lo_upd|]. intros _.
  apply lo_fuel. intros f f' Hf. apply lo_loop. lia.
Qed.
Lemma lo_select d : local (split_impl_select_delim c d) (split_impl_select_delim c d).
Proof.
  apply lo_bind; [apply lo_upd|]. intros _. destruct d as [|x [|y d]]; [apply lo_error|apply lo_impl|apply lo_impl].
Qed.
Lemma lo_split blk d : local (sp_split c blk d) (sp_split c blk d).
Proof. apply lo_bind; [apply lo_upd|]. intros _; apply lo_select. Qed.
Lemma lo_resplit blk n d : local (sp_resplit c blk n d) (sp_resplit c blk n d).
Proof.
  unfold sp_resplit. apply lo_bind; [apply lo_sget|]. intros s. destruct (_ || _); [apply lo_error|].
  destruct (last (s_sd s) (0, 0)) as [x ob]. destruct (n <? ob - 1); [apply lo_error|].
  apply lo_bind; [apply lo_upd|]. intros _; apply lo_select.
Qed.
End L.
