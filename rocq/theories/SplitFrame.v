(** What lies behind the line plays no role, not even for the number of accesses (C55). *)
From Verif Require Import Base Setup Splitter SplitPure ListFacts SplitApi SplitCost.

Section Frame.
Context (X : cells).
(** Whenever [m1] succeeds or throws on a line, [m2] does the same with [X] behind it. *)
Definition framed {A} (m1 m2 : M cst A) : Prop := forall s m n,
  match m1 (s, m, n) with
  | Ok a (s', m', n') => m2 (s, m ++ X, n) = Ok a (s', m' ++ X, n')
  | Throw e (s', m', n') => m2 (s, m ++ X, n) = Throw e (s', m' ++ X, n')
  | _ => True
  end.
Lemma fr_ret {A} (a : A) : framed (ret a) (ret a). Proof. intros s m n; reflexivity. Qed.
Lemma fr_bind {A B} (m1 m2 : M cst A) (k1 k2 : A -> M cst B) : framed m1 m2 -> (forall a, framed (k1 a) (k2 a)) ->
  framed (bind m1 k1) (bind m2 k2).
Proof.
  intros H K s m n. specialize (H s m n). unfold bind. destruct (m1 (s, m, n)) as [a [[s' m'] n']|e [[s' m'] n']|w|]; auto.
  - rewrite H. apply K.
  - rewrite H. reflexivity.
Qed.
Lemma fr_upd f : framed (cupd f) (cupd f). Proof. intros s m n; reflexivity. Qed.
Lemma fr_get {A} (f : sp -> A) : framed (cget f) (cget f). Proof. intros s m n; reflexivity. Qed.
Lemma fr_tick k : framed (tick k) (tick k). Proof. intros s m n; reflexivity. Qed.
Lemma fr_when b m1 m2 : framed m1 m2 -> framed (when b m1) (when b m2).
Proof. intros H. destruct b; [exact H|apply fr_ret]. Qed.
Lemma fr_error c msg : framed (lift (sp_error c msg)) (lift (sp_error c msg)).
Proof. intros s m n. unfold lift, zoom, sp_error. cbn [fst snd]. destruct (set_error _ _); reflexivity. Qed.
Lemma fr_clear c : framed (lift (sp_clear_error c)) (lift (sp_clear_error c)).
Proof. intros s m n. reflexivity. Qed.
Lemma fr_load p : framed (cload p) (cload p).
Proof.
  intros s m n. unfold cload, bind, tick, modify, lift, zoom, load. cbn [fst snd]. destruct (rd m p) as [a|] eqn:E; [|exact Logic.I].
  assert (E' : rd (m ++ X) p = Some a).
  { unfold rd in *. destruct (nth_error m p) eqn:En; [|discriminate]. rewrite nth_error_app1, En by (apply nth_error_Some; congruence). exact E. }
  rewrite E'. reflexivity.
Qed.
Lemma fr_none {A} (m2 : M cst A) : framed (fun _ => OutOfFuel) m2. Proof. intros s m n; exact Logic.I. Qed.
Lemma fr_fuel {A} (k1 k2 : nat -> M cst A) : (forall f1 f2, f1 <= f2 -> framed (k1 f1) (k2 f2)) -> framed (bind n_fuel k1) (bind n_fuel k2).
Proof.
  intros H s m n. unfold bind, n_fuel, lift, zoom, fuel_of, gets. cbn [fst snd].
  apply H. rewrite app_length. lia.
Qed.

Ltac fr :=
  repeat match goal with
  | |- framed (ret _) _ => apply fr_ret
  | |- framed (tick _) _ => apply fr_tick
  | |- framed (lift (sp_error _ _)) _ => apply fr_error
  | |- framed (lift (sp_clear_error _)) _ => apply fr_clear
  | |- framed (cload _) _ => apply fr_load
  | |- framed (cupd _) _ => apply fr_upd
  | |- framed (cget _) _ => apply fr_get
  | |- framed (when _ _) _ => apply fr_when
  | |- framed (bind n_fuel _) _ => apply fr_fuel; intros ? ? ?
  | |- framed (bind _ _) (bind _ _) => apply fr_bind; [|intros ?]
  | |- framed (if ?b then _ else _) _ => destruct b
  | |- framed (let '(_, _) := ?x in _) _ => destruct x
  | |- framed (match ?x with [] => _ | _ => _ end) _ => destruct x
  | |- framed (match ?x with DChar _ => _ | DStr _ => _ end) _ => destruct x
  | H : forall _, framed _ _ |- _ => apply H
  | H : framed _ _ |- _ => apply H
  end.

Lemma fr_strncmp d : forall p, framed (n_strncmp p d) (n_strncmp p d).
Proof. induction d as [|x d IH]; intros p; cbn [n_strncmp]; fr. Qed.
Lemma fr_match p d : framed (n_match p d) (n_match p d).
Proof. unfold n_match. fr. apply fr_strncmp. Qed.
Lemma fr_trim_loop cs : forall f1 f2 p, f1 <= f2 -> framed (n_trim_loop f1 cs p) (n_trim_loop f2 cs p).
Proof.
  induction f1 as [|f1 IH]; intros f2 p H; [apply fr_none|]. destruct f2 as [|f2]; [lia|]. cbn [n_trim_loop]. fr. apply IH. lia.
Qed.
Lemma fr_trim cs p : framed (n_trim cs p) (n_trim cs p).
Proof. unfold n_trim. fr. apply fr_trim_loop. assumption. Qed.

Context (c : cfg).
Lemma copyn_app m src k dst m' : copyn m src k dst = Some m' -> copyn (m ++ X) src k dst = Some (m' ++ X).
Proof.
  unfold copyn. destruct ((src + k <=? length m) && (dst + k <=? length m)) eqn:Eb; [|discriminate].
  intros E; injection E as <-. apply andb_prop in Eb as [B1 B2]. apply Nat.leb_le in B1, B2.
  rewrite !app_length. assert (T1 : (src + k <=? length m + length X) = true) by (apply Nat.leb_le; lia).
  assert (T2 : (dst + k <=? length m + length X) = true) by (apply Nat.leb_le; lia). rewrite T1, T2. cbn [andb]. f_equal.
  rewrite firstn_app, !skipn_app, firstn_app, skipn_length.
  replace (dst - length m) with 0 by lia. replace (src - length m) with 0 by lia. replace (k - (length m - src)) with 0 by lia.
  replace (dst + k - length m) with 0 by lia. cbn [firstn skipn]. rewrite !app_nil_r, <- !app_assoc. reflexivity.
Qed.
Lemma fr_shift : framed (n_shift_and_set_current c) (n_shift_and_set_current c).
Proof.
  unfold n_shift_and_set_current. fr. clear. intros s m n.
  unfold lift, zoom, shift_and_set_current, bind, sget, gets. cbn [fst snd].
  destruct (_ && _); [|reflexivity]. cbn [fst snd].
  destruct (copyn m (s_curr s + s_esc s) (s_end s - s_curr s - s_esc s) (s_curr s)) as [m'|] eqn:E; [|exact Logic.I].
  assert (E' : copyn (m ++ X) (s_curr s + s_esc s) (s_end s - s_curr s - s_esc s) (s_curr s) = Some (m' ++ X)).
  { apply copyn_app. exact E. }
  rewrite E'. reflexivity.
Qed.
Lemma fr_jump : framed (n_jump c) (n_jump c).
Proof. unfold n_jump. pose proof fr_shift. fr. Qed.
Lemma fr_push : framed (n_push c) (n_push c).
Proof. unfold n_push. pose proof fr_shift. fr. Qed.
Lemma fr_push_next n : framed (n_push_next c n) (n_push_next c n).
Proof. unfold n_push_next. pose proof fr_push. fr. Qed.
Lemma fr_shift_if p : framed (n_shift_if_escaped c p) (n_shift_if_escaped c p).
Proof. unfold n_shift_if_escaped. pose proof fr_jump. fr. Qed.
Lemma fr_md b d : framed (n_match_delimiter c b d) (n_match_delimiter c b d).
Proof. unfold n_match_delimiter. fr; first [apply fr_trim|apply fr_match|apply fr_shift_if]. Qed.
Lemma fr_normal d : forall f1 f2, f1 <= f2 -> framed (n_normal c f1 d) (n_normal c f2 d).
Proof.
  pose proof fr_push. pose proof fr_push_next.
  induction f1 as [|f1 IH]; intros f2 L; [apply fr_none|]. destruct f2 as [|f2]; [lia|]. cbn [n_normal].
  fr; first [apply fr_md|apply IH; lia].
Qed.
Lemma fr_quoted d : forall f1 f2, f1 <= f2 -> framed (n_quoted c f1 d) (n_quoted c f2 d).
Proof.
  pose proof fr_push. pose proof fr_push_next. pose proof fr_jump. pose proof fr_shift.
  induction f1 as [|f1 IH]; intros f2 L; [apply fr_none|]. destruct f2 as [|f2]; [lia|]. cbn [n_quoted].
  fr; first [apply fr_md|apply IH; lia].
Qed.
Lemma fr_read d : framed (n_read c d) (n_read c d).
Proof. unfold n_read. fr; first [apply fr_quoted; assumption|apply fr_normal; assumption]. Qed.
Lemma fr_loop d : forall f1 f2, f1 <= f2 -> framed (n_loop c f1 d) (n_loop c f2 d).
Proof.
  pose proof (fr_read d). induction f1 as [|f1 IH]; intros f2 L; [apply fr_none|]. destruct f2 as [|f2]; [lia|]. cbn [n_loop].
  fr. apply IH; lia.
Qed.
Lemma fr_impl d : framed (n_impl c d) (n_impl c d).
Proof. unfold n_impl. fr; first [apply fr_trim|apply fr_loop; lia]. Qed.
Lemma fr_select d : framed (n_select c d) (n_select c d).
Proof. unfold n_select. apply fr_bind; [fr|intros _]. destruct d as [|x [|y d]]; [fr|apply fr_impl|apply fr_impl]. Qed.
Theorem fr_split blk d : framed (n_split c blk d) (n_split c blk d).
Proof. unfold n_split. apply fr_bind; [fr|intros _; apply fr_select]. Qed.
Theorem fr_resplit blk n d : framed (n_resplit c blk n d) (n_resplit c blk n d).
Proof.
  unfold n_resplit. apply fr_bind; [fr|intros s]. destruct (_ || _); [fr|].
  destruct (last (s_sd s) (0, 0)) as [x y]. cbv zeta. destruct (_ <? _); [fr|]. apply fr_bind; [fr|intros _; apply fr_select].
Qed.
End Frame.
