(** Two relations between runs of the splitter: the same input in different error modes, and the same
    input on splitters with different histories. *)
From Verif Require Import Base Setup Splitter ListFacts.

Definition with_mode (m : emode) (c : cfg) : cfg :=
  mkCfg (c_quote c) (c_escape c) (c_triml c) (c_trimr c) (c_ml c) (c_mlsize c) m (c_ignhdr c) (c_ignempty c).

(** [follows m1 m2]: whenever [m1] succeeds, [m2] does exactly the same. *)
Definition follows {A} (m1 m2 : M (sp * list (option ascii)) A) : Prop :=
  forall s, s_err (fst s) = None ->
    match m1 s with Ok a s' => s_err (fst s') = None /\ m2 s = Ok a s' | _ => True end.

Lemma fo_bind {A B} (m1 m2 : M _ A) (k1 k2 : A -> M _ B) :
  follows m1 m2 -> (forall a, follows (k1 a) (k2 a)) -> follows (bind m1 k1) (bind m2 k2).
Proof.
  intros Hm Hk s Hs. unfold bind. specialize (Hm s Hs). destruct (m1 s) as [a s'|e s'|w|]; auto.
  destruct Hm as [Hs' ->]. apply Hk; exact Hs'.
Qed.
Lemma fo_ret {A} (a : A) : follows (ret a) (ret a).
Proof. intros s Hs; cbn; auto. Qed.
Lemma fo_gets {A} (f : _ -> A) : follows (gets f) (gets f).
Proof. intros s Hs; cbn; auto. Qed.
Lemma fo_fuel {A} : follows (fun _ => @OutOfFuel _ A) (fun _ => OutOfFuel).
Proof. intros s Hs; exact I. Qed.
Lemma fo_when b (m1 m2 : M _ unit) : follows m1 m2 -> follows (when b m1) (when b m2).
Proof. intros H. destruct b; [exact H|apply fo_ret]. Qed.
Lemma fo_upd f : (forall s, s_err (f s) = s_err s) -> follows (upd f) (upd f).
Proof. intros H s Hs. cbn. rewrite H. auto. Qed.
Lemma fo_load p : follows (load p) (load p).
Proof. intros s Hs. unfold load. destruct (rd (snd s) p); auto. Qed.

Section Modes.
Context (c : cfg) (m : emode).
Let c1 := with_mode EThrow c.
Let c2 := with_mode m c.

Lemma fo_error msg : follows (sp_error c1 msg) (sp_error c2 msg).
Proof. intros s Hs. exact I. Qed.
Lemma fo_trim_loop cs : forall f p, follows (trim_loop f cs p) (trim_loop f cs p).
Proof.
  induction f as [|f IH]; intros p; cbn [trim_loop]; [apply fo_fuel|].
  apply fo_bind; [apply fo_load|]. intros a. destruct (mem a cs); [apply IH|apply fo_ret].
Qed.
Lemma fo_trim cs p : follows (trim_if_enabled cs p) (trim_if_enabled cs p).
Proof.
  unfold trim_if_enabled. destruct cs; [apply fo_ret|].
  apply fo_bind; [apply fo_gets|]. intros; apply fo_trim_loop.
Qed.
Lemma fo_strncmp : forall d p, follows (strncmp_eq p d) (strncmp_eq p d).
Proof.
  induction d as [|x d IH]; intros p; cbn [strncmp_eq]; [apply fo_ret|].
  apply fo_bind; [apply fo_load|]. intros a.
  destruct (negb (Ascii.eqb a x)); [apply fo_ret|]. destruct (Ascii.eqb a NUL); [apply fo_ret|apply IH].
Qed.
Lemma fo_match p d : follows (sp_match p d) (sp_match p d).
Proof. destruct d; [|apply fo_strncmp]. apply fo_bind; [apply fo_load|]. intros; apply fo_ret. Qed.
Lemma fo_shift : follows (shift_and_set_current c1) (shift_and_set_current c2).
Proof.
  unfold shift_and_set_current. apply fo_bind; [apply fo_gets|]. intros s.
  change (is_const_line c2) with (is_const_line c1).
  destruct (negb (is_const_line c1) && (0 <? s_esc s)) eqn:E.
  - apply fo_bind.
    + intros [s0 m0] Hs. cbn [snd fst]. destruct (copyn _ _ _ _) eqn:Ec; auto.
    + intros []. apply fo_upd; reflexivity.
  - apply fo_upd; reflexivity.
Qed.
Lemma fo_jump : follows (shift_and_jump_escape c1) (shift_and_jump_escape c2).
Proof.
  unfold shift_and_jump_escape. apply fo_bind; [apply fo_shift|]. intros _.
  apply fo_bind; [apply fo_when, fo_upd; reflexivity|]. intros _. apply fo_upd; reflexivity.
Qed.
Lemma fo_push : follows (shift_and_push c1) (shift_and_push c2).
Proof. apply fo_bind; [apply fo_shift|]. intros _. apply fo_upd; reflexivity. Qed.
Lemma fo_push_next n : follows (shift_push_and_start_next c1 n) (shift_push_and_start_next c2 n).
Proof. apply fo_bind; [apply fo_push|]. intros _. apply fo_upd; reflexivity. Qed.
Lemma fo_sie p : follows (shift_if_escaped c1 p) (shift_if_escaped c2 p).
Proof.
  unfold shift_if_escaped. change (escape_enabled c2) with (escape_enabled c1). destruct (escape_enabled c1); [|apply fo_ret].
  apply fo_bind; [apply fo_load|]. intros a. change (escape_match c2 a) with (escape_match c1 a). destruct (escape_match c1 a); [|apply fo_ret].
  apply fo_bind; [apply fo_load|]. intros b. destruct (Ascii.eqb b NUL); [|apply fo_jump].
  apply fo_bind; [apply fo_when, fo_error|]. intros _. apply fo_upd; reflexivity.
Qed.
Lemma fo_md p d : follows (match_delimiter c1 p d) (match_delimiter c2 p d).
Proof.
  unfold match_delimiter. apply fo_bind; [apply fo_trim|]. intros e.
  apply fo_bind; [apply fo_load|]. intros a. destruct (Ascii.eqb a NUL); [apply fo_ret|].
  apply fo_bind; [apply fo_match|]. intros b. destruct (negb b).
  - apply fo_bind; [apply fo_sie|]. intros; apply fo_ret.
  - apply fo_bind; [apply fo_trim|]. intros; apply fo_ret.
Qed.
Lemma fo_normal d : forall f, follows (read_normal c1 f d) (read_normal c2 f d).
Proof.
  induction f as [|f IH]; cbn [read_normal]; [apply fo_fuel|].
  apply fo_bind; [apply fo_gets|]. intros e.
  apply fo_bind; [apply fo_md|]. intros [w v]. destruct (negb v); [|apply fo_push_next].
  destruct (w =? 0).
  - apply fo_bind; [apply fo_push|]. intros _. apply fo_upd; reflexivity.
  - apply fo_bind; [apply fo_upd; reflexivity|]. intros _; exact IH.
Qed.
Lemma fo_quoted d : forall f, follows (read_quoted c1 f d) (read_quoted c2 f d).
Proof.
  induction f as [|f IH]; cbn [read_quoted]; [apply fo_fuel|].
  apply fo_bind; [apply fo_gets|]. intros e.
  apply fo_bind; [apply fo_load|]. intros a.
  change (quote_match c2 a) with (quote_match c1 a). destruct (negb (quote_match c1 a)).
  - change (escape_enabled c2 && escape_match c2 a) with (escape_enabled c1 && escape_match c1 a).
    destruct (escape_enabled c1 && escape_match c1 a).
    + apply fo_bind; [apply fo_load|]. intros b. destruct (Ascii.eqb b NUL).
      * apply fo_bind; [apply fo_when, fo_error|]. intros _. apply fo_upd; reflexivity.
      * apply fo_bind; [apply fo_jump|]. intros _.
        apply fo_bind; [apply fo_upd; reflexivity|]. intros _; exact IH.
    + destruct (Ascii.eqb a NUL).
      * apply fo_bind; [apply fo_shift|]. intros _.
        apply fo_bind; [apply fo_upd; reflexivity|]. intros _.
        apply fo_bind; [apply fo_when, fo_error|]. intros _.
        apply fo_bind; [apply fo_upd; reflexivity|]. intros _. apply fo_upd; reflexivity.
      * apply fo_bind; [apply fo_upd; reflexivity|]. intros _; exact IH.
  - apply fo_bind; [apply fo_md|]. intros [w v]. destruct v; [apply fo_push_next|].
    apply fo_bind; [apply fo_gets|]. intros e'.
    apply fo_bind; [apply fo_load|]. intros b. change (quote_match c2 b) with (quote_match c1 b). destruct (quote_match c1 b).
    + apply fo_bind; [apply fo_jump|]. intros _.
      apply fo_bind; [apply fo_upd; reflexivity|]. intros _; exact IH.
    + apply fo_bind.
      * destruct (w =? 0); [apply fo_push|].
        apply fo_bind; [apply fo_gets|]. intros e''.
        apply fo_bind; [apply fo_error|]. intros _. apply fo_upd; reflexivity.
      * intros _. apply fo_upd; reflexivity.
Qed.
Lemma fo_read d : follows (sp_read c1 d) (sp_read c2 d).
Proof.
  unfold sp_read. apply fo_bind; [apply fo_gets|]. intros f.
  apply fo_bind; [apply fo_upd; reflexivity|]. intros _.
  assert (Hn : forall b, follows (upd (fun s => up_curr b (up_end b s)) ;; read_normal c1 f d) (upd (fun s => up_curr b (up_end b s)) ;; read_normal c2 f d)).
  { intros b. apply fo_bind; [apply fo_upd; reflexivity|]. intros _; apply fo_normal. }
  change (quote_enabled c2) with (quote_enabled c1). destruct (quote_enabled c1).
  - apply fo_bind; [apply fo_gets|]. intros r. change (c_ml c2 && r) with (c_ml c1 && r). destruct (c_ml c1 && r).
    + apply fo_bind; [apply fo_upd; reflexivity|]. intros _.
      apply fo_bind; [apply fo_upd; reflexivity|]. intros _; apply fo_quoted.
    + apply fo_bind; [apply fo_gets|]. intros b.
      apply fo_bind; [apply fo_load|]. intros a. change (quote_match c2 a) with (quote_match c1 a). destruct (quote_match c1 a); [|apply Hn].
      apply fo_bind; [apply fo_upd; reflexivity|]. intros _; apply fo_quoted.
  - apply fo_bind; [apply fo_gets|]. intros b. apply Hn.
Qed.
Lemma fo_loop d : forall f, follows (split_loop c1 f d) (split_loop c2 f d).
Proof.
  induction f as [|f IH]; cbn [split_loop]; [apply fo_fuel|].
  apply fo_bind; [apply fo_gets|]. intros dn. destruct dn; [apply fo_ret|].
  apply fo_bind; [apply fo_read|]. intros _; exact IH.
Qed.
Lemma fo_impl d : follows (split_impl c1 d) (split_impl c2 d).
Proof.
  unfold split_impl. apply fo_bind; [apply fo_gets|]. intros b.
  apply fo_bind; [apply fo_trim|]. intros b'.
  apply fo_bind; [apply fo_upd; reflexivity|]. intros _.
  apply fo_bind; [apply fo_upd; reflexivity|]. intros _.
  apply fo_bind; [apply fo_gets|]. intros f. apply fo_loop.
Qed.
Lemma fo_clear : follows (sp_clear_error c1) (sp_clear_error c2).
Proof.
  intros [s mm] Hs. cbn. split; [exact Hs|]. destruct s; cbn in *. subst. destruct m; reflexivity.
Qed.
Lemma fo_select d : follows (split_impl_select_delim c1 d) (split_impl_select_delim c2 d).
Proof.
  unfold split_impl_select_delim. apply fo_bind; [apply fo_clear|]. intros _.
  destruct d as [|x [|y d]]; [apply fo_error|apply fo_impl|apply fo_impl].
Qed.
Lemma fo_split blk d : follows (sp_split c1 blk d) (sp_split c2 blk d).
Proof. apply fo_bind; [apply fo_upd; reflexivity|]. intros _. apply fo_select. Qed.
Lemma fo_resplit blk n d : follows (sp_resplit c1 blk n d) (sp_resplit c2 blk n d).
Proof.
  unfold sp_resplit. apply fo_bind; [apply fo_gets|]. intros s.
  change (quote_enabled c2) with (quote_enabled c1). change (c_ml c2) with (c_ml c1).
  destruct (_ || _); [apply fo_error|]. destruct (last (s_sd s) (0, 0)) as [x ob].
  destruct (n <? ob - 1); [apply fo_error|]. apply fo_bind; [apply fo_upd; reflexivity|]. intros _; apply fo_select.
Qed.
End Modes.

(** ** History independence. *)

(** Equal except for members that are written before they are read. *)
Definition same_start (s1 s2 : sp) : Prop :=
  s_err s1 = s_err s2 /\ s_uq s1 = s_uq s2 /\ s_resp s1 = s_resp s2 /\ s_done s1 = s_done s2 /\
  s_sd s1 = s_sd s2 /\ s_begin s1 = s_begin s2 /\ s_blk s1 = s_blk s2.

Lemma read_same c d s1 s2 m : same_start s1 s2 -> s_resp s1 = false -> sp_read c d (s1, m) = sp_read c d (s2, m).
Proof.
  destruct s1 as [e1 u1 dn1 r1 es1 sd1 b1 cu1 en1 k1], s2 as [e2 u2 dn2 r2 es2 sd2 b2 cu2 en2 k2].
  unfold same_start; cbn. intros (-> & -> & -> & -> & -> & -> & ->) ->.
  unfold sp_read. generalize (read_normal c) (read_quoted c). intros rn rq.
  destruct (quote_enabled c); unfold bind, fuel_of, gets, upd, modify, sget, gets, load; cbn [fst snd]; [|reflexivity].
  set (s1 := up_esc 0 _). set (s2 := up_esc 0 (mkSp e2 u2 dn2 false es2 sd2 b2 cu2 en2 k2)).
  change (s_resp s1) with false. change (s_resp s2) with false. rewrite andb_false_r.
  change (s_begin s1) with b2. change (s_begin s2) with b2.
  cbn [fst snd]. change (s_begin s1) with b2. change (s_begin s2) with b2.
  destruct (rd m b2); [|reflexivity]. destruct (quote_match c a); reflexivity.
Qed.

Lemma trim_same cs : forall f p s m, trim_loop f cs p (s, m) =
  match trim_loop f cs p (sp_init, m) with Ok a _ => Ok a (s, m) | Throw e _ => Throw e (s, m) | UB w => UB w | OutOfFuel => OutOfFuel end.
Proof.
  induction f as [|f IH]; intros p s m; cbn [trim_loop]; [reflexivity|].
  unfold bind, load; cbn [snd]. destruct (rd m p) as [a|]; [|reflexivity].
  destruct (mem a cs); [apply IH|reflexivity].
Qed.
Lemma trim_if_same cs p s m : trim_if_enabled cs p (s, m) =
  match trim_if_enabled cs p (sp_init, m) with Ok a _ => Ok a (s, m) | Throw e _ => Throw e (s, m) | UB w => UB w | OutOfFuel => OutOfFuel end.
Proof.
  unfold trim_if_enabled. destruct cs; [reflexivity|]. unfold bind, fuel_of, gets. cbn [snd]. apply trim_same.
Qed.

Lemma impl_same c d s1 s2 m : same_start (up_done false s1) (up_done false s2) -> s_resp s1 = false ->
  split_impl c d (s1, m) = split_impl c d (s2, m).
Proof.
  intros H Hr. destruct H as (E1 & E2 & E3 & E4 & E5 & E6 & E7). cbn in E1, E2, E3, E4, E5, E6, E7.
  assert (U : forall s, split_impl c d (s, m) =
    match trim_if_enabled (c_triml c) (s_begin s) (sp_init, m) with
    | Ok b _ => split_loop c (S (S (length m))) d (up_done false (up_begin b s), m)
    | Throw e _ => Throw e (s, m) | UB w => UB w | OutOfFuel => OutOfFuel end).
  { intros s. unfold split_impl. generalize (split_loop c). intros sl.
    unfold bind at 1, sget at 1, gets at 1. cbn [fst].
    unfold bind at 1. rewrite (trim_if_same _ _ s).
    destruct (trim_if_enabled _ _ (sp_init, m)) as [b [? ?]|e [? ?]|w|]; reflexivity. }
  rewrite (U s1), (U s2), <- E6.
  destruct (trim_if_enabled _ _ (sp_init, m)) as [b [? ?]|e [? ?]|w|] eqn:Et.
  2:{ exfalso. clear - Et. unfold trim_if_enabled in Et. destruct (c_triml c); [discriminate|].
      unfold bind, fuel_of, gets in Et. revert Et. cbn [snd]. generalize (S (length m)) (s_begin s1).
      intros n; induction n as [|n IH]; intros p; cbn [trim_loop]; [discriminate|].
      unfold bind, load. cbn [snd]. destruct (rd m p); [|discriminate]. destruct (mem _ _); [apply IH|discriminate]. }
  2,3: reflexivity.
  set (t1 := up_done false (up_begin b s1)). set (t2 := up_done false (up_begin b s2)).
  assert (Hs : same_start t1 t2) by (unfold t1, t2, same_start; cbn; auto 10).
  assert (L : forall t, s_done t = false -> split_loop c (S (S (length m))) d (t, m) =
     bind (sp_read c d) (fun _ => split_loop c (S (length m)) d) (t, m)).
  { intros t Ht. change (split_loop c (S (S (length m))) d (t, m)) with
      ((if s_done t then ret tt else sp_read c d ;; split_loop c (S (length m)) d) (t, m)). rewrite Ht. reflexivity. }
  rewrite (L t1), (L t2) by reflexivity. unfold bind.
  rewrite (read_same c d t1 t2 m Hs) by exact Hr. reflexivity.
Qed.

Theorem split_history c blk d s1 s2 m : d <> [] ->
  s_resp s1 = false -> s_resp s2 = false -> (c_mode c = EThrow -> s_err s1 = s_err s2) ->
  sp_split c blk d (s1, m) = sp_split c blk d (s2, m).
Proof.
  intros Hd R1 R2 E. unfold sp_split, split_impl_select_delim, sp_clear_error, bind, upd, modify. cbn [fst snd].
  destruct d as [|x [|y d]]; [congruence| |]; apply impl_same; try exact R1;
    unfold same_start; destruct (c_mode c); cbn; rewrite ?R1, ?R2; auto 10.
Qed.
