(** Properties kept by every operation of the splitter, whatever the line, the delimiter
    and the configuration. *)
From Verif Require Import Base Setup Splitter ListFacts.

Definition keeps {S A} (P : S -> Prop) (m : M S A) : Prop :=
  forall s, P s -> match m s with Ok _ s' | Throw _ s' => P s' | _ => True end.

Lemma keeps_bind {S A B} (P : S -> Prop) (m : M S A) (k : A -> M S B) :
  keeps P m -> (forall a, keeps P (k a)) -> keeps P (bind m k).
Proof.
  intros Hm Hk s Hs. unfold bind. specialize (Hm s Hs). destruct (m s); auto. apply Hk; exact Hm.
Qed.
Lemma keeps_ret {S A} (P : S -> Prop) (a : A) : keeps P (ret a).
Proof. intros s Hs; exact Hs. Qed.
Lemma keeps_throw {S A} (P : S -> Prop) e : keeps P (@throw S A e).
Proof. intros s Hs; exact Hs. Qed.
Lemma keeps_gets {S A} (P : S -> Prop) (f : S -> A) : keeps P (gets f).
Proof. intros s Hs; exact Hs. Qed.
Lemma keeps_fuel {S A} (P : S -> Prop) : keeps P (fun _ : S => @OutOfFuel S A).
Proof. intros s Hs; exact I. Qed.
Lemma keeps_when {S} (P : S -> Prop) b (m : M S unit) : keeps P m -> keeps P (when b m).
Proof. intros H. destruct b; [exact H|apply keeps_ret]. Qed.
Lemma keeps_modify {S} (P : S -> Prop) (f : S -> S) : (forall s, P s -> P (f s)) -> keeps P (modify f).
Proof. intros H s Hs. apply H; exact Hs. Qed.

Section K.
Context (c : cfg) (P : sp * list (option ascii) -> Prop).
(** Closed under the updates the splitter performs. *)
Context (Herr : forall msg e s m, set_error (c_mode c) msg = Some e -> P (s, m) -> P (up_err e s, m))
        (Hclr : c_mode c <> EThrow -> forall s m, P (s, m) -> P (up_err None s, m))
        (Huq : forall b s m, P (s, m) -> P (up_uq b s, m))
        (Hdone : forall b s m, P (s, m) -> P (up_done b s, m))
        (Hresp : forall s m, P (s, m) -> P (up_resp false s, m))
        (Hesc : forall n s m, P (s, m) -> P (up_esc n s, m))
        (Hsd : forall l s m, P (s, m) -> P (up_sd l s, m))
        (Hbegin : forall n s m, P (s, m) -> P (up_begin n s, m))
        (Hcurr : forall n s m, P (s, m) -> P (up_curr n s, m))
        (Hend : forall n s m, P (s, m) -> P (up_end n s, m))
        (Hblk : forall n s m, P (s, m) -> P (up_blk n s, m))
        (Hmem : is_const_line c = false -> forall s m a b n m', copyn m a b n = Some m' -> P (s, m) -> P (s, m')).

Lemma keeps_upd f : (forall s m, P (s, m) -> P (f s, m)) -> keeps P (upd f).
Proof. intros H. apply keeps_modify. intros [s m] Hs. apply H; exact Hs. Qed.
Lemma keeps_load p : keeps P (load p).
Proof. intros s Hs. unfold load. destruct (rd (snd s) p); auto. Qed.
Lemma keeps_error msg : keeps P (sp_error c msg).
Proof.
  unfold sp_error. destruct (set_error (c_mode c) msg) eqn:E; [apply keeps_upd; intros; eapply Herr; eassumption|apply keeps_throw].
Qed.
Lemma keeps_trim_loop cs : forall f p, keeps P (trim_loop f cs p).
Proof.
  induction f as [|f IH]; intros p; cbn [trim_loop]; [apply keeps_fuel|].
  apply keeps_bind; [apply keeps_load|]. intros a. destruct (mem a cs); [apply IH|apply keeps_ret].
Qed.
Lemma keeps_trim cs p : keeps P (trim_if_enabled cs p).
Proof.
  unfold trim_if_enabled. destruct cs; [apply keeps_ret|].
  apply keeps_bind; [apply keeps_gets|]. intros; apply keeps_trim_loop.
Qed.
Lemma keeps_strncmp : forall d p, keeps P (strncmp_eq p d).
Proof.
  induction d as [|x d IH]; intros p; cbn [strncmp_eq]; [apply keeps_ret|].
  apply keeps_bind; [apply keeps_load|]. intros a.
  destruct (negb (Ascii.eqb a x)); [apply keeps_ret|]. destruct (Ascii.eqb a NUL); [apply keeps_ret|apply IH].
Qed.
Lemma keeps_match p d : keeps P (sp_match p d).
Proof.
  destruct d; [|apply keeps_strncmp]. apply keeps_bind; [apply keeps_load|]. intros; apply keeps_ret.
Qed.
Lemma keeps_shift : keeps P (shift_and_set_current c).
Proof.
  unfold shift_and_set_current. apply keeps_bind; [apply keeps_gets|]. intros s.
  destruct (negb (is_const_line c) && (0 <? s_esc s)) eqn:E.
  - apply andb_true_iff in E as [E _]. apply negb_true_iff in E.
    apply keeps_bind.
    + intros [s0 m] Hs. cbn [snd fst]. destruct (copyn _ _ _ _) eqn:Ec; auto. eapply Hmem; eauto.
    + intros []. apply keeps_upd. intros; apply Hcurr; assumption.
  - apply keeps_upd. intros; apply Hcurr; assumption.
Qed.
Lemma keeps_jump : keeps P (shift_and_jump_escape c).
Proof.
  unfold shift_and_jump_escape. apply keeps_bind; [apply keeps_shift|]. intros _.
  apply keeps_bind; [apply keeps_when, keeps_upd; intros; apply Hesc; assumption|]. intros _.
  apply keeps_upd; intros; apply Hend; assumption.
Qed.
Lemma keeps_push : keeps P (shift_and_push c).
Proof.
  apply keeps_bind; [apply keeps_shift|]. intros _. apply keeps_upd; intros; apply Hsd; assumption.
Qed.
Lemma keeps_push_next n : keeps P (shift_push_and_start_next c n).
Proof.
  apply keeps_bind; [apply keeps_push|]. intros _. apply keeps_upd; intros; apply Hbegin; assumption.
Qed.
Lemma keeps_sie p : keeps P (shift_if_escaped c p).
Proof.
  unfold shift_if_escaped. destruct (escape_enabled c); [|apply keeps_ret].
  apply keeps_bind; [apply keeps_load|]. intros a. destruct (escape_match c a); [|apply keeps_ret].
  apply keeps_bind; [apply keeps_load|]. intros b. destruct (Ascii.eqb b NUL); [|apply keeps_jump].
  apply keeps_bind; [apply keeps_when, keeps_error|]. intros _. apply keeps_upd; intros; apply Hdone; assumption.
Qed.
Lemma keeps_md p d : keeps P (match_delimiter c p d).
Proof.
  unfold match_delimiter. apply keeps_bind; [apply keeps_trim|]. intros e.
  apply keeps_bind; [apply keeps_load|]. intros a. destruct (Ascii.eqb a NUL); [apply keeps_ret|].
  apply keeps_bind; [apply keeps_match|]. intros b. destruct (negb b).
  - apply keeps_bind; [apply keeps_sie|]. intros; apply keeps_ret.
  - apply keeps_bind; [apply keeps_trim|]. intros; apply keeps_ret.
Qed.
Lemma keeps_normal d : forall f, keeps P (read_normal c f d).
Proof.
  induction f as [|f IH]; cbn [read_normal]; [apply keeps_fuel|].
  apply keeps_bind; [apply keeps_gets|]. intros e.
  apply keeps_bind; [apply keeps_md|]. intros [w v]. destruct (negb v); [|apply keeps_push_next].
  destruct (w =? 0).
  - apply keeps_bind; [apply keeps_push|]. intros _. apply keeps_upd; intros; apply Hdone; assumption.
  - apply keeps_bind; [apply keeps_upd; intros; apply Hend; assumption|]. intros _; exact IH.
Qed.
Lemma keeps_quoted d : forall f, keeps P (read_quoted c f d).
Proof.
  induction f as [|f IH]; cbn [read_quoted]; [apply keeps_fuel|].
  apply keeps_bind; [apply keeps_gets|]. intros e.
  apply keeps_bind; [apply keeps_load|]. intros a. destruct (negb (quote_match c a)).
  - destruct (escape_enabled c && escape_match c a).
    + apply keeps_bind; [apply keeps_load|]. intros b. destruct (Ascii.eqb b NUL).
      * apply keeps_bind; [apply keeps_when, keeps_error|]. intros _. apply keeps_upd; intros; apply Hdone; assumption.
      * apply keeps_bind; [apply keeps_jump|]. intros _.
        apply keeps_bind; [apply keeps_upd; intros; apply Hend; assumption|]. intros _; exact IH.
    + destruct (Ascii.eqb a NUL).
      * apply keeps_bind; [apply keeps_shift|]. intros _.
        apply keeps_bind; [apply keeps_upd; intros; apply Huq; assumption|]. intros _.
        apply keeps_bind; [apply keeps_when, keeps_error|]. intros _.
        apply keeps_bind; [apply keeps_upd; intros; apply Hsd; assumption|]. intros _.
        apply keeps_upd; intros; apply Hdone; assumption.
      * apply keeps_bind; [apply keeps_upd; intros; apply Hend; assumption|]. intros _; exact IH.
  - apply keeps_bind; [apply keeps_md|]. intros [w v]. destruct v; [apply keeps_push_next|].
    apply keeps_bind; [apply keeps_gets|]. intros e'.
    apply keeps_bind; [apply keeps_load|]. intros b. destruct (quote_match c b).
    + apply keeps_bind; [apply keeps_jump|]. intros _.
      apply keeps_bind; [apply keeps_upd; intros; apply Hend; assumption|]. intros _; exact IH.
    + apply keeps_bind.
      * destruct (w =? 0); [apply keeps_push|].
        apply keeps_bind; [apply keeps_gets|]. intros e''.
        apply keeps_bind; [apply keeps_error|]. intros _. apply keeps_upd; intros; apply Hsd; assumption.
      * intros _. apply keeps_upd; intros; apply Hdone; assumption.
Qed.
Lemma keeps_read d : keeps P (sp_read c d).
Proof.
  unfold sp_read. apply keeps_bind; [apply keeps_gets|]. intros f.
  apply keeps_bind; [apply keeps_upd; intros; apply Hesc; assumption|]. intros _.
  assert (Hn : forall b, keeps P (upd (fun s => up_curr b (up_end b s)) ;; read_normal c f d)).
  { intros b. apply keeps_bind; [apply keeps_upd; intros; apply Hcurr, Hend; assumption|]. intros _; apply keeps_normal. }
  destruct (quote_enabled c).
  - apply keeps_bind; [apply keeps_gets|]. intros r. destruct (c_ml c && r).
    + apply keeps_bind; [apply keeps_upd; intros; apply Hresp; assumption|]. intros _.
      apply keeps_bind; [apply keeps_upd; intros; apply Hbegin; assumption|]. intros _; apply keeps_quoted.
    + apply keeps_bind; [apply keeps_gets|]. intros b.
      apply keeps_bind; [apply keeps_load|]. intros a. destruct (quote_match c a); [|apply Hn].
      apply keeps_bind; [apply keeps_upd; intros; apply Hcurr, Hend, Hbegin; assumption|]. intros _; apply keeps_quoted.
  - apply keeps_bind; [apply keeps_gets|]. intros b. apply Hn.
Qed.
Lemma keeps_loop d : forall f, keeps P (split_loop c f d).
Proof.
  induction f as [|f IH]; cbn [split_loop]; [apply keeps_fuel|].
  apply keeps_bind; [apply keeps_gets|]. intros dn. destruct dn; [apply keeps_ret|].
  apply keeps_bind; [apply keeps_read|]. intros _; exact IH.
Qed.
Lemma keeps_impl d : keeps P (split_impl c d).
Proof.
  unfold split_impl. apply keeps_bind; [apply keeps_gets|]. intros b.
  apply keeps_bind; [apply keeps_trim|]. intros b'.
  apply keeps_bind; [apply keeps_upd; intros; apply Hbegin; assumption|]. intros _.
  apply keeps_bind; [apply keeps_upd; intros; apply Hdone; assumption|]. intros _.
  apply keeps_bind; [apply keeps_gets|]. intros f. apply keeps_loop.
Qed.
Lemma keeps_select d : keeps P (split_impl_select_delim c d).
Proof.
  unfold split_impl_select_delim. apply keeps_bind.
  - apply keeps_upd. intros s m Hs. apply Huq. destruct (c_mode c); auto; apply Hclr; auto; discriminate.
  - intros _. destruct d as [|x [|y d]]; [apply keeps_error|apply keeps_impl|apply keeps_impl].
Qed.
Lemma keeps_split blk d : keeps P (sp_split c blk d).
Proof.
  apply keeps_bind; [apply keeps_upd; intros; apply Hbegin, Hblk, Hsd; assumption|]. intros _. apply keeps_select.
Qed.
Lemma keeps_resplit blk n d : (forall s m, P (s, m) -> P (up_resp true s, m)) -> keeps P (sp_resplit c blk n d).
Proof.
  intros Hrt. unfold sp_resplit. apply keeps_bind; [apply keeps_gets|]. intros s.
  destruct (_ || _); [apply keeps_error|]. destruct (last (s_sd s) (0, 0)) as [x ob].
  destruct (n <? ob - 1); [apply keeps_error|]. apply keeps_bind; [|intros _; apply keeps_select].
  apply keeps_upd. intros; apply Hrt, Hcurr, Hend, Hbegin, Hblk, Hsd; assumption.
Qed.
End K.

(** A splitter without quote and escape never writes to the line. *)
Lemma split_const_line c blk d s m : is_const_line c = true ->
  match sp_split c blk d (s, m) with Ok _ (_, m') | Throw _ (_, m') => m' = m | _ => True end.
Proof.
  intros Hc.
  pose proof (keeps_split c (fun st => snd st = m)) as K. cbn [snd] in K.
  specialize (K ltac:(auto) ltac:(auto) ltac:(auto) ltac:(auto) ltac:(auto) ltac:(auto) ltac:(auto) ltac:(auto) ltac:(auto) ltac:(auto) ltac:(auto) ltac:(congruence) blk d (s, m) eq_refl).
  destruct (sp_split c blk d (s, m)) as [? []|? []| |]; auto.
Qed.

(** [resplitting_] stays false. *)
Lemma split_resp c blk d s m : s_resp s = false ->
  match sp_split c blk d (s, m) with Ok _ (s', _) | Throw _ (s', _) => s_resp s' = false | _ => True end.
Proof.
  intros Hr.
  pose proof (keeps_split c (fun st => s_resp (fst st) = false)) as K. cbn [fst] in K.
  specialize (K ltac:(auto) ltac:(auto) ltac:(auto) ltac:(auto) ltac:(auto) ltac:(auto) ltac:(auto) ltac:(auto) ltac:(auto) ltac:(auto) ltac:(auto) ltac:(auto) blk d (s, m) Hr).
  destruct (sp_split c blk d (s, m)) as [? []|? []| |]; auto.
Qed.

Lemma trim_state cs : forall p st, match trim_if_enabled cs p st with Ok _ st' => st' = st | Throw _ _ => False | _ => True end.
Proof.
  intros p st. unfold trim_if_enabled. destruct cs as [|x cs]; [reflexivity|].
  unfold bind, fuel_of, gets. generalize (S (length (snd st))) as f. intros f; revert p.
  induction f as [|f IH]; intros p; cbn [trim_loop]; [exact I|].
  unfold bind, load. destruct (rd (snd st) p); [|exact I]. destruct (mem _ _); [apply IH|reflexivity].
Qed.

(** Also after a resplit, if the delimiter is not empty. *)
Lemma resplit_resp c blk n d s m : d <> [] -> s_resp s = false ->
  match sp_resplit c blk n d (s, m) with Ok _ (s', _) | Throw _ (s', _) => s_resp s' = false | _ => True end.
Proof.
  intros Hd Hr. unfold sp_resplit. unfold bind at 1, sget at 1, gets at 1. cbn [fst].
  destruct (negb (quote_enabled c) || negb (c_ml c) || _ || _) eqn:Eg.
  - unfold sp_error. destruct (set_error (c_mode c) _); cbn; exact Hr.
  - apply orb_false_iff in Eg as [Eg _]. apply orb_false_iff in Eg as [Eg _]. apply orb_false_iff in Eg as [Eq Em].
    apply negb_false_iff in Eq, Em.
    destruct (last (s_sd s) (0, 0)) as [x ob]. destruct (n <? ob - 1).
    + unfold sp_error. destruct (set_error (c_mode c) _); cbn; exact Hr.
    + unfold bind at 1, upd at 1, modify at 1. cbn [fst snd].
      match goal with |- match split_impl_select_delim c d (?s0, _) with _ => _ end => set (s1 := s0) end.
      assert (H1 : s_resp s1 = true) by reflexivity. clearbody s1.
      assert (E : exists dl, split_impl_select_delim c d (s1, m) = (sp_clear_error c ;; split_impl c dl) (s1, m)).
      { destruct d as [|y [|z d']]; [congruence|exists (DChar y)|exists (DStr (y :: z :: d'))]; reflexivity. }
      destruct E as (dl & ->). unfold sp_clear_error. unfold bind at 1, upd at 1, modify at 1. cbn [fst snd].
      set (s2 := up_uq false _). assert (H2 : s_resp s2 = true) by (unfold s2; destruct (c_mode c); exact H1). clearbody s2.
      unfold split_impl. unfold bind at 1, sget at 1, gets at 1. cbn [fst]. unfold bind at 1.
      pose proof (trim_state (c_triml c) (s_begin s2) (s2, m)) as T.
      destruct (trim_if_enabled (c_triml c) (s_begin s2) (s2, m)) as [b st'|e st'|w|]; [|contradiction|exact I|exact I]. subst st'.
      unfold bind at 1, upd at 1, modify at 1. unfold bind at 1, upd at 1, modify at 1. cbn [fst snd].
      unfold bind at 1, fuel_of, gets. cbn [snd].
      set (s3 := up_done false _). assert (H3 : s_resp s3 = true) by exact H2. assert (H3d : s_done s3 = false) by reflexivity. clearbody s3.
      assert (EL : split_loop c (S (S (length m))) dl (s3, m) = (sp_read c dl ;; split_loop c (S (length m)) dl) (s3, m)).
      { change (split_loop c (S (S (length m))) dl (s3, m)) with ((if s_done s3 then ret tt else sp_read c dl ;; split_loop c (S (length m)) dl) (s3, m)).
        rewrite H3d. reflexivity. }
      rewrite EL. unfold bind at 1.
      assert (ER : exists s4, s_resp s4 = false /\ sp_read c dl (s3, m) = read_quoted c (S (length m)) dl (s4, m)).
      { unfold sp_read, fuel_of. unfold bind at 1, gets at 1. unfold bind at 1, upd at 1, modify at 1. cbn [fst snd].
        rewrite Eq. unfold bind at 1, sget at 1, gets at 1. cbn [fst].
        change (s_resp (up_esc 0 s3)) with (s_resp s3). rewrite H3, Em. cbn [andb].
        unfold bind at 1, upd at 1, modify at 1. unfold bind at 1, upd at 1, modify at 1. cbn [fst snd].
        eexists. split; [|reflexivity]. reflexivity. }
      destruct ER as (s4 & H4 & ->).
      pose proof (keeps_quoted c (fun st => s_resp (fst st) = false)) as K. cbn [fst] in K.
      specialize (K ltac:(auto) ltac:(auto) ltac:(auto) ltac:(auto) ltac:(auto) ltac:(auto) ltac:(auto) ltac:(auto) ltac:(auto) dl (S (length m)) (s4, m) H4).
      destruct (read_quoted c (S (length m)) dl (s4, m)) as [u5 [s5 m5]|e5 [s5 m5]|w|]; [|exact K|exact I|exact I].
      pose proof (keeps_loop c (fun st => s_resp (fst st) = false)) as KL. cbn [fst] in KL.
      specialize (KL ltac:(auto) ltac:(auto) ltac:(auto) ltac:(auto) ltac:(auto) ltac:(auto) ltac:(auto) ltac:(auto) ltac:(auto) ltac:(auto) dl (S (length m)) (s5, m5) K).
      destruct (split_loop c (S (length m)) dl (s5, m5)) as [u6 [s6 m6]|e6 [s6 m6]|w|]; auto.
Qed.

(** In throw mode the error member is never written. *)
Lemma split_err c blk d s m : c_mode c = EThrow -> s_err s = None ->
  match sp_split c blk d (s, m) with Ok _ (s', _) | Throw _ (s', _) => s_err s' = None | _ => True end.
Proof.
  intros Hm Hr.
  pose proof (keeps_split c (fun st => s_err (fst st) = None)) as K. cbn [fst] in K.
  specialize (K ltac:(rewrite Hm; discriminate) ltac:(auto) ltac:(auto) ltac:(auto) ltac:(auto) ltac:(auto) ltac:(auto) ltac:(auto) ltac:(auto) ltac:(auto) ltac:(auto) ltac:(auto) blk d (s, m) Hr).
  destruct (sp_split c blk d (s, m)) as [? []|? []| |]; auto.
Qed.

Lemma resplit_err c blk n d s m : c_mode c = EThrow -> s_err s = None ->
  match sp_resplit c blk n d (s, m) with Ok _ (s', _) | Throw _ (s', _) => s_err s' = None | _ => True end.
Proof.
  intros Hm Hr.
  pose proof (keeps_resplit c (fun st => s_err (fst st) = None)) as K. cbn [fst] in K.
  specialize (K ltac:(rewrite Hm; discriminate) ltac:(auto) ltac:(auto) ltac:(auto) ltac:(auto) ltac:(auto) ltac:(auto) ltac:(auto) ltac:(auto) ltac:(auto) ltac:(auto) ltac:(auto) blk n d ltac:(auto) (s, m) Hr).
  destruct (sp_resplit c blk n d (s, m)) as [? []|? []| |]; auto.
Qed.

(** Initialised memory stays initialised; the length does not change. *)
Definition inited (m : cells) : Prop := Forall (fun x => x <> None) m.
Lemma inited_map s : inited (map Some s).
Proof. unfold inited. rewrite Forall_map. apply Forall_forall. discriminate. Qed.
Lemma copyn_inited m a b n m' : copyn m a b n = Some m' -> inited m -> inited m'.
Proof.
  unfold copyn. destruct (_ && _); [|discriminate]. intros E; injection E as <-. intros H.
  assert (K1 : forall k l, inited l -> inited (firstn k l)).
  { intros k l Hl. unfold inited in *. rewrite Forall_forall in *. intros x Hx. apply Hl.
    rewrite <- (firstn_skipn k l). apply in_app_iff; auto. }
  assert (K2 : forall k l, inited l -> inited (skipn k l)).
  { intros k l Hl. unfold inited in *. rewrite Forall_forall in *. intros x Hx. apply Hl.
    rewrite <- (firstn_skipn k l). apply in_app_iff; auto. }
  unfold inited in *. rewrite !Forall_app. repeat split; [apply K1, H|apply K1, K2, H|apply K2, H].
Qed.
Lemma split_inited c blk d s m : inited m ->
  match sp_split c blk d (s, m) with Ok _ (_, m') | Throw _ (_, m') => inited m' | _ => True end.
Proof.
  intros Hr.
  pose proof (keeps_split c (fun st => inited (snd st))) as K. cbn [snd] in K.
  specialize (K ltac:(auto) ltac:(auto) ltac:(auto) ltac:(auto) ltac:(auto) ltac:(auto) ltac:(auto) ltac:(auto) ltac:(auto) ltac:(auto) ltac:(auto)).
  specialize (K ltac:(intros; eapply copyn_inited; eauto) blk d (s, m) Hr).
  destruct (sp_split c blk d (s, m)) as [? []|? []| |]; auto.
Qed.
Lemma inited_range m b e : inited m -> b <= e -> e <= length m -> exists f, range_str m b e = Some f.
Proof.
  intros H H1 H2. unfold range_str.
  replace ((b <=? e) && (e <=? length m)) with true by (symmetry; apply andb_true_iff; split; apply Nat.leb_le; lia).
  assert (K : forall l, inited l -> exists f, unopt l = Some f).
  { induction l as [|[x|] l IH]; intros Hl; [exists []; reflexivity| |inversion Hl; congruence].
    destruct IH as (f & Ef); [inversion Hl; assumption|]. cbn. rewrite Ef. eauto. }
  apply K. unfold inited in *. rewrite Forall_forall in *. intros x Hx. apply H.
  rewrite <- (firstn_skipn b m). apply in_app_iff; right.
  rewrite <- (firstn_skipn (e - b) (skipn b m)). apply in_app_iff; left. exact Hx.
Qed.
