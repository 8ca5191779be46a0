(** The splitter as its user sees it. *)
From Verif Require Import Base Setup Splitter SplitPure ListFacts SetupProofs SplitSpec SplitRefine SplitSpecProofs SplitKeeps SplitModes RowSpec RowProofs.

(** The texts of the ranges returned by get_split_data() (splitter.hpp:58-60). *)
Fixpoint strings_of (m : cells) (rs : list (nat * nat)) : option (list str) :=
  match rs with
  | [] => Some []
  | (b, e) :: rs' =>
      match range_str m b e, strings_of m rs' with
      | Some x, Some l => Some (x :: l)
      | _, _ => None
      end
  end.

(** What a call to split shows: the columns (valid() is true), the error message (valid() is
    false; the message is empty in bool mode), the exception text, or a crash: undefined
    behaviour, no termination, or a column range that is not readable. *)
Inductive sobs := SFields (l : list str) | SErr (msg : str) | SThrown (msg : str) | SCrash.

Definition observe (c : cfg) (o : res (sp * list (option ascii)) unit) : sobs :=
  match o with
  | Ok _ (s, m) =>
      if sp_valid c s then
        match strings_of m (s_sd s) with Some l => SFields l | None => SCrash end
      else SErr (match s_err s with Some e => e | None => [] end)
  | Throw e _ => SThrown e
  | _ => SCrash
  end.

(** [split] on the NUL-terminated [line], other bytes [rest] following in memory. *)
Definition split_call (c : cfg) (s : sp) (d line : str) (rest : cells) :=
  sp_split c 0 d (s, map Some line ++ Some NUL :: rest).
Definition split_obs c s d line rest : sobs := observe c (split_call c s d line rest).

(** States of a splitter object after any history of public calls. *)
Inductive reach (c : cfg) : sp -> Prop :=
| reach_init : reach c sp_init
| reach_split s blk d m s' m' :
    reach c s ->
    (sp_split c blk d (s, m) = Ok tt (s', m') \/ exists e, sp_split c blk d (s, m) = Throw e (s', m')) ->
    reach c s'
| reach_resplit s blk n d m s' m' :
    reach c s -> d <> [] ->      (* an empty delimiter here spoils the object: see C10_resplit_empty_delimiter_refuted *)
    (sp_resplit c blk n d (s, m) = Ok tt (s', m') \/ exists e, sp_resplit c blk n d (s, m) = Throw e (s', m')) ->
    reach c s'
| reach_clear s : reach c s -> reach c (up_sd [] s).

Lemma reach_resp c s : reach c s -> s_resp s = false.
Proof.
  induction 1 as [|s blk d m s' m' _ IH H|s blk n d m s' m' _ IH Hd H|s _ IH]; [reflexivity| | |exact IH].
  - pose proof (split_resp c blk d s m IH) as K. destruct H as [H|[e H]]; rewrite H in K; exact K.
  - pose proof (resplit_resp c blk n d s m Hd IH) as K. destruct H as [H|[e H]]; rewrite H in K; exact K.
Qed.

Lemma reach_err c s : reach c s -> c_mode c = EThrow -> s_err s = None.
Proof.
  intros H Hm. induction H as [|s blk d m s' m' _ IH H|s blk n d m s' m' _ IH Hd H|s _ IH]; [reflexivity| | |exact IH].
  - pose proof (split_err c blk d s m Hm IH) as K. destruct H as [H|[e H]]; rewrite H in K; exact K.
  - pose proof (resplit_err c blk n d s m Hm IH) as K. destruct H as [H|[e H]]; rewrite H in K; exact K.
Qed.

Lemma strings_of_app m a b l1 l2 : strings_of m a = Some l1 -> strings_of m b = Some l2 -> strings_of m (a ++ b) = Some (l1 ++ l2).
Proof.
  revert l1; induction a as [|[x y] a IH]; cbn; intros l1 H1 H2.
  - injection H1 as <-; exact H2.
  - destruct (range_str m x y); [|discriminate]. destruct (strings_of m a) as [lx|]; [|discriminate].
    injection H1 as <-. rewrite (IH lx eq_refl H2). reflexivity.
Qed.
Lemma rstr_strings m rs l : Forall2 (rstr m) rs l -> strings_of m rs = Some l.
Proof.
  induction 1 as [|[b e] f rs l H F IH]; [reflexivity|]. cbn. unfold rstr in H; cbn in H. rewrite H, IH. reflexivity.
Qed.

Section Obs.
Context (c : cfg) (Hc : cfg_ok c) (d : str) (Hd : nulfree d) (Hd0 : d <> []).

Lemma start_facts blk s0 : s_sd (start c blk s0) = [] /\ s_uq (start c blk s0) = false
  /\ (c_mode c <> EThrow -> s_err (start c blk s0) = None).
Proof. unfold start, cleared. destruct (c_mode c) eqn:E; cbn; intuition congruence. Qed.

(** Everything a user can observe of a split, in terms of [psplit]. *)
Theorem split_obs_psplit s0 line rest l t : reach c s0 -> nulfree line -> psplit c d line = (l, t) ->
  match report c t with
  | None => match junk t with
            | [] => split_obs c s0 d line rest = SFields l
            | _ => inited rest -> exists j, split_obs c s0 d line rest = SFields (l ++ [j])
            end
  | Some (m, mt) => split_obs c s0 d line rest =
      match c_mode c with EBool => SErr [] | EString => SErr m | EThrow => SThrown mt end
  end.
Proof.
  intros Hr HR Ep. apply reach_resp in Hr.
  pose proof (sp_split_spec c Hc d Hd Hd0 s0 0 line rest Hr HR) as K. rewrite Ep in K. cbn [fst snd] in K.
  unfold row_post in K. unfold split_obs, split_call.
  destruct (start_facts 0 s0) as (E1 & E2 & E3).
  destruct (report c t) as [[m mt]|] eqn:Er.
  - destruct (set_error (c_mode c) m) as [e|] eqn:Es.
    + destruct K as (s' & m' & -> & _ & He). unfold observe, sp_valid. rewrite He.
      assert (Hm : m <> []).
      { destruct t; cbn in Er; try discriminate; try (destruct (c_ml c); [discriminate|]); injection Er as <- _;
          unfold msg_mismatched; discriminate. }
      destruct (c_mode c); cbn in Es.
      * injection Es as <-; reflexivity.
      * destruct m; [congruence|]. injection Es as <-. reflexivity.
      * discriminate.
    + destruct K as (s' & m' & -> & _ & He). cbn. destruct (c_mode c); cbn in Es; [discriminate|discriminate|reflexivity].
  - destruct K as (s' & m' & EO & RE & He).
    destruct RE as [_ _ _ (Z & Em & HZ & Hok)].
    destruct (Hok eq_refl) as (_ & P1 & Z1 & rs & EZ & Esd & F & _ & _ & HU & HM).
    rewrite E1 in Esd. cbn [app] in *. rewrite EO.
    assert (Hv : sp_valid c s' = true).
    { unfold sp_valid. rewrite He. destruct (c_mode c); cbn in *; auto; rewrite E3 by discriminate; reflexivity. }
    unfold observe. rewrite Hv, Esd.
    assert (F' : Forall2 (rstr m') rs l).
    { rewrite Em, EZ, <- app_assoc. apply rstr_app; exact F. }
    apply rstr_strings in F'.
    destruct (junk t) as [|[jb je] jj] eqn:Ej.
    + rewrite app_nil_r, F'. reflexivity.
    + intros Hin.
      assert (Hi : inited m').
      { pose proof (split_inited c 0 d s0 (map Some line ++ Some NUL :: rest)) as KI.
        rewrite EO in KI. apply KI. unfold inited. rewrite Forall_app. split; [apply inited_map|].
        constructor; [discriminate|exact Hin]. }
      assert (Hj : jj = [] /\ jb = 0 /\ je <= length m').
      { rewrite Em, EZ. destruct t; try discriminate; cbn in Ej; injection Ej as <- <- <-; repeat split.
        destruct (HU _ _ eq_refl) as (A1 & q & G & A2 & _). rewrite A2. lens. }
      destruct Hj as (-> & -> & Hje).
      destruct (inited_range m' 0 je Hi ltac:(lia) Hje) as (f & Ef).
      exists f. rewrite (strings_of_app m' rs [(0, je)] l [f]); [reflexivity|exact F'|].
      cbn. rewrite Ef. reflexivity.
Qed.


(** Safety: the call returns or throws, touches nothing outside the line, and every column it returns lies
    inside the line. *)
Theorem split_safe s0 line rest : reach c s0 -> nulfree line ->
  exists s' Z, length Z = length line /\
    let m' := Z ++ Some NUL :: rest in
    (split_call c s0 d line rest = Ok tt (s', m') /\
       Forall (fun r => fst r <= snd r /\ snd r <= length line) (s_sd s')
     \/ exists e, split_call c s0 d line rest = Throw e (s', m')).
Proof.
  intros Hr HR. pose proof (reach_resp _ _ Hr) as Hresp.
  destruct (psplit c d line) as [l t] eqn:Ep.
  pose proof (sp_split_spec c Hc d Hd Hd0 s0 0 line rest Hresp HR) as K. rewrite Ep in K. cbn [fst snd] in K.
  destruct (start_facts 0 s0) as (E1 & _ & _).
  assert (G : forall s' m', row_end c (start c 0 s0) [] (length line) rest l t s' m' true ->
     exists Z, length Z = length line /\ m' = Z ++ Some NUL :: rest /\
       Forall (fun r => fst r <= snd r /\ snd r <= length line) (s_sd s')).
  { intros s' m' [_ _ _ (Z & Em & HZ & Hok)].
    destruct (Hok eq_refl) as (_ & P1 & Z1 & rs & EZ & Esd & F & _ & _ & HU & HM).
    exists Z. split; [exact HZ|]. split; [exact Em|]. rewrite E1 in Esd. cbn [app] in *. subst Z.
    assert (Hln : length P1 + length Z1 = length line) by (rewrite <- app_length; exact HZ).
    rewrite Esd, Forall_app. split.
    - clear - F Hln. induction F as [|[b e] f rs l H F IH]; constructor; auto.
      unfold rstr, range_str in H. cbn in *. destruct ((b <=? e) && (e <=? length P1)) eqn:E; [|discriminate].
      apply andb_true_iff in E as [X Y]. apply Nat.leb_le in X, Y. lia.
    - destruct t as [| | |p a|p e b|]; cbn; constructor; try constructor; cbn; try lia.
      + destruct (HU _ _ eq_refl) as (A1 & q & G & A2 & _). rewrite A2 in Hln. cbn in Hln. lia.
      + specialize (HM _ _ _ eq_refl). lia. }
  unfold row_post in K. unfold split_call.
  destruct (report c t) as [[m mt]|].
  - destruct (set_error (c_mode c) m).
    + destruct K as (s' & m' & E & RE & _). destruct (G s' m' RE) as (Z & HZ & -> & F).
      exists s', Z. split; [exact HZ|]. left; auto.
    + destruct K as (s' & m' & E & RE & _). destruct RE as [_ _ _ (Z & Em & HZ & _)].
      exists s', Z. split; [exact HZ|]. right. exists mt. rewrite E, Em. reflexivity.
  - destruct K as (s' & m' & E & RE & _). destruct (G s' m' RE) as (Z & HZ & -> & F).
    exists s', Z. split; [exact HZ|]. left; auto.
Qed.

(** A line with a complete reading. *)
Theorem reads_split s0 line rest vs : reach c s0 -> nulfree line ->
  reads_as (c_quote c) (c_escape c) (c_triml c) (c_trimr c) d (no_trim_before_escape (c_escape c) (c_trimr c)) line vs ->
  split_obs c s0 d line rest = SFields vs.
Proof.
  intros Hr HR H. apply psplit_complete in H; auto.
  exact (split_obs_psplit s0 line rest vs TOk Hr HR H).
Qed.

(** Whatever was split before. *)
Theorem split_call_history s1 s2 line rest : reach c s1 -> reach c s2 ->
  split_call c s1 d line rest = split_call c s2 d line rest.
Proof.
  intros R1 R2. apply split_history; auto; try (apply reach_resp with c; assumption).
  intros Hm. rewrite (reach_err c s1), (reach_err c s2); auto.
Qed.
End Obs.

Lemma psplit_mode m c d s : psplit (with_mode m c) d s = psplit c d s.
Proof.
  reflexivity.
Qed.

Lemma report_mode m c t : report (with_mode m c) t = report c t.
Proof. destruct t; reflexivity. Qed.
Lemma cfg_ok_mode m c : cfg_ok c -> cfg_ok (with_mode m c).
Proof. intros []. constructor; auto. Qed.

Section Modes.
Context (c : cfg) (Hc : cfg_ok c) (d : str) (Hd : nulfree d) (Hd0 : d <> []).

(** Accepted lines are accepted in every mode, with identical results (state and memory). *)
Theorem modes_accept m1 m2 s1 s2 line rest : reach (with_mode m1 c) s1 -> reach (with_mode m2 c) s2 ->
  nulfree line -> report c (snd (psplit c d line)) = None ->
  split_call (with_mode m1 c) s1 d line rest = split_call (with_mode m2 c) s2 d line rest.
Proof.
  intros R1 R2 HR Hrep.
  assert (G : forall m s, reach (with_mode m c) s ->
     split_call (with_mode m c) s d line rest = split_call (with_mode EThrow c) sp_init d line rest).
  { intros m s R.
    rewrite (split_call_history (with_mode m c) d Hd0 s sp_init line rest R (reach_init _)).
    pose proof (sp_split_spec (with_mode EThrow c) (cfg_ok_mode _ _ Hc) d Hd Hd0 sp_init 0 line rest eq_refl HR) as K.
    unfold row_post in K. rewrite psplit_mode, report_mode, Hrep in K.
    destruct K as (s' & m' & E & _ & _).
    pose proof (fo_split c m 0 d (sp_init, map Some line ++ Some NUL :: rest) eq_refl) as F.
    unfold split_call. rewrite E in F. destruct F as [_ F]. rewrite E, F. reflexivity. }
  rewrite (G m1 s1 R1), (G m2 s2 R2). reflexivity.
Qed.
End Modes.
