(** What a reused converter shows for the empty line: C10. *)
From Verif Require Import Base Setup Splitter SplitPure ListFacts SetupProofs SplitSpec SplitRefine SplitSpecProofs SplitKeeps SplitModes RowSpec RowProofs SplitApi SplitLocal SplitTheorems SplitSafe Extract Converter ConvSpec ExtractProofs ConvProofs ConvTheorems NoThrow.

(** [used c v w]: [v] is a converter after any public calls; [w]: the last line it split that was not empty, with its
    delimiter (and the bytes behind the line). *)
Inductive used (c : cfg) : conv -> option (str * str * cells) -> Prop :=
| us_new : used c conv_init None
| us_line v w d line rest es xs v' m' : used c v w -> nulfree d -> nulfree line ->
    (convert_call c d v line rest es = Ok xs (v', m') \/ exists e, convert_call c d v line rest es = Throw e (v', m')) ->
    used c v' (match line with [] => w | _ => Some (d, line, rest) end)
| us_split v w d line rest v' m' : used c v w -> nulfree d -> nulfree line ->
    (cv_split c 0 d (v, map Some line ++ Some NUL :: rest) = Ok tt (v', m') \/
     exists e, cv_split c 0 d (v, map Some line ++ Some NUL :: rest) = Throw e (v', m')) ->
    used c v' (match line with [] => w | _ => Some (d, line, rest) end)
| us_data v w es elems m xs v' m' : used c v w ->
    (cv_convert_data c es elems (v, m) = Ok xs (v', m') \/ exists e, cv_convert_data c es elems (v, m) = Throw e (v', m')) -> used c v' w
| us_map v w mp n : used c v w -> Forall (fun p => p < n) mp -> used c (vup_map mp n v) w.

Section H.
Context (os : list opt) (c : cfg) (Hs : setup os = Some c).

Lemma used_vreach v w : used c v w -> vreach c v.
Proof.
  induction 1 as [|v w d line rest es xs v' m' _ IH _ _ H|v w d line rest v' m' _ IH _ _ H|v w es elems m xs v' m' _ IH H|v w mp n _ IH H].
  - apply vr_init.
  - eapply vr_line; [exact IH|exact H].
  - eapply vr_split; [exact IH|exact H].
  - eapply vr_convert; [exact IH|exact H].
  - apply vr_map; assumption.
Qed.

(** The error the splitter inside still has. *)
Definition still (w : option (str * str * cells)) (s : sp) : Prop :=
  match w with
  | None => sp_valid c s = true
  | Some (d, line, rest) =>
      match split_obs c sp_init d line rest with
      | SErr msg => sp_valid c s = false /\ s_err s = Some msg
      | SCrash => False
      | _ => sp_valid c s = true
      end
  end.
Lemma split_obs_any d s line rest : reach c s -> split_obs c sp_init d line rest = split_obs c s d line rest.
Proof.
  intros R. destruct d as [|d0 d'].
  + unfold split_obs, split_call, sp_split, split_impl_select_delim, sp_clear_error, sp_error, bind, upd, modify, throw.
    cbn [fst snd]. unfold observe, sp_valid. destruct (c_mode c) eqn:Em; reflexivity.
  + unfold split_obs. erewrite history_thm; [reflexivity|exact Hs|discriminate|apply reach_init|exact R].
Qed.
Lemma split_throws d s line rest e st : split_call c s d line rest = Throw e st -> c_mode c = EThrow.
Proof.
  intros E. destruct (c_mode c) eqn:Em; [| |reflexivity]; exfalso.
  all: assert (N : c_mode c <> EThrow) by congruence; pose proof (nt_split c N 0 d (s, map Some line ++ Some NUL :: rest)) as K;
    unfold split_call in E; rewrite E in K; exact K.
Qed.
Lemma cv_split_still d v w line rest v' m' : used c v w -> nulfree d -> nulfree line -> still w (v_sp v) ->
  (cv_split c 0 d (v, map Some line ++ Some NUL :: rest) = Ok tt (v', m') \/
   exists e, cv_split c 0 d (v, map Some line ++ Some NUL :: rest) = Throw e (v', m')) ->
  still (match line with [] => w | _ => Some (d, line, rest) end) (v_sp v').
Proof.
  intros U Hd HL K H. destruct (vreach_inv c v (used_vreach v w U)) as [R _]. rewrite cv_split_out in H. cbv zeta in H.
  destruct line as [|a line].
  - cbn [map app rd nth_error] in H. change (Ascii.eqb NUL NUL) with true in H. cbv iota in H.
    destruct H as [H|[e H]]; [|discriminate]. injection H as <- _. exact K.
  - assert (Ha : Ascii.eqb a NUL = false) by (apply Ascii.eqb_neq; intros ->; apply HL; left; reflexivity).
    cbn [map app rd nth_error] in H. rewrite Ha in H. unfold still.
    rewrite (split_obs_any d (up_sd [] (v_sp v)) (a :: line) rest (reach_clear c _ R)).
    change (sp_split c 0 d (up_sd [] (v_sp v), Some a :: map Some line ++ Some NUL :: rest)) with (split_call c (up_sd [] (v_sp v)) d (a :: line) rest) in H.
    destruct (split_call c (up_sd [] (v_sp v)) d (a :: line) rest) as [[] [s1 m1]|e1 [s1 m1]|x|] eqn:E; destruct H as [H|[e H]]; try discriminate.
    + injection H as <- _. cbn [v_sp vup_sp]. unfold split_obs. rewrite E. unfold observe.
      destruct (sp_valid c s1) eqn:Ev.
      * pose proof (split_readable os c Hs d Hd (up_sd [] (v_sp v)) (a :: line) rest s1 m1 (reach_clear c _ R) HL E) as (cols & HF).
        rewrite (holds_strings _ _ _ HF). reflexivity.
      * split; [reflexivity|]. unfold sp_valid, err_valid in Ev.
        destruct (s_err s1); [reflexivity|]. destruct (c_mode c); discriminate.
    + injection H as _ <- _. cbn [v_sp vup_sp]. unfold split_obs. rewrite E. unfold observe.
      destruct (sp_valid c s1) eqn:Ev; [reflexivity|]. exfalso.
      assert (T : c_mode c = EThrow) by (eapply (split_throws d (up_sd [] (v_sp v)) (a :: line) rest); eauto).
      unfold sp_valid, err_valid in Ev. rewrite T in Ev. discriminate.
Qed.
Lemma only_err_sp {A} (op : M (conv * list (option ascii)) A) v m x v' m' : only_err op ->
  (op (v, m) = Ok x (v', m') \/ exists e, op (v, m) = Throw e (v', m')) -> v_sp v' = v_sp v.
Proof. intros O H. specialize (O v m). destruct H as [H|[e H]]; rewrite H in O; apply O. Qed.
Lemma used_still v w : used c v w -> still w (v_sp v).
Proof.
  induction 1 as [|v w d line rest es xs v' m' U IH Hd HL H|v w d line rest v' m' U IH Hd HL H|v w es elems m xs v' m' _ IH H|v w mp n _ IH H].
  - unfold still, sp_valid, err_valid. destruct (c_mode c); reflexivity.
  - unfold convert_call in H. rewrite cv_convert_line_out in H.
    destruct (cv_split c 0 d (v, map Some line ++ Some NUL :: rest)) as [[] [v1 m1]|e1 [v1 m1]|x|] eqn:E.
    + pose proof (cv_split_still d v w line rest v1 m1 U Hd HL IH (or_introl E)) as K.
      replace (v_sp v') with (v_sp v1); [exact K|]. symmetry. eapply only_err_sp; [|exact H].
      apply oe_bind; [apply oe_get|]. intros s. destruct (sp_valid c s); [apply oe_convert|].
      apply oe_bind; [apply oe_bad|intros; apply oe_ret].
    + destruct H as [H|[e H]]; [discriminate|]. injection H as <- <- <-. eapply cv_split_still; eauto.
    + destruct H as [H|[e H]]; discriminate.
    + destruct H as [H|[e H]]; discriminate.
  - eapply cv_split_still; eauto.
  - replace (v_sp v') with (v_sp v); [exact IH|]. symmetry. eapply only_err_sp; [apply oe_convert|exact H].
  - exact IH.
Qed.

Theorem empty_line_shows d v w rest es : used c v w -> Forall wfelem es ->
  match w with
  | Some (d', line', rest') => match split_obs c sp_init d' line' rest' with
      | SErr msg => convert_obs c d v [] rest es = CErr msg
      | _ => exists o, converted (v_map v) (v_ncols v) es [] o /\ convert_obs c d v [] rest es = show c o
      end
  | None => exists o, converted (v_map v) (v_ncols v) es [] o /\ convert_obs c d v [] rest es = show c o
  end.
Proof.
  intros U W. pose proof (used_still v w U) as S. destruct (vreach_inv c v (used_vreach v w U)) as [R F].
  assert (OK : sp_valid c (v_sp v) = true -> exists o, converted (v_map v) (v_ncols v) es [] o /\ convert_obs c d v [] rest es = show c o).
  { intros Ev. unfold convert_obs, convert_call. rewrite cv_convert_line_out, cv_split_out. cbn [map app rd nth_error]. cbv zeta.
    change (Ascii.eqb NUL NUL) with true. cbv iota. unfold after_split, bind, vget, gets. cbn [fst].
    change (sp_valid c (v_sp (vup_sp (up_sd [] (v_sp v)) v))) with (sp_valid c (v_sp v)). rewrite Ev.
    destruct (convert_impl_cases c es [] [] (vup_sp (up_sd [] (v_sp v)) v) (Some NUL :: rest) Ev W ltac:(constructor) F) as (o & C & En).
    apply ends_observe in En. change (cv_convert_data c es (s_sd (v_sp (vup_sp (up_sd [] (v_sp v)) v)))) with (convert_impl c es []).
    exists o. split; [exact C|]. rewrite En. reflexivity. }
  destruct w as [[[d' line'] rest']|]; [|apply OK; exact S]. cbn [still] in S.
  destruct (split_obs c sp_init d' line' rest') as [l|msg|msg|]; try (apply OK; exact S); [|contradiction].
  destruct S as [Ev Ex].
  unfold convert_obs, convert_call. rewrite cv_convert_line_out, cv_split_out. cbn [map app rd nth_error]. cbv zeta.
  change (Ascii.eqb NUL NUL) with true. cbv iota. unfold after_split, bind, vget, gets. cbn [fst].
  change (sp_valid c (v_sp (vup_sp (up_sd [] (v_sp v)) v))) with (sp_valid c (v_sp v)). rewrite Ev.
  unfold handle_error_bad_split, bind, vget, gets, vupd, modify, ret, cobserve, cv_valid, err_valid. cbn [fst snd].
  assert (B : c_mode c = EBool -> msg = []).
  { intros Em. destruct (reach_errb c (v_sp v) Em R) as [K|K]; congruence. }
  unfold sp_valid, err_valid in Ev.
  destruct (c_mode c); cbn; [rewrite (B eq_refl); reflexivity| |discriminate].
  rewrite Ex in *. reflexivity.
Qed.
End H.
