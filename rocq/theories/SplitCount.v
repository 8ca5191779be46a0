(** How many columns the splitter can find: never more than the line has cells, in any state. *)
From Verif Require Import Base Setup Splitter ListFacts Ends.
From Coq Require Import Lia.

Section S.
Context (c : cfg) (N : nat).
Notation sst := (sp * list (option ascii))%type.

(** The quote that is still open, if multiline columns are allowed: where its column begins. *)
Definition opens (s : sp) : Prop :=
  c_ml c = true -> s_uq s = true -> s_sd s <> [] -> exists l b, s_sd s = l ++ [(0, b)] /\ length l < b /\ length l + s_esc s <= s_end s.
(** A splitter between calls. *)
Definition few (s : sp) : Prop := length (s_sd s) <= N /\ opens s.
Definition fewm (st : sst) : Prop := few (fst st) /\ length (snd st) <= N.
Definition again (s : sp) : bool := quote_enabled c && c_ml c && s_resp s.
(** Between columns. *)
Definition inv0 (st : sst) : Prop :=
  let s := fst st in length (snd st) <= N /\ length (s_sd s) <= N /\ length (s_sd s) <= s_begin s /\ s_uq s = false /\ (again s = true -> length (s_sd s) <= s_end s).
(** Inside a column; [q] is 1 behind an opening quote. *)
Definition col (q : nat) (st : sst) : Prop :=
  let s := fst st in length (snd st) <= N /\ length (s_sd s) <= N /\ q + length (s_sd s) <= s_begin s /\ length (s_sd s) + s_esc s <= s_end s /\ s_uq s = false /\ again s = false.
(** Behind a column. *)
Definition post (st : sst) : Prop := fewm st /\ (s_done (fst st) = false -> inv0 st).

Lemma fewm_uq st : s_uq (fst st) = false -> length (s_sd (fst st)) <= N -> length (snd st) <= N -> fewm st.
Proof. intros H1 H2 H3. split; [split; [exact H2|]|exact H3]. intros _ X. congruence. Qed.
Lemma col_few q st : col q st -> fewm st. Proof. intros (A & B & _ & _ & U & _). apply fewm_uq; assumption. Qed.

Lemma load_at (P : ascii -> sst -> Prop) p st : (p < length (snd st) -> forall a, P a st) -> ends P fewm (load p st).
Proof. intros H. unfold load, rd. destruct (nth_error (snd st) p) as [[a|]|] eqn:E; cbn; auto. apply H. apply nth_error_Some. congruence. Qed.
Lemma error_col q msg st : col q st -> ends (fun _ st' => col q st' /\ s_sd (fst st') = s_sd (fst st) /\ s_end (fst st') = s_end (fst st) /\ length (snd st') = length (snd st)) fewm (sp_error c msg st).
Proof.
  intros H. unfold sp_error. destruct (set_error (c_mode c) msg) as [e|]; [|eapply col_few; exact H]. cbn. split; [exact H|auto].
Qed.
Lemma trim_ge : forall f cs p st, ends (fun e st' => st' = st /\ p <= e) fewm (trim_loop f cs p st).
Proof.
  induction f as [|f IH]; intros cs p st; [exact Logic.I|]. cbn [trim_loop]. eapply ends_bind; [apply (load_at (fun _ st' => st' = st)); reflexivity|]. intros a ? ->.
  destruct (mem a cs); [|cbn; auto]. eapply ends_weaken; [apply IH| |auto]. intros e st' [-> H]. split; [reflexivity|lia].
Qed.
Lemma trim_en cs p st : ends (fun e st' => st' = st /\ p <= e) fewm (trim_if_enabled cs p st).
Proof. destruct cs as [|x cs]; [cbn; auto|]. unfold trim_if_enabled, fuel_of, bind, gets. apply trim_ge. Qed.
Lemma copyn_len' m a n b m' : copyn m a n b = Some m' -> length m' = length m.
Proof.
  unfold copyn. destruct (_ && _) eqn:L; [|discriminate]. apply andb_true_iff in L as [L1 L2]. apply Nat.leb_le in L1, L2. intros E. injection E as <-.
  rewrite !app_length, !firstn_length, !skipn_length. lia.
Qed.
(** Steps inside a column that keep what was found and do not move back. *)
Definition on (q : nat) (st st' : sst) : Prop := col q st' /\ s_sd (fst st') = s_sd (fst st) /\ s_end (fst st) <= s_end (fst st') /\ length (snd st') = length (snd st).
Lemma on_refl q st : col q st -> on q st st. Proof. intros H. split; [exact H|auto]. Qed.
Lemma on_trans q a b d : on q a b -> on q b d -> on q a d.
Proof. intros (A1 & A2 & A3 & A4) (B1 & B2 & B3 & B4). split; [exact B1|]. split; [congruence|]. split; [lia|congruence]. Qed.
Lemma set_current q st : col q st -> ends (fun _ st' => on q st st' /\ s_end (fst st') = s_end (fst st)) fewm (shift_and_set_current c st).
Proof.
  intros H. unfold shift_and_set_current, sget, gets, bind at 1. destruct (_ && _).
  - unfold bind. destruct (copyn _ _ _ _) as [m|] eqn:E; [|exact Logic.I]. apply copyn_len' in E. cbn. destruct H as (A & B). split; [split; [split; [cbn; congruence|exact B]|cbn; auto]|reflexivity].
  - cbn. split; [split; [exact H|cbn; auto]|reflexivity].
Qed.
Lemma jump q st : col q st -> ends (fun _ st' => on q st st' /\ S (s_end (fst st)) <= s_end (fst st')) fewm (shift_and_jump_escape c st).
Proof.
  intros H. unfold shift_and_jump_escape. eapply ends_bind; [apply (set_current q); exact H|]. intros ? [s1 m1] [O1 E1]. cbn [fst snd] in *.
  destruct O1 as ((A & B & C & D & U & R) & O2 & O3 & O4). cbn [fst snd] in *. unfold when. destruct (negb _); cbn; (split; [split; [unfold col; cbn; repeat split; try assumption; lia|cbn; repeat split; try assumption; lia]|lia]).
Qed.
Lemma esc_if q p st : col q st -> ends (fun _ st' => on q st st') fewm (shift_if_escaped c p st).
Proof.
  intros H. unfold shift_if_escaped. destruct (escape_enabled c); [|apply on_refl; exact H].
  eapply ends_bind; [apply (load_at (fun _ st' => st' = st)); reflexivity|]. intros a ? ->. destruct (escape_match c a); [|apply on_refl; exact H].
  eapply ends_bind; [apply (load_at (fun _ st' => st' = st)); reflexivity|]. intros b ? ->. destruct (Ascii.eqb b NUL).
  - eapply ends_bind with (Q := fun _ st' => on q st st'); [|intros ? [s1 m1] O1; exact O1].
    unfold when. destruct (negb (c_ml c)); [|apply on_refl; exact H]. eapply ends_weaken; [apply (error_col q); exact H| |auto]. intros ? st' (X1 & X2 & X3 & X4). split; [exact X1|]. split; [exact X2|]. split; [lia|exact X4].
  - eapply ends_weaken; [apply (jump q); exact H| |auto]. intros ? st' [X _]. exact X.
Qed.
Lemma match_delim q p d st : col q st -> 1 <= delimiter_size d ->
  ends (fun r st' => on q st st' /\ p < length (snd st) /\ (snd r = true -> 1 <= fst r)) fewm (match_delimiter c p d st).
Proof.
  intros H Hd. unfold match_delimiter. eapply ends_bind; [apply trim_en|]. intros e ? [-> L1].
  eapply ends_bind; [apply (load_at (fun _ st' => st' = st /\ e < length (snd st))); auto|]. intros a ? [-> L2].
  destruct (Ascii.eqb a NUL); [cbn; split; [apply on_refl; exact H|split; [lia|discriminate]]|].
  eapply ends_bind with (Q := fun _ st' => st' = st).
  { destruct d as [x|s]; cbn [sp_match].
    - eapply ends_bind; [apply (load_at (fun _ st' => st' = st)); reflexivity|]. intros b ? ->. reflexivity.
    - clear L1 L2. revert e. induction s as [|x s IH]; intros e; [reflexivity|]. cbn [strncmp_eq]. eapply ends_bind; [apply (load_at (fun _ st' => st' = st)); reflexivity|]. intros b ? ->.
      destruct (negb _); [reflexivity|]. destruct (Ascii.eqb b NUL); [reflexivity|]. destruct s as [|y s]; [reflexivity|]. apply IH. cbn. lia. }
  intros b ? ->. destruct (negb b).
  - eapply ends_bind; [apply (esc_if q); exact H|]. intros ? st' O1. cbn. split; [exact O1|]. split; [lia|discriminate].
  - eapply ends_bind; [apply trim_en|]. intros e' ? [-> L3]. cbn. split; [apply on_refl; exact H|]. split; [lia|]. intros _. lia.
Qed.
(** Pushing a column: there is room for it in the line. *)
Lemma push_next q n st : col q st -> length (s_sd (fst st)) < length (snd st) -> 1 <= n -> ends (fun _ st' => post st') fewm (shift_push_and_start_next c n st).
Proof.
  intros H L Hn. unfold shift_push_and_start_next, shift_and_push. eapply ends_bind with (Q := fun _ st' => length (snd st') <= N /\ length (s_sd (fst st')) <= N /\ length (s_sd (fst st')) <= S (s_end (fst st')) /\ s_uq (fst st') = false /\ again (fst st') = false).
  - eapply ends_bind; [apply (set_current q); exact H|]. intros ? [s1 m1] [((A & B & C & D & U & R) & O2 & O3 & O4) E1]. cbn [fst snd] in *. cbn. rewrite app_length. cbn [length]. rewrite O2. unfold again in *. cbn. destruct H as (H1 & _). repeat split; try assumption; try lia. rewrite O2 in *. lia.
  - intros ? [s1 m1] (A & B & C & D & R). cbn [fst snd] in *. cbn. assert (I0 : inv0 (up_begin (s_end s1 + n) s1, m1)).
    { unfold inv0, again. cbn. unfold again in R. repeat split; try assumption; try lia. rewrite R. discriminate. }
    split; [|intros _; exact I0]. apply fewm_uq; assumption.
Qed.
Lemma push_done q st (k : M sst unit) : col q st -> length (s_sd (fst st)) < length (snd st) ->
  ends (fun _ st' => fewm st') fewm (shift_and_push c st).
Proof.
  intros H L. unfold shift_and_push. eapply ends_bind; [apply (set_current q); exact H|]. intros ? [s1 m1] [((A & B & C & D & U & R) & O2 & O3 & O4) E1]. cbn [fst snd] in *. cbn.
  apply fewm_uq; cbn; try assumption. rewrite app_length, O2. cbn. destruct H as (H1 & _). lia.
Qed.
Lemma normal d : 1 <= delimiter_size d -> forall f st, col 0 st -> ends (fun _ st' => post st') fewm (read_normal c f d st).
Proof.
  intros Hd. induction f as [|f IH]; intros st H; [exact Logic.I|]. cbn [read_normal]. unfold bind at 1, sget, gets. eapply ends_bind; [apply (match_delim 0 _ d st H Hd)|].
  intros [w v] st1 ((C1 & O2 & O3 & O4) & L & V). cbn [fst snd] in V. assert (L1 : length (s_sd (fst st1)) < length (snd st1)) by (rewrite O2, O4; destruct H as (_ & _ & _ & X & _); lia).
  destruct v; cbn [negb].
  - eapply (push_next 0); eauto.
  - destruct (w =? 0).
    + eapply ends_bind; [apply (push_done 0 st1 (ret tt)); assumption|]. intros ? [s2 m2] F. cbn. split; [exact F|]. cbn. discriminate.
    + eapply ends_bind with (Q := fun _ st' => col 0 st'); [|intros ? st' C2; apply IH; exact C2]. destruct st1 as [s1 m1]. destruct C1 as (A & B & C & D & U). unfold col. cbn in *. repeat split; try tauto; lia.
Qed.
Lemma quoted d : 1 <= delimiter_size d -> forall f st, col 1 st -> ends (fun _ st' => post st') fewm (read_quoted c f d st).
Proof.
  intros Hd. induction f as [|f IH]; intros st H; [exact Logic.I|]. cbn [read_quoted]. unfold bind at 1, sget, gets.
  eapply ends_bind; [apply (load_at (fun _ st' => st' = st /\ s_end (fst st) < length (snd st))); auto|]. intros a ? [-> L0].
  assert (UP : forall st', on 1 st st' -> col 1 (up_end (S (s_end (fst st'))) (fst st'), snd st')).
  { intros [s1 m1] ((A & B & C & D & U & R) & O2 & O3 & O4). unfold col. cbn in *. repeat split; try assumption; lia. }
  assert (LT : length (s_sd (fst st)) < length (snd st)) by (destruct H as (_ & _ & _ & X & _); lia).
  destruct (negb (quote_match c a)).
  - destruct (_ && _).
    + eapply ends_bind; [apply (load_at (fun _ st' => st' = st)); reflexivity|]. intros b ? ->. destruct (Ascii.eqb b NUL).
      * eapply ends_bind with (Q := fun _ st' => fewm st').
        { unfold when. destruct (negb (c_ml c)); [|eapply col_few; exact H]. eapply ends_weaken; [apply (error_col 1); exact H| |auto]. intros ? st' (X & _). eapply col_few; exact X. }
        intros ? [s1 m1] F. cbn. split; [exact F|]. cbn. discriminate.
      * eapply ends_bind; [apply (jump 1); exact H|]. intros ? st1 [O1 E1]. eapply ends_bind with (Q := fun _ st' => col 1 st'); [apply UP; exact O1|]. intros ? st2 C2. apply IH. exact C2.
    + destruct (Ascii.eqb a NUL).
      * eapply ends_bind; [apply (set_current 1); exact H|]. intros ? [s1 m1] [((A & B & C & D & U & R) & O2 & O3 & O4) E1]. cbn [fst snd] in *.
        assert (GO : forall e1, ends (fun _ st' => post st') fewm ((upd (fun s => up_sd (s_sd s ++ [(0, s_begin s)]) s) ;; upd (up_done true)) (up_err e1 (up_uq true s1), m1))).
        { intros e1. cbn. split; [|cbn; discriminate]. split; [|cbn; assumption]. split; [cbn; rewrite app_length, O2; cbn; destruct H as (H1 & _); lia|]. intros _ _ _. cbn. exists (s_sd s1), (s_begin s1). repeat split; lia. }
        eapply ends_bind with (Q := fun _ st' => exists e1, st' = (up_err e1 (up_uq true s1), m1)); [cbn; exists (s_err s1); destruct s1; reflexivity|]. intros ? ? (e1 & ->).
        unfold when. destruct (negb (c_ml c)) eqn:ML.
        { eapply ends_bind with (Q := fun _ st' => exists e1, st' = (up_err e1 (up_uq true s1), m1)); [|intros ? ? (e2 & ->); apply GO].
          unfold sp_error. destruct (set_error _ _) as [e3|]; [cbn; exists e3; reflexivity|]. cbn. split; [|cbn; assumption]. split; [cbn; assumption|]. intros X. rewrite X in ML. discriminate. }
        eapply ends_bind with (Q := fun _ st' => exists e1, st' = (up_err e1 (up_uq true s1), m1)); [cbn; exists e1; reflexivity|]. intros ? ? (e2 & ->). apply GO.
      * eapply ends_bind with (Q := fun _ st' => col 1 st'); [apply UP; apply on_refl; exact H|]. intros ? st2 C2. apply IH. exact C2.
  - eapply ends_bind; [apply (match_delim 1 _ d st H Hd)|]. intros [w v] st1 (O1 & L & V). cbn [fst snd] in V. pose proof O1 as (C1 & O2 & O3 & O4). destruct v.
    + eapply (push_next 1); [exact C1|rewrite O2, O4; exact LT|lia].
    + unfold bind at 1, gets. eapply ends_bind; [apply (load_at (fun _ st' => st' = st1)); reflexivity|]. intros b ? ->. destruct (quote_match c b).
      * eapply ends_bind; [apply (jump 1); exact C1|]. intros ? st2 [O5 E5]. eapply ends_bind with (Q := fun _ st' => col 1 st'); [apply UP; eapply on_trans; eauto|]. intros ? st3 C3. apply IH. exact C3.
      * eapply ends_bind with (Q := fun _ st' => fewm st'); [|intros ? [s2 m2] F; cbn; split; [exact F|cbn; discriminate]].
        destruct (w =? 0); [apply (push_done 1 st1 (ret tt)); [exact C1|rewrite O2, O4; exact LT]|]. unfold bind at 1, gets.
        eapply ends_bind; [apply (error_col 1); exact C1|]. intros ? [s2 m2] ((A & B & C & D & U & R) & X2 & X3 & X4). cbn [fst snd] in *. cbn. apply fewm_uq; cbn; try assumption. rewrite app_length, X2, O2. cbn. destruct H as (H1 & _). lia.
Qed.
Lemma read_few d st : 1 <= delimiter_size d -> inv0 st -> ends (fun _ st' => post st') fewm (sp_read c d st).
Proof.
  intros Hd H. destruct st as [s m]. destruct H as (A & B & C & U & R). cbn [fst snd] in *. unfold sp_read. unfold bind at 1, fuel_of, gets. unfold bind at 1, upd at 1, modify at 1. cbn [fst snd].
  destruct (quote_enabled c) eqn:Q.
  - unfold bind at 1, sget at 1, gets at 1. cbn [fst]. destruct (c_ml c && s_resp (up_esc 0 s)) eqn:ML.
    + unfold bind at 1, upd at 1, modify at 1. cbn [fst snd]. unfold bind at 1, upd at 1, modify at 1. cbn [fst snd]. apply quoted; [exact Hd|]. unfold col, again in *. cbn in *. rewrite Q in *. apply andb_true_iff in ML as [M1 M2]. rewrite M1, M2 in R. rewrite M1.
      specialize (R eq_refl). repeat split; try assumption; try lia.
    + assert (AG : again s = false) by (unfold again; rewrite Q; exact ML).
      unfold bind at 1, sget at 1, gets at 1. cbn [fst]. eapply ends_bind; [apply (load_at (fun _ st' => st' = (up_esc 0 s, m))); reflexivity|]. intros a ? ->. unfold again in AG. destruct (quote_match c a).
      * unfold bind at 1, upd at 1, modify at 1. cbn [fst snd]. apply quoted; [exact Hd|]. unfold col, again. cbn. repeat split; try assumption; try lia.
      * unfold bind at 1, upd at 1, modify at 1. cbn [fst snd]. apply normal; [exact Hd|]. unfold col, again. cbn. repeat split; try assumption; try lia.
  - unfold bind at 1, sget at 1, gets at 1. cbn [fst]. unfold bind at 1, upd at 1, modify at 1. cbn [fst snd]. apply normal; [exact Hd|]. unfold col, again. cbn. rewrite Q. repeat split; try assumption; try lia.
Qed.
Lemma loop_few d : 1 <= delimiter_size d -> forall f st, (s_done (fst st) = false -> inv0 st) -> fewm st -> ends (fun _ st' => fewm st') fewm (split_loop c f d st).
Proof.
  intros Hd. induction f as [|f IH]; intros st H F; [exact Logic.I|]. cbn [split_loop]. unfold bind at 1, sget, gets. destruct (s_done (fst st)) eqn:Dn; [exact F|].
  eapply ends_bind; [apply (read_few d st Hd (H eq_refl))|]. intros ? st1 [F1 I1]. apply IH; assumption.
Qed.
Lemma impl_few d st : 1 <= delimiter_size d -> inv0 st -> ends (fun _ st' => fewm st') fewm (split_impl c d st).
Proof.
  intros Hd H. destruct st as [s m]. unfold split_impl. unfold bind at 1, sget, gets. cbn [fst]. eapply ends_bind; [apply trim_en|]. intros b ? [-> L].
  unfold bind at 1, upd at 1, modify at 1. cbn [fst snd]. unfold bind at 1, upd at 1, modify at 1. cbn [fst snd]. unfold bind at 1, fuel_of, gets. cbn [snd].
  destruct H as (A & B & C & U & R). cbn [fst snd] in *. apply loop_few; [exact Hd| |apply fewm_uq; assumption]. intros _. unfold inv0, again in *. cbn. repeat split; try assumption; lia.
Qed.
Lemma select_few d st : length (snd st) <= N -> length (s_sd (fst st)) <= N -> length (s_sd (fst st)) <= s_begin (fst st) -> (again (fst st) = true -> length (s_sd (fst st)) <= s_end (fst st)) ->
  ends (fun _ st' => fewm st') fewm (split_impl_select_delim c d st).
Proof.
  intros A B C R. destruct st as [s m]. unfold split_impl_select_delim, sp_clear_error. unfold bind at 1, upd at 1, modify at 1. cbn [fst snd] in *.
  set (s1 := up_uq false (match c_mode c with EThrow => s | _ => up_err None s end)).
  assert (E : s_sd s1 = s_sd s /\ s_begin s1 = s_begin s /\ s_end s1 = s_end s /\ s_uq s1 = false /\ again s1 = again s) by (subst s1; destruct (c_mode c); repeat split).
  destruct E as (E1 & E2 & E3 & E4 & E5).
  assert (I0 : inv0 (s1, m)) by (unfold inv0; cbn [fst snd]; rewrite E1, E2, E3, E5; repeat split; assumption).
  clearbody s1. destruct d as [|x [|y d]].
  - unfold sp_error. assert (F : forall e, fewm (up_err e s1, m)) by (intros e; apply fewm_uq; cbn; try assumption; rewrite E1; assumption). destruct (set_error _ _) as [e|]; [apply F|]. cbn. apply fewm_uq; cbn; try assumption. rewrite E1. assumption.
  - apply impl_few; [cbn; lia|exact I0].
  - apply impl_few; [cbn; lia|exact I0].
Qed.
(** split(): whatever was there before; resplit(): after split() or resplit(). *)
Theorem split_few blk d st : length (snd st) <= N -> ends (fun _ st' => fewm st') fewm (sp_split c blk d st).
Proof. intros H. unfold sp_split. unfold bind at 1, upd at 1, modify at 1. apply select_few; cbn; try assumption; lia. Qed.
Theorem resplit_few blk n d st : fewm st -> ends (fun _ st' => fewm st') fewm (sp_resplit c blk n d st).
Proof.
  intros [[A O] M]. destruct st as [s m]. cbn [fst snd] in *. unfold sp_resplit. unfold bind at 1, sget, gets. cbn [fst].
  assert (ER : ends (fun _ st' => fewm st') fewm (sp_error c msg_invalid_resplit (s, m))).
  { unfold sp_error. destruct (set_error _ _); cbn; (split; [split; [exact A|exact O]|exact M]). }
  destruct (_ || _ || _ || _) eqn:K; [exact ER|]. apply orb_false_iff in K as [K K4]. apply orb_false_iff in K as [K K3]. apply orb_false_iff in K as [K1 K2].
  apply negb_false_iff in K1, K2, K4. destruct (O K2 K4 ltac:(intros Z; rewrite Z in K3; discriminate)) as (l & b & E & L1 & L2). rewrite E, last_last. destruct (_ <? _); [exact ER|].
  unfold bind at 1, upd at 1, modify at 1. cbn [fst snd]. rewrite E in A. rewrite app_length in A. cbn [length] in A.
  apply select_few; cbn; rewrite ?E, ?removelast_last; try assumption; try lia.
Qed.
End S.

(** ** The converter *)
From Verif Require Import Extract Converter ConvProofs.
Section V.
Context (c : cfg) (N : nat).
Notation vst := (conv * list (option ascii))%type.
Notation few := (few c N). Notation fewm := (fewm c N).
Definition vfew (st : vst) : Prop := few (v_sp (fst st)).
(** Operations that keep it up, whatever the line is. *)
Definition tame {A} (m : M vst A) : Prop := forall st, vfew st -> Ends.ends (fun _ => vfew) vfew (m st).
Lemma tame_bind {A B} (m : M vst A) (k : A -> M vst B) : tame m -> (forall a, tame (k a)) -> tame (bind m k).
Proof. intros H K st S0. eapply ends_bind; [apply H; exact S0|]. intros a s S1. apply K. exact S1. Qed.
Lemma tame_get {A} (f : conv -> A) : tame (vget f). Proof. intros st H. exact H. Qed.
Lemma tame_err e : tame (vupd (vup_err e)). Proof. intros [v m] H. exact H. Qed.
Lemma tame_only {A} (m : M vst A) : only_err m -> tame m.
Proof. intros H [v cs] S0. specialize (H v cs). destruct (m (v, cs)) as [a [v' m']|e [v' m']| |]; cbn; auto; destruct H as (H & _); unfold vfew in *; cbn in *; rewrite H; exact S0. Qed.
Lemma tame_sp_error msg : tame (on_sp (sp_error c msg)).
Proof. intros [v m] H. unfold on_sp, zoom, sp_error. cbn [fst snd]. destruct (set_error _ _); exact H. Qed.
Lemma tame_unterm_escape : tame (handle_error_unterminated_escape c).
Proof. unfold handle_error_unterminated_escape. destruct (c_mode c); [apply tame_err|apply tame_bind; [apply tame_sp_error|]; intros _; apply tame_bind; [apply tame_get|intros; apply tame_err]|apply tame_sp_error]. Qed.
Lemma tame_unterm_quote : tame (handle_error_unterminated_quote c).
Proof. unfold handle_error_unterminated_quote. destruct (c_mode c); [apply tame_err|apply tame_bind; [apply tame_sp_error|]; intros _; apply tame_bind; [apply tame_get|intros; apply tame_err]|apply tame_sp_error]. Qed.
Lemma tame_limit : tame (handle_error_multiline_limit_reached c).
Proof.
  apply tame_bind; [|intros _; apply tame_only; apply oe_error]. intros [v m] [H _]. cbn. split; [exact H|]. intros _ U. discriminate U.
Qed.
Lemma tame_convert es : tame (cv_convert c es).
Proof. apply tame_only. apply oe_bind; [apply oe_get|intros; apply oe_convert]. Qed.
Lemma cv_split_few blk d st : length (snd st) <= N -> Ends.ends (fun _ => vfew) vfew (cv_split c blk d st).
Proof.
  intros H. destruct st as [v m]. unfold cv_split. unfold bind at 1, on_sp at 1, zoom at 1, upd, modify. cbn [fst snd] in *. unfold bind at 1, on_sp at 1, zoom at 1, load at 1. cbn [fst snd].
  assert (F : forall v', vfew (vup_sp (up_sd [] v') v, m)) by (intros v'; split; [cbn; lia|intros _ _ X; exfalso; apply X; reflexivity]).
  destruct (rd m 0) as [a|]; [|exact Logic.I]. destruct (Ascii.eqb a NUL); [cbn; apply F|].
  unfold on_sp, zoom. cbn [fst snd]. match goal with |- context [sp_split c blk d ?s] => pose proof (split_few c N blk d s H) as X; destruct (sp_split c blk d s) as [x s'|e s'| |] end; cbn in *; auto; apply X.
Qed.
Lemma cv_resplit_few blk n d st : vfew st -> length (snd st) <= N -> Ends.ends (fun _ => vfew) vfew (cv_resplit c blk n d st).
Proof.
  intros F H. destruct st as [v m]. unfold cv_resplit, on_sp, zoom. cbn [fst snd] in *. pose proof (resplit_few c N blk n d (v_sp v, m) (conj F H)) as X. destruct (sp_resplit c blk n d (v_sp v, m)) as [x s'|e s'| |]; cbn in *; auto; apply X.
Qed.
End V.
Lemma few_init c N : few c N sp_init. Proof. split; [apply Nat.le_0_l|]. intros _ X. discriminate X. Qed.
