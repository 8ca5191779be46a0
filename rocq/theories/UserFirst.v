(** Which column throws: converting a line, column by column. *)
From Verif Require Import Base Setup Splitter SplitSpec Extract Converter ConvSpec Reader ListFacts SetupProofs SplitRefine SplitSpecProofs SplitApi SplitContinue SplitTheorems ExtractProofs ConvProofs ConvTheorems LineSpec Parser ParserApi SessionApi Fault FaultProofs User UserProofs.
Section First.
Context (conv : elem -> str -> option thrown) (c : cfg).
(** Converting these texts throws nothing. *)
Definition throws_nothing (es : list elem) (ps : list str) : Prop := Forall2 (fun e s => e = EVoid \/ conv e s = None) es ps.
(** As far as the texts are converted (a text that does not denote a value of its type is the last one), nothing is thrown. *)
Inductive unthrown : list elem -> list str -> Prop :=
| un_nil : unthrown [] []
| un_next e s es ps : e = EVoid \/ conv e s = None -> unthrown es ps -> unthrown (e :: es) (s :: ps)
| un_bad e s es ps : conv e s = None -> (forall o, ~ col_ok e s o) -> length es = length ps -> unthrown (e :: es) (s :: ps).
Lemma first_none : forall es n ps elems v m, v_err v = None -> Forall wfelem es -> length es = length ps -> picks (v_map v) elems m n ps ->
  unthrown es ps -> uextract_multiple conv c n es elems (v, m) = inl (extract_multiple c n es elems (v, m)).
Proof.
  assert (AFT : forall es n elems v m, cv_valid c v = false -> uextract_multiple conv c n es elems (v, m) = inl (extract_multiple c n es elems (v, m))).
  { induction es as [|e es IH]; intros n elems v m V; [reflexivity|]. rewrite multiple_cons, umultiple_cons.
    assert (K : ucolumn elems n (fun r => x <~ uextract_one conv c e None r n ;; xs <~ uextract_multiple conv c (S n) es elems ;; lift (ret (x :: xs)))%monad (v, m) =
      inl (column elems n (fun r => x <- extract_one c e None r n ;; xs <- extract_multiple c (S n) es elems ;; ret (x :: xs))%monad (v, m))).
    { unfold ucolumn, column, fbind at 1, bind at 1. cbn [lift vget gets fst]. destruct (column_position v n) as [p|]; [|reflexivity]. destruct (nth_error elems p) as [r|]; [|reflexivity].
      assert (E0 : extract_one c e None r n (v, m) = Ok None (v, m)) by (unfold extract_one, bind at 1, vget, gets at 1; cbn [fst]; rewrite V; reflexivity).
      unfold fbind at 1, bind at 1, uextract_one. cbn [fst]. rewrite V. cbn [negb]. unfold lift at 1. rewrite E0.
      unfold fbind, bind. rewrite (IH (S n) elems v m V). destruct (extract_multiple _ _ _ _ _); reflexivity. }
    destruct e; [apply IH; exact V|exact K|exact K]. }
  induction es as [|e es IH]; intros n ps elems v m V W L P T; [reflexivity|]. destruct ps as [|s ps]; [discriminate|]. injection L as L.
  inversion W as [|? ? W1 W2]; subst. pose proof (picks_tl _ _ _ _ _ _ P) as P'.
  assert (T1 : e = EVoid \/ conv e s = None) by (inversion T; subst; [assumption|right; assumption]).
  assert (T2 : unthrown es ps \/ (forall o, ~ col_ok e s o)) by (inversion T; subst; [left; assumption|right; assumption]).
  rewrite multiple_cons, umultiple_cons. destruct (picks_hd _ _ _ _ _ _ v eq_refl P) as (p & r & A & B & C).
  assert (K : e <> EVoid -> ucolumn elems n (fun r => x <~ uextract_one conv c e None r n ;; xs <~ uextract_multiple conv c (S n) es elems ;; lift (ret (x :: xs)))%monad (v, m) =
      inl (column elems n (fun r => x <- extract_one c e None r n ;; xs <- extract_multiple c (S n) es elems ;; ret (x :: xs))%monad (v, m))).
  { intros He. unfold ucolumn, column, fbind at 1, bind at 1. cbn [lift vget gets fst]. rewrite A, B. destruct T1 as [T1|T1]; [congruence|].
    assert (E1 : uextract_one conv c e None r n (v, m) = inl (extract_one c e None r n (v, m))).
    { unfold uextract_one. cbn [fst snd]. destruct C as [C _]. rewrite C, T1. destruct (negb _); reflexivity. }
    unfold fbind at 1, bind at 1. rewrite E1.
    destruct (extract_one_cases c v m e r s n V C W1 He) as [(x & CO & E)|(msg & _ & E)].
    - destruct T2 as [T2|T2]; [|exfalso; exact (T2 _ CO)]. rewrite E. unfold fbind, bind. rewrite (IH (S n) ps elems v m V W2 L P' T2). destruct (extract_multiple _ _ _ _ _); reflexivity.
    - destruct (c_mode c) eqn:Em; [| |rewrite E; reflexivity]; destruct E as (x & E); rewrite E; unfold fbind, bind; rewrite AFT; try (destruct (extract_multiple _ _ _ _ _); reflexivity).
      + unfold cv_valid, err_valid, after_error. rewrite Em. reflexivity.
      + unfold cv_valid, err_valid, after_error. rewrite Em. reflexivity. }
  destruct e; [destruct T2 as [T2|T2]; [apply (IH _ ps); auto|exfalso; apply (T2 None); constructor]| |]; apply K; discriminate.
Qed.
Lemma first_throws : forall es1 ps1 vs n e s y es2 ps2 elems v m, v_err v = None -> Forall wfelem es1 -> picks (v_map v) elems m n (ps1 ++ s :: ps2) ->
  row_ok es1 ps1 vs -> throws_nothing es1 ps1 -> e <> EVoid -> conv e s = Some y ->
  uextract_multiple conv c n (es1 ++ e :: es2) elems (v, m) = fraise y (v, m).
Proof.
  induction es1 as [|e1 es1 IH]; intros ps1 vs n e s y es2 ps2 elems v m V W P R T He Hy.
  - inversion R; subst. cbn [app] in *. destruct (picks_hd _ _ _ _ _ _ v eq_refl P) as (p & r & A & B & C). rewrite umultiple_cons.
    enough (K : ucolumn elems n (fun r => x <~ uextract_one conv c e None r n ;; xs <~ uextract_multiple conv c (S n) es2 elems ;; lift (ret (x :: xs)))%monad (v, m) = fraise y (v, m)) by (destruct e; [congruence|exact K|exact K]).
    unfold ucolumn, fbind at 1. cbn [lift vget gets fst]. rewrite A, B. unfold fbind at 1.
    assert (E1 : uextract_one conv c e None r n (v, m) = fraise y (v, m)).
    { unfold uextract_one. cbn [fst snd]. destruct C as [C _]. rewrite C, Hy. unfold cv_valid, err_valid. rewrite V. destruct (c_mode c); reflexivity. }
    rewrite E1. destruct y; reflexivity.
  - inversion T as [|? s1 ? ps1' T1 T2]; subst. cbn [app] in *. pose proof (picks_tl _ _ _ _ _ _ P) as P'. inversion W as [|? ? W1 W2]; subst.
    destruct (picks_hd _ _ _ _ _ _ v eq_refl P) as (p & r & A & B & C). rewrite umultiple_cons.
    assert (K : e1 <> EVoid -> forall x vs', col_ok e1 s1 (Some x) -> row_ok es1 ps1' vs' ->
      ucolumn elems n (fun r => x <~ uextract_one conv c e1 None r n ;; xs <~ uextract_multiple conv c (S n) (es1 ++ e :: es2) elems ;; lift (ret (x :: xs)))%monad (v, m) = fraise y (v, m)).
    { intros H1 x vs' CO RO. unfold ucolumn, fbind at 1. cbn [lift vget gets fst]. rewrite A, B. destruct T1 as [T1|T1]; [congruence|].
      assert (E1 : uextract_one conv c e1 None r n (v, m) = inl (extract_one c e1 None r n (v, m))).
      { unfold uextract_one. cbn [fst snd]. destruct C as [C _]. rewrite C, T1. destruct (negb _); reflexivity. }
      unfold fbind at 1. rewrite E1. destruct (extract_one_cases c v m e1 r s1 n V C W1 H1) as [(x' & _ & E)|(msg & Bd & _)].
      - rewrite E. unfold fbind. rewrite (IH ps1' vs' (S n) e s y es2 ps2 elems v m V W2 P' RO T2 He Hy). destruct y; reflexivity.
      - exfalso. eapply col_excl; eauto. }
    inversion R as [|? ? ? ? ? CO RO|? ? x ? ? vs' CO RO]; subst.
    + inversion CO; subst. apply (IH ps1' vs (S n) e s y es2 ps2); assumption.
    + destruct e1; [inversion CO|apply (K ltac:(discriminate) x vs'); assumption|apply (K ltac:(discriminate) x vs'); assumption].
Qed.
End First.
Section Line.
Context (conv : elem -> str -> option thrown) (os : list opt) (c : cfg) (Hs : setup os = Some c) (d : str) (Hd : nulfree d).
Lemma takes_picks v elems m cols ps : Forall2 (holds m) elems cols -> taken (v_map v) (v_ncols v) cols ps -> picks (v_map v) elems m 0 ps.
Proof.
  intros F T i s Hi. rewrite Nat.add_0_l. unfold taken in T. destruct (v_map v) as [|p0 mp] eqn:Em.
  - subst ps. exists i. destruct (Forall2_nth F i s Hi) as (r & A & B). eauto.
  - destruct T as [_ T]. destruct (Forall2_nth T i s Hi) as (p & A & B). destruct (Forall2_nth F p s B) as (r & A2 & B2). exists p, r. auto.
Qed.
Definition uconvert_call (v : Converter.conv) (line : str) (rest : cells) (es : list elem) :=
  ucv_convert_line conv c 0 d es (v, map Some line ++ Some NUL :: rest).
(** Converting a line comes down to converting the picked columns. *)
Lemma line_columns v line rest es cols ps : vreach c v -> nulfree line -> line <> [] -> split_obs c sp_init d line rest = SFields cols ->
  taken (v_map v) (v_ncols v) cols ps -> length es = length ps ->
  exists v' m', v_err v' = None /\ picks (v_map v') (s_sd (v_sp v')) m' 0 ps /\
    convert_call c d v line rest es = extract_multiple c 0 es (s_sd (v_sp v')) (v', m') /\
    uconvert_call v line rest es = uextract_multiple conv c 0 es (s_sd (v_sp v')) (v', m').
Proof.
  intros V HR Hne. destruct (vreach_inv c v V) as [R F].
  assert (Hh : split_obs c sp_init d line rest = split_obs c (up_sd [] (v_sp v)) d line rest
               /\ (exists s m, (exists x, split_call c (up_sd [] (v_sp v)) d line rest = Ok x (s, m)) \/ exists e, split_call c (up_sd [] (v_sp v)) d line rest = Throw e (s, m))).
  { split.
    - destruct d as [|d0 d'].
      + unfold split_obs, split_call, sp_split, split_impl_select_delim, sp_clear_error, sp_error, bind, upd, modify, throw.
        cbn [fst snd]. unfold observe, sp_valid. destruct (c_mode c) eqn:Em; reflexivity.
      + unfold split_obs. erewrite history_thm; [reflexivity|exact Hs|discriminate|apply reach_init|apply reach_clear; exact R].
    - destruct (safe_thm os c d (up_sd [] (v_sp v)) line rest Hs Hd HR (reach_clear c _ R)) as (s' & Z & _ & [[K _]|[e K]]); eauto 6. }
  destruct Hh as [-> (s' & m' & E)]. intros EO T L.
  assert (R0 : exists a, rd (map Some line ++ Some NUL :: rest) 0 = Some a /\ Ascii.eqb a NUL = false).
  { destruct line as [|a l]; [congruence|]. exists a. split; [reflexivity|]. apply Ascii.eqb_neq. intros ->. apply HR. left; reflexivity. }
  destruct R0 as (a & R1 & R2). unfold split_obs in EO.
  destruct E as [[[] E]|[e E]]; [|rewrite E in EO; discriminate].
  pose proof (split_readable os c Hs d Hd (up_sd [] (v_sp v)) line rest s' m' (reach_clear c _ R) HR E) as (cols' & HF).
  rewrite E in EO. unfold observe in EO. destruct (sp_valid c s') eqn:Ev; [|discriminate]. rewrite (holds_strings _ _ _ HF) in EO. injection EO as ->.
  exists (vup_err None (vup_sp s' v)), m'. split; [reflexivity|]. split; [apply (takes_picks (vup_sp s' v) (s_sd s') m' cols ps); assumption|].
  assert (SP : cv_split c 0 d (v, map Some line ++ Some NUL :: rest) = Ok tt (vup_sp s' v, m')).
  { rewrite cv_split_out. cbv zeta. rewrite R1, R2. change (sp_split c 0 d (up_sd [] (v_sp v), map Some line ++ Some NUL :: rest)) with (split_call c (up_sd [] (v_sp v)) d line rest). rewrite E. reflexivity. }
  assert (CL : length es = length (s_sd s') \/ v_map v <> []).
  { unfold taken in T. destruct (v_map v); [left; subst ps; rewrite L; symmetry; eapply Forall2_length; exact HF|right; discriminate]. }
  assert (CM : v_map v <> [] -> length es = length (v_map v) /\ length (s_sd s') = v_ncols v).
  { unfold taken in T. intros N. destruct (v_map v) as [|p0 mp]; [congruence|]. destruct T as [T1 T2]. split; [rewrite L; symmetry; eapply Forall2_length; exact T2|].
    rewrite T1. eapply Forall2_length; exact HF. }
  split.
  - unfold convert_call. rewrite cv_convert_line_out, SP. unfold after_split, vget, gets, bind at 1. cbn [fst]. change (v_sp (vup_sp s' v)) with s'. rewrite Ev.
    unfold cv_convert_data, convert_impl, cv_clear_error, vupd, modify, vget, gets. unfold bind at 1 2. cbn [fst snd]. change (v_sp (vup_err None (vup_sp s' v))) with s'. rewrite Ev. cbn [negb].
    unfold columns_mapped. change (v_map (vup_err None (vup_sp s' v))) with (v_map v). change (v_ncols (vup_err None (vup_sp s' v))) with (v_ncols v).
    destruct (v_map v) as [|p0 mp] eqn:Em; cbn [negb].
    + destruct CL as [CL|CL]; [|congruence]. rewrite CL, Nat.eqb_refl. reflexivity.
    + destruct CM as [C1 C2]; [discriminate|]. rewrite C1, C2, !Nat.eqb_refl. reflexivity.
  - unfold uconvert_call, ucv_convert_line, fbind at 1. unfold lift at 1. rewrite SP. unfold fbind at 1, lift at 1, vget, gets. cbn [fst]. change (v_sp (vup_sp s' v)) with s'. rewrite Ev.
    unfold uconvert_impl, fbind at 1, lift at 1, cv_clear_error, vupd, modify. unfold fbind at 1, lift at 1, vget, gets. cbn [fst snd]. change (v_sp (vup_err None (vup_sp s' v))) with s'. rewrite Ev. cbn [negb].
    unfold columns_mapped. change (v_map (vup_err None (vup_sp s' v))) with (v_map v). change (v_ncols (vup_err None (vup_sp s' v))) with (v_ncols v).
    destruct (v_map v) as [|p0 mp] eqn:Em; cbn [negb].
    + destruct CL as [CL|CL]; [|congruence]. rewrite CL, Nat.eqb_refl. reflexivity.
    + destruct CM as [C1 C2]; [discriminate|]. rewrite C1, C2, !Nat.eqb_refl. reflexivity.
Qed.
End Line.
(** Every text is converted or not. *)
Lemma col_total e s : wfelem e -> (exists o, col_ok e s o) \/ (forall o, ~ col_ok e s o).
Proof.
  intros W. assert (D : e = EVoid \/ e <> EVoid) by (destruct e; [left; reflexivity|right; discriminate|right; discriminate]).
  destruct D as [->|D]; [left; exists None; constructor|].
  assert (H : holds (map Some s ++ [Some NUL]) (0, length s) s).
  { split; cbn [fst snd].
    - apply range_str_mid with (P := []); [reflexivity|reflexivity].
    - intros E. cbn [fst snd] in *. destruct s; [|discriminate]. exists NUL. reflexivity. }
  destruct (extract_one_cases (mkCfg None [] [] [] false 0 EBool false false) conv_init _ e _ s 0 eq_refl H W D) as [(x & K & _)|(msg & K & _)]; [left; eauto|right].
  intros o K'. eapply col_excl; eauto.
Qed.
