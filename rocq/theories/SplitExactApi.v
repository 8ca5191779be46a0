(** split against SplitActual.v: restated in PropSplit.v. *)
From Verif Require Import Base Setup Splitter SplitPure ListFacts SetupProofs SplitSpec SplitRefine SplitSpecProofs SplitKeeps SplitModes RowSpec RowProofs SplitApi SplitTheorems SplitActual SplitExact.

(** The reading of SplitActual.v for the dialect of a setup. *)
Definition columns_of (c : cfg) (d line : str) (vs : list str) : Prop :=
  has_columns (c_quote c) (c_escape c) (c_triml c) (c_trimr c) d line vs.
Definition defect_of (c : cfg) (d line : str) (k : defect) : Prop :=
  has_defect (c_quote c) (c_escape c) (c_triml c) (c_trimr c) d line k.
(** What is said about it with the setup. *)
Definition saying (c : cfg) (line : str) (k : defect) : option str :=
  said (c_ml c) (match c_mode c with EThrow => true | _ => false end) (length line) k.
(** How an error shows. *)
Definition reported (c : cfg) (m : str) : sobs := match c_mode c with EBool => SErr [] | EString => SErr m | EThrow => SThrown m end.

Section T.
Context (os : list opt) (c : cfg) (Hs : setup os = Some c) (d : str) (Hd0 : d <> []).
Let Hc : cfg_ok c := setup_ok os c Hs.

Theorem exact_total line :
  (exists vs, columns_of c d line vs /\ (forall ws, columns_of c d line ws -> ws = vs) /\ forall k, ~ defect_of c d line k) \/
  (exists k, defect_of c d line k /\ (forall k', defect_of c d line k' -> saying c line k' = saying c line k) /\ forall vs, ~ columns_of c d line vs).
Proof.
  pose proof (psplit_total c Hc d Hd0 line) as T. destruct (psplit c d line) as [l t] eqn:E.
  assert (A : forall ws, columns_of c d line ws -> l = ws /\ t = TOk) by (intros ws K; apply (psplit_columns c Hc d Hd0) in K; rewrite E in K; injection K as -> ->; auto).
  assert (B : forall k, defect_of c d line k -> tverdict (length line) k t) by (intros k K; apply (psplit_defect c Hc d Hd0) in K; rewrite E in K; exact K).
  assert (NB : forall k, ~ tverdict (length line) k TOk) by (intros k K; destruct k; cbn in K; [destruct K as (? & ? & K)|destruct K as [K|K]|destruct K as (? & K)|destruct K as (? & K)]; discriminate).
  destruct t.
  { left. exists l. split; [exact T|]. split; [intros ws K; symmetry; apply A; exact K|]. intros k K. apply B in K. exact (NB k K). }
  all: destruct T as (k & D & V); right; exists k; split; [exact D|]; (split; [|intros ws K; destruct (A ws K); discriminate]); intros k' K; apply B in K;
    unfold saying; destruct k; cbn in V; destruct k'; cbn in K; unfold said; cbv zeta;
    try (destruct V as (? & ? & V)); try (destruct K as (? & ? & K)); try (destruct V as (? & V)); try (destruct K as (? & K)); try (destruct V as [V|V]); try (destruct K as [K|K]);
    try discriminate; try reflexivity; try congruence; (replace (length line - length from0) with (length line - length from) by congruence; reflexivity).
Qed.

Context (Hd : nulfree d).
Theorem exact_columns s line rest vs : reach c s -> nulfree line -> columns_of c d line vs -> split_obs c s d line rest = SFields vs.
Proof.
  intros R N K. apply (psplit_columns c Hc d Hd0) in K. exact (split_obs_psplit c Hc d Hd Hd0 s line rest vs TOk R N K).
Qed.
Theorem exact_defect s line rest k : reach c s -> nulfree line -> defect_of c d line k ->
  match saying c line k with
  | Some m => split_obs c s d line rest = reported c m
  | None => ~ is_error (split_obs c s d line rest) /\ (inited rest -> exists l, split_obs c s d line rest = SFields l)
  end.
Proof.
  intros R N K. apply (psplit_defect c Hc d Hd0) in K. destruct (psplit c d line) as [l t] eqn:Ep. cbn [snd] in K.
  pose proof (split_obs_psplit c Hc d Hd Hd0 s line rest l t R N Ep) as O. unfold saying, reported.
  destruct k; cbn in K; cbn [said].
  - destruct K as (p & a & ->). cbn [report junk] in O. destruct (c_ml c) eqn:Eml.
    + split; [|intros I; destruct (O I) as [j ->]; eauto].
      pose proof (split_safe c Hc d Hd Hd0 s line rest R N) as (s' & Z & HZ & G).
      pose proof (sp_split_spec c Hc d Hd Hd0 s 0 line rest (reach_resp _ _ R) N) as Q. rewrite Ep in Q.
      unfold row_post in Q. cbn [fst snd report] in Q. rewrite Eml in Q.
      destruct Q as (s'' & m'' & E & _ & He). unfold split_obs, split_call. rewrite E. cbn [observe].
      assert (Hv : sp_valid c s'' = true).
      { unfold sp_valid. rewrite He. destruct (start_facts c 0 s) as (_ & _ & E3).
        destruct (c_mode c); cbn in *; auto; rewrite E3 by discriminate; reflexivity. }
      rewrite Hv. destruct (strings_of m'' (s_sd s'')); intros [].
    + rewrite O. reflexivity.
  - destruct K as [->| ->]; cbn [report junk] in O; (destruct (c_ml c); [rewrite O; split; [intros []|eauto]|rewrite O; reflexivity]).
  - destruct K as (b & ->). cbn [report junk] in O. rewrite O. reflexivity.
  - destruct K as (b & ->). cbn [report junk] in O. rewrite O. destruct (c_mode c); cbn [andb]; try reflexivity; destruct (c_ml c); reflexivity.
Qed.
Theorem exact_only s line rest vs : reach c s -> nulfree line -> split_obs c s d line rest = SFields vs ->
  columns_of c d line vs \/ exists k, defect_of c d line k /\ saying c line k = None.
Proof.
  intros R N E. destruct (exact_total line) as [(ws & K & _)|(k & K & _)].
  - left. pose proof (exact_columns s line rest ws R N K) as O. rewrite O in E. injection E as <-. exact K.
  - right. exists k. split; [exact K|]. pose proof (exact_defect s line rest k R N K) as O. destruct (saying c line k); [|reflexivity].
    rewrite O in E. unfold reported in E. destruct (c_mode c); discriminate.
Qed.
Theorem exact_error s line rest : reach c s -> nulfree line ->
  (is_error (split_obs c s d line rest) <-> exists k m, defect_of c d line k /\ saying c line k = Some m).
Proof.
  intros R N. split.
  - intros E. destruct (exact_total line) as [(ws & K & _)|(k & K & _)].
    + rewrite (exact_columns s line rest ws R N K) in E. destruct E.
    + pose proof (exact_defect s line rest k R N K) as O. destruct (saying c line k) as [m|] eqn:S; [eauto|]. destruct O as [O _]. contradiction.
  - intros (k & m & K & S). pose proof (exact_defect s line rest k R N K) as O. rewrite S in O. rewrite O. unfold reported. destruct (c_mode c); exact Logic.I.
Qed.
(** On regular lines this is the grammar of SplitSpec.v. *)
Theorem exact_regular line : regular c line ->
  (forall vs, columns_of c d line vs <-> reading c d line vs) /\ ((exists k, defect_of c d line k) <-> exists k, breaking c d line k).
Proof.
  intros Reg. pose proof Reg as [Na Nq].
  assert (A : forall vs, columns_of c d line vs <-> reading c d line vs).
  { intros vs. split; intros K.
    - apply (psplit_columns c Hc d Hd0) in K. exact (tail_cases os c Hs d Hd0 line vs TOk Reg K).
    - apply reads_nte in K; [|try exact Hd0; try exact Na..]. apply (psplit_complete c Hc d Hd0) in K. pose proof (psplit_total c Hc d Hd0 line) as T. rewrite K in T. exact T. }
  split; [exact A|]. split; intros (k & K).
  - destruct (psplit c d line) as [l t] eqn:E. pose proof (tail_cases os c Hs d Hd0 line l t Reg E) as T.
    apply (psplit_defect c Hc d Hd0) in K. rewrite E in K. cbn [snd] in K.
    destruct k; cbn in K; [destruct K as (p & a & ->)|destruct K as [->| ->]|destruct K as (b & ->)|destruct K as (b & ->)]; cbn [tail_breaks] in T; apply Forall_inv in T; eauto.
  - pose proof (psplit_total c Hc d Hd0 line) as T. destruct (psplit c d line) as [l t] eqn:E.
    destruct t; try (destruct T as (k' & D & _); eauto). exfalso.
    apply brk_nte in K; [|try exact Hd0; try exact Na..]. apply (psplit_breaks c Hc d Hd0) in K; [|exact Na|exact Nq]. rewrite E in K. destruct K.
Qed.
End T.
