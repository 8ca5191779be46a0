(** C62: asking for a more permissive type never loses a row, and keeps the values. *)
From Verif Require Import Base Setup Splitter SplitPure ListFacts SetupProofs SplitApi Extract Converter ConvSpec ExtractProofs ConvProofs ConvTheorems Reader LineSpec Parser ParserSpec ParserApi ParserRows ParserOpen ParserSession ParserFacts PropParser PropMulti PropExamples.
Local Open Scope Z_scope.

(** Every number of the type [i] is one of the type [j]. *)
Definition int_wider (i j : ity) : Prop :=
  if i_signed i then i_signed j = true /\ (i_bits i <= i_bits j)%nat
  else if i_signed j then (i_bits i < i_bits j)%nat else (i_bits i <= i_bits j)%nat.
(** [wider t u]: [u] takes all that [t] takes: a wider integer; a string; an optional; a variant that begins with it; a
    variant with further alternatives. *)
Inductive wider : ty -> ty -> Prop :=
| wd_same t : wider t t
| wd_int i j : int_wider i j -> wider (TInt i) (TInt j)
| wd_int_wrap i j : int_wider i j -> wider (TInt i) (TWrap j)
| wd_wrap_int i j : int_wider i j -> wider (TWrap i) (TInt j)
| wd_wrap i j : int_wider i j -> wider (TWrap i) (TWrap j)
| wd_string t : wider t TString
| wd_opt t u : wider t u -> wider t (TOpt u)
| wd_inside t u : wider t u -> wider (TOpt t) (TOpt u)
| wd_first t u us : wider t u -> wider t (TVar (u :: us))
| wd_more ts us : wider (TVar ts) (TVar (ts ++ us)).
(** [as_read v w]: the value [w] of the more permissive type stands for the value [v]: the same, or the text of it, or it in
    an optional or in a variant; an optional without value may get one. *)
Inductive as_read : val -> val -> Prop :=
| ar_same v : as_read v v
| ar_text t s v : converts t s v -> as_read v (VStr s)
| ar_opt v w : as_read v w -> as_read v (VOpt (Some w))
| ar_inside v w : as_read v w -> as_read (VOpt (Some v)) (VOpt (Some w))
| ar_absent o : as_read (VOpt None) (VOpt o)
| ar_first v w : as_read v w -> as_read v (VVar 0 w).

Lemma pow_mono a b : (a <= b)%nat -> 2 ^ Z.of_nat a <= 2 ^ Z.of_nat b.
Proof. intros H. apply Z.pow_le_mono_r; lia. Qed.
Lemma int_widen i j s z : wf i -> wf j -> int_wider i j -> denotes (i_signed i) s z -> in_range (i_signed i) (i_bits i) z ->
  denotes (i_signed j) s z /\ in_range (i_signed j) (i_bits j) z.
Proof.
  intros Wi Wj H D R. unfold int_wider in H. unfold in_range in *.
  assert (DS : (i_signed i = true -> i_signed j = true) -> denotes (i_signed j) s z) by (intros K; inversion D; subst; constructor; auto).
  destruct (i_signed i).
  - destruct H as [H1 H2]. rewrite H1 in *. split; [apply DS; auto|]. unfold wf in *.
    assert (2 ^ (Z.of_nat (i_bits i) - 1) <= 2 ^ (Z.of_nat (i_bits j) - 1)) by (apply Z.pow_le_mono_r; lia). lia.
  - destruct (i_signed j).
    + split; [apply DS; discriminate|]. assert (2 ^ Z.of_nat (i_bits i) <= 2 ^ (Z.of_nat (i_bits j) - 1)) by (apply Z.pow_le_mono_r; lia).
      assert (0 < 2 ^ (Z.of_nat (i_bits j) - 1)) by (apply Z.pow_pos_nonneg; unfold wf in *; lia). lia.
    + split; [apply DS; discriminate|]. pose proof (pow_mono _ _ H). lia.
Qed.
(** Every text either denotes a value of the type or none. *)
Lemma converts_dec t s : wfty t -> (exists v, converts t s v) \/ (forall v, ~ converts t s v).
Proof.
  intros W. pose proof (extract_decides (map Some s ++ [Some NUL]) 0 (length s) s) as K.
  assert (HR : range_str (map Some s ++ [Some NUL]) 0 (length s) = Some s) by (apply (range_str_mid [] s [Some NUL]); reflexivity).
  specialize (K HR). assert (HC : 0%nat = length s -> exists x, rd (map Some s ++ [Some NUL]) 0 = Some x) by (destruct s; [intros _; exists NUL; reflexivity|discriminate]).
  specialize (K HC t W). destruct (extract (map Some s ++ [Some NUL]) (0%nat, length s) t) as [[[] [v|]]|]; cbn [decides] in K; try contradiction; [left; eauto|right; exact K|right; exact K].
Qed.
Lemma widen t u : wider t u -> wfty t -> wfty u -> forall s v, converts t s v -> exists w, converts u s w /\ as_read v w.
Proof.
  induction 1 as [t|i j H|i j H|i j H|i j H|t|t u H IH|t u H IH|t u us H IH|ts us]; intros Wt Wu s v C.
  - exists v. split; [exact C|constructor].
  - destruct C as (z & -> & D & R). exists (VInt z). split; [|constructor]. exists z. split; [reflexivity|]. exact (int_widen i j s z Wt Wu H D R).
  - destruct C as (z & -> & D & R). exists (VInt z). split; [|constructor]. exists z. split; [reflexivity|]. exact (int_widen i j s z Wt Wu H D R).
  - destruct C as (z & -> & D & R). exists (VInt z). split; [|constructor]. exists z. split; [reflexivity|]. exact (int_widen i j s z Wt Wu H D R).
  - destruct C as (z & -> & D & R). exists (VInt z). split; [|constructor]. exists z. split; [reflexivity|]. exact (int_widen i j s z Wt Wu H D R).
  - exists (VStr s). split; [reflexivity|]. eapply ar_text; exact C.
  - destruct (IH Wt Wu s v C) as (w & A & B). exists (VOpt (Some w)). split; [exact A|constructor; exact B].
  - cbn [converts] in C. destruct v as [| | | | | |[v|]| |]; try contradiction.
    + destruct (IH Wt Wu s v C) as (w & A & B). exists (VOpt (Some w)). split; [exact A|apply ar_inside; exact B].
    + destruct (converts_dec u s Wu) as [(w & A)|A]; [exists (VOpt (Some w))|exists (VOpt None)]; (split; [exact A|apply ar_absent]).
  - destruct (IH Wt (proj1 Wu) s v C) as (w & A & B). exists (VVar 0 w). split; [|constructor; exact B]. cbn. left. exists w. auto.
  - exists v. split; [|constructor]. cbn [converts] in *. clear Wt Wu. generalize dependent 0%nat. induction ts as [|t ts IH]; intros n C; [contradiction|].
    cbn [app]. destruct C as [C|[C1 C2]]; [left; exact C|]. right. split; [exact C1|]. apply IH. exact C2.
Qed.

(** [permits e f]: [f] takes all that [e] takes: a wider type, no restriction instead of one, a restriction that lets all
    pass that the old one did. *)
Inductive permits : elem -> elem -> Prop :=
| pm_void : permits EVoid EVoid
| pm_val t u : wider t u -> permits (EVal t) (EVal u)
| pm_free t r u : wider t u -> permits (ERes t r) (EVal u)
| pm_res t r r' : (forall v, passes t r v -> passes t r' v) -> permits (ERes t r) (ERes t r').

Lemma permits_col e f s o : permits e f -> wfelem e -> wfelem f -> col_ok e s o ->
  match o with None => col_ok f s None | Some v => exists w, col_ok f s (Some w) /\ as_read v w end.
Proof.
  intros P We Wf C. inversion P as [|t u H|t r u H|t r r' H]; subst; inversion C as [|t0 s0 v K|t0 r0 s0 v K K2]; subst.
  - constructor.
  - destruct (widen t u H We Wf s v K) as (w & A & B). exists w. split; [constructor; exact A|exact B].
  - destruct (widen t u H (proj1 We) Wf s v K) as (w & A & B). exists w. split; [constructor; exact A|exact B].
  - exists v. split; [constructor; [exact K|apply H; exact K2]|constructor].
Qed.
Lemma permits_row es ss vs : row_ok es ss vs -> forall fs, Forall2 permits es fs -> Forall wfelem es -> Forall wfelem fs -> exists ws, row_ok fs ss ws /\ Forall2 as_read vs ws.
Proof.
  induction 1 as [|e s es ss vs C R IH|e s v es ss vs C R IH]; intros fs P We Wf; inversion P as [|x f y fs' P1 P2]; subst; [exists []; split; constructor| |];
    inversion We; inversion Wf; subst; destruct (IH fs' P2) as (ws & A & B); auto; pose proof (permits_col e f s _ P1 ltac:(assumption) ltac:(assumption) C) as K; cbn in K.
  - exists ws. split; [apply ro_skip; assumption|exact B].
  - destruct K as (w & K1 & K2). exists (w :: ws). split; [apply ro_cons; assumption|constructor; assumption].
Qed.
Lemma permits_converted mp n es fs cols vs : Forall2 permits es fs -> Forall wfelem es -> Forall wfelem fs -> converted mp n es cols (inl vs) ->
  exists ws, converted mp n fs cols (inl ws) /\ Forall2 as_read vs ws.
Proof.
  intros P We Wf C. inversion C as [ps vs' T L R| | | |]; subst. destruct (permits_row es ps vs R fs P We Wf) as (ws & A & B).
  exists ws. split; [|exact B]. apply cd_values with ps; auto. rewrite <- L. symmetry. clear - P. induction P; cbn; congruence.
Qed.

(** ** One conversion *)
Lemma permits_reading c d mp n es fs out vs : Forall2 permits es fs -> Forall wfelem es -> Forall wfelem fs -> row_reading c d mp n es out (inl vs) ->
  exists ws, row_reading c d mp n fs out (inl ws) /\ Forall2 as_read vs ws.
Proof.
  intros P We Wf R. inversion R; subst. destruct (permits_converted mp n es fs _ vs P We Wf ltac:(eassumption)) as (ws & A & B).
  exists ws. split; [eapply rd_row; eassumption|exact B].
Qed.

(** One conversion: a line that converts to the types [es] converts to the more permissive types [fs], and the values are
    those.  [v1], [v2]: the converter after any history; both with the same fields selected. *)
Theorem C62_convert : forall os c d v1 v2 line rest es fs vs, setup os = Some c -> nulfree d -> d <> [] -> vreach c v1 -> vreach c v2 ->
  v_map v1 = v_map v2 -> v_ncols v1 = v_ncols v2 -> nulfree line -> Forall wfelem es -> Forall wfelem fs -> es <> [] -> Forall2 permits es fs ->
  convert_obs c d v1 line rest es = CValues (map Some vs) ->
  exists ws, convert_obs c d v2 line rest fs = CValues (map Some ws) /\ Forall2 as_read vs ws.
Proof.
  intros os c d v1 v2 line rest es fs vs Hs Hd Hd0 V1 V2 Em En HR We Wf He P E.
  assert (Hne : line <> []). { intros ->. pose proof (empty_line c d v1 rest es V1 We He) as K. rewrite E in K. exact K. }
  pose proof (convert_line_thm os c Hs d Hd v1 line rest es V1 HR Hne We) as K1.
  pose proof (convert_line_thm os c Hs d Hd v2 line rest fs V2 HR Hne Wf) as K2.
  destruct (split_obs c sp_init d line rest); [|congruence|congruence|contradiction].
  destruct K1 as (o1 & C1 & K1), K2 as (o2 & C2 & ->). rewrite E in K1. change (CValues (map Some vs)) with (show c (inl vs)) in K1. apply show_inj in K1.
  destruct o1 as [vs1|]; [|contradiction]. subst vs1. destruct (permits_converted _ _ _ _ _ _ P We Wf C1) as (ws & A & B). rewrite Em, En in A.
  assert (o2 = inl ws) by (eapply converted_fun; eauto). subst o2. exists ws. split; [reflexivity|exact B].
Qed.
Print Assumptions C62_convert.

(** A whole document: two parsers on it, one asked for the types [ess], the other for the more permissive [fss].  A row the
    first parser returns, the second returns too, with those values, and both are at the same place in the document. *)
Theorem C62_rows : forall c cap d data its name1 p1 name2 p2 ess fss,
  fit c d -> enough cap -> nuls_ok c data -> rows_of c d data its -> (c_ignhdr c = true -> its <> []) ->
  opened c cap d data name1 p1 -> opened c cap d data name2 p2 -> Forall types ess -> Forall types fss -> Forall2 (Forall2 permits) ess fss ->
  forall i it es, nth_error its i = Some it -> nth_error ess i = Some es ->
  exists sn1 sn2, nth_error (reads c cap p1 ess) i = Some sn1 /\ nth_error (reads c cap p2 fss) i = Some sn2 /\
    (forall vs, s_what sn1 = GValues vs -> exists ws, s_what sn2 = GValues ws /\ Forall2 as_read vs ws) /\
    s_eof sn1 = s_eof sn2 /\ s_line sn1 = s_line sn2.
Proof.
  intros c cap d data its name1 p1 name2 p2 ess fss F Hcap N R Hh O1 O2 W1 W2 P i it es Hi He.
  assert (HF : exists fs, nth_error fss i = Some fs /\ Forall2 permits es fs).
  { clear - P He. revert i He. induction P as [|x y l m Hx P IH]; intros [|i] He; try discriminate; cbn in He |- *; [|exact (IH i He)].
    injection He as <-. eauto. }
  destruct HF as (fs & Hf & Pf).
  destruct (open_rows _ cap d Hcap data name1 p1 its O1 N R Hh) as (X1 & M1 & q1 & PS1 & D1 & _).
  destruct (open_rows _ cap d Hcap data name2 p2 its O2 N R Hh) as (X2 & M2 & q2 & PS2 & D2 & _).
  destruct (reads_rows _ d F cap Hcap ess _ _ _ _ _ _ _ PS1 D1 W1 i it es Hi He) as (o1 & sn1 & A1 & B1 & C1 & E1 & G1 & K1).
  destruct (reads_rows _ d F cap Hcap fss _ _ _ _ _ _ _ PS2 D2 W2 i it fs Hi Hf) as (o2 & sn2 & A2 & B2 & C2 & E2 & G2 & K2).
  exists sn1, sn2. split; [exact A1|]. split; [exact A2|]. split; [|split; congruence]. intros vs Ev.
  assert (o1 = inl vs). { unfold shown in C1. destruct o1 as [vs1|]; [congruence|]. destruct (c_mode c); congruence. } subst o1.
  pose proof (proj1 (Forall_forall _ _) W1 es (nth_error_In _ _ He)) as Te. pose proof (proj1 (Forall_forall _ _) W2 fs (nth_error_In _ _ Hf)) as Tf.
  destruct (permits_reading c d _ _ es fs _ vs Pf (proj1 Te) (proj1 Tf) B1) as (ws & A & B). exists ws. split; [|exact B].
  pose proof (reading_det c d _ _ _ _ _ _ A B2) as RD.
  destruct o2 as [ws2|]; [|contradiction]. subst ws2. exact C2.
Qed.
Print Assumptions C62_rows.

(** ** Example: the document of C25, read as text and int, and as text and optional long: the row with the [x] is gained *)
Definition long_or_not : elem := EVal (TOpt (TInt (mkIty true 64))).
Example C62_example : fit rich (S2 ",") /\ nuls_ok rich rich_data /\ types [text; int32] /\ types [text; long_or_not] /\ Forall2 permits [text; int32] [text; long_or_not] /\
  exists its p, rows_of rich (S2 ",") rich_data its /\ its <> [] /\ opened rich as_needed (S2 ",") rich_data (S2 "data.csv") p /\
  map s_what (reads rich as_needed p (repeat [text; int32] 4)) = firstn 4 rich_rows /\
  map s_what (reads rich as_needed p (repeat [text; long_or_not] 4)) =
    [ GValues [VStr (S2 "a"); VOpt (Some (VInt 1))]; GValues [VStr (S2 "b" ++ [CR; LF] ++ S2 "c"); VOpt (Some (VInt 2))];
      GValues [VStr (S2 "d"); VOpt None]; GValues [VStr (S2 "e" ++ [LF] ++ S2 "f"); VOpt (Some (VInt 3))] ].
Proof.
  destruct C25_setup_example as (_ & F & Hc & W & _). assert (N : nuls_ok rich rich_data) by (intros _; vm_compute; intuition discriminate).
  split; [exact F|]. split; [exact N|]. split; [exact W|]. split. { split; [|discriminate]. repeat constructor; cbn; lia. }
  split. { constructor; [apply pm_val; constructor|]. constructor; [|constructor]. apply pm_val. apply wd_opt. apply wd_int. cbn. split; [reflexivity|lia]. }
  destruct (C25_documents_have_rows rich as_needed (S2 ",") rich_data F Hc N) as (its & R & _ & _); [discriminate|].
  assert (O1 : opened rich as_needed (S2 ",") rich_data (S2 "data.csv") _) by (apply op_file; vm_compute; reflexivity).
  exists its. eexists. split; [exact R|]. split.
  { intros ->. destruct (C25_each_row_once_in_order rich as_needed (S2 ",") rich_data _ _ [] [] F Hc N O1 R ltac:(discriminate) ltac:(constructor)) as [E _].
    pose proof (proj2 E eq_refl) as X. vm_compute in X. discriminate X. }
  split; [exact O1|]. split; vm_compute; reflexivity.
Qed.
Print Assumptions C62_example.
(** Each widening on a conversion: int to long, int8 to string, int to a variant, restrictions dropped and loosened. *)
Example C62_convert_example : let c := mkCfg None [] [] [] false 0 EBool false false in
  let es := [int32; EVal (TInt (mkIty true 8)); EVal TBool; ERes (TInt (mkIty false 16)) (RUser (fun v => match v with VInt z => z <? 10 | _ => false end) None); ERes TString RNe] in
  let fs := [EVal (TInt (mkIty true 64)); text; EVal (TVar [TBool; TString]); EVal (TInt (mkIty true 32)); text] in
  setup [] = Some c /\ Forall wfelem es /\ Forall wfelem fs /\ Forall2 permits es fs /\
  convert_obs c (S2 ",") conv_init (S2 "-7,12,true,9,x") [] es = CValues (map Some [VInt (-7); VInt 12; VBool true; VInt 9; VStr (S2 "x")]) /\
  convert_obs c (S2 ",") conv_init (S2 "-7,12,true,9,x") [] fs = CValues (map Some [VInt (-7); VStr (S2 "12"); VVar 0 (VBool true); VInt 9; VStr (S2 "x")]) /\
  (* and the other way round a row is lost *)
  convert_obs c (S2 ",") conv_init (S2 "2147483648,12,true,9,") [] es <> CValues (map Some [VInt 2147483648; VInt 12; VBool true; VInt 9; VStr []]) /\
  convert_obs c (S2 ",") conv_init (S2 "2147483648,12,true,9,") [] fs = CValues (map Some [VInt 2147483648; VStr (S2 "12"); VVar 0 (VBool true); VInt 9; VStr []]).
Proof.
  cbv zeta. split; [reflexivity|]. split. { repeat constructor; cbn; lia. } split. { repeat constructor; cbn; lia. }
  split. { repeat (apply Forall2_cons); try apply Forall2_nil; [apply pm_val, wd_int; cbn; split; [reflexivity|lia]|apply pm_val, wd_string|apply pm_val, wd_first; constructor|apply pm_free, wd_int; cbn; lia|apply pm_free; constructor]. }
  split; [vm_compute; reflexivity|]. split; [vm_compute; reflexivity|]. split; [vm_compute; discriminate|vm_compute; reflexivity].
Qed.
