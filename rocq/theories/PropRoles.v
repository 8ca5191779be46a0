(** C58: a setup matters only through the roles it gives to characters that occur in the text.  Vocabulary:
    [same_role c1 c2 x] (Roles.v): [x] is the quote in both setups or in neither, an escape in both or in neither, trimmed
    on the left in both or in neither, and so on the right; [same_roles c1 c2 text]: so has every character of [text];
    [opened], [reads], [alike] (ParserApi.v), [rows_of], [ends_escaped], [empty_row] (ParserSpec.v): as for C25. *)
From Verif Require Import Base Setup Splitter SplitPure ListFacts SetupProofs SplitApi SplitRefine SplitSpecProofs Extract Converter ConvSpec Reader LineSpec Parser ParserSpec ParserApi ReaderParse ParserRows ParserOpen ParserSession ParserFacts PropParser PropMulti PropExamples Roles.

(** ** Lines *)
(** Two splitters of any history split the line alike; under multiline, unless it leaves a quote open, and then it does for
    both. *)
Theorem C58_lines : forall os1 os2 c1 c2 d s1 s2 line rest1 rest2,
  setup os1 = Some c1 -> setup os2 = Some c2 -> c_mode c1 = c_mode c2 -> c_ml c1 = c_ml c2 ->
  d <> [] -> ~ In NUL d -> ~ In NUL line -> reach c1 s1 -> reach c2 s2 -> same_roles c1 c2 line ->
  (c_ml c1 = true -> (leaves_quote_open c1 d line <-> leaves_quote_open c2 d line)) /\
  (c_ml c1 = false \/ ~ leaves_quote_open c1 d line -> split_obs c1 s1 d line rest1 = split_obs c2 s2 d line rest2).
Proof.
  intros os1 os2 c1 c2 d s1 s2 line rest1 rest2 E1 E2 Em El Hd0 Hd HN R1 R2 S.
  pose proof (setup_ok _ _ E1) as H1. pose proof (setup_ok _ _ E2) as H2.
  assert (N : nulfree line) by exact HN. assert (Hd' : nulfree d) by exact Hd.
  split.
  - intros M. rewrite <- (qo_open c1 H1 d Hd' Hd0 line M N), <- (qo_open c2 H2 d Hd' Hd0 line) by (auto; congruence).
    unfold qo. rewrite (psplit_same c1 c2 d line S). reflexivity.
  - intros Q. apply (obs_same c1 c2 d H1 H2 Hd' Hd0 Em El); auto. intros M. destruct (qo c1 d line) eqn:X; [|reflexivity].
    apply (qo_open c1 H1 d Hd' Hd0 line M N) in X. destruct Q; congruence.
Qed.
Print Assumptions C58_lines.

(** ** Documents *)
Definition reads_alike (c1 c2 : cfg) (cap : nat -> nat -> nat) (name1 name2 : str) (p1 p2 : prs) (ess : list (list elem)) (its : list item) : Prop :=
  forall i it es, nth_error its i = Some it -> nth_error ess i = Some es ->
  exists sn1 sn2, nth_error (reads c1 cap p1 ess) i = Some sn1 /\ nth_error (reads c2 cap p2 ess) i = Some sn2 /\
    alike (s_what sn1) (s_what sn2) /\ s_eof sn1 = s_eof sn2 /\ s_line sn1 = s_line sn2 /\
    (c_ml c1 = false -> ~ empty_row (it_out it) -> name1 = name2 -> s_what sn1 = s_what sn2).

Lemma reads_transfer c1 c2 cap d data its name1 p1 name2 p2 ess : fit c1 d -> fit c2 d -> enough cap -> c_mode c1 = c_mode c2 ->
  nuls_ok c1 data -> nuls_ok c2 data -> rows_of c1 d data its -> rows_of c2 d data its ->
  (c_ignhdr c1 = true -> its <> []) -> (c_ignhdr c2 = true -> its <> []) ->
  (forall it es o, In it its -> row_reading c2 d [] 0 es (it_out it) o -> row_reading c1 d [] 0 es (it_out it) o) ->
  opened c1 cap d data name1 p1 -> opened c2 cap d data name2 p2 -> Forall types ess -> reads_alike c1 c2 cap name1 name2 p1 p2 ess its.
Proof.
  intros F1 F2 Hcap Em N1 N2 R1 R2 Hh1 Hh2 T O1 O2 W i it es Hi He.
  destruct (open_rows c1 cap d Hcap data name1 p1 its O1 N1 R1 Hh1) as (X1 & M1 & q1 & PS1 & D1 & _).
  destruct (open_rows c2 cap d Hcap data name2 p2 its O2 N2 R2 Hh2) as (X2 & M2 & q2 & PS2 & D2 & _).
  destruct (reads_rows c1 d F1 cap Hcap ess _ _ _ _ _ _ _ PS1 D1 W i it es Hi He) as (o1 & sn1 & A1 & B1 & C1 & E1 & G1 & _).
  destruct (reads_rows c2 d F2 cap Hcap ess _ _ _ _ _ _ _ PS2 D2 W i it es Hi He) as (o2 & sn2 & A2 & B2 & C2 & E2 & G2 & _).
  rewrite X1 in C1. rewrite X2 in C2. apply (T it) in B2; [|eapply nth_error_In; exact Hi].
  assert (SH : forall k1 k2 o g, shown c2 name2 k1 k2 o g -> shown c1 name2 k1 k2 o g) by (unfold shown; rewrite Em; auto). apply SH in C2.
  exists sn1, sn2. split; [exact A1|]. split; [exact A2|]. split; [eapply shown_alike; [exact B1|exact B2|exact C1|exact C2]|].
  split; [congruence|]. split; [congruence|]. intros Hm Hne <-.
  pose proof (reading_det c1 d _ _ _ _ _ _ B1 B2) as RD. destruct o1 as [v1|m1], o2 as [v2|m2]; try contradiction; cbn [shown] in C1, C2.
  - congruence.
  - destruct (RD Hne) as [_ RM]. rewrite (RM Hm) in C1. destruct (c_mode c1); congruence.
Qed.

(** Two setups that differ only in characters that do not occur give the same rows, and parsers of both show the same,
    call by call; with the same text of messages if rows do not span lines and the names are the same. *)
Theorem C58_documents : forall c1 c2 cap d data its name1 p1 name2 p2 ess,
  fit c1 d -> fit c2 d -> enough cap -> c_mode c1 = c_mode c2 -> c_ml c1 = c_ml c2 -> c_mlsize c1 = c_mlsize c2 ->
  c_ignempty c1 = c_ignempty c2 -> c_ignhdr c1 = c_ignhdr c2 -> same_roles c1 c2 data -> nuls_ok c1 data ->
  rows_of c1 d data its -> (c_ignhdr c1 = true -> its <> []) ->
  opened c1 cap d data name1 p1 -> opened c2 cap d data name2 p2 -> Forall types ess ->
  rows_of c2 d data its /\ reads_alike c1 c2 cap name1 name2 p1 p2 ess its.
Proof.
  intros c1 c2 cap d data its name1 p1 name2 p2 ess F1 F2 Hcap Em El Es Ei Eh S N R Hh O1 O2 W.
  pose proof F1 as [H1 Hd Hd0 _]. pose proof F2 as [H2 _ _ _]. change (nulfree d) in Hd.
  assert (OK : okt c1 c2 data) by (split; [exact S|exact N]).
  assert (R2 : rows_of c2 d data its) by (eapply (rows_same c1 c2 d H1 H2 Hd Hd0 El Es Ei Eh); eauto). split; [exact R2|].
  eapply (reads_transfer c1 c2 cap d data its); eauto; try (intros M; rewrite <- ?El, <- ?Eh in M; auto; fail).
  intros it es o I B. apply (reading_same c1 c2 d H1 H2 Hd Hd0 Em El); [|exact B].
  pose proof (rows_whole c1 c2 d H1 Hd Hd0 data its OK R) as FW. rewrite Forall_forall in FW. apply FW. exact I.
Qed.
Print Assumptions C58_documents.

(** ** Turning multiline on *)
(** Turning multiline on, with whatever limit, changes nothing for a document each line of which splits by itself and does
    not end in an odd number of escape characters. *)
Theorem C58_multiline_on : forall c1 c2 cap d data its name1 p1 name2 p2 ess,
  fit c1 d -> fit c2 d -> enough cap -> c_mode c1 = c_mode c2 -> c_ml c1 = false -> ~ In NUL data ->
  c_ignempty c1 = c_ignempty c2 -> c_ignhdr c1 = c_ignhdr c2 -> same_roles c1 c2 data ->
  rows_of c1 d data its -> (c_ignhdr c1 = true -> its <> []) ->
  (forall it t, In it its -> it_out it = Complete t -> ~ ends_escaped (c_escape c1) t /\ exists cols, split_obs c1 sp_init d t [] = SFields cols) ->
  opened c1 cap d data name1 p1 -> opened c2 cap d data name2 p2 -> Forall types ess ->
  rows_of c2 d data its /\ reads_alike c1 c2 cap name1 name2 p1 p2 ess its.
Proof.
  intros c1 c2 cap d data its name1 p1 name2 p2 ess F1 F2 Hcap Em M1 N Ei Eh S R Hh G O1 O2 W.
  pose proof F1 as [H1 Hd Hd0 _]. pose proof F2 as [H2 _ _ _]. change (nulfree d) in Hd.
  assert (OK : okt c1 c1 data) by (split; [intros x _; unfold same_role; tauto|intros _; exact N]).
  assert (SI : forall it t, In it its -> it_out it = Complete t -> single c1 c2 d t).
  { intros it t I E. destruct (G it t I E) as [G1 G2]. assert (P : incl t data).
    { eapply (rows_incl c1 d M1); eauto. }
    repeat (apply conj); auto; [intros K; apply N, P, K|]. intros x K. apply S, P, K. }
  assert (R2 : rows_of c2 d data its) by (eapply (rows_on c1 c2 d H1 H2 Hd Hd0 M1 Em Ei Eh); eauto). split; [exact R2|].
  eapply (reads_transfer c1 c2 cap d data its); eauto; try (intros M; rewrite <- ?Eh in M; auto; fail); try (intros M X; exact (N X)).
  intros it es o I B. destruct (it_out it) as [t|w] eqn:E.
  - apply (reading_on c1 c2 d H1 H2 Hd Hd0 M1 Em); [exact (SI it t I E)|exact B].
  - inversion B. constructor.
Qed.
Print Assumptions C58_multiline_on.

(** ** Options that are not used *)
(** The setup without quoting, escaping, trimming and multiline. *)
Definition bare (c : cfg) : cfg := mkCfg None [] [] [] false 0 (c_mode c) (c_ignhdr c) (c_ignempty c).
(** No character of the text has a role. *)
Definition unused (c : cfg) (text : str) : Prop :=
  forall x, In x text -> c_quote c <> Some x /\ ~ In x (c_escape c) /\ ~ In x (c_triml c) /\ ~ In x (c_trimr c).

Lemma bare_normal c d : forall s keep acc, match normal (bare c) d keep false acc s with FNext _ _ | FLast _ => True | _ => False end.
Proof.
  induction s as [|h s IH]; intros keep acc; cbn [normal]; [exact Logic.I|]. destruct keep as [|k]; [|apply IH].
  destruct (md (bare c) d (h :: s)); [exact Logic.I|exact Logic.I|]. unfold escape_match. cbn [bare c_escape mem existsb]. apply IH.
Qed.
Lemma bare_fields c d : d <> [] -> forall fuel total s, length s < fuel -> snd (fields (bare c) d fuel total s) = TOk.
Proof.
  intros Hd0. induction fuel as [|f IH]; intros total s H; [lia|]. cbn [fields].
  pose proof (field_len (bare c) d Hd0 s (total - length s)) as FL.
  assert (K : match field (bare c) d (total - length s) s with FNext _ _ | FLast _ => True | _ => False end).
  { unfold field. destruct s as [|h r]; [exact Logic.I|]. unfold quote_match. cbn [bare c_quote]. apply bare_normal. }
  destruct (field (bare c) d (total - length s) s) as [a rest|a|a|a| |p e]; try contradiction; [|reflexivity].
  specialize (IH total rest ltac:(lia)). destruct (fields (bare c) d f total rest) as [l t]. exact IH.
Qed.
Lemma bare_psplit c d t : d <> [] -> snd (psplit (bare c) d t) = TOk.
Proof. intros Hd0. unfold psplit. apply bare_fields; [exact Hd0|]. pose proof (dropc_length (c_triml (bare c)) t). lia. Qed.
Lemma bare_fit c d : fit c d -> fit (bare c) d.
Proof.
  intros [H Hd Hd0 _]. constructor; auto; [|discriminate].
  constructor; cbn; auto; try discriminate; try (intros x []); try (intros x _ []).
Qed.
(** A setup is as good as the bare one on a text that does not use it. *)
Theorem C58_unused_options : forall c cap d data its name1 p1 name2 p2 ess,
  fit c d -> enough cap -> ~ In NUL data -> unused c data ->
  rows_of (bare c) d data its -> (c_ignhdr c = true -> its <> []) ->
  opened (bare c) cap d data name1 p1 -> opened c cap d data name2 p2 -> Forall types ess ->
  rows_of c d data its /\ reads_alike (bare c) c cap name1 name2 p1 p2 ess its.
Proof.
  intros c cap d data its name1 p1 name2 p2 ess F Hcap N U R Hh O1 O2 W. pose proof (bare_fit c d F) as FB. pose proof F as [H Hd Hd0 _].
  apply (C58_multiline_on (bare c) c cap d data its); auto.
  - intros x K. destruct (U x K) as (A & B & C & D). unfold same_role. cbn [bare c_quote c_escape c_triml c_trimr In].
    split; [split; [discriminate|intros X; contradiction]|]. tauto.
  - intros it t I E. split.
    + intros (a & es & _ & Fe & _ & k & Lk). destruct es as [|x es]; [cbn in Lk; lia|]. inversion Fe as [|? ? [] _].
    + assert (Nt : nulfree t) by (intros K; apply N; exact (rows_incl (bare c) d eq_refl data its R it t I E _ K)).
      pose proof (split_obs_psplit (bare c) (fit_cfg _ _ FB) d Hd Hd0 sp_init t [] _ _ (reach_init _) Nt (surjective_pairing _)) as O.
      rewrite (bare_psplit c d t Hd0) in O. cbn [report junk] in O. eauto.
Qed.
Print Assumptions C58_unused_options.

(** ** Examples *)
(** The setup [rich] of PropExamples.v, and one with a further escape, other trimming and without ignore_header; they differ
    in ^, # and the tabulator only. *)
Definition richer_opts : list opt :=
  [OQuote """"%char; OEscape ["^"%char; "\"%char]; OTrimLeft [" "%char; "#"%char]; OTrimRight [ascii_of_nat 9; " "%char]; OMultiline 0 true; OStringError; OIgnoreEmpty].
Definition richer : cfg := mkCfg (Some """"%char) ["^"%char; "\"%char] [" "%char; "#"%char] [ascii_of_nat 9; " "%char] true 0 EString false true.
Lemma rich_same : same_roles rich richer rich_data.
Proof.
  assert (K : forallb (fun x => negb (Ascii.eqb x "^"%char) && negb (Ascii.eqb x "#"%char) && negb (Ascii.eqb x (ascii_of_nat 9))) rich_data = true) by reflexivity.
  intros x I. rewrite forallb_forall in K. specialize (K x I). rewrite !Bool.andb_true_iff, !Bool.negb_true_iff, !Ascii.eqb_neq in K. destruct K as [[K1 K2] K3].
  unfold same_role. cbn [rich richer c_quote c_escape c_triml c_trimr In].
  assert (E : forall y : ascii, x <> y -> (y = x <-> False)) by (intros y Y; split; [congruence|tauto]).
  rewrite (E _ K1), (E _ K2), (E _ K3). tauto.
Qed.
Example C58_example : setup richer_opts = Some richer /\ fit rich (S2 ",") /\ fit richer (S2 ",") /\ same_roles rich richer rich_data /\ nuls_ok rich rich_data /\
  exists its p1 p2, rows_of rich (S2 ",") rich_data its /\ opened rich as_needed (S2 ",") rich_data (S2 "data.csv") p1 /\
    opened richer as_needed (S2 ",") rich_data (S2 "data.csv") p2 /\
    reads_alike rich richer as_needed (S2 "data.csv") (S2 "data.csv") p1 p2 (repeat [text; int32] 6) its /\
    map s_what (reads rich as_needed p1 (repeat [text; int32] 7)) = rich_rows /\ map s_what (reads richer as_needed p2 (repeat [text; int32] 7)) = rich_rows.
Proof.
  destruct C25_setup_example as (_ & F & Hc & W & _). assert (E : setup richer_opts = Some richer) by reflexivity.
  assert (F2 : fit richer (S2 ",")).
  { split; [exact (setup_ok _ _ E)| | |]; [cbn; intros [H|[]]; discriminate|discriminate|]. intros _ x [-> | ->]; split; vm_compute; intuition discriminate. }
  assert (N : nuls_ok rich rich_data) by (intros _; vm_compute; intuition discriminate).
  split; [exact E|]. split; [exact F|]. split; [exact F2|]. split; [exact rich_same|]. split; [exact N|].
  destruct (C25_documents_have_rows rich as_needed (S2 ",") rich_data F Hc N) as (its & R & _ & _); [discriminate|].
  assert (O1 : opened rich as_needed (S2 ",") rich_data (S2 "data.csv") _) by (apply op_file; vm_compute; reflexivity).
  assert (O2 : opened richer as_needed (S2 ",") rich_data (S2 "data.csv") _) by (apply op_file; vm_compute; reflexivity).
  assert (Hh : c_ignhdr rich = true -> its <> []) by discriminate.
  exists its. eexists. eexists. split; [exact R|]. split; [exact O1|]. split; [exact O2|]. split; [|split; vm_compute; reflexivity].
  eapply (C58_documents rich richer as_needed); try eassumption; try reflexivity; [exact rich_same|]. repeat (constructor; [exact W|]). constructor.
Qed.
Print Assumptions C58_example.
(** A character whose role differs does make a difference. *)
Example C58_roles_matter : split_obs rich sp_init (S2 ",") (S2 "a^,b") [] = SFields [S2 "a^"; S2 "b"] /\
  split_obs richer sp_init (S2 ",") (S2 "a^,b") [] = SFields [S2 "a,b"].
Proof. split; vm_compute; reflexivity. Qed.
(** Turning multiline on for two rows that are quoted and escaped. *)
Definition single_rich : cfg := mkCfg (Some """"%char) ["\"%char] [" "%char] [" "%char] false 0 EString false true.
Definition single_data : str := S2 """a,\"""",1" ++ LF :: S2 "b\\,2".
Example C58_multiline_example : fit single_rich (S2 ",") /\ exists its p1 p2,
  rows_of single_rich (S2 ",") single_data its /\
  opened single_rich as_needed (S2 ",") single_data (S2 "x") p1 /\
  opened (with_limit 1 rich) as_needed (S2 ",") single_data (S2 "x") p2 /\
  rows_of (with_limit 1 rich) (S2 ",") single_data its /\
  reads_alike single_rich (with_limit 1 rich) as_needed (S2 "x") (S2 "x") p1 p2 (repeat [text; int32] 2) its /\
  map s_what (reads (with_limit 1 rich) as_needed p2 (repeat [text; int32] 2)) = [GValues [VStr (S2 "a,"""); VInt 1]; GValues [VStr (S2 "b\"); VInt 2]].
Proof.
  destruct C25_setup_example as (_ & F & Hc & W & _).
  assert (E1 : setup [OQuote """"%char; OEscape ["\"%char]; OTrim [" "%char]; OStringError; OIgnoreEmpty] = Some single_rich) by reflexivity.
  assert (E2 : setup [OQuote """"%char; OEscape ["\"%char]; OTrim [" "%char]; OMultiline 1 true; OStringError; OIgnoreEmpty] = Some (with_limit 1 rich)) by reflexivity.
  assert (F1 : fit single_rich (S2 ",")).
  { split; [exact (setup_ok _ _ E1)| | |discriminate]; [cbn; intros [H|[]]; discriminate|discriminate]. }
  assert (F2 : fit (with_limit 1 rich) (S2 ",")).
  { split; [exact (setup_ok _ _ E2)| | |]; [cbn; intros [H|[]]; discriminate|discriminate|]. intros _ x [-> | ->]; split; cbn; intros [H|[]]; discriminate. }
  split; [exact F1|]. assert (P : ~ In NUL single_data) by (vm_compute; intuition discriminate).
  assert (D : rows_of single_rich (S2 ",") single_data [mkItem (Complete (S2 """a,\"""",1")) 1 1 [(S2 "b\\,2", [])]; mkItem (Complete (S2 "b\\,2")) 2 2 []]).
  { assert (NB : forall t e ls, t <> [] -> blanks single_rich ((t, e) :: ls) 0 ((t, e) :: ls)) by (intros t e ls H; apply bl_none; intros e' ls' _ X; congruence).
    assert (ND : forall t u w, ~ goes_on single_rich (S2 ",") t u w) by (intros t u w G; inversion G; discriminate).
    exists 0, [(S2 """a,\"""",1", [LF]); (S2 "b\\,2", [])]. split.
    - eapply st_all; [reflexivity| |apply NB; discriminate]. apply ph_lf; [vm_compute; intuition discriminate|intros t' X; apply (f_equal (fun l => last l NUL)) in X; rewrite last_last in X; discriminate X|].
      apply ph_last; [discriminate|vm_compute; intuition discriminate].
    - eapply (doc_row single_rich (S2 ",") 0 _ _ _ _ 0 _ 0); [apply row_done, ND|apply NB; discriminate|].
      eapply (doc_row single_rich (S2 ",") 1 _ _ _ _ 0 _ 0); [apply row_done, ND|apply bl_none; discriminate|constructor]. }
  assert (O1 : opened single_rich as_needed (S2 ",") single_data (S2 "x") _) by (apply op_file; vm_compute; reflexivity).
  assert (O2 : opened (with_limit 1 rich) as_needed (S2 ",") single_data (S2 "x") _) by (apply op_file; vm_compute; reflexivity).
  eexists. eexists. eexists. split; [exact D|]. split; [exact O1|]. split; [exact O2|]. apply and_assoc. split; [|vm_compute; reflexivity].
  eapply (C58_multiline_on single_rich (with_limit 1 rich) as_needed); try eassumption; try reflexivity; try discriminate.
  - intros x _. unfold same_role. cbn. tauto.
  - intros it t [<-|[<-|[]]] X; cbn [it_out] in X; injection X as <-; (split; [|eexists; vm_compute; reflexivity]).
    + intros K. apply odd_ends_escaped in K. discriminate K.
    + intros K. apply odd_ends_escaped in K. discriminate K.
  - repeat (constructor; [exact W|]). constructor.
Qed.
Print Assumptions C58_multiline_example.
