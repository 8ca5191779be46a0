(** C63: characters count only by their role.  Vocabulary (Rename.v): [kept f c1 c2 d1 d2 x]: [f x] is the quote, an escape
    character, trimmed on the left, trimmed on the right in the setup [c2] exactly if [x] is so in [c1], and is the character at a
    place of the delimiter [d2] exactly if [x] is at this place of [d1]; [kept_ends f x]: [f x] is the newline, the carriage return,
    NUL exactly if [x] is; [takes_text]: void, and types and optionals that hold text; [ren_val f v]: [v] with its characters
    replaced; [ren_obs], [ren_item]: so for what split shows, and for the rows of a document. *)
From Verif Require Import Base Setup Splitter SplitPure ListFacts SetupProofs SplitApi SplitRefine SplitSpecProofs Extract Converter ConvSpec ConvProofs Reader LineSpec LineProofs Parser ParserSpec ParserApi ReaderParse ParserRows ParserOpen ParserSession ParserFacts PropParser PropExamples Roles Rename.

(** ** Lines *)
Theorem C63_lines : forall os1 os2 c1 c2 f d1 d2 s1 s2 line rest1 rest2,
  setup os1 = Some c1 -> setup os2 = Some c2 -> c_mode c1 = c_mode c2 -> c_ml c1 = c_ml c2 ->
  d1 <> [] -> d2 <> [] -> ~ In NUL d1 -> ~ In NUL d2 -> ~ In NUL line -> ~ In NUL (map f line) ->
  reach c1 s1 -> reach c2 s2 -> (forall x, In x line -> kept f c1 c2 d1 d2 x) ->
  (c_ml c1 = true -> (leaves_quote_open c1 d1 line <-> leaves_quote_open c2 d2 (map f line))) /\
  (c_ml c1 = false \/ ~ leaves_quote_open c1 d1 line ->
   split_obs c2 s2 d2 (map f line) rest2 = ren_obs f (split_obs c1 s1 d1 line rest1)).
Proof.
  intros os1 os2 c1 c2 f d1 d2 s1 s2 line rest1 rest2 E1 E2 Em El Hd1 Hd2 N1 N2 NL NL' R1 R2 S.
  pose proof (setup_ok _ _ E1) as H1. pose proof (setup_ok _ _ E2) as H2. change (nulfree d1) in N1. change (nulfree d2) in N2. change (nulfree line) in NL. change (nulfree (map f line)) in NL'.
  change (kepts f c1 c2 d1 d2 line) in S. split.
  - intros M. rewrite <- (qo_open c1 H1 d1 N1 Hd1 line M NL), <- (qo_open c2 H2 d2 N2 Hd2 (map f line)) by (auto; congruence).
    rewrite (qo_ren f c1 c2 d1 d2 Hd1 Hd2 line S). reflexivity.
  - intros Q. apply (obs_ren f c1 c2 d1 d2 Hd1 Hd2 H1 H2 N1 N2 Em El); auto. intros M. destruct (qo c1 d1 line) eqn:X; [|reflexivity].
    apply (qo_open c1 H1 d1 N1 Hd1 line M NL) in X. destruct Q; congruence.
Qed.
Print Assumptions C63_lines.

(** ** Documents *)
Definition replaced (f : ascii -> ascii) (g1 g2 : gobs) : Prop :=
  match g1, g2 with
  | GValues vs, GValues ws => ws = map (ren_val f) vs
  | GError _, GError _ | GThrown _, GThrown _ => True
  | _, _ => False
  end.
Theorem C63_documents : forall c1 c2 cap1 cap2 f d1 d2 data its name1 p1 name2 p2 ess,
  fit c1 d1 -> fit c2 d2 -> enough cap1 -> enough cap2 -> c_mode c1 = c_mode c2 -> c_ml c1 = c_ml c2 -> c_mlsize c1 = c_mlsize c2 ->
  c_ignempty c1 = c_ignempty c2 -> c_ignhdr c1 = c_ignhdr c2 ->
  (forall x, In x data -> kept f c1 c2 d1 d2 x /\ kept_ends f x) -> nuls_ok c1 data ->
  rows_of c1 d1 data its -> (c_ignhdr c1 = true -> its <> []) ->
  opened c1 cap1 d1 data name1 p1 -> opened c2 cap2 d2 (map f data) name2 p2 -> Forall types ess -> Forall (Forall takes_text) ess ->
  rows_of c2 d2 (map f data) (map (ren_item f) its) /\
  forall i it es, nth_error its i = Some it -> nth_error ess i = Some es ->
  exists sn1 sn2, nth_error (reads c1 cap1 p1 ess) i = Some sn1 /\ nth_error (reads c2 cap2 p2 ess) i = Some sn2 /\
    replaced f (s_what sn1) (s_what sn2) /\ s_eof sn1 = s_eof sn2 /\ s_line sn1 = s_line sn2 /\
    (it_rest it <> [] \/ (exists t, it_out it = Complete t) -> s_pos sn1 = s_pos sn2).
Proof.
  intros c1 c2 cap1 cap2 f d1 d2 data its name1 p1 name2 p2 ess F1 F2 Hc1 Hc2 Em El Es Ei Eh K N R Hh O1 O2 W T.
  pose proof F1 as [H1 N1 Hd1 _]. pose proof F2 as [H2 N2 Hd2 _]. change (nulfree d1) in N1. change (nulfree d2) in N2.
  assert (G : good f c1 c2 d1 d2 data) by (split; [exact K|exact N]).
  pose proof (rows_ren f c1 c2 d1 d2 Hd1 Hd2 H1 H2 N1 N2 El Es Ei Eh data its G R) as R2. split; [exact R2|].
  assert (NN : nuls_ok c2 (map f data)) by (intros M; rewrite <- El in M; exact (proj2 (good_nul f c1 c2 d1 d2 data G M))).
  intros i it es Hi He.
  destruct (open_rows c1 cap1 d1 Hc1 data name1 p1 its O1 N R Hh) as (X1 & L1 & q1 & PS1 & D1 & _).
  destruct (open_rows c2 cap2 d2 Hc2 (map f data) name2 p2 _ O2 NN R2) as (X2 & L2 & q2 & PS2 & D2 & _).
  { rewrite <- Eh. intros X. specialize (Hh X). destruct its; [contradiction|discriminate]. }
  destruct (reads_rows c1 d1 F1 cap1 Hc1 ess _ _ _ _ _ _ _ PS1 D1 W i it es Hi He) as (o1 & sn1 & A1 & B1 & C1 & E1 & G1 & P1).
  assert (Hi2 : nth_error (map (ren_item f) its) i = Some (ren_item f it)) by (rewrite nth_error_map, Hi; reflexivity).
  destruct (reads_rows c2 d2 F2 cap2 Hc2 ess _ _ _ _ _ _ _ PS2 D2 W i _ es Hi2 He) as (o2 & sn2 & A2 & B2 & C2 & E2 & G2 & P2).
  exists sn1, sn2. split; [exact A1|]. split; [exact A2|].
  pose proof (rows_sound f c1 c2 d1 d2 Hd1 H1 N1 data its G R) as SD. rewrite Forall_forall in SD. specialize (SD it (nth_error_In _ _ Hi)).
  rewrite Forall_forall in T. specialize (T es (nth_error_In _ _ He)).
  destruct (reading_ren f c1 c2 d1 d2 Hd1 Hd2 H1 H2 N1 N2 Em El _ _ _ _ _ SD T B1) as (o' & B' & RR). cbn [ren_item it_out it_line it_next it_rest] in *.
  pose proof (reading_det c2 d2 _ _ _ _ _ _ B' B2) as RD. split; [|split; [|split]].
  - unfold shown in C1, C2. rewrite <- Em in C2. destruct o1 as [vs|m1], o' as [ws|m'], o2 as [ws'|m2]; cbn [ren_read] in RR; try contradiction; subst; [rewrite C1, C2; reflexivity|].
    destruct (c_mode c1); rewrite C1, C2; exact Logic.I.
  - rewrite E1, E2, map_length. reflexivity.
  - congruence.
  - intros X. rewrite P1, P2.
    + rewrite map_length. assert (BL : forall ls, bytes (map (ren_line f) ls) = bytes ls).
      { unfold bytes. induction ls as [|[t e] ls IH]; [reflexivity|]. cbn [map concat ren_line fst snd]. rewrite !app_length, !map_length. cbn [fst snd] in *. rewrite IH. reflexivity. }
      rewrite BL. reflexivity.
    + destruct X as [X|(t & X)]; [left; destruct (it_rest it); [contradiction|discriminate]|right; rewrite X; split; discriminate].
    + destruct X as [X|(t & X)]; [left; exact X|right; rewrite X; split; discriminate].
Qed.
Print Assumptions C63_documents.

(** ** Renaming: the setup with renamed characters *)
Definition ren_opt (f : ascii -> ascii) (o : opt) : opt :=
  match o with
  | OQuote q => OQuote (f q) | OTrim cs => OTrim (map f cs) | OTrimLeft cs => OTrimLeft (map f cs) | OTrimRight cs => OTrimRight (map f cs)
  | OEscape cs => OEscape (map f cs) | o => o
  end.
Definition ren_cfg (f : ascii -> ascii) (c : cfg) : cfg :=
  mkCfg (option_map f (c_quote c)) (map f (c_escape c)) (map f (c_triml c)) (map f (c_trimr c)) (c_ml c) (c_mlsize c) (c_mode c) (c_ignhdr c) (c_ignempty c).
Section Setups.
Context (f : ascii -> ascii) (INJ : forall x y, f x = f y -> x = y) (FN : f NUL = NUL).
Lemma in_ren x l : In (f x) (map f l) <-> In x l.
Proof. rewrite in_map_iff. split; [intros (y & E & K); apply INJ in E; congruence|intros K; exists x; auto]. Qed.
Lemma mem_ren x l : mem (f x) (map f l) = mem x l.
Proof. apply iff_eqb. rewrite !mem_in. apply in_ren. Qed.
Lemma norm_ren cs : norm_pack (map f cs) = option_map (map f) (norm_pack cs).
Proof.
  unfold norm_pack. destruct cs as [|a cs]; [reflexivity|]. pose proof (mem_ren NUL (a :: cs)) as E. rewrite FN in E. cbn [map] in *. rewrite E. destruct (mem NUL (a :: cs)); [destruct cs; reflexivity|reflexivity].
Qed.
Lemma matcher_ren sel os : (forall o, sel (ren_opt f o) = option_map (map f) (sel o)) -> get_matcher sel (map (ren_opt f) os) = option_map (map f) (get_matcher sel os).
Proof.
  intros H. unfold get_matcher.
  assert (E : flat_map (fun o => match sel o with Some cs => [cs] | None => [] end) (map (ren_opt f) os) = map (map f) (flat_map (fun o => match sel o with Some cs => [cs] | None => [] end) os)).
  { induction os as [|o os IH]; [reflexivity|]. cbn [map flat_map]. rewrite IH, H, map_app. destruct (sel o); reflexivity. }
  rewrite E. destruct (flat_map _ os) as [|cs [|? ?]]; cbn [map]; [reflexivity|apply norm_ren|reflexivity].
Qed.
Lemma count_ren g os : (forall o, g (ren_opt f o) = g o) -> count g (map (ren_opt f) os) = count g os.
Proof. intros H. unfold count. induction os as [|o os IH]; [reflexivity|]. cbn [map filter]. rewrite H. destruct (g o); cbn [length]; congruence. Qed.
Lemma intersect_ren a b : intersect (map f a) (map f b) = intersect a b.
Proof. unfold intersect. induction a as [|x a IH]; [reflexivity|]. cbn [map existsb]. rewrite mem_ren, IH. reflexivity. Qed.
Lemma multiline_ren os : get_multiline (map (ren_opt f) os) = get_multiline os.
Proof. unfold get_multiline. induction os as [|o os IH]; [reflexivity|]. cbn [map find]. destruct o; cbn [ren_opt is_multiline]; try exact IH. reflexivity. Qed.
Theorem setup_ren os : setup (map (ren_opt f) os) = option_map (ren_cfg f) (setup os).
Proof.
  unfold setup. rewrite !matcher_ren by (intros []; reflexivity).
  destruct (get_matcher sel_quote os) as [q|]; [|reflexivity]. destruct (get_matcher sel_escape os) as [e|]; [|reflexivity]. destruct (get_matcher sel_trim os) as [t|]; [|reflexivity].
  destruct (get_matcher sel_triml os) as [tl|]; [|reflexivity]. destruct (get_matcher sel_trimr os) as [tr|]; [|reflexivity]. cbn [option_map].
  rewrite multiline_ren. destruct (get_multiline os) as [mls mlb]. rewrite !count_ren by (intros []; reflexivity). rewrite map_length.
  assert (EN : forall l : str, match map f l with [] => false | _ :: _ => true end = match l with [] => false | _ :: _ => true end) by (intros []; reflexivity).
  rewrite !EN.
  assert (TL : forall (b : bool) (x y : str), (if b then map f x else map f y) = map f (if b then x else y)) by (intros []; reflexivity).
  rewrite !TL, !intersect_ren. destruct (_ && _); [|reflexivity]. cbn [option_map]. unfold ren_cfg. cbn [c_quote c_escape c_triml c_trimr c_ml c_mlsize c_mode c_ignhdr c_ignempty].
  destruct q; reflexivity.
Qed.
Lemma renamed_kept c d x : kept f c (ren_cfg f c) d (map f d) x.
Proof.
  unfold kept, ren_cfg. cbn [c_quote c_escape c_triml c_trimr]. rewrite !in_ren. repeat split; try tauto.
  - intros ->. reflexivity.
  - destruct (c_quote c) as [q|]; [|discriminate]. cbn. intros E. injection E as E. apply INJ in E. congruence.
  - induction d as [|y d IH]; [constructor|]. cbn [map]. constructor; [|exact IH]. split; [intros ->; reflexivity|apply INJ].
Qed.
End Setups.
(** For every one-to-one renaming of the characters that leaves NUL alone: the renamed options compile exactly if the options do,
    to a setup in which every character has the role of the one it replaces. *)
Theorem C63_setups : forall f os, (forall x y, f x = f y -> x = y) -> f NUL = NUL ->
  (setup os = None -> setup (map (ren_opt f) os) = None) /\
  forall c, setup os = Some c -> exists c', setup (map (ren_opt f) os) = Some c' /\
    c_mode c' = c_mode c /\ c_ml c' = c_ml c /\ c_mlsize c' = c_mlsize c /\ c_ignempty c' = c_ignempty c /\ c_ignhdr c' = c_ignhdr c /\
    forall d x, kept f c c' d (map f d) x.
Proof.
  intros f os INJ FN. rewrite (setup_ren f INJ FN). split; [intros ->; reflexivity|]. intros c ->. cbn [option_map]. eexists. split; [reflexivity|].
  repeat (split; [reflexivity|]). intros d x. apply renamed_kept. exact INJ.
Qed.
Print Assumptions C63_setups.

(** ** Example: the document of C25 with all that is not part of the format blotted out, and other characters for quote, escape,
    trimming and delimiter. *)
Definition blot (x : ascii) : ascii :=
  if Ascii.eqb x ","%char then ";"%char else if Ascii.eqb x """"%char then "'"%char else if Ascii.eqb x "\"%char then "/"%char
  else if Ascii.eqb x " "%char then "_"%char else if Ascii.eqb x LF then LF else if Ascii.eqb x CR then CR else if Ascii.eqb x NUL then NUL else "x"%char.
Definition blot_opts : list opt := [OQuote "'"%char; OEscape ["/"%char]; OTrim ["_"%char]; OMultiline 0 true; OStringError; OIgnoreEmpty].
Definition blotted : cfg := mkCfg (Some "'"%char) ["/"%char] ["_"%char] ["_"%char] true 0 EString false true.
Lemma blot_kept x : kept blot rich blotted (S2 ",") (S2 ";") x /\ kept_ends blot x.
Proof.
  assert (C : x = ","%char \/ x = """"%char \/ x = "\"%char \/ x = " "%char \/ x = LF \/ x = CR \/ x = NUL \/
    (blot x = "x"%char /\ x <> ","%char /\ x <> """"%char /\ x <> "\"%char /\ x <> " "%char /\ x <> LF /\ x <> CR /\ x <> NUL)).
  { unfold blot. repeat (match goal with |- context [Ascii.eqb x ?y] => destruct (Ascii.eqb_spec x y) as [->|]; [tauto|] end). tauto. }
  assert (D : forall a b : ascii, a <> b -> (a = b <-> False)) by tauto.
  unfold kept, kept_ends, rich, blotted. cbn [c_quote c_escape c_triml c_trimr In S2 list_ascii_of_string].
  repeat (destruct C as [-> |C]; [vm_compute;
    repeat match goal with |- _ /\ _ => split | |- _ <-> _ => split | |- Forall2 _ _ _ => constructor | |- _ -> _ => intro | K : _ \/ _ |- _ => destruct K | K : False |- _ => destruct K | K : _ = _ |- _ => discriminate K end; auto; fail|]).
  destruct C as (-> & C1 & C2 & C3 & C4 & C5 & C6 & C7).
  repeat match goal with |- _ /\ _ => split | |- _ <-> _ => split | |- Forall2 _ _ _ => constructor | |- _ -> _ => intro | K : _ \/ _ |- _ => destruct K | K : False |- _ => destruct K | K : _ = _ |- _ => discriminate K end;
    match goal with K : _ = _ |- _ => try (injection K as K); congruence end.
Qed.
Example C63_example : setup blot_opts = Some blotted /\ fit rich (S2 ",") /\ fit blotted (S2 ";") /\ nuls_ok rich rich_data /\ (forall x, In x rich_data -> kept blot rich blotted (S2 ",") (S2 ";") x /\ kept_ends blot x) /\
  Forall types (repeat [text; text] 7) /\ Forall (Forall takes_text) (repeat [text; text] 7) /\
  map blot rich_data = S2 "x;x" ++ [LF] ++ S2 "'x" ++ [CR; LF] ++ S2 "x';_x_" ++ [LF] ++ [CR; LF] ++ S2 "x;x" ++ [LF] ++ S2 "x/" ++ [LF] ++ S2 "x;x" ++ [CR; LF] ++ S2 "'x'x;x" ++ [LF] ++ S2 "x;x" /\
  exists its p1 p2, rows_of rich (S2 ",") rich_data its /\ its <> [] /\ opened rich as_needed (S2 ",") rich_data (S2 "data.csv") p1 /\
  opened blotted as_needed (S2 ";") (map blot rich_data) (S2 "data.csv") p2 /\
  map s_what (reads blotted as_needed p2 (repeat [text; text] 6)) =
      [ GValues [VStr (S2 "x"); VStr (S2 "x")]; GValues [VStr (S2 "x" ++ [CR; LF] ++ S2 "x"); VStr (S2 "x")]; GValues [VStr (S2 "x"); VStr (S2 "x")];
        GValues [VStr (S2 "x" ++ [LF] ++ S2 "x"); VStr (S2 "x")]; GError (S2 "data.csv 8: mismatched quote at position: 2"); GValues [VStr (S2 "x"); VStr (S2 "x")] ].
Proof.
  destruct C25_setup_example as (_ & F & Hc & W & _). assert (E : setup blot_opts = Some blotted) by reflexivity.
  assert (F2 : fit blotted (S2 ";")).
  { split; [exact (setup_ok _ _ E)| | |]; [cbn; intros [H|[]]; discriminate|discriminate|]. intros _ x [-> | ->]; split; vm_compute; intuition discriminate. }
  assert (N : nuls_ok rich rich_data) by (intros _; vm_compute; intuition discriminate).
  split; [exact E|]. split; [exact F|]. split; [exact F2|]. split; [exact N|]. split; [intros x _; apply blot_kept|].
  split. { apply Forall_forall. intros es K. apply repeat_spec in K. subst es. split; [repeat constructor|discriminate]. }
  split. { apply Forall_forall. intros es K. apply repeat_spec in K. subst es. repeat constructor. }
  split; [vm_compute; reflexivity|].
  destruct (C25_documents_have_rows rich as_needed (S2 ",") rich_data F Hc N) as (its & R & _ & _); [discriminate|].
  assert (O1 : opened rich as_needed (S2 ",") rich_data (S2 "data.csv") _) by (apply op_file; vm_compute; reflexivity).
  assert (O2 : opened blotted as_needed (S2 ";") (map blot rich_data) (S2 "data.csv") _) by (apply op_file; vm_compute; reflexivity).
  exists its. eexists. eexists. split; [exact R|]. split.
  { intros ->. destruct (C25_each_row_once_in_order rich as_needed (S2 ",") rich_data _ _ [] [] F Hc N O1 R ltac:(discriminate) ltac:(constructor)) as [X _].
    pose proof (proj2 X eq_refl) as Y. vm_compute in Y. discriminate Y. }
  split; [exact O1|]. split; [exact O2|]. vm_compute. reflexivity.
Qed.
Print Assumptions C63_example.

(** Exchanging two characters is a renaming; an ambiguous pack of options stays ambiguous. *)
Definition exchange (a b x : ascii) : ascii := if Ascii.eqb x a then b else if Ascii.eqb x b then a else x.
Example C63_setups_example : (forall a b x y, exchange a b x = exchange a b y -> x = y) /\
  let f := exchange "," """" in f NUL = NUL /\ f LF = LF /\ f CR = CR /\
  setup (map (ren_opt f) rich_opts) = Some (mkCfg (Some ","%char) ["\"%char] [" "%char] [" "%char] true 0 EString false true) /\
  setup [OQuote """"%char; OEscape [","%char; """"%char]] = None /\ setup (map (ren_opt f) [OQuote """"%char; OEscape [","%char; """"%char]]) = None /\
  split_obs rich sp_init (S2 ",") (S2 "a,""b,c"" , d") [] = SFields [S2 "a"; S2 "b,c"; S2 "d"] /\
  split_obs (ren_cfg f rich) sp_init (S2 """") (S2 "a"",b""c, "" d") [] = SFields [S2 "a"; S2 "b""c"; S2 "d"].
Proof.
  split; [|vm_compute; repeat split].
  intros a b x y. unfold exchange. destruct (Ascii.eqb_spec x a), (Ascii.eqb_spec y a), (Ascii.eqb_spec x b), (Ascii.eqb_spec y b); congruence.
Qed.
Print Assumptions C63_setups_example.
