From Verif Require Import Base Setup Splitter SplitPure ListFacts SetupProofs SplitSpec SplitRefine SplitSpecProofs RowSpec RowProofs SplitTheorems SplitApi Extract Converter ConvSpec ConvProofs Reader LineSpec LineProofs GetLineProofs ReaderBase ReaderInv ReaderEscape ReaderParse Parser ParserSpec ParserApi ParserInv ParserRows ParserOpen ParserSession ParserFacts TableSpec.

Lemma in_split_first (x : ascii) : forall l, In x l -> exists a b, l = a ++ x :: b /\ ~ In x a.
Proof.
  induction l as [|y l IH]; intros H; [destruct H|]. destruct (ascii_dec y x) as [->|n]; [exists [], l; auto|].
  destruct H as [H|H]; [congruence|]. destruct (IH H) as (a & b & -> & N). exists (y :: a), b. split; [reflexivity|]. intros [E|E]; [congruence|auto].
Qed.
Lemma rev_case {A} (l : list A) : l = [] \/ exists a x, l = a ++ [x].
Proof. induction l as [|x l _] using rev_ind; [auto|right; eauto]. Qed.

(** [last] is the last line of [pre]. *)
Definition last_of (pre last : str) : Prop := exists a, pre = a ++ last /\ ~ In LF last /\ (a = [] \/ exists a', a = a' ++ [LF]).

Section B.
Context (c : cfg) (d : str).
Definition continues (pre : str) : Prop := forall last, last_of pre last -> exists w, goes_on c d pre last w.

Section Row.
Context (R : str) (HL : lines_ok c R).
Context (G1 : forall pre suf, R = pre ++ LF :: suf -> (forall x, pre <> x ++ [CR]) -> continues pre).
Context (G2 : forall pre suf, R = pre ++ CR :: LF :: suf -> continues pre).
Context (G3 : forall last, last_of R last -> forall w, ~ goes_on c d R last w).

Lemma build eol data ls : row_end_ok R eol data -> physical data ls -> forall k suf done n, length suf <= k -> R = done ++ suf ->
  R <> [] ->
  (done = [] \/ exists a, done = a ++ [LF]) -> n + count_occ ascii_dec suf LF = count_occ ascii_dec R LF ->
  exists t e ls1 m, physical (suf ++ eol ++ data) ((t, e) :: ls1) /\ row c d n (done ++ t) t e ls1 (Complete R) m ls.
Proof.
  intros RE P. induction k as [k IH] using (well_founded_induction lt_wf). intros suf done n Hk ER HR HD HN.
  destruct (in_dec ascii_dec LF suf) as [i|i].
  - assert (ML : c_ml c = true /\ (c_mlsize c = 0 \/ count_occ ascii_dec R LF <= c_mlsize c)).
    { destruct HL as [X|X]; [|exact X]. exfalso. apply X. rewrite ER. apply in_or_app. auto. }
    destruct (in_split_first _ _ i) as (t0 & suf' & -> & Hn).
    assert (CO : count_occ ascii_dec (t0 ++ LF :: suf') LF = S (count_occ ascii_dec suf' LF)).
    { rewrite count_occ_app. cbn [count_occ]. destruct (ascii_dec LF LF); [|congruence]. rewrite (proj1 (count_occ_not_In ascii_dec t0 LF) Hn). reflexivity. }
    assert (MA : may_add c n) by (unfold may_add; destruct ML as [_ [X|X]]; [left; exact X|right; lia]).
    assert (LO : forall t, ~ In LF t -> last_of (done ++ t) t) by (intros t Ht; exists done; auto).
    assert (K : length suf' < k) by (rewrite app_length in Hk; cbn in Hk; lia).
    destruct (rev_case t0) as [Et|(t' & x & Et)]; [|destruct (ascii_dec x CR) as [->|Hx]].
    + destruct (IH (length suf') K suf' (done ++ [LF]) (S n) (le_n _)) as (t & e & ls1 & m & P1 & R1); auto.
      { rewrite ER, Et, <- app_assoc. reflexivity. } { right. eauto. } { lia. }
      assert (GO : continues (done ++ [])) by (eapply G1 with (suf := suf'); [rewrite ER, Et, app_nil_r; reflexivity|];
        rewrite app_nil_r; intros y ->; destruct HD as [HD|[a HD]]; [destruct y; discriminate|apply app_inj_tail in HD; destruct HD; discriminate]).
      destruct (GO [] (LO [] (fun H => H))) as (w & G).
      exists [], [LF], ((t, e) :: ls1), m. rewrite Et. split; [cbn [app]; apply ph_lf with (t := []); [intros []|intros y Y; destruct y; discriminate|exact P1]|].
      eapply row_more; [exact G|exact MA|]. rewrite app_nil_r. rewrite <- app_assoc in R1. exact R1.
    + subst t0. destruct (IH (length suf') K suf' (done ++ t' ++ [CR; LF]) (S n) (le_n _)) as (t & e & ls1 & m & P1 & R1); auto.
      { rewrite ER, <- !app_assoc. reflexivity. }
      { right. exists (done ++ t' ++ [CR]). rewrite <- !app_assoc. reflexivity. } { lia. }
      assert (Ht : ~ In LF t') by (intros X; apply Hn, in_or_app; auto).
      assert (GO : continues (done ++ t')) by (eapply G2 with (suf := suf'); rewrite ER, <- !app_assoc; reflexivity).
      destruct (GO t' (LO t' Ht)) as (w & G).
      exists t', [CR; LF], ((t, e) :: ls1), m. rewrite <- !app_assoc. split; [cbn [app]; apply ph_crlf; [exact Ht|exact P1]|].
      eapply row_more; [exact G|exact MA|]. rewrite <- !app_assoc in R1. rewrite <- app_assoc. exact R1.
    + destruct (IH (length suf') K suf' (done ++ t0 ++ [LF]) (S n) (le_n _)) as (t & e & ls1 & m & P1 & R1); auto.
      { rewrite ER, <- !app_assoc. reflexivity. }
      { right. exists (done ++ t0). rewrite <- !app_assoc. reflexivity. } { lia. }
      assert (GO : continues (done ++ t0)).
      { eapply G1 with (suf := suf'); [rewrite ER, <- !app_assoc; reflexivity|]. intros y. rewrite Et, app_assoc. intros E. apply app_inj_tail in E; destruct E as [_ E]. congruence. }
      destruct (GO t0 (LO t0 Hn)) as (w & G).
      exists t0, [LF], ((t, e) :: ls1), m. rewrite <- !app_assoc. split.
      { cbn [app]; apply ph_lf; [exact Hn| |exact P1]. rewrite Et. intros y E. apply app_inj_tail in E; destruct E as [_ E]. congruence. }
      eapply row_more; [exact G|exact MA|]. rewrite <- !app_assoc in R1. rewrite <- app_assoc. exact R1.
  - assert (DN : row c d n (done ++ suf) suf eol ls (Complete R) n ls).
    { rewrite <- ER. apply row_done. apply G3. exists done. auto. }
    inversion RE as [rest Hcr|rest|Hlf]; subst eol.
    + exists suf, [LF], ls, n. split; [|exact DN]. cbn [app]. apply ph_lf; [exact i| |exact P]. intros y Y. apply (Hcr (done ++ y)). rewrite ER, Y, app_assoc. reflexivity.
    + exists suf, [CR; LF], ls, n. split; [|exact DN]. cbn [app]. apply ph_crlf; auto.
    + subst data. inversion P; subst; [|exfalso; congruence|destruct t; discriminate|destruct t; discriminate].
      exists suf, [], [], n. split; [|exact DN]. cbn [app]. rewrite app_nil_r. apply ph_last; [|exact i].
      intros ->. destruct HD as [->|[a ->]]; [apply HR; reflexivity|]. apply (Hlf a). apply app_nil_r.
Qed.
End Row.
End B.

(** ** Runs of escapes *)
Section E.
Context (c : cfg).
Lemma esc_tail_app a x b : ~ In x (c_escape c) -> esc_tail c (a ++ x :: b) = esc_tail c b.
Proof.
  intros H. unfold esc_tail. rewrite rev_app_distr. cbn [rev]. rewrite <- app_assoc. generalize (rev b) as l.
  assert (E : escape_match c x = false) by (destruct (escape_match c x) eqn:E; [apply escape_match_in in E; contradiction|reflexivity]).
  induction l as [|y l IH]; cbn; [rewrite E; reflexivity|]. cbn [app] in IH. destruct (escape_match c y); [rewrite IH|]; reflexivity.
Qed.
Lemma esc_tail_snoc a x : esc_tail c (a ++ [x]) = if escape_match c x then S (esc_tail c a) else 0.
Proof. unfold esc_tail. rewrite rev_app_distr. reflexivity. Qed.
Lemma esc_tail_end a x : ~ In x (c_escape c) -> esc_tail c (a ++ [x]) = 0.
Proof. intros H. rewrite esc_tail_app by exact H. reflexivity. Qed.
Lemma esc_tail_last pre last : ~ In LF (c_escape c) -> last_of pre last -> esc_tail c last = esc_tail c pre.
Proof.
  intros H (a & -> & _ & [->|[a' ->]]); [reflexivity|]. rewrite <- app_assoc. cbn [app]. rewrite esc_tail_app by exact H. reflexivity.
Qed.
(** An escaped field ends in an even number of escapes, counted with what stands before. *)
Lemma escape_field_tail e special X v : In e (c_escape c) -> (forall x, In x (c_escape c) -> In x special) -> Nat.even (esc_tail c X) = true ->
  Nat.even (esc_tail c (X ++ escape_field e special v)) = true.
Proof.
  intros He Hs HX. induction v as [|x v IH] using rev_ind; [cbn; rewrite app_nil_r; exact HX|].
  unfold escape_field in *. rewrite flat_map_app, app_assoc. cbn [flat_map]. rewrite app_nil_r.
  destruct (in_dec ascii_dec x special) as [i|i].
  - change ([e; x]) with ([e] ++ [x]). rewrite app_assoc, esc_tail_snoc. destruct (escape_match c x); [|reflexivity].
    rewrite esc_tail_snoc. apply escape_match_in in He. rewrite He. exact IH.
  - rewrite esc_tail_end; [reflexivity|]. intros K. apply i, Hs, K.
Qed.
End E.

(** ** Cells *)
Section C.
Context (c : cfg) (Hc : cfg_ok c) (d0 : ascii) (d' : str) (special : list ascii).
Notation d := (d0 :: d').
Context (Hcl : clean_delim (c_quote c) (c_escape c) (c_triml c) (c_trimr c) d0) (Hsp : covers c d special).
Context (Hesc : forall x, In x d -> ~ In x (c_escape c)) (Hdn : nulfree d).

Lemma quote_no_escape q : c_quote c = Some q -> ~ In q (c_escape c).
Proof. intros Hq H. apply (ok_qe c Hc q H). unfold quote_list. rewrite Hq. left. reflexivity. Qed.
Lemma plain_escape_field e v : (forall x, In x v -> ~ In x special) -> escape_field e special v = v.
Proof.
  induction v as [|x v IH]; intros H; [reflexivity|]. cbn. destruct (in_dec ascii_dec x special) as [i|i]; [exfalso; apply (H x); [left; reflexivity|exact i]|].
  cbn. unfold escape_field in IH. rewrite IH; [reflexivity|]. intros y Hy. apply H. right. exact Hy.
Qed.
Lemma plain_bare v : (forall x, In x v -> ~ In x special) -> bare (c_escape c) (c_trimr c) d0 v v.
Proof.
  induction v as [|x v IH]; intros H; [constructor|].
  assert (Hx : ~ In x special) by (apply H; left; reflexivity).
  apply ba_char; [intros K; apply Hx, Hsp; auto|intros ->; apply Hx, Hsp; cbn; auto 10| |apply IH; intros y Hy; apply H; right; exact Hy].
  intros K. exfalso. apply Hx, Hsp. auto.
Qed.
Lemma cell_padded v w : cell c special v w -> padded (c_quote c) (c_escape c) (c_triml c) (c_trimr c) d0 v w.
Proof.
  intros H. exists [], w, []. rewrite app_nil_r. repeat split; auto. destruct H as [q v Hq He|e v He|v Hv].
  - apply wr_quoted; auto. apply double_quotes_inside. apply Forall_forall. exact He.
  - apply wr_bare; [apply escape_field_bare; auto; intros x [H|[H|H]]; apply Hsp; cbn; subst; auto 10|].
    intros x Hx. destruct v as [|y v]; [discriminate|]. cbn in Hx. destruct (in_dec ascii_dec y special) as [i|n]; cbn in Hx; injection Hx as <-.
    + split; [intros E; exact (quote_no_escape _ E He)|intros Hl; exact (ok_el c Hc e He Hl)].
    + split; [intros E; apply n, Hsp; auto|intros Hl; apply n, Hsp; auto].
  - apply wr_bare; [apply plain_bare; exact Hv|]. intros x Hx. destruct v as [|y v]; [discriminate|]. injection Hx as ->.
    assert (Hy : ~ In x special) by (apply Hv; left; reflexivity). split; [intros E; apply Hy, Hsp; auto|intros Hl; apply Hy, Hsp; auto].
Qed.
Lemma cell_nulfree v w : cell c special v w -> nulfree v -> nulfree w.
Proof.
  intros H Hv. destruct H as [q v Hq He|e v He|v H]; auto.
  - apply quote_field_nulfree; auto. intros ->. exact (ok_nul_q c Hc Hq).
  - apply escape_field_nulfree; auto. intros ->. exact (ok_nul_e c Hc He).
Qed.
(** Each cell leaves an even number of escapes behind. *)
Lemma cell_tail X v w : cell c special v w -> Nat.even (esc_tail c X) = true -> Nat.even (esc_tail c (X ++ w)) = true.
Proof.
  intros H HX. destruct H as [q v Hq He|e v He|v H].
  - unfold quote_field. rewrite app_comm_cons, app_assoc, esc_tail_end; [reflexivity|]. apply quote_no_escape. exact Hq.
  - apply escape_field_tail; auto.
  - destruct (rev_case v) as [->|(a & x & ->)]; [rewrite app_nil_r; exact HX|]. rewrite app_assoc, esc_tail_end; [reflexivity|].
    intros K. apply (H x); [apply in_or_app; right; left; reflexivity|]. apply Hsp. auto.
Qed.
Lemma delim_tail X : esc_tail c (X ++ d) = 0.
Proof.
  destruct (rev_case d) as [E|(a & x & E)]; [discriminate|]. rewrite E, app_assoc. apply esc_tail_end. apply Hesc. rewrite E. apply in_or_app. right. left. reflexivity.
Qed.
Lemma cells_tail vs cells : Forall2 (cell c special) vs cells -> Nat.even (esc_tail c (flat_map (fun w => w ++ d) cells)) = true.
Proof.
  intros F. destruct (rev_case cells) as [->|(a & x & ->)]; [reflexivity|]. rewrite flat_map_app. cbn [flat_map]. rewrite app_nil_r, app_assoc, delim_tail. reflexivity.
Qed.
Lemma join_snoc ws w : join d (ws ++ [w]) = flat_map (fun w => w ++ d) ws ++ w.
Proof.
  induction ws as [|x ws IH]; [reflexivity|]. cbn [flat_map app]. destruct (ws ++ [w]) eqn:E; [destruct ws; discriminate|].
  change (join d (x :: l :: l0)) with (x ++ d ++ join d (l :: l0)). rewrite IH, <- !app_assoc. reflexivity.
Qed.
Lemma row_tail vs cells : Forall2 (cell c special) vs cells -> Nat.even (esc_tail c (join d cells)) = true.
Proof.
  intros F. destruct (rev_case cells) as [->|(a & x & ->)]; [reflexivity|]. rewrite join_snoc.
  destruct (Forall2_app_inv_r _ _ F) as (v1 & v2 & F1 & F2 & ->). inversion F2; subst. eapply cell_tail; eauto. eapply cells_tail; eauto.
Qed.
(** Cutting a row at a character that is not in the delimiter cuts a cell. *)
Lemma join_cut_at x : ~ In x d -> forall cells pre suf, join d cells = pre ++ x :: suf ->
  exists ws w us a b, cells = ws ++ w :: us /\ w = a ++ x :: b /\ pre = flat_map (fun w => w ++ d) ws ++ a.
Proof.
  intros Hx. induction cells as [|w cells IH]; intros pre suf E; [destruct pre; discriminate|].
  assert (CUT : forall l m p s, l ++ m = p ++ x :: s -> (exists b, l = p ++ x :: b) \/ exists p', p = l ++ p' /\ m = p' ++ x :: s).
  { clear. induction l as [|y l IH]; intros m p s E; [right; exists p; auto|]. destruct p as [|z p]; cbn in E.
    - injection E as -> E. left. exists l. reflexivity.
    - injection E as -> E. destruct (IH _ _ _ E) as [(b & ->)|(p' & -> & ->)]; [left; exists b; reflexivity|right; exists p'; auto]. }
  destruct cells as [|w2 cells].
  - exists [], w, [], pre, suf. cbn in E. auto.
  - change (join d (w :: w2 :: cells)) with (w ++ d ++ join d (w2 :: cells)) in E.
    destruct (CUT _ _ _ _ E) as [(b & Ew)|(p' & -> & E2)]; [exists [], w, (w2 :: cells), pre, b; auto|].
    destruct (CUT _ _ _ _ E2) as [(b & Eb)|(p2 & -> & E3)]; [exfalso; apply Hx; rewrite Eb; apply in_or_app; right; left; reflexivity|].
    destruct (IH _ _ E3) as (ws & w' & us & a & b & E4 & E5 & E6). exists (w :: ws), w', us, a, b. split; [rewrite E4; reflexivity|].
    split; [exact E5|]. cbn [flat_map]. rewrite E6, <- !app_assoc. reflexivity.
Qed.

(** ** Open quotes *)
Lemma inside_open q v t : c_quote c = Some q -> inside (c_escape c) q v t -> forall pos acc, exists a, quoted c d 0 0 pos acc t = FUnterm a.
Proof.
  intros Hq. assert (Hqm : quote_match c q = true) by (apply quote_eq; exact Hq).
  induction 1 as [|x v t Hx He Hi IH|v t Hi IH|e x v t He Hi IH]; intros pos acc; cbn [quoted].
  - eauto.
  - destruct (quote_match c x) eqn:E; [apply quote_eq in E; congruence|].
    destruct (escape_match c x) eqn:E2; [apply escape_match_in in E2; contradiction|]. apply IH.
  - assert (M : md c d (q :: t) = MOther [] q t).
    { apply (md_other_intro c d [] q t); [constructor|apply q_ntrimr; auto|].
      cbn. destruct (Ascii.eqb_spec q d0) as [<-|n]; [|reflexivity]. exfalso. apply (proj1 Hcl). exact Hq. }
    rewrite Hqm, M. destruct (escape_match c q) eqn:E2; [apply escape_match_in in E2; exfalso; exact (quote_no_escape q Hq E2)|].
    cbn [length Nat.eqb andb]. rewrite Hqm. apply IH.
  - assert (E : quote_match c e = false) by (destruct (quote_match c e) eqn:E; [apply quote_eq in E; exfalso; exact (quote_no_escape e E He)|reflexivity]).
    rewrite E. apply escape_match_in in He. rewrite He. apply IH.
Qed.
Lemma open_cells vs cells q v t : c_quote c = Some q -> inside (c_escape c) q v t ->
  Forall2 (padded (c_quote c) (c_escape c) (c_triml c) (c_trimr c) d0) vs cells ->
  forall fuel tot, length (flat_map (fun w => w ++ d) cells ++ q :: t) < fuel ->
  exists l p a, fields c d fuel tot (ltrim (c_triml c) (flat_map (fun w => w ++ d) cells ++ q :: t)) = (l, TUnterm p a).
Proof.
  intros Hq Hi. induction 1 as [|v0 w vs cells Hp F IH]; intros fuel tot Hf; (destruct fuel as [|f]; [lia|]).
  - cbn [flat_map app] in *. rewrite ltrim_stop by (apply q_ntriml; auto). cbn [fields field].
    assert (Hqm : quote_match c q = true) by (apply quote_eq; exact Hq). rewrite Hqm.
    destruct (inside_open q v t Hq Hi (S (tot - length (q :: t))) []) as (a & ->). eauto.
  - cbn [flat_map] in *. rewrite <- !app_assoc in *.
    destruct (cell_reads c Hc d0 d' Hcl v0 w (d ++ flat_map (fun w => w ++ d) cells ++ q :: t) Hp (or_intror (ex_intro _ _ eq_refl))) as (t1 & after & E & Hft & Ea).
    rewrite E. cbn [fields]. destruct (field_complete c Hc d ltac:(discriminate) v0 t1 after (tot - length (t1 ++ after)) Hft) as [_ K]. rewrite (K _ Ea).
    destruct (IH f tot) as (l & p & a & E2); [rewrite !app_length in Hf; cbn in Hf; rewrite !app_length in *; cbn in *; lia|]. rewrite E2. eauto.
Qed.

Lemma dq_cut q x : x <> q -> forall v t b, double_quotes q v ++ [q] = t ++ x :: b -> exists v1 v2, t = double_quotes q v1 /\ v = v1 ++ x :: v2.
Proof.
  intros Hx. induction v as [|y v IH]; intros t b E.
  - destruct t as [|z t]; cbn in E; [congruence|]. injection E as _ E. destruct t; discriminate.
  - cbn in E. destruct (ascii_dec y q) as [->|n]; cbn in E.
    + destruct t as [|z1 [|z2 t]]; cbn in E; [congruence|congruence|]. injection E as <- <- E. destruct (IH _ _ E) as (v1 & v2 & -> & ->).
      exists (q :: v1), v2. cbn. destruct (ascii_dec q q); [auto|congruence].
    + destruct t as [|z t]; cbn in E; injection E as <- E; [exists [], v; auto|]. destruct (IH _ _ E) as (v1 & v2 & -> & ->).
      exists (y :: v1), v2. cbn. destruct (ascii_dec y q); [congruence|auto].
Qed.
Lemma dq_snoc q x v t : x <> q -> double_quotes q v = t ++ [x] -> exists v1, v = v1 ++ [x] /\ t = double_quotes q v1.
Proof.
  intros Hx. destruct (rev_case v) as [->|(v1 & y & ->)]; [destruct t; discriminate|].
  unfold double_quotes. rewrite flat_map_app. cbn [flat_map]. rewrite app_nil_r. destruct (ascii_dec y q) as [->|n]; intros E.
  - change [q; q] with ([q] ++ [q]) in E. rewrite app_assoc in E. apply app_inj_tail in E. destruct E. congruence.
  - apply app_inj_tail in E. destruct E as [<- ->]. eauto.
Qed.
Lemma ef_cut e x : In x special -> x <> e -> forall v t b, escape_field e special v = t ++ x :: b -> exists v1, t = escape_field e special v1 ++ [e].
Proof.
  intros Hx Hxe. induction v as [|y v IH]; intros t b E; [destruct t; discriminate|]. cbn in E. destruct (in_dec ascii_dec y special) as [i|i]; cbn in E.
  - destruct t as [|z1 [|z2 t]]; cbn in E; [congruence|injection E as <- <- _; exists []; reflexivity|]. injection E as <- <- E.
    destruct (IH _ _ E) as (v1 & ->). exists (y :: v1). cbn. destruct (in_dec ascii_dec y special); [reflexivity|contradiction].
  - destruct t as [|z t]; cbn in E; injection E as <- E; [contradiction|]. destruct (IH _ _ E) as (v1 & ->). exists (y :: v1). cbn.
    destruct (in_dec ascii_dec y special); [contradiction|reflexivity].
Qed.

Context (Hml : c_ml c = true) (Hln : forall x, x = LF \/ x = CR -> ~ In x d /\ ~ In x (c_escape c)).
Context (Hqln : c_quote c <> Some LF /\ c_quote c <> Some CR).
Lemma go_by_escape pre : Nat.odd (esc_tail c pre) = true -> continues c d pre.
Proof.
  intros H last L. exists ByEscape. apply go_escape; [exact Hml|]. apply odd_ends_escaped. rewrite (esc_tail_last c pre last); auto. apply Hln. auto.
Qed.
Lemma go_by_quote pre q : c_quote c = Some q -> nulfree pre -> Nat.even (esc_tail c pre) = true -> qo c d pre = true -> continues c d pre.
Proof.
  intros Hq HN HE HO last L. exists ByQuote. apply go_quote; [exact Hml| |congruence|].
  - intros X. apply odd_ends_escaped in X. rewrite (esc_tail_last c pre last) in X; [|apply Hln; auto|exact L]. rewrite <- Nat.negb_even, HE in X. discriminate.
  - apply (qo_open c Hc d Hdn ltac:(discriminate)); auto.
Qed.
Lemma open_goes vs ws q v1 : c_quote c = Some q -> Forall2 (cell c special) vs ws -> Forall nulfree vs -> nulfree v1 -> (forall x, In x v1 -> ~ In x (c_escape c)) ->
  continues c d (flat_map (fun w => w ++ d) ws ++ q :: double_quotes q v1).
Proof.
  intros Hq F N N1 He. apply (go_by_quote _ q Hq).
  - apply nulfree_app. split.
    + clear - F N Hdn Hc. revert N. induction F as [|v w vs ws H F IH]; intros N; [exact nulfree_nil|]. inversion N; subst. cbn [flat_map]. rewrite !nulfree_app. split; [split|]; auto. eapply cell_nulfree; eauto.
    + assert (K : nulfree (quote_field q v1)) by (apply quote_field_nulfree; auto; intros ->; exact (ok_nul_q c Hc Hq)).
      unfold quote_field in K. rewrite app_comm_cons, nulfree_app in K. apply K.
  - destruct (rev_case v1) as [->|(a & x & ->)].
    + cbn. rewrite esc_tail_end; [reflexivity|]. apply quote_no_escape. exact Hq.
    + unfold double_quotes. rewrite flat_map_app. cbn [flat_map]. rewrite app_nil_r. destruct (ascii_dec x q) as [->|n].
      * change [q; q] with ([q] ++ [q]). rewrite app_comm_cons, !app_assoc, esc_tail_end; [reflexivity|]. apply quote_no_escape. exact Hq.
      * rewrite app_comm_cons, !app_assoc, esc_tail_end; [reflexivity|]. apply He. apply in_or_app. right. left. reflexivity.
  - unfold qo, psplit. rewrite <- ltrim_dropc.
    destruct (open_cells vs ws q v1 (double_quotes q v1) Hq) with (fuel := S (length (flat_map (fun w => w ++ d) ws ++ q :: double_quotes q v1)))
      (tot := length (flat_map (fun w => w ++ d) ws ++ q :: double_quotes q v1)) as (l & p & a & E).
    + apply double_quotes_inside. apply Forall_forall. exact He.
    + clear - F Hc Hcl Hsp. induction F; constructor; auto. apply cell_padded. assumption.
    + lia.
    + rewrite E. reflexivity.
Qed.
Lemma row_cut vs cells : Forall2 (cell c special) vs cells -> Forall nulfree vs -> forall pre0 suf, join d cells = pre0 ++ LF :: suf ->
  (continues c d pre0 /\ forall p, pre0 <> p ++ [CR]) \/ (forall p, pre0 = p ++ [CR] -> continues c d p) /\ ((forall p, pre0 <> p ++ [CR]) -> continues c d pre0).
Proof.
  intros F N pre0 suf E. destruct (Hln LF (or_introl eq_refl)) as [L1 L2]. destruct (Hln CR (or_intror eq_refl)) as [L3 L4].
  destruct (join_cut_at LF L1 _ _ _ E) as (ws & w & us & a & b & -> & Ew & ->).
  destruct (Forall2_app_inv_r _ _ F) as (v1 & v2 & F1 & F2 & ->). inversion F2 as [|v w0 v3 us0 HC F3]; subst w0 us0 v2.
  rewrite Forall_app in N. destruct N as [N1 N2]. pose proof (Forall_inv N2) as NV.
  destruct HC as [q v Hq He|e v He|v Hv].
  - right. unfold quote_field in Ew. destruct a as [|z a]; cbn in Ew; [injection Ew as Ez _; destruct Hqln; congruence|]. injection Ew as <- Ew.
    destruct (dq_cut q LF ltac:(destruct Hqln; congruence) _ _ _ Ew) as (u1 & u2 & -> & ->).
    assert (NU : nulfree u1) by (apply nulfree_app in NV; apply NV).
    assert (EU : forall x, In x u1 -> ~ In x (c_escape c)) by (intros x Hx; apply He; apply in_or_app; auto).
    split.
    + intros p Ep. destruct (rev_case (double_quotes q u1)) as [Z|(t & y & Z)].
      * rewrite Z in Ep. apply app_inj_tail in Ep. destruct Ep; destruct Hqln; congruence.
      * rewrite Z, app_comm_cons, app_assoc in Ep. apply app_inj_tail in Ep. destruct Ep as [<- ->].
        destruct (dq_snoc q CR _ _ ltac:(destruct Hqln; congruence) Z) as (u3 & -> & ->). apply open_goes with (vs := v1); auto.
        -- apply nulfree_app in NU; apply NU.
        -- intros x Hx; apply EU; apply in_or_app; auto.
    + intros _. apply open_goes with (vs := v1); auto.
  - left. destruct (ef_cut e LF ltac:(apply Hsp; auto 10) ltac:(congruence) _ _ _ Ew) as (u & ->).
    rewrite app_assoc. split.
    + apply go_by_escape. rewrite esc_tail_snoc. apply escape_match_in in He. rewrite He. apply escape_match_in in He.
      rewrite Nat.odd_succ. apply escape_field_tail; auto. eapply cells_tail; eauto.
    + intros p Ep. apply app_inj_tail in Ep. destruct Ep; congruence.
  - exfalso. subst v. apply (Hv LF); [apply in_or_app; right; left; reflexivity|]. apply Hsp. auto 10.
Qed.
End C.

(** ** Tables *)
Section T.
Context (c : cfg) (d0 : ascii) (d' : str) (special : list ascii).
Notation d := (d0 :: d').
Context (F : fit c d) (Hcl : clean_delim (c_quote c) (c_escape c) (c_triml c) (c_trimr c) d0) (Hsp : covers c d special).
Context (Hesc : c_ml c = true -> forall x, In x d -> ~ In x (c_escape c)) (Hqln : c_quote c <> Some LF /\ c_quote c <> Some CR).
Context (Hl0 : d0 <> LF /\ d0 <> CR /\ ~ In LF (c_escape c) /\ ~ In CR (c_escape c)).
Let Hc := fit_cfg _ _ F.

Lemma row_psplit vs cells : vs <> [] -> Forall2 (cell c special) vs cells -> psplit c d (join d cells) = (vs, TOk).
Proof.
  intros Hv H. apply (psplit_complete c Hc d ltac:(discriminate)). apply (padded_reads c Hc d0 d' Hcl); auto.
  clear - H Hc Hcl Hsp. induction H; constructor; auto. eapply cell_padded; eauto.
Qed.
Lemma row_nulfree vs w : row_text c d special vs w -> Forall nulfree vs -> nulfree w.
Proof.
  intros (_ & _ & cells & H & ->) N. apply join_nulfree; [exact (fit_nul _ _ F)|]. clear - H N Hc. revert N. induction H; intros N; constructor; inversion N; subst; auto. eapply cell_nulfree; eauto.
Qed.
Lemma row_ends vs cells : Forall2 (cell c special) vs cells -> vs <> [] -> Forall nulfree vs -> forall last, last_of (join d cells) last -> forall w, ~ goes_on c d (join d cells) last w.
Proof.
  intros H Hv N last L w G. assert (Hml : c_ml c = true) by (inversion G; assumption).
  pose proof (fit_clean _ _ F Hml) as Hln. specialize (Hesc Hml).
  pose proof (row_tail c Hc d0 d' special Hsp Hesc _ _ H) as E. inversion G as [_ X|_ X Y Z]; subst.
  - apply odd_ends_escaped in X. rewrite (esc_tail_last c (join d cells) last) in X; auto; [|apply Hln; auto]. rewrite <- Nat.negb_even, E in X. discriminate.
  - apply (qo_open c Hc d (fit_nul _ _ F) ltac:(discriminate)) in Z; auto.
    + unfold qo in Z. rewrite (row_psplit vs cells Hv H) in Z. discriminate.
    + apply join_nulfree; [exact (fit_nul _ _ F)|]. clear - H N Hc. revert N. induction H; intros N; constructor; inversion N; subst; auto. eapply cell_nulfree; eauto.
Qed.
Lemma cell_head v w x : cell c special v w -> hd_error w = Some x -> x <> LF /\ x <> CR.
Proof.
  intros H E. assert (S0 : forall y, ~ In y special -> y <> LF /\ y <> CR) by (intros y Hy; split; intros ->; apply Hy, Hsp; auto 10).
  destruct H as [q v Hq He|e v He|v Hv].
  - injection E as <-. destruct Hqln. split; congruence.
  - destruct v as [|y v]; [discriminate|]. cbn in E. destruct (in_dec ascii_dec y special) as [i|i]; cbn in E; injection E as <-; [|apply S0; exact i].
    destruct Hl0 as (_ & _ & A & B). split; congruence.
  - destruct v as [|y v]; [discriminate|]. injection E as <-. apply S0. apply Hv. left. reflexivity.
Qed.
Lemma row_head vs cells x : Forall2 (cell c special) vs cells -> hd_error (join d cells) = Some x -> x <> LF /\ x <> CR.
Proof.
  intros H E. destruct H as [|v w vs cells H H2]; [discriminate|]. destruct w as [|y w].
  - destruct H2; [discriminate|]. injection E as <-. tauto.
  - eapply cell_head; [exact H|]. destruct H2; exact E.
Qed.

Lemma table_document : forall rows data, table c d special rows data -> Forall (Forall nulfree) rows ->
  nulfree data /\
  exists ls, physical data ls /\ (forall t e ls', ls = (t, e) :: ls' -> t <> []) /\
  forall k, exists its, document c d k ls its /\ Forall2 (fun vs it => exists w, row_text c d special vs w /\ it_out it = Complete w) rows its.
Proof.
  induction 1 as [|vs w eol rows data RT HLO RE T IH]; intros N.
  - split; [exact nulfree_nil|]. exists []. split; [constructor|]. split; [discriminate|]. intros k. exists []. split; constructor.
  - inversion N as [|? ? N1 N2]; subst. destruct (IH N2) as (NF & ls & P & HB & D). pose proof RT as RT0. destruct RT as (Hv & Hw & cells & FC & ->).
    split.
    { rewrite !nulfree_app. split; [eapply row_nulfree; eauto|]. split; [|exact NF]. destruct RE; unfold nulfree, LF, CR, NUL; cbn; intuition congruence. }
    destruct (build c d (join d cells) HLO) with (eol := eol) (data := data) (ls := ls) (k := length (join d cells)) (suf := join d cells) (done := @nil ascii) (n := 0)
      as (t & e & ls1 & m & P1 & R1); auto.
    + intros pre suf E Hcr. destruct HLO as [X|[Hml _]]; [exfalso; apply X; rewrite E; apply in_or_app; right; left; reflexivity|].
      destruct (row_cut c Hc d0 d' special Hcl Hsp (Hesc Hml) (fit_nul _ _ F) Hml (fit_clean _ _ F Hml) Hqln vs cells FC N1 pre suf E) as [[K _]|[_ K]]; auto.
    + intros pre suf E. destruct HLO as [X|[Hml _]]; [exfalso; apply X; rewrite E; apply in_or_app; right; right; left; reflexivity|].
      assert (E' : join d cells = (pre ++ [CR]) ++ LF :: suf) by (rewrite E, <- app_assoc; reflexivity).
      destruct (row_cut c Hc d0 d' special Hcl Hsp (Hesc Hml) (fit_nul _ _ F) Hml (fit_clean _ _ F Hml) Hqln vs cells FC N1 _ _ E') as [[_ K]|[K _]]; [exfalso; eapply K; reflexivity|apply K; reflexivity].
    + eapply row_ends; eauto.
    + exists ((t, e) :: ls1). split; [exact P1|]. assert (Ht : t <> []).
      { intros ->. assert (EJ : exists h tl, join d cells = h :: tl) by (destruct (join d cells); [congruence|eauto]).
        destruct EJ as (h & tl & EJ). pose proof (row_head vs cells h FC ltac:(rewrite EJ; reflexivity)) as [X1 X2].
        rewrite EJ in P1. cbn [app] in P1.
        assert (G : forall D0 L0, physical D0 L0 -> D0 = h :: tl ++ eol ++ data -> L0 = ([], e) :: ls1 -> False); [|eapply G; eauto].
        clear - X1 X2. intros D0 L0 P1 E1 E2. destruct P1; try discriminate; injection E2 as -> E2; cbn [app] in E1; congruence. }
      split; [intros t0 e0 ls0 [= <- <- <-]; exact Ht|].
      intros k. cbn [app] in R1.
      destruct (D (k + S m + 0)) as (its & D1 & D2).
      exists (mkItem (Complete (join d cells)) (k + S m) (k + S m + 0) ls :: its). split.
      * eapply doc_row; [exact R1| |exact D1]. apply bl_none. intros e0 ls0 _ E. apply (HB _ _ _ E). reflexivity.
      * constructor; [|exact D2]. exists (join d cells). split; [exact RT0|reflexivity].
Qed.

(** Reading strings. *)
Lemma strings_row_ok vs : row_ok (map (fun _ => EVal TString) vs) vs (map VStr vs).
Proof. induction vs as [|v vs IH]; [constructor|]. cbn. apply ro_cons; [|exact IH]. apply co_val. reflexivity. Qed.
Lemma strings_reading vs w o : Forall nulfree vs -> row_text c d special vs w -> row_reading c d [] 0 (map (fun _ => EVal TString) vs) (Complete w) o -> o = inl (map VStr vs).
Proof.
  intros N RT H. pose proof (row_nulfree _ _ RT N) as NW. destruct RT as (Hv & Hw & cells & FC & ->).
  assert (SO : split_obs c sp_init d (join d cells) [] = SFields vs).
  { pose proof (split_obs_psplit c Hc d (fit_nul _ _ F) ltac:(discriminate) sp_init (join d cells) [] vs TOk (reach_init c) NW (row_psplit _ _ Hv FC)) as K. exact K. }
  pose proof (c_string_nulfree _ NW) as CS. inversion H as [|t0 m X|t cols o0 X1 X2 X3|t m1 m2 X1 X2 X3]; subst; [congruence| |rewrite CS in X2; destruct X2; congruence].
  rewrite CS, SO in X2. injection X2 as <-.
  assert (K : converted [] 0 (map (fun _ => EVal TString) vs) vs (inl (map VStr vs))).
  { eapply cd_values; [reflexivity|apply map_length|apply strings_row_ok]. }
  pose proof (converted_fun _ _ _ _ _ _ X3 K). congruence.
Qed.
End T.
