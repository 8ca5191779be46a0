(** Writing a row and splitting it. *)
From Verif Require Import Base Setup Splitter SplitPure ListFacts SplitSpec SplitSpecProofs RowSpec.

Lemma ltrim_in cs a s : Forall (fun x => In x cs) a -> ltrim cs (a ++ s) = ltrim cs s.
Proof. induction 1 as [|x a Hx F IH]; cbn; [reflexivity|]. destruct (in_dec ascii_dec x cs); [exact IH|contradiction]. Qed.
Lemma ltrim_stop cs x s : ~ In x cs -> ltrim cs (x :: s) = x :: s.
Proof. intros H; cbn. destruct (in_dec ascii_dec x cs); [contradiction|reflexivity]. Qed.
Lemma ltrim_split cs s : exists a, s = a ++ ltrim cs s /\ Forall (fun x => In x cs) a.
Proof.
  induction s as [|x s (a & E & F)]; cbn; [exists []; split; [reflexivity|constructor]|].
  destruct (in_dec ascii_dec x cs); [|exists []; split; [reflexivity|constructor]].
  exists (x :: a). split; [cbn; congruence|constructor; auto].
Qed.
Lemma ltrim_head cs s x t : ltrim cs s = x :: t -> ~ In x cs.
Proof.
  induction s as [|y s IH]; cbn; [discriminate|]. destruct (in_dec ascii_dec y cs); [exact IH|].
  intros [= <- _]. assumption.
Qed.

Section R.
Context (c : cfg) (Hc : cfg_ok c) (d0 : ascii) (d' : str).
Notation d := (d0 :: d').
Context (Hcl : clean_delim (c_quote c) (c_escape c) (c_triml c) (c_trimr c) d0).
Notation ends := (field_ends (c_trimr c) d).
Notation nte := (no_trim_before_escape (c_escape c) (c_trimr c)).
Notation ftext := (field_text (c_quote c) (c_escape c) (c_trimr c) d nte).
Notation reads := (reads_as (c_quote c) (c_escape c) (c_triml c) (c_trimr c) d nte).

Lemma q_ntrimr q : c_quote c = Some q -> ~ In q (c_trimr c).
Proof. intros Hq Hi. apply (ok_qr c Hc q); [unfold quote_list; rewrite Hq; left; reflexivity|exact Hi]. Qed.
Lemma q_ntriml q : c_quote c = Some q -> ~ In q (c_triml c).
Proof. intros Hq Hi. apply (ok_ql c Hc q); [unfold quote_list; rewrite Hq; left; reflexivity|exact Hi]. Qed.
Lemma notends x s : ~ In x (c_trimr c) -> x <> d0 -> ~ ends (x :: s).
Proof. intros H1 H2. unfold field_ends. rewrite ltrim_stop by exact H1. intros [E|[r E]]; [discriminate|]. cbn in E. congruence. Qed.

Lemma bare_notends v t : bare (c_escape c) (c_trimr c) d0 v t -> t <> [] -> forall after, ~ ends (t ++ after).
Proof.
  destruct Hcl as (H1 & H2 & H3 & H4).
  induction 1 as [|x v t Hx Hd Ht Hb IH|e x v t He Hb IH]; intros Hne after; [congruence| |].
  - destruct (in_dec ascii_dec x (c_trimr c)) as [i|n].
    + destruct (Ht i) as (y & t' & -> & _).
      assert (K : ~ ends ((y :: t') ++ after)) by (apply IH; discriminate).
      unfold field_ends in *. cbn [app]. rewrite (ltrim_in _ [x]) with (s := y :: t' ++ after) by (constructor; [exact i|constructor]).
      exact K.
    + apply notends; auto.
  - apply notends; [exact (ok_er c Hc e He)|intros ->; contradiction].
Qed.

Lemma bare_unq v t : bare (c_escape c) (c_trimr c) d0 v t -> forall after, ends after ->
  unquoted (c_escape c) (c_trimr c) d nte v t after.
Proof.
  induction 1 as [|x v t Hx Hd Ht Hb IH|e x v t He Hb IH]; intros after Ha.
  - constructor; exact Ha.
  - constructor; auto.
    + change (x :: t ++ after) with ((x :: t) ++ after). eapply bare_notends; [constructor; eauto|discriminate].
    + intros Hi y t' ->. destruct (Ht Hi) as (y' & t'' & [= <- <-] & H). exact H.
  - constructor; auto.
    change (e :: x :: t ++ after) with ((e :: x :: t) ++ after). eapply bare_notends; [apply ba_escape; eauto|discriminate].
Qed.

Lemma inside_inq q v t : c_quote c = Some q -> inside (c_escape c) q v t -> forall after, ends after ->
  inquotes (c_escape c) (c_trimr c) d q v t after.
Proof.
  intros Hq. destruct Hcl as (H1 & H2 & H3 & H4).
  induction 1 as [|x v t Hx He Hi IH|v t Hi IH|e x v t He Hi IH]; intros after Ha;
    [apply q_end|apply q_char|apply q_double|apply q_escape]; auto.
  apply notends; [apply q_ntrimr; exact Hq|congruence].
Qed.

Lemma cell_reads v cell tail :
  padded (c_quote c) (c_escape c) (c_triml c) (c_trimr c) d0 v cell ->
  (tail = [] \/ exists r, tail = d ++ r) ->
  exists t after, ltrim (c_triml c) (cell ++ tail) = t ++ after /\ ftext v t after /\ ltrim (c_trimr c) after = tail.
Proof.
  destruct Hcl as (H1 & H2 & H3 & H4).
  intros (lead & text & trail & -> & Hw & Fl & Ft) Htl.
  assert (Etl : ltrim (c_trimr c) tail = tail).
  { destruct Htl as [->|[r ->]]; [reflexivity|]. cbn [app]. apply ltrim_stop; exact H4. }
  assert (Eafter : forall tr, Forall (fun x => In x (c_trimr c)) tr -> ltrim (c_trimr c) (tr ++ tail) = tail).
  { intros tr F. rewrite ltrim_in by exact F. exact Etl. }
  assert (Hends : forall tr, Forall (fun x => In x (c_trimr c)) tr -> ends (tr ++ tail)).
  { intros tr F. unfold field_ends. rewrite Eafter by exact F. destruct Htl as [->|[r ->]]; [left; reflexivity|right; eauto]. }
  rewrite <- !app_assoc, ltrim_in by exact Fl.
  destruct Hw as [q t Hq Hi|t Hb Hh].
  - exists (q :: t ++ [q]), (trail ++ tail). repeat split; auto.
    + cbn [app]. rewrite ltrim_stop; [rewrite <- app_assoc; reflexivity|]. apply q_ntriml; exact Hq.
    + apply f_quoted; auto. apply inside_inq; auto.
  - destruct t as [|h t].
    + inversion Hb; subst. cbn [app].
      assert (Hsuf : exists tr, ltrim (c_triml c) (trail ++ tail) = tr ++ tail /\ Forall (fun x => In x (c_trimr c)) tr).
      { clear Fl Hh. induction Ft as [|x tr Hx F IH]; cbn [app].
        - exists []. split; [|constructor]. destruct Htl as [->|[r ->]]; [reflexivity|]. cbn [app]. apply ltrim_stop; exact H3.
        - cbn. destruct (in_dec ascii_dec x (c_triml c)); [exact IH|]. exists (x :: tr). split; [reflexivity|constructor; auto]. }
      destruct Hsuf as (tr & E & F). exists [], (tr ++ tail). repeat split; auto.
      apply f_plain; [|constructor; apply Hends; exact F].
      intros q Hq. cbn [app]. destruct tr as [|y tr]; cbn.
      * destruct Htl as [->|[r ->]]; cbn; congruence.
      * intros [= ->]. apply (q_ntrimr q Hq). exact (Forall_inv F).
    + exists (h :: t), (trail ++ tail). destruct (Hh h eq_refl) as [Hhq Hhl]. repeat split; auto.
      * cbn [app]. apply ltrim_stop. exact Hhl.
      * apply f_plain; [cbn; intros q Hq [= ->]; contradiction|]. apply bare_unq; auto.
Qed.

Theorem padded_reads vs cells : vs <> [] ->
  Forall2 (padded (c_quote c) (c_escape c) (c_triml c) (c_trimr c) d0) vs cells ->
  reads (join d cells) vs.
Proof.
  intros Hne F. induction F as [|v cell vs cells Hp F IH]; [congruence|].
  destruct F as [|v2 cell2 vs cells Hp2 F].
  - destruct (cell_reads v cell [] Hp (or_introl eq_refl)) as (t & after & E & Hf & Ea).
    rewrite app_nil_r in E. cbn. eapply r_last; eauto.
  - change (join d (cell :: cell2 :: cells)) with (cell ++ d ++ join d (cell2 :: cells)).
    destruct (cell_reads v cell (d ++ join d (cell2 :: cells)) Hp (or_intror (ex_intro _ _ eq_refl))) as (t & after & E & Hf & Ea).
    eapply r_more; eauto. apply IH. discriminate.
Qed.
End R.

(** Cutting at the delimiter. *)
Lemma app_cut {A} (a b x y : list A) : a ++ b = x ++ y -> length a <= length x -> exists z, x = a ++ z.
Proof.
  revert x; induction a as [|h a IH]; intros x E H; [exists x; reflexivity|].
  destruct x as [|h' x]; [cbn in H; lia|]. cbn in E. injection E as <- E.
  destruct (IH x E ltac:(cbn in H; lia)) as (z & ->). exists z; reflexivity.
Qed.

Lemma rtrim_split cs g : exists tr, g = rtrim cs g ++ tr /\ Forall (fun x => In x cs) tr
  /\ (forall l z, rtrim cs g = l ++ [z] -> ~ In z cs).
Proof.
  unfold rtrim. destruct (ltrim_split cs (rev g)) as (a & E & F). exists (rev a). repeat split.
  - rewrite <- rev_app_distr, <- E, rev_involutive. reflexivity.
  - apply Forall_rev; exact F.
  - intros l z Ez. apply (f_equal (@rev _)) in Ez. rewrite rev_involutive, rev_app_distr in Ez. cbn in Ez.
    eapply ltrim_head; exact Ez.
Qed.

Section Cut.
Context (c : cfg) (Hq : c_quote c = None) (He : c_escape c = []) (d0 : ascii) (d' : str).
Notation d := (d0 :: d').
Context (Hl : ~ In d0 (c_triml c)) (Hr : ~ In d0 (c_trimr c)).
Notation ends := (field_ends (c_trimr c) d).
Notation nte := (no_trim_before_escape (c_escape c) (c_trimr c)).
Notation ftext := (field_text (c_quote c) (c_escape c) (c_trimr c) d nte).
Notation reads := (reads_as (c_quote c) (c_escape c) (c_triml c) (c_trimr c) d nte).

Lemma unq_core core trail tail :
  (forall l z, core = l ++ [z] -> ~ In z (c_trimr c)) ->
  (forall a b, core ++ trail ++ tail = a ++ d ++ b -> length core <= length a) ->
  ends (trail ++ tail) -> unquoted (c_escape c) (c_trimr c) d nte core core (trail ++ tail).
Proof.
  intros H1 H2 H3. induction core as [|x core IH]; [constructor; exact H3|].
  constructor.
  - intros HE.
    destruct (ltrim_split (c_trimr c) (x :: core ++ trail ++ tail)) as (a & E & F).
    assert (Hla : length (x :: core) <= length a).
    { destruct HE as [E0|[r E0]]; rewrite E0 in E.
      - apply (f_equal (@length _)) in E. cbn in *. rewrite !app_length in E. cbn in E. lia.
      - eapply (H2 a r). exact E. }
    change (x :: core ++ trail ++ tail) with ((x :: core) ++ trail ++ tail) in E.
    destruct (app_cut _ _ _ _ E Hla) as (z & ->).
    destruct (@exists_last _ (x :: core) ltac:(discriminate)) as (l & w & El).
    rewrite El in F. rewrite !Forall_app in F. destruct F as [[_ F] _]. apply (H1 l w El). exact (Forall_inv F).
  - rewrite He. auto.
  - intros _ y t' _. rewrite He. auto.
  - apply IH.
    + intros l z ->. apply (H1 (x :: l) z). reflexivity.
    + intros a b E. specialize (H2 (x :: a) b). cbn in H2. rewrite E in H2. specialize (H2 eq_refl). lia.
Qed.

Lemma cut_cell f tail :
  (tail = [] \/ exists r, tail = d ++ r) ->
  (forall a b, f ++ tail = a ++ d ++ b -> length f <= length a) ->
  exists t after, ltrim (c_triml c) (f ++ tail) = t ++ after
    /\ ftext (rtrim (c_trimr c) (ltrim (c_triml c) f)) t after /\ ltrim (c_trimr c) after = tail.
Proof.
  intros Htl Hocc.
  destruct (ltrim_split (c_triml c) f) as (a & Ef & Fa).
  set (g := ltrim (c_triml c) f) in *.
  destruct (rtrim_split (c_trimr c) g) as (tr & Eg & Ft & Hlast).
  set (core := rtrim (c_trimr c) g) in *.
  assert (Etl : ltrim (c_trimr c) tail = tail).
  { destruct Htl as [->|[r ->]]; [reflexivity|]. cbn [app]. apply ltrim_stop; exact Hr. }
  assert (Etl2 : ltrim (c_triml c) tail = tail).
  { destruct Htl as [->|[r ->]]; [reflexivity|]. cbn [app]. apply ltrim_stop; exact Hl. }
  exists core, (tr ++ tail). repeat split.
  - rewrite Ef, <- app_assoc, ltrim_in by exact Fa. rewrite app_assoc, <- Eg.
    destruct g as [|x g'] eqn:Egg; [exact Etl2|]. cbn [app]. apply ltrim_stop.
    apply (ltrim_head (c_triml c) f x g'). exact Egg.
  - apply f_plain; [rewrite Hq; discriminate|]. apply unq_core.
    + exact Hlast.
    + intros a0 b0 E. specialize (Hocc (a ++ a0) b0).
      rewrite Ef, Eg in Hocc. rewrite <- !app_assoc in Hocc. rewrite E in Hocc. specialize (Hocc eq_refl).
      rewrite !app_length in Hocc. lia.
    + unfold field_ends. rewrite ltrim_in, Etl by exact Ft. destruct Htl as [->|[r ->]]; [left; reflexivity|right; eauto].
  - rewrite ltrim_in by exact Ft. exact Etl.
Qed.

Theorem cut_reads line fs : cut_at d line fs ->
  reads line (map (fun f => rtrim (c_trimr c) (ltrim (c_triml c) f)) fs).
Proof.
  induction 1 as [line Hno|f rest fs Hocc Hcut IH].
  - destruct (cut_cell line [] (or_introl eq_refl)) as (t & after & E & Hf & Ea).
    { intros a b E. rewrite app_nil_r in E. exfalso. exact (Hno a b E). }
    rewrite app_nil_r in E. eapply r_last; eauto.
  - destruct (cut_cell f (d ++ rest) (or_intror (ex_intro _ _ eq_refl)) Hocc) as (t & after & E & Hf & Ea).
    eapply r_more; eauto.
Qed.
End Cut.

Lemma first_occ (d line : str) : d <> [] -> (forall a b, line <> a ++ d ++ b) \/
  exists f rest, line = f ++ d ++ rest /\ (forall a b, line = a ++ d ++ b -> length f <= length a).
Proof.
  intros Hd. induction line as [|x line IH].
  - left. intros a b E. symmetry in E. apply app_eq_nil in E as [_ E]. apply app_eq_nil in E as [E _]. contradiction.
  - destruct (strip d (x :: line)) as [r|] eqn:Es.
    + right. exists [], r. split; [apply strip_spec in Es; exact Es|cbn; lia].
    + assert (N : forall b, x :: line <> d ++ b).
      { intros b E. rewrite E, strip_app in Es. discriminate. }
      destruct IH as [H|(f & rest & E & H)].
      * left. intros [|y a] b E; [exact (N b E)|]. cbn in E. injection E as _ E. exact (H a b E).
      * right. exists (x :: f), rest. split; [cbn; congruence|].
        intros [|y a] b E'; [exfalso; exact (N b E')|]. cbn in *. injection E' as _ E'. specialize (H a b E'). lia.
Qed.

Theorem cut_total (d : str) : d <> [] -> forall line, exists fs, cut_at d line fs.
Proof.
  intros Hd line. remember (length line) as n eqn:Hn. revert line Hn.
  induction n as [n IH] using lt_wf_ind. intros line ->.
  destruct (first_occ d line Hd) as [H|(f & rest & E & H)].
  - exists [line]. constructor. exact H.
  - assert (Hlt : length rest < length line).
    { rewrite E, !app_length. destruct d; [congruence|cbn; lia]. }
    destruct (IH _ Hlt rest eq_refl) as (fs & Hc). exists (f :: fs). rewrite E. constructor; [|exact Hc].
    rewrite <- E. exact H.
Qed.

Theorem cut_join d line fs : cut_at d line fs -> join d fs = line /\ Forall (fun f => forall a b, f <> a ++ d ++ b) fs.
Proof.
  induction 1 as [line H|f rest fs H Hcut [IH1 IH2]]; [split; [reflexivity|constructor; [exact H|constructor]]|].
  split.
  - rewrite <- IH1. destruct Hcut; reflexivity.
  - constructor; [|exact IH2]. intros a b ->. specialize (H a (b ++ d ++ rest)).
    rewrite <- !app_assoc in H. specialize (H eq_refl). rewrite !app_length in H.
    destruct d; [|cbn in H; lia]. destruct b; [|cbn in H; lia].
    (* an empty delimiter never cuts *)
    clear - Hcut. cbn in *. induction Hcut as [line H|f r fs H Hc IH]; [|exact IH].
    exact (H [] line eq_refl).
Qed.

Theorem join_cut d fs : d <> [] -> fs <> [] ->
  Forall (fun f => forall a b, f ++ d = a ++ d ++ b -> b = []) fs -> cut_at d (join d fs) fs.
Proof.
  intros Hd Hne F. induction F as [|f fs Hf F IH]; [congruence|].
  destruct F as [|f2 fs Hf2 F].
  - cbn. constructor. intros a b ->. specialize (Hf a (b ++ d)). rewrite <- !app_assoc in Hf.
    specialize (Hf eq_refl). apply app_eq_nil in Hf as [_ Hf]. contradiction.
  - change (join d (f :: f2 :: fs)) with (f ++ d ++ join d (f2 :: fs)).
    constructor; [|apply IH; discriminate].
    intros a b E. destruct (le_lt_dec (length f) (length a)) as [|Hlt]; [assumption|exfalso].
    rewrite (app_assoc a), (app_assoc f) in E.
    symmetry in E. destruct (app_cut _ _ _ _ E) as (z & Ez); [rewrite !app_length; lia|].
    rewrite <- app_assoc in Ez. specialize (Hf a z Ez). subst z.
    apply (f_equal (@length _)) in Ez. rewrite !app_length in Ez. cbn in Ez. lia.
Qed.
