(** C64: a document with a header is read by name: which other columns it has, in which order the columns stand, and how the
    document is written (delimiter, quotes, ...) makes no difference to the values of the selected columns; nor does it matter
    in which order, and along with which other names, a name is selected.
    Vocabulary: ParserSpec.v, SessionSpec.v (header, selections), ParserApi.v. *)
From Coq Require Import Permutation.
From Verif Require Import Base Setup Splitter SplitPure ListFacts SetupProofs SplitApi Extract Converter ConvSpec ConvProofs ConvTheorems Reader LineSpec LineProofs Parser ParserSpec ParserApi ParserRows ParserOpen ParserSession ParserFacts SessionApi SessionSpec SessionProofs PropSession.

(** ** Specification *)

(** A document is read by name: its first line gives the names [cols], use_fields(fs...) was called; the parser is then [q],
    and [its] are the rows that come next.  [bn]: before any row was read (the header functions may have been called before
    it), the rows are those below the header.  [bn_later]: at any time, after calls [ks] of any kind; [v'] is where they led. *)
Inductive by_name (c : cfg) (cap : nat -> nat -> nat) (d data name : str) (cols fs : list str) (its : list item) : prs -> Prop :=
| bn hc p h e ls j L ks : header_setup c hc -> c_ignhdr c = false -> opened c cap d data name p -> nuls_ok c data ->
    physical data ((h, e) :: ls) -> (c_ignempty c = true -> h <> []) -> blanks c ls j L -> L <> [] \/ j = 0 \/ ~ escapes_lines c -> document c d (S j) L its ->
    names hc d h cols -> NoDup cols -> selection cols fs -> Forall query ks ->
    by_name c cap d data name cols fs its (snd (do_call c hc cap (later c hc cap p ks) (CUse fs)))
| bn_later hc p h v ks v' k L : header_setup c hc -> c_ignhdr c = false -> session c cap d data name h p v -> Forall call_ok ks -> covered c hc d name h v ks ->
    names hc d h cols -> NoDup cols -> selection cols fs ->
    p_eof (later c hc cap p ks) = false -> leads c hc d name h v ks (replies c hc cap p ks) v' ->
    (w_line v' = 0 /\ (exists t e ls j, w_lines v' = (t, e) :: ls /\ blanks c ls j L /\ k = S j /\ (L <> [] \/ j = 0 \/ ~ escapes_lines c)) \/ w_line v' <> 0 /\ k = w_line v' /\ L = w_lines v') ->
    document c d k L its ->
    by_name c cap d data name cols fs its (snd (do_call c hc cap (later c hc cap p ks) (CUse fs))).

(** The row [out] is well formed and has a cell for every name; [cell cols xs f x]: [x] is its cell in the column [f]. *)
Definition cells (c : cfg) (d : str) (cols : list str) (out : outcome) (xs : list str) : Prop :=
  exists t, out = Complete t /\ c_string t <> [] /\ split_obs c sp_init d (c_string t) [] = SFields xs /\ length xs = length cols.
Definition cell (cols xs : list str) (f x : str) : Prop := exists i, nth_error cols i = Some f /\ nth_error xs i = Some x.
(** If the row [out2] of one document is well formed, then so is the row [out1] of another, and their cells in the columns [fs]
    are the same. *)
Definition shares (fs : list str) (c1 : cfg) (d1 : str) (cols1 : list str) (out1 : outcome) (c2 : cfg) (d2 : str) (cols2 : list str) (out2 : outcome) : Prop :=
  forall xs2, cells c2 d2 cols2 out2 xs2 -> exists xs1, cells c1 d1 cols1 out1 xs1 /\ forall f x, In f fs -> cell cols2 xs2 f x -> cell cols1 xs1 f x.

(** The values of a row with the names they were asked for; void takes no value. *)
Fixpoint labelled (fs : list str) (es : list elem) (vs : list val) : list (str * val) :=
  match fs, es with
  | _ :: fs', EVoid :: es' => labelled fs' es' vs
  | f :: fs', _ :: es' => match vs with v :: vs' => (f, v) :: labelled fs' es' vs' | [] => [] end
  | _, _ => []
  end.

(** ** Proofs *)

(** Where the calls lead is a matter of the calls and the replies. *)
Definition same_place (v w : view) : Prop := w_line v = w_line w /\ w_lines v = w_lines w /\ w_over v = w_over w.
Lemma asks_not_done c hc d name h kn kn' r : asks c hc d name h kn kn' (Some r) -> r <> YDone.
Proof. intros A X. subst r. inversion A as [| |r B E1 E2 E3|a f b N ND I E1 E2 E3]; subst; [inversion B|]. unfold refusal in E3. destruct (c_mode c); discriminate. Qed.
Lemma use_asks_not_done c hc d name h o kn kn' r : use_asks c hc d name h o kn kn' (Some r) -> r <> YDone.
Proof. destruct o; cbn; [intros [_ X]; discriminate|apply asks_not_done]. Qed.
Lemma does_place c hc d name h v k y v1 w w1 : same_place v w -> does c hc d name h v k y v1 -> does c hc d name h w k y w1 -> same_place v1 w1.
Proof.
  intros SP D1 D2. destruct v as [vk vl vo vm vn vkn], w as [wk wl wo wm wn wkn]. unfold same_place in SP. cbn [w_line w_lines w_over] in SP. destruct SP as (<- & <- & <-).
  assert (RD : forall m, refusal c m <> YDone) by (intros m; unfold refusal; destruct (c_mode c); discriminate).
  assert (SK : forall ls j1 l1 j2 l2, blanks c ls j1 l1 -> blanks c ls j2 l2 -> j1 = j2 /\ l1 = l2).
  { intros ls j1 l1 j2 l2 B1 B2. pose proof (blanks_fun _ _ _ _ B1) as E1. rewrite (blanks_fun _ _ _ _ B2) in E1. injection E1 as -> ->. auto. }
  inversion D1; subst; inversion D2; subst; try (split; [|split]; reflexivity);
    try (exfalso; match goal with
      | E : refusal _ ?m = YDone |- _ => exact (RD m E) | E : YDone = refusal _ ?m |- _ => exact (RD m (eq_sym E))
      | A : use_asks _ _ _ _ _ _ _ _ (Some YDone) |- _ => exact (use_asks_not_done _ _ _ _ _ _ _ _ _ A eq_refl)
      | A : 0 <> 0 \/ false = true |- _ => destruct A as [A|A]; congruence end).
  all: try match goal with R1 : row _ _ 0 ?t ?t ?e ?ls _ _ _, R2 : row _ _ 0 ?t ?t ?e ?ls _ _ _ |- _ =>
      destruct (row_fun _ _ _ _ _ _ _ _ _ _ R1 _ _ _ R2) as (<- & <- & <-) end.
  all: match goal with B1 : blanks _ ?l _ _, B2 : blanks _ ?l _ _ |- _ => destruct (SK _ _ _ _ _ B1 B2) as [-> ->] end; split; [|split]; reflexivity.
Qed.
Lemma leads_place c hc d name h ks : forall v ys v1 w w1, same_place v w -> leads c hc d name h v ks ys v1 -> leads c hc d name h w ks ys w1 -> same_place v1 w1.
Proof.
  induction ks as [|k ks IH]; intros v ys v1 w w1 SP L1 L2; inversion L1; subst; inversion L2; subst; [exact SP|].
  eapply IH; [|eassumption|eassumption]. eapply does_place; eassumption.
Qed.
(** What is read by name. *)
Lemma by_name_reads c cap d data name cols fs its q : fit c d -> enough cap -> by_name c cap d data name cols fs its q -> NoDup cols /\
  forall ess, Forall types ess -> forall i it es, nth_error its i = Some it -> nth_error ess i = Some es ->
  exists o sn, nth_error (reads c cap q ess) i = Some sn /\
    selected c d cols fs es (it_out it) o /\ shown c name (it_line it) (it_next it) o (s_what sn) /\
    (s_eof sn = true <-> S i = length its) /\ s_line sn = it_next it.
Proof.
  intros F H B. destruct B as [hc p h e ls j L ks HS IG O NU PH IE BL X D NA ND SE Q|hc p h v ks v' k L HS IG SE W C NA ND SL EF LD SH D].
  - split; [exact ND|]. exact (proj2 (proj2 (proj2 (C35_use_fields c hc cap d data name p h e ls j L cols fs ks its F H HS IG O NU PH IE BL X D NA ND SE Q)))).
  - split; [exact ND|]. destruct (C35_selection_at_any_time c hc cap d data name h p v ks fs cols F H HS SE W C NA ND SL EF) as (w & LW & K).
    assert (SP : same_place v' w) by (eapply leads_place; [|exact LD|exact LW]; split; [|split]; reflexivity).
    destruct v' as [vk vl vo vm vn vkn], w as [wk wl wo wm wn wkn]. unfold same_place in SP. cbn [w_line w_lines w_over] in SP. destruct SP as (<- & <- & <-).
    destruct K as (_ & _ & L0 & k0 & S0 & _ & K).
    + intros O. inversion O; subst; try congruence. cbn [w_line w_lines] in SH. destruct SH as [(_ & t0 & e0 & ls0 & j0 & X1 & B & X2 & G)|(X & _)]; [|congruence].
      injection X1 as <- <- <-. match goal with B2 : blanks c _ (S _) [] |- _ => pose proof (blanks_fun c _ _ _ B2) as Y end. rewrite (blanks_fun c _ _ _ B) in Y. injection Y as -> ->.
      destruct G as [G|[G|G]]; [congruence|discriminate|contradiction].
    + cbn [w_line w_lines] in SH, S0.
      assert (k0 = k /\ L0 = L) as [-> ->].
      { destruct SH as [(-> & t0 & e0 & ls0 & j0 & X1 & B & X2 & _)|(X & X1 & X2)].
        - cbn in S0. destruct S0 as (t1 & e1 & ls1 & j1 & Z1 & B1 & Z2). rewrite X1 in Z1. injection Z1 as <- <- <-.
          pose proof (blanks_fun c _ _ _ B) as Y. rewrite (blanks_fun c _ _ _ B1) in Y. injection Y as -> ->. split; congruence.
        - rewrite (proj2 (Nat.eqb_neq vk 0) X) in S0. destruct S0 as [-> ->]. split; congruence. }
      intros ess T i it es I E. eapply K; eassumption.
Qed.

Lemma labelled_all es ss vs : row_ok es ss vs -> forall fs, length fs = length es -> map snd (labelled fs es vs) = vs.
Proof.
  induction 1 as [|e s es ss vs H R IH|e s v es ss vs H R IH]; intros [|f fs] E; cbn in E; try discriminate.
  - reflexivity.
  - inversion H; subst; cbn [labelled]. apply IH. congruence.
  - assert (X : labelled (f :: fs) (e :: es) (v :: vs) = (f, v) :: labelled fs es vs) by (inversion H; subst; reflexivity).
    rewrite X. cbn [map snd]. f_equal. apply IH. congruence.
Qed.
(** What a well formed row gives, name by name. *)
Lemma labelled_in es ss vs : row_ok es ss vs -> forall fs, length fs = length es -> forall i f e s, nth_error fs i = Some f -> nth_error es i = Some e -> nth_error ss i = Some s ->
  exists o, col_ok e s o /\ forall v, o = Some v -> In (f, v) (labelled fs es vs).
Proof.
  induction 1 as [|e0 s0 es ss vs H R IH|e0 s0 v0 es ss vs H R IH]; intros [|f0 fs] E i f e s I1 I2 I3; cbn in E; try discriminate.
  - destruct i; discriminate.
  - destruct i as [|i]; cbn in I1, I2, I3.
    + injection I1 as <-. injection I2 as <-. injection I3 as <-. exists None. split; [exact H|discriminate].
    + destruct (IH fs ltac:(congruence) i f e s I1 I2 I3) as (o & Ho & Hi). exists o. split; [exact Ho|].
      intros v Ev. inversion H; subst; cbn [labelled]. apply Hi. reflexivity.
  - assert (X : labelled (f0 :: fs) (e0 :: es) (v0 :: vs) = (f0, v0) :: labelled fs es vs) by (inversion H; subst; reflexivity).
    destruct i as [|i]; cbn in I1, I2, I3.
    + injection I1 as <-. injection I2 as <-. injection I3 as <-. exists (Some v0). split; [exact H|]. intros v [= <-]. rewrite X. left. reflexivity.
    + destruct (IH fs ltac:(congruence) i f e s I1 I2 I3) as (o & Ho & Hi). exists o. split; [exact Ho|]. intros v Ev. rewrite X. right. auto.
Qed.
Lemma row_ok_built (P : str * val -> Prop) : forall es fs ss, length fs = length es -> length ss = length es ->
  (forall i f e s, nth_error fs i = Some f -> nth_error es i = Some e -> nth_error ss i = Some s -> exists o, col_ok e s o /\ forall v, o = Some v -> P (f, v)) ->
  exists vs, row_ok es ss vs /\ Forall P (labelled fs es vs).
Proof.
  induction es as [|e es IH]; intros [|f fs] [|s ss] E1 E2 K; cbn in E1, E2; try discriminate.
  - exists []. split; constructor.
  - destruct (IH fs ss ltac:(congruence) ltac:(congruence) (fun i => K (S i))) as (vs & R & F).
    destruct (K 0 f e s eq_refl eq_refl eq_refl) as ([v|] & Ho & Hp).
    + exists (v :: vs). split; [apply ro_cons; assumption|].
      assert (X : labelled (f :: fs) (e :: es) (v :: vs) = (f, v) :: labelled fs es vs) by (inversion Ho; subst; reflexivity).
      rewrite X. constructor; auto.
    + exists vs. split; [apply ro_skip; assumption|]. inversion Ho; subst. exact F.
Qed.
Lemma cell_fun cols xs f x y : NoDup cols -> cell cols xs f x -> cell cols xs f y -> x = y.
Proof.
  intros ND (i & A & B) (j & A' & B'). assert (i = j) by (eapply NoDup_nth_error; [exact ND|apply nth_error_Some; congruence|congruence]).
  subst. congruence.
Qed.
Lemma in_combine_nth {A B} (l : list A) (k : list B) a b : In (a, b) (combine l k) -> exists i, nth_error l i = Some a /\ nth_error k i = Some b.
Proof.
  revert k. induction l as [|x l IH]; intros [|y k] H; cbn in H; try contradiction.
  destruct H as [[= <- <-]|H]; [exists 0; auto|]. destruct (IH k H) as (i & ? & ?). exists (S i). auto.
Qed.
Lemma combine_nth_in {A B} (l : list A) (k : list B) i a b : nth_error l i = Some a -> nth_error k i = Some b -> In (a, b) (combine l k).
Proof.
  revert k i. induction l as [|x l IH]; intros [|y k] [|i] H1 H2; cbn in *; try discriminate; [left; congruence|right; eauto].
Qed.
Lemma Forall2_at {A B} (R : A -> B -> Prop) l k : Forall2 R l k -> forall i a b, nth_error l i = Some a -> nth_error k i = Some b -> R a b.
Proof. induction 1; intros [|i] a b A1 A2; cbn in *; try discriminate; [congruence|eauto]. Qed.
Lemma nth_of {A B} (l : list A) (k : list B) i a : length l = length k -> nth_error l i = Some a -> exists b, nth_error k i = Some b.
Proof.
  intros E H. destruct (nth_error k i) eqn:K; [eauto|]. apply nth_error_None in K. assert (i < length l) by (apply nth_error_Some; congruence). lia.
Qed.

Lemma selected_by_name c1 d1 cols1 fs1 es1 out1 o1 c2 d2 cols2 fs2 es2 out2 ws : NoDup cols1 -> NoDup cols2 ->
  shares fs1 c1 d1 cols1 out1 c2 d2 cols2 out2 -> length es1 = length fs1 -> incl (combine fs1 es1) (combine fs2 es2) ->
  selected c1 d1 cols1 fs1 es1 out1 o1 -> selected c2 d2 cols2 fs2 es2 out2 (inl ws) ->
  exists vs, o1 = inl vs /\ map snd (labelled fs1 es1 vs) = vs /\ incl (labelled fs1 es1 vs) (labelled fs2 es2 ws).
Proof.
  intros N1 N2 SH E1 IN S1 S2. inversion S2 as [t2 xs2 ys2 o2 Z2 SP2 L2 E2 FA2 CV2| | | | |]; subst.
  destruct (SH xs2) as (xs1 & (t1 & -> & Z1 & SP1 & L1) & SAME); [exists t2; auto|].
  inversion S1 as [t xs ys o Z SP L E FA CV|t xs Z SP E NE|t xs Z SP NE|t m m' Z SP|t m Z|]; subst; try contradiction;
    try (rewrite SP1 in SP; injection SP as <-; congruence); [|destruct SP as [SP|SP]; congruence].
  rewrite SP1 in SP. injection SP as <-.
  apply converted_values in CV2.
  assert (LY : length ys = length fs1) by (symmetry; exact (Forall2_length FA)).
  assert (LY2 : length ys2 = length fs2) by (symmetry; exact (Forall2_length FA2)).
  destruct (row_ok_built (fun fv => In fv (labelled fs2 es2 ws)) es1 fs1 ys) as (vs & R & F); [congruence|congruence| |].
  { intros i f e s I1 I2 I3. destruct (in_combine_nth fs2 es2 f e) as (j & J1 & J2); [apply IN; eapply combine_nth_in; eauto|].
    destruct (nth_of fs2 ys2 j f ltac:(congruence) J1) as (s2 & J3).
    pose proof (Forall2_at _ _ _ FA i f s I1 I3) as (a & A1 & A2). pose proof (Forall2_at _ _ _ FA2 j f s2 J1 J3) as (b & B1 & B2).
    assert (s = s2) by (eapply (cell_fun cols1 xs1 f); [exact N1|exists a; auto|apply SAME; [eapply nth_error_In; eauto|exists b; auto]]).
    subst s2. exact (labelled_in _ _ _ CV2 fs2 ltac:(congruence) j f e s J1 J2 J3). }
  exists vs. split; [|split].
  - apply (converted_fun [] 0 es1 ys); [exact CV|]. apply converted_values. exact R.
  - eapply labelled_all; [exact R|congruence].
  - intros fv I. rewrite Forall_forall in F. apply F. exact I.
Qed.

(** ** The properties *)

(** If everything asked for in the first document is asked for in the second, with the same types, and the [i]-th rows share
    these cells, then a row that is accepted in the second is accepted in the first, and gives the same values for these names. *)
Theorem C64_by_name : forall c1 cap1 d1 data1 name1 cols1 fs1 its1 q1 c2 cap2 d2 data2 name2 cols2 fs2 its2 q2 ess1 ess2,
  fit c1 d1 -> enough cap1 -> by_name c1 cap1 d1 data1 name1 cols1 fs1 its1 q1 ->
  fit c2 d2 -> enough cap2 -> by_name c2 cap2 d2 data2 name2 cols2 fs2 its2 q2 -> Forall types ess1 -> Forall types ess2 ->
  forall i it1 it2 es1 es2, nth_error its1 i = Some it1 -> nth_error its2 i = Some it2 -> nth_error ess1 i = Some es1 -> nth_error ess2 i = Some es2 ->
  length es1 = length fs1 -> incl (combine fs1 es1) (combine fs2 es2) -> shares fs1 c1 d1 cols1 (it_out it1) c2 d2 cols2 (it_out it2) ->
  exists sn1 sn2, nth_error (reads c1 cap1 q1 ess1) i = Some sn1 /\ nth_error (reads c2 cap2 q2 ess2) i = Some sn2 /\
    forall ws, s_what sn2 = GValues ws -> exists vs, s_what sn1 = GValues vs /\
      map snd (labelled fs1 es1 vs) = vs /\ incl (labelled fs1 es1 vs) (labelled fs2 es2 ws).
Proof.
  intros c1 cap1 d1 data1 name1 cols1 fs1 its1 q1 c2 cap2 d2 data2 name2 cols2 fs2 its2 q2 ess1 ess2 F1 H1 B1 F2 H2 B2 T1 T2 i it1 it2 es1 es2 I1 I2 S1 S2 L IN SH.
  destruct (by_name_reads _ _ _ _ _ _ _ _ _ F1 H1 B1) as (ND1 & K1). destruct (by_name_reads _ _ _ _ _ _ _ _ _ F2 H2 B2) as (ND2 & K2).
  destruct (K1 ess1 T1 i it1 es1 I1 S1) as (o1 & sn1 & R1 & SL1 & SH1 & _). destruct (K2 ess2 T2 i it2 es2 I2 S2) as (o2 & sn2 & R2 & SL2 & SH2 & _).
  exists sn1, sn2. split; [exact R1|]. split; [exact R2|]. intros ws W.
  assert (o2 = inl ws) by (destruct o2 as [w|m]; cbn in SH2; [congruence|destruct (c_mode c2); congruence]). subst o2.
  destruct (selected_by_name _ _ _ _ _ _ _ _ _ _ _ _ _ _ ND1 ND2 SH L IN SL1 SL2) as (vs & -> & A & B). exists vs. cbn in SH1. auto.
Qed.
Print Assumptions C64_by_name.

(** The same names and types in the same order: the calls answer the same, whatever else the documents contain. *)
Lemma selected_same c1 d1 cols1 fs es out1 o1 c2 d2 cols2 out2 o2 : NoDup cols1 -> length es = length fs ->
  (exists xs1 xs2, cells c1 d1 cols1 out1 xs1 /\ cells c2 d2 cols2 out2 xs2 /\ forall f x, In f fs -> cell cols2 xs2 f x -> cell cols1 xs1 f x) ->
  selected c1 d1 cols1 fs es out1 o1 -> selected c2 d2 cols2 fs es out2 o2 -> o1 = o2.
Proof.
  intros ND E (xs1 & xs2 & (t1 & -> & Z1 & P1 & L1) & (t2 & -> & Z2 & P2 & L2) & SAME) S1 S2.
  assert (X : forall c d cols t xs o, c_string t <> [] -> split_obs c sp_init d (c_string t) [] = SFields xs -> length xs = length cols ->
    selected c d cols fs es (Complete t) o -> exists ys, Forall2 (cell cols xs) fs ys /\ converted [] 0 es ys o).
  { intros c d cols t xs o Z P L S. inversion S as [t0 x0 ys o0 Z0 SP0 L0 E0 FA CV|t0 x0 Z0 SP0 E0 NE|t0 x0 Z0 SP0 NE|t0 m m' Z0 SP0|t0 m Z0|]; subst; try contradiction;
      try (rewrite P in SP0; injection SP0 as <-; congruence); [|destruct SP0 as [SP0|SP0]; congruence].
    rewrite P in SP0. injection SP0 as <-. exists ys. auto. }
  destruct (X _ _ _ _ _ _ Z1 P1 L1 S1) as (ys1 & F1 & C1). destruct (X _ _ _ _ _ _ Z2 P2 L2 S2) as (ys2 & F2 & C2).
  assert (ys1 = ys2).
  { clear -F1 F2 SAME ND. revert ys2 F2. induction F1 as [|f y fs ys1 H F1 IH]; intros ys2 F2; inversion F2 as [|? y2 ? ? H2 F2']; subst; [reflexivity|].
    f_equal; [eapply cell_fun; [exact ND|exact H|apply SAME; [left; reflexivity|exact H2]]|]. apply IH; [|assumption]. intros g x I. apply SAME. right. exact I. }
  subst ys2. eapply converted_fun; eauto.
Qed.
Theorem C64_same_answers : forall c1 cap1 d1 data1 name1 cols1 fs its1 q1 c2 cap2 d2 data2 name2 cols2 its2 q2 ess,
  fit c1 d1 -> enough cap1 -> by_name c1 cap1 d1 data1 name1 cols1 fs its1 q1 ->
  fit c2 d2 -> enough cap2 -> by_name c2 cap2 d2 data2 name2 cols2 fs its2 q2 -> Forall types ess -> length its1 = length its2 ->
  forall i it1 it2 es xs1 xs2, nth_error its1 i = Some it1 -> nth_error its2 i = Some it2 -> nth_error ess i = Some es -> length es = length fs ->
  cells c1 d1 cols1 (it_out it1) xs1 -> cells c2 d2 cols2 (it_out it2) xs2 -> (forall f x, In f fs -> cell cols2 xs2 f x -> cell cols1 xs1 f x) ->
  exists o sn1 sn2, nth_error (reads c1 cap1 q1 ess) i = Some sn1 /\ nth_error (reads c2 cap2 q2 ess) i = Some sn2 /\
    shown c1 name1 (it_line it1) (it_next it1) o (s_what sn1) /\ shown c2 name2 (it_line it2) (it_next it2) o (s_what sn2) /\ s_eof sn1 = s_eof sn2.
Proof.
  intros c1 cap1 d1 data1 name1 cols1 fs its1 q1 c2 cap2 d2 data2 name2 cols2 its2 q2 ess F1 H1 B1 F2 H2 B2 T EL i it1 it2 es xs1 xs2 I1 I2 S L X1 X2 SAME.
  destruct (by_name_reads _ _ _ _ _ _ _ _ _ F1 H1 B1) as (ND1 & K1). destruct (by_name_reads _ _ _ _ _ _ _ _ _ F2 H2 B2) as (ND2 & K2).
  destruct (K1 ess T i it1 es I1 S) as (o1 & sn1 & R1 & SL1 & SH1 & E1 & _). destruct (K2 ess T i it2 es I2 S) as (o2 & sn2 & R2 & SL2 & SH2 & E2 & _).
  assert (o1 = o2) by (eapply (selected_same c1 d1 cols1 fs es _ o1 c2 d2 cols2); eauto 8). subst o2.
  exists o1, sn1, sn2. repeat (split; [assumption|]). apply Bool.eq_iff_eq_true. rewrite E1, E2, EL. reflexivity.
Qed.
Print Assumptions C64_same_answers.

(** The order of the names: asked for in another order, with the types in the same new order, a row is accepted or refused as
    before, and every name has the value it had. *)
Theorem C64_order_of_names : forall c cap d data name1 name2 cols fs1 fs2 its q1 q2 ess1 ess2,
  fit c d -> enough cap -> by_name c cap d data name1 cols fs1 its q1 -> by_name c cap d data name2 cols fs2 its q2 -> Forall types ess1 -> Forall types ess2 ->
  forall i it es1 es2, nth_error its i = Some it -> nth_error ess1 i = Some es1 -> nth_error ess2 i = Some es2 ->
  length es1 = length fs1 -> length es2 = length fs2 -> Permutation (combine fs1 es1) (combine fs2 es2) ->
  exists sn1 sn2, nth_error (reads c cap q1 ess1) i = Some sn1 /\ nth_error (reads c cap q2 ess2) i = Some sn2 /\
    ((exists vs ws, s_what sn1 = GValues vs /\ s_what sn2 = GValues ws /\ forall f v, In (f, v) (labelled fs1 es1 vs) <-> In (f, v) (labelled fs2 es2 ws)) \/
     ((forall vs, s_what sn1 <> GValues vs) /\ forall ws, s_what sn2 <> GValues ws)).
Proof.
  intros c cap d data name1 name2 cols fs1 fs2 its q1 q2 ess1 ess2 F HC B1 B2 T1 T2 i it es1 es2 I S1 S2 L1 L2 PM.
  assert (SH : forall fs, shares fs c d cols (it_out it) c d cols (it_out it)) by (intros fs xs X; exists xs; auto).
  destruct (C64_by_name c cap d data name1 cols fs1 its q1 c cap d data name2 cols fs2 its q2 ess1 ess2 F HC B1 F HC B2 T1 T2 i it it es1 es2 I I S1 S2 L1) as (sn1 & sn2 & R1 & R2 & K);
    [intros x X; eapply Permutation_in; eauto|apply SH|].
  destruct (C64_by_name c cap d data name2 cols fs2 its q2 c cap d data name1 cols fs1 its q1 ess2 ess1 F HC B2 F HC B1 T2 T1 i it it es2 es1 I I S2 S1 L2) as (sn2' & sn1' & R2' & R1' & K');
    [intros x X; eapply Permutation_in; [apply Permutation_sym|]; eauto|apply SH|].
  assert (sn1' = sn1) by congruence. assert (sn2' = sn2) by congruence. subst. exists sn1, sn2. split; [exact R1|]. split; [exact R2|].
  destruct (s_what sn2) as [ws| | |] eqn:W.
  - left. destruct (K ws eq_refl) as (vs & V & _ & A). exists vs, ws. split; [exact V|]. split; [reflexivity|].
    destruct (K' vs V) as (ws' & [= <-] & _ & B). intros f v. split; [apply A|apply B].
  - right. split; [|congruence]. intros vs V. destruct (K' vs V) as (? & ? & _). discriminate.
  - right. split; [|congruence]. intros vs V. destruct (K' vs V) as (? & ? & _). discriminate.
  - right. split; [|congruence]. intros vs V. destruct (K' vs V) as (? & ? & _). discriminate.
Qed.
Print Assumptions C64_order_of_names.

(** ** Example: the same people, in a file with commas and in one with semicolons, quotes, another column and another order *)
Definition commas : cfg := mkCfg None [] [] [] false 0 EString false false.
Definition semis : cfg := mkCfg (Some """"%char) [] [] [] false 0 EThrow false false.
Definition people1 : str := S2 "id,name,age" ++ LF :: S2 "7,bob,20" ++ LF :: S2 "8,eve,x".
Definition people2 : str := S2 "age;shoe;name" ++ CR :: LF :: S2 "20;41;""bob""" ++ CR :: LF :: S2 "x;39;eve" ++ CR :: LF :: [].
Definition cols1 : list str := [S2 "id"; S2 "name"; S2 "age"].
Definition cols2 : list str := [S2 "age"; S2 "shoe"; S2 "name"].
Definition asked : list str := [S2 "name"; S2 "age"].
Definition its1 : list item := [mkItem (Complete (S2 "7,bob,20")) 2 2 [(S2 "8,eve,x", [])]; mkItem (Complete (S2 "8,eve,x")) 3 3 []].
Definition its2 : list item := [mkItem (Complete (S2 "20;41;""bob""")) 2 2 [(S2 "x;39;eve", [CR; LF])]; mkItem (Complete (S2 "x;39;eve")) 3 3 []].
Definition exact_cap : nat -> nat -> nat := fun _ need => need.
Definition wanted : list elem := [EVal TString; EVal (TInt (mkIty true 32))].
Example C64_example : fit commas (S2 ",") /\ fit semis (S2 ";") /\ enough exact_cap /\ types wanted /\ length wanted = length asked /\
  (exists q1 q2, by_name commas exact_cap (S2 ",") people1 (S2 "a.csv") cols1 asked its1 q1 /\ by_name semis exact_cap (S2 ";") people2 (S2 "b.csv") cols2 asked its2 q2 /\
    map s_what (reads commas exact_cap q1 [wanted; wanted]) = [GValues [VStr (S2 "bob"); VInt 20]; GError (S2 "a.csv 3: invalid conversion for parameter at column 2: 'x'")] /\
    map s_what (reads semis exact_cap q2 [wanted; wanted]) = [GValues [VStr (S2 "bob"); VInt 20]; GThrown (S2 "b.csv 3: invalid conversion for parameter at column 2: 'x'")]) /\
  (exists xs1 xs2, cells commas (S2 ",") cols1 (Complete (S2 "7,bob,20")) xs1 /\ cells semis (S2 ";") cols2 (Complete (S2 "20;41;""bob""")) xs2 /\
    forall f x, In f asked -> cell cols2 xs2 f x -> cell cols1 xs1 f x).
Proof.
  assert (NM : forall c, c_ml c = false -> forall t e ls d, row c d 0 t t e ls (Complete t) 0 ls).
  { intros c H t e ls d. apply row_done. intros w G. destruct G; congruence. }
  assert (NB : forall c, c_ignempty c = false -> forall ls, blanks c ls 0 ls).
  { intros c H ls. apply bl_none. congruence. }
  assert (P1 : physical people1 [(S2 "id,name,age", [LF]); (S2 "7,bob,20", [LF]); (S2 "8,eve,x", [])]).
  { apply ph_lf; [vm_compute; intuition discriminate|intros t X; apply (f_equal (@rev _)) in X; rewrite rev_app_distr in X; discriminate|].
    apply ph_lf; [vm_compute; intuition discriminate|intros t X; apply (f_equal (@rev _)) in X; rewrite rev_app_distr in X; discriminate|].
    apply ph_last; [discriminate|vm_compute; intuition discriminate]. }
  assert (P2 : physical people2 [(S2 "age;shoe;name", [CR; LF]); (S2 "20;41;""bob""", [CR; LF]); (S2 "x;39;eve", [CR; LF])]).
  { apply ph_crlf; [vm_compute; intuition discriminate|]. apply ph_crlf; [vm_compute; intuition discriminate|].
    apply ph_crlf; [vm_compute; intuition discriminate|]. constructor. }
  assert (N1 : NoDup cols1) by (repeat constructor; cbn; intuition discriminate).
  assert (N2 : NoDup cols2) by (repeat constructor; cbn; intuition discriminate).
  split; [|split; [|split; [|split; [|split; [reflexivity|split]]]]].
  - split; [apply (setup_ok [OStringError]); reflexivity| | |]; cbn; try discriminate. intros [H|[]]. discriminate.
  - split; [apply (setup_ok [OQuote """"%char; OThrowOnError]); reflexivity| | |]; cbn; try discriminate. intros [H|[]]. discriminate.
  - intros n need. apply le_n.
  - split; [|discriminate]. repeat constructor.
  - eexists. eexists. split; [|split; [|split]].
    + eapply (bn commas exact_cap (S2 ",") people1 (S2 "a.csv") cols1 asked its1 commas) with (h := S2 "id,name,age") (e := [LF]) (ls := [(S2 "7,bob,20", [LF]); (S2 "8,eve,x", [])])
        (j := 0) (L := [(S2 "7,bob,20", [LF]); (S2 "8,eve,x", [])]) (ks := [CHeader]).
      * right. reflexivity.
      * reflexivity.
      * apply op_file. vm_compute. reflexivity.
      * discriminate.
      * exact P1.
      * discriminate.
      * apply NB. reflexivity.
      * right. left. reflexivity.
      * apply (doc_row commas (S2 ",") 1 (S2 "7,bob,20") [LF] [(S2 "8,eve,x", [])] _ 0 [(S2 "8,eve,x", [])] 0); [apply NM; reflexivity|apply NB; reflexivity|].
        apply (doc_row commas (S2 ",") 2 (S2 "8,eve,x") [] [] _ 0 [] 0); [apply NM; reflexivity|apply NB; reflexivity|]. constructor.
      * vm_compute. reflexivity.
      * exact N1.
      * split; [discriminate|]. split; [repeat constructor; cbn; intuition discriminate|]. intros f [<-|[<-|[]]]; cbn; auto.
      * constructor; [|constructor]. right. left. reflexivity.
    + eapply (bn semis exact_cap (S2 ";") people2 (S2 "b.csv") cols2 asked its2 semis) with (h := S2 "age;shoe;name") (e := [CR; LF]) (ls := [(S2 "20;41;""bob""", [CR; LF]); (S2 "x;39;eve", [CR; LF])])
        (j := 0) (L := [(S2 "20;41;""bob""", [CR; LF]); (S2 "x;39;eve", [CR; LF])]) (ks := []).
      * right. reflexivity.
      * reflexivity.
      * apply op_file. vm_compute. reflexivity.
      * discriminate.
      * exact P2.
      * discriminate.
      * apply NB. reflexivity.
      * right. left. reflexivity.
      * apply (doc_row semis (S2 ";") 1 (S2 "20;41;""bob""") [CR; LF] [(S2 "x;39;eve", [CR; LF])] _ 0 [(S2 "x;39;eve", [CR; LF])] 0); [apply NM; reflexivity|apply NB; reflexivity|].
        apply (doc_row semis (S2 ";") 2 (S2 "x;39;eve") [CR; LF] [] _ 0 [] 0); [apply NM; reflexivity|apply NB; reflexivity|]. constructor.
      * vm_compute. reflexivity.
      * exact N2.
      * split; [discriminate|]. split; [repeat constructor; cbn; intuition discriminate|]. intros f [<-|[<-|[]]]; cbn; auto.
      * constructor.
    + vm_compute. reflexivity.
    + vm_compute. reflexivity.
  - exists [S2 "7"; S2 "bob"; S2 "20"], [S2 "20"; S2 "41"; S2 "bob"]. split; [|split].
    + eexists. split; [reflexivity|]. split; [discriminate|]. split; vm_compute; reflexivity.
    + eexists. split; [reflexivity|]. split; [discriminate|]. split; vm_compute; reflexivity.
    + intros f x [<-|[<-|[]]] (i & A & B); destruct i as [|[|[|i]]]; try discriminate A; try (destruct i; discriminate A);
        injection B as <-; [exists 1|exists 2]; split; reflexivity.
Qed.
(** A selection made after a row was read (here the header, as a row). *)
Definition all3 : list elem := [EVal TString; EVal TString; EVal TString].
Example C64_later_case : exists q, by_name commas exact_cap (S2 ",") people1 (S2 "a.csv") cols1 asked its1 q /\ p_line q = 1 /\
  map s_what (reads commas exact_cap q [wanted]) = [GValues [VStr (S2 "bob"); VInt 20]].
Proof.
  assert (NM : forall t e ls, row commas (S2 ",") 0 t t e ls (Complete t) 0 ls).
  { intros t e ls. apply row_done. intros w G. destruct G; discriminate. }
  assert (NB : forall ls, blanks commas ls 0 ls) by (intros ls; apply bl_none; discriminate).
  assert (P1 : physical people1 [(S2 "id,name,age", [LF]); (S2 "7,bob,20", [LF]); (S2 "8,eve,x", [])]).
  { apply ph_lf; [vm_compute; intuition discriminate|intros t X; apply (f_equal (@rev _)) in X; rewrite rev_app_distr in X; discriminate|].
    apply ph_lf; [vm_compute; intuition discriminate|intros t X; apply (f_equal (@rev _)) in X; rewrite rev_app_distr in X; discriminate|].
    apply ph_last; [discriminate|vm_compute; intuition discriminate]. }
  assert (ND : NoDup cols1) by (repeat constructor; cbn; intuition discriminate).
  destruct (parser_file commas exact_cap (S2 "a.csv") (S2 ",") false (Some people1)) as [[] p|e p|r|] eqn:EP; [|vm_compute in EP; discriminate|vm_compute in EP; discriminate|vm_compute in EP; discriminate].
  exists (snd (do_call commas (header_cfg commas) exact_cap (later commas (header_cfg commas) exact_cap p [CGet all3]) (CUse asked))).
  split; [|vm_compute in EP; injection EP as <-; split; vm_compute; reflexivity].
  eapply (bn_later commas exact_cap (S2 ",") people1 (S2 "a.csv") cols1 asked its1 (header_cfg commas) p (S2 "id,name,age")
    (mkView 0 [(S2 "id,name,age", [LF]); (S2 "7,bob,20", [LF]); (S2 "8,eve,x", [])] false [] 0 []) [CGet all3]
    (mkView 1 [(S2 "7,bob,20", [LF]); (S2 "8,eve,x", [])] false [] 0 []) 1 [(S2 "7,bob,20", [LF]); (S2 "8,eve,x", [])]).
  - left. reflexivity.
  - reflexivity.
  - apply (se commas exact_cap (S2 ",") people1 (S2 "a.csv") (S2 "id,name,age") p 0); [apply op_file; exact EP|discriminate|eapply st_all; [reflexivity|exact P1|apply NB]|discriminate|eapply hl_line; [exact P1|apply NB]].
  - constructor; [|constructor]. cbn. split; [|discriminate]. repeat constructor.
  - split; [|intros; exact Logic.I]. intros O. inversion O; subst; try discriminate.
  - vm_compute. reflexivity.
  - exact ND.
  - split; [discriminate|]. split; [repeat constructor; cbn; intuition discriminate|]. intros f [<-|[<-|[]]]; cbn; auto.
  - vm_compute in EP. injection EP as <-. vm_compute. reflexivity.
  - vm_compute in EP. injection EP as <-.
    match goal with |- leads _ _ _ _ _ _ _ ?r _ => let r' := eval vm_compute in r in replace r with r' by (vm_compute; reflexivity) end.
    apply (le_step _ _ _ _ _ _ _ _ (mkView 1 [(S2 "7,bob,20", [LF]); (S2 "8,eve,x", [])] false [] 0 [])); [|constructor].
    eapply do_get with (k := 0) (m := 0) (j := 0) (o := inl [VStr (S2 "id"); VStr (S2 "name"); VStr (S2 "age")]) (ls' := [(S2 "7,bob,20", [LF]); (S2 "8,eve,x", [])]); [apply NM|apply NB| |].
    + eapply rd_row; [discriminate|vm_compute; reflexivity|]. apply converted_values. repeat (apply ro_cons; [apply co_val; constructor|]). constructor.
    + vm_compute. reflexivity.
  - right. split; [discriminate|]. split; reflexivity.
  - apply (doc_row commas (S2 ",") 1 (S2 "7,bob,20") [LF] [(S2 "8,eve,x", [])] _ 0 [(S2 "8,eve,x", [])] 0); [apply NM|apply NB|].
    apply (doc_row commas (S2 ",") 2 (S2 "8,eve,x") [] [] _ 0 [] 0); [apply NM|apply NB|]. constructor.
Qed.
