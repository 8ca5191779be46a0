(** C49: rows that were written completely are read the same when the document grows, or: when the end of a document is
    missing (a writer that crashed, a copy that was cut off), the rows before the cut are read as in the whole document.
    Vocabulary: PropParser.v, ParserApi.v, ParserSpec.v. *)
From Verif Require Import Base Setup Splitter SplitPure ListFacts SplitApi Extract Converter ConvSpec ConvProofs Reader LineSpec LineProofs GetLineProofs ReaderBase ReaderInv ReaderEscape ReaderParse Parser ParserSpec ParserApi ParserInv ParserRows ParserOpen ParserSession ParserFacts PropParser.

(** Was the row given up only because the data ended? *)
Definition settled (o : outcome) : Prop := o <> Incomplete EscapeAtEnd /\ o <> Incomplete QuoteAtEnd.
Definition ends_line (data : str) : Prop := exists a, data = a ++ [LF].

Lemma physical_prefix a l1 : physical a l1 -> forall b l2, physical (a ++ b) l2 ->
  exists u r1 r2, l1 = u ++ r1 /\ l2 = u ++ r2 /\ length r1 <= 1 /\ (ends_line a -> r1 = []).
Proof.
  induction 1 as [|t Ht Hl|t rest ls Hl Hc P IH|t rest ls Hl P IH]; intros b l2 P2.
  - exists [], [], l2. cbn. auto.
  - exists [], [(t, [])], l2. cbn. repeat split; auto. intros (a & E). exfalso. apply Hl. rewrite E. apply in_or_app. right. left. reflexivity.
  - rewrite <- app_assoc in P2. cbn [app] in P2.
    destruct (IH b _ (lines_physical (rest ++ b))) as (u & r1 & r2 & E1 & E2 & E3 & E4).
    pose proof (ph_lf t (rest ++ b) _ Hl Hc (lines_physical (rest ++ b))) as P3. rewrite (physical_unique _ _ P2 _ P3).
    exists ((t, [LF]) :: u), r1, r2. rewrite E1, E2. cbn. repeat split; auto. intros (a & E).
    destruct rest as [|x rest]; [pose proof (physical_unique _ _ P _ ph_none) as X; rewrite E1 in X; destruct u, r1; try discriminate; reflexivity|].
    apply E4. destruct (exists_last (l := x :: rest)) as (y & z & Ez); [discriminate|]. rewrite Ez in *. exists y. f_equal.
    assert (X : (t ++ LF :: y) ++ [z] = a ++ [LF]) by (rewrite <- E, <- app_assoc; reflexivity). apply app_inj_tail in X. destruct X as [_ ->]. reflexivity.
  - rewrite <- app_assoc in P2. cbn [app] in P2.
    destruct (IH b _ (lines_physical (rest ++ b))) as (u & r1 & r2 & E1 & E2 & E3 & E4).
    pose proof (ph_crlf t (rest ++ b) _ Hl (lines_physical (rest ++ b))) as P3. rewrite (physical_unique _ _ P2 _ P3).
    exists ((t, [CR; LF]) :: u), r1, r2. rewrite E1, E2. cbn. repeat split; auto. intros (a & E).
    destruct rest as [|x rest]; [pose proof (physical_unique _ _ P _ ph_none) as X; rewrite E1 in X; destruct u, r1; try discriminate; reflexivity|].
    apply E4. destruct (exists_last (l := x :: rest)) as (y & z & Ez); [discriminate|]. rewrite Ez in *. exists y. f_equal.
    assert (X : (t ++ CR :: LF :: y) ++ [z] = a ++ [LF]) by (rewrite <- E, <- app_assoc; reflexivity). apply app_inj_tail in X. destruct X as [_ ->]. reflexivity.
Qed.

Lemma suffix_cut {A} (u r v s : list A) : u ++ r = v ++ s -> length r <= length s -> exists w, u = v ++ w /\ s = w ++ r.
Proof.
  revert u. induction v as [|x v IH]; intros u E H; cbn in E.
  - exists u. auto.
  - destruct u as [|y u].
    + cbn in E. subst r. cbn [length] in H. rewrite app_length in H. lia.
    + cbn in E. injection E as -> E. destruct (IH u E H) as (w & -> & ->). exists w. auto.
Qed.

Section Cut.
Context (c : cfg) (d : str).

Lemma row_local n t last e more out m rest : row c d n t last e more out m rest -> settled out ->
  exists u, more = u ++ rest /\ forall rest', row c d n t last e (u ++ rest') out m rest'.
Proof.
  induction 1 as [n T last e more N|n T last e w t e' more out m rest G A R IH|n T last e w more G A|n T last e G A|n T last e G A]; intros S0.
  - exists []. split; [reflexivity|]. intros rest'. apply row_done. exact N.
  - destruct (IH S0) as (u & -> & K). exists ((t, e') :: u). split; [reflexivity|]. intros rest'. cbn [app]. eapply row_more; eauto.
  - exists []. split; [reflexivity|]. intros rest'. eapply row_limit; eauto.
  - destruct S0 as [S0 _]. congruence.
  - destruct S0 as [_ S0]. congruence.
Qed.
Lemma row_rest_settled n t last e more out m rest : row c d n t last e more out m rest -> rest <> [] -> settled out.
Proof.
  induction 1 as [n T last e more N|n T last e w t e' more out m rest G A R IH|n T last e w more G A|n T last e G A|n T last e G A]; intros S0; auto;
    try (split; congruence).
Qed.
Lemma blanks_local x j y : blanks c x j y -> y <> [] -> forall w r1, y = w ++ r1 -> w <> [] ->
  exists v, x = v ++ w ++ r1 /\ length v = j /\ forall r2, blanks c (v ++ w ++ r2) j (w ++ r2).
Proof.
  induction 1 as [ls N|e ls j ls' H B IH]; intros Hy w r1 E Hw.
  - exists []. split; [exact E|]. split; [reflexivity|]. intros r2. apply bl_none. intros e ls' He X. destruct w as [|[t e0] w]; [congruence|].
    injection X as -> -> X. apply (N e (w ++ r1) He). rewrite E. reflexivity.
  - destruct (IH Hy w r1 E Hw) as (v & -> & <- & K). exists (([], e) :: v). split; [reflexivity|]. split; [reflexivity|]. intros r2. cbn [app length]. apply bl_skip; auto.
Qed.

Definition kept_row (n i : nat) (r1 : list (str * str)) (o : outcome) : Prop := S i < n \/ r1 = [] /\ settled o.

Lemma document_local : forall k L its1, document c d k L its1 -> forall u r1 r2 its2, L = u ++ r1 -> length r1 <= 1 -> document c d k (u ++ r2) its2 ->
  forall i it, nth_error its1 i = Some it -> kept_row (length its1) i r1 (it_out it) -> 
  exists it2, nth_error its2 i = Some it2 /\ it_out it2 = it_out it /\ it_line it2 = it_line it /\
    (S (S i) < length its1 -> it_next it2 = it_next it /\ exists w, it_rest it = w ++ r1 /\ it_rest it2 = w ++ r2).
Proof.
  induction 1 as [k|k t e ls out m rest j ls' its1 R B D IH]; intros u r1 r2 its2 E Hr D2 i it Hi K; [destruct i; discriminate|].
  (* the row's lines are among those in common *)
  assert (KL : settled out /\ exists v, ls = v ++ rest /\ exists w, rest = w ++ r1 /\ u = (t, e) :: v ++ w).
  { assert (HS : settled out /\ length r1 <= length rest).
    { destruct its1 as [|it1 its1'].
      - assert (i = 0) as -> by (apply (f_equal (fun o => match o with Some _ => true | None => false end)) in Hi; destruct i as [|[|i]]; cbn in Hi; congruence).
        cbn in Hi. injection Hi as <-. cbn [it_out] in K. destruct K as [K|[-> K]]; [cbn in K; lia|]. split; [exact K|]. cbn. lia.
      - assert (NE : rest <> []). { intros ->. inversion B; subst. inversion D. } split; [eapply row_rest_settled; eauto|].
        destruct rest; [congruence|]. cbn [length]. lia. }
    destruct HS as [HS Hle]. split; [exact HS|]. destruct (row_lines c d _ _ _ _ _ _ _ _ R) as (v & Ev & _). exists v. split; [exact Ev|].
    destruct u as [|l u].
    - cbn in E. subst r1. rewrite Ev in *. cbn [length] in Hr. rewrite app_length in Hr. cbn [length] in Hle. rewrite app_length in Hle. lia.
    - cbn in E. injection E as <- E. rewrite Ev in E. symmetry in E. destruct (suffix_cut _ _ _ _ E Hle) as (w & -> & ->). exists w. auto. }
  destruct KL as (HS & v & Ev & w & Ew & ->). subst ls rest.
  destruct (row_local _ _ _ _ _ _ _ _ R HS) as (v' & Ev & RL). apply app_inv_tail in Ev. subst v'. specialize (RL (w ++ r2)).
  cbn [app] in D2. rewrite <- app_assoc in D2. inversion D2 as [|k0 t0 e0 ls0 out0 m0 rest0 j0 ls0' its0 R0 B0 D0]; subst.
  destruct (row_fun _ _ _ _ _ _ _ _ _ _ RL _ _ _ R0) as (<- & <- & <-).
  assert (NX : S 0 < length its1 \/ its1 <> [] /\ r1 = [] -> exists w', ls' = w' ++ r1 /\ w' <> [] /\ ls0' = w' ++ r2 /\ j0 = j).
  { intros Hx. assert (X : exists w', ls' = w' ++ r1 /\ w' <> []).
    { destruct (blanks_used c _ _ _ B) as (b & Eb & _). assert (Hl : length r1 < length ls').
      { destruct Hx as [Hx|[Hx ->]].
        - inversion D; subst; cbn in Hx; [lia|]. cbn [length]. match goal with D' : document _ _ _ ?l its |- _ => destruct l; [inversion D'; subst; cbn in Hx; lia|] end.
          match goal with B' : blanks _ ?rr _ (_ :: _) |- _ => destruct rr; [inversion B'|] end.
          match goal with R' : row _ _ _ _ _ _ ?ll _ _ (_ :: _) |- _ => destruct (row_lines c d _ _ _ _ _ _ _ _ R') as (u5 & -> & _) end.
          rewrite app_length. cbn. lia.
        - inversion D; subst; [congruence|]. cbn. lia. }
      destruct (suffix_cut _ _ _ _ Eb ltac:(lia)) as (w' & -> & E'). exists w'. split; [exact E'|]. intros ->. cbn in E'. subst ls'. lia. }
    destruct X as (w' & -> & Hw'). destruct (blanks_local _ _ _ B ltac:(destruct w'; [congruence|discriminate]) w' r1 eq_refl Hw') as (b & Eb & Lb & K2).
    rewrite app_assoc in Eb. apply app_inv_tail in Eb. subst w. specialize (K2 r2). rewrite <- app_assoc in B0.
    pose proof (blanks_fun c _ _ _ K2) as X1. rewrite (blanks_fun c _ _ _ B0) in X1. injection X1 as -> ->. exists w'. auto. }
  destruct i as [|i].
  - cbn in Hi. injection Hi as <-. cbn [it_out it_line nth_error]. eexists. split; [reflexivity|]. cbn [it_out it_line it_next it_rest]. split; [reflexivity|]. split; [reflexivity|].
    intros Hn. cbn [length] in Hn. destruct NX as (w' & E1 & _ & E2 & ->); [left; lia|]. split; [reflexivity|]. exists w'. auto.
  - cbn in Hi. assert (NE : its1 <> []) by (intros ->; destruct i; discriminate).
    destruct NX as (w' & E1 & _ & E2 & ->). { destruct K as [K|[K _]]; [left; cbn in K; lia|right; auto]. }
    subst ls0'. destruct (IH w' r1 r2 _ E1 Hr D0 i it Hi) as (it2 & A1 & A2 & A3 & A4).
    { destruct K as [K|K]; [left; cbn in K; lia|right; exact K]. }
    exists it2. cbn [nth_error length]. split; [exact A1|]. split; [exact A2|]. split; [exact A3|]. intros Hn. apply A4. lia.
Qed.

Lemma document_size k L its i it r1 : document c d k L its -> nth_error its i = Some it -> length r1 <= 1 -> kept_row (length its) i r1 (it_out it) ->
  length (r1 : list (str * str)) < length L.
Proof.
  intros D Hi Hr [K|[-> _]].
  - inversion D as [|k0 t e ls out m rest j ls' its0 R B D0]; subst; [destruct i; discriminate|]. cbn [length] in *. destruct its0 as [|it0 its0]; [cbn in K; lia|].
    inversion D0; subst. destruct (row_lines c d _ _ _ _ _ _ _ _ R) as (u & -> & _). destruct (blanks_used c _ _ _ B) as (b & -> & _). rewrite !app_length. cbn. lia.
  - inversion D; subst; [destruct i; discriminate|]. cbn. lia.
Qed.

Lemma starts_local data tail k1 L1 k2 L2 : starts c data k1 L1 -> starts c (data ++ tail) k2 L2 -> forall n i o,
  (forall r1, length r1 <= 1 -> kept_row n i r1 o -> length r1 < length L1) -> S i < n \/ ends_line data /\ settled o ->
  k1 = k2 /\ exists w r1 r2, L1 = w ++ r1 /\ L2 = w ++ r2 /\ length r1 <= 1 /\ kept_row n i r1 o /\
    exists u, lines data = u ++ L1 /\ lines (data ++ tail) = u ++ L2.
Proof.
  intros S1 S2 n i o Hsz K.
  destruct (physical_prefix _ _ (lines_physical data) tail _ (lines_physical (data ++ tail))) as (u & r1 & r2 & E1 & E2 & Hr & He).
  assert (KR : kept_row n i r1 o) by (destruct K as [K|[K1 K2]]; [left; exact K|right; auto]).
  specialize (Hsz r1 Hr KR).
  inversion S1 as [l1 j1 l1' Hh P1 B1|l1 j1 t1 e1 ls1 j1' l1' Hh P1 B1 B1']; inversion S2 as [l2 j2 l2' Hh2 P2 B2|l2 j2 t2 e2 ls2 j2' l2' Hh2 P2 B2 B2']; try congruence; subst.
  - rewrite <- (physical_unique _ _ P1 _ (lines_physical data)) in *. rewrite <- (physical_unique _ _ P2 _ (lines_physical (data ++ tail))) in *. subst l1 l2.
    destruct (blanks_used c _ _ _ B1) as (b & Eb & _). destruct (suffix_cut _ _ _ _ Eb ltac:(lia)) as (w & -> & ->).
    destruct w as [|x w]; [cbn in Hsz; lia|]. destruct (blanks_local _ _ _ B1 ltac:(discriminate) _ _ eq_refl ltac:(discriminate)) as (v & Ev & Lv & KB).
    rewrite <- app_assoc in Ev. apply app_inv_tail in Ev. subst v. specialize (KB r2). rewrite <- app_assoc in B2.
    pose proof (blanks_fun c _ _ _ KB) as X. rewrite (blanks_fun c _ _ _ B2) in X. injection X as -> ->. split; [reflexivity|].
    exists (x :: w), r1, r2. repeat split; auto. exists b. rewrite <- !app_assoc. auto.
  - rewrite <- (physical_unique _ _ P1 _ (lines_physical data)) in *. rewrite <- (physical_unique _ _ P2 _ (lines_physical (data ++ tail))) in *. subst l1 l2.
    destruct (blanks_used c _ _ _ B1') as (b' & Eb' & _). subst ls1. destruct (blanks_used c _ _ _ B1) as (b & Eb & _).
    assert (Eb2 : u ++ r1 = (b ++ (t1, e1) :: b') ++ L1) by (rewrite <- app_assoc; exact Eb).
    destruct (suffix_cut _ _ _ _ Eb2 ltac:(lia)) as (w & -> & ->).
    destruct w as [|x w]; [cbn in Hsz; lia|].
    destruct (blanks_local _ _ _ B1 ltac:(discriminate) ((t1, e1) :: b' ++ x :: w) r1 ltac:(cbn; rewrite <- !app_assoc; reflexivity) ltac:(discriminate)) as (v & Ev & Lv & KB).
    assert (v = b) as ->. { apply (app_inv_tail (((t1, e1) :: b' ++ x :: w) ++ r1)). rewrite <- Ev. cbn. rewrite <- !app_assoc. cbn. rewrite <- ?app_assoc. reflexivity. }
    specialize (KB r2). 
    assert (EB2 : ((b ++ (t1, e1) :: b') ++ x :: w) ++ r2 = b ++ ((t1, e1) :: b' ++ x :: w) ++ r2) by (rewrite <- !app_assoc; cbn; rewrite <- ?app_assoc; reflexivity).
    rewrite EB2 in B2. pose proof (blanks_fun c _ _ _ KB) as X. rewrite (blanks_fun c _ _ _ B2) in X. injection X as X1 X2 X3 X4. subst.
    destruct (blanks_local _ _ _ B1' ltac:(discriminate) (x :: w) r1 eq_refl ltac:(discriminate)) as (v' & Ev' & Lv' & KB').
    apply app_inv_tail in Ev'. subst v'. specialize (KB' r2). rewrite <- app_assoc in B2'. pose proof (blanks_fun c _ _ _ KB') as X. rewrite (blanks_fun c _ _ _ B2') in X. injection X as -> ->.
    split; [reflexivity|]. exists (x :: w), r1, r2. repeat split; auto. exists (b ++ (t1, e1) :: b'). rewrite <- !app_assoc. cbn. rewrite <- ?app_assoc. auto.
Qed.
End Cut.

(** C49.  What the rows of a document are does not depend on what follows them. *)
Theorem C49_rows_stay : forall c d data tail its1 its2, rows_of c d data its1 -> rows_of c d (data ++ tail) its2 ->
  forall i it, nth_error its1 i = Some it -> S i < length its1 \/ ends_line data /\ settled (it_out it) ->
  exists it2, nth_error its2 i = Some it2 /\ it_out it2 = it_out it /\ it_line it2 = it_line it.
Proof.
  intros c d data tail its1 its2 (k1 & L1 & S1 & D1) (k2 & L2 & S2 & D2) i it Hi K.
  destruct (starts_local c _ _ _ _ _ _ S1 S2 _ i (it_out it) (fun r Hr Kr => document_size c d _ _ _ _ _ _ D1 Hi Hr Kr) K) as (<- & w & r1 & r2 & -> & -> & Hr & KR & _).
  destruct (document_local c d _ _ _ D1 w r1 r2 its2 eq_refl Hr D2 i it Hi KR) as (it2 & A1 & A2 & A3 & _). exists it2. auto.
Qed.
Print Assumptions C49_rows_stay.

(** And the calls show the same: the same values, or an error both times; as long as the cut is not in the next row either,
    eof(), line() and position() are the same, too. *)
Theorem C49_rows_before_the_cut : forall c cap d, fit c d -> enough cap ->
  forall data tail name1 p1 its1 ess1 name2 p2 its2 ess2, nuls_ok c (data ++ tail) ->
  opened c cap d data name1 p1 -> rows_of c d data its1 -> Forall types ess1 ->
  opened c cap d (data ++ tail) name2 p2 -> rows_of c d (data ++ tail) its2 -> Forall types ess2 ->
  forall i it es, nth_error its1 i = Some it -> nth_error ess1 i = Some es -> nth_error ess2 i = Some es ->
  S i < length its1 \/ ends_line data /\ settled (it_out it) ->
  exists sn1 sn2, nth_error (reads c cap p1 ess1) i = Some sn1 /\ nth_error (reads c cap p2 ess2) i = Some sn2 /\
    alike (s_what sn1) (s_what sn2) /\
    (S (S i) < length its1 -> s_eof sn1 = false /\ s_eof sn2 = false /\ s_line sn1 = s_line sn2 /\ s_pos sn1 = s_pos sn2).
Proof.
  intros c cap d F Hcap data tail name1 p1 its1 ess1 name2 p2 its2 ess2 N O1 R1 W1 O2 R2 W2 i it es Hi He1 He2 K.
  destruct (C49_rows_stay c d data tail its1 its2 R1 R2 i it Hi K) as (it2 & Hi2 & EO & EL).
  assert (H1 : c_ignhdr c = true -> its1 <> []) by (intros _ ->; destruct i; discriminate).
  assert (H2 : c_ignhdr c = true -> its2 <> []) by (intros _ ->; destruct i; discriminate).
  assert (N1 : nuls_ok c data) by (intros M X; apply (N M); apply in_or_app; auto).
  destruct (open_rows c cap d Hcap data name1 p1 its1 O1 N1 R1 H1) as (E1 & L1 & k1 & PS1 & D1 & S1).
  destruct (open_rows c cap d Hcap (data ++ tail) name2 p2 its2 O2 N R2 H2) as (E2 & L2 & k2 & PS2 & D2 & S2).
  destruct (reads_rows c d F cap Hcap ess1 _ _ _ _ _ _ _ PS1 D1 W1 i it es Hi He1) as (o1 & sn1 & A1 & A2 & A3 & A4 & A5 & A6).
  destruct (reads_rows c d F cap Hcap ess2 _ _ _ _ _ _ _ PS2 D2 W2 i it2 es Hi2 He2) as (o2 & sn2 & B1 & B2 & B3 & B4 & B5 & B6).
  exists sn1, sn2. split; [exact A1|]. split; [exact B1|]. rewrite EO in B2. split; [eapply shown_alike; [exact A2|exact B2|exact A3|exact B3]|].
  intros Hn.
  destruct (starts_local c _ _ _ _ _ _ S1 S2 _ i (it_out it) (fun r Hr Kr => document_size c d _ _ _ _ _ _ D1 Hi Hr Kr) K) as (<- & w & r1 & r2 & -> & -> & Hr & KR & u & EU1 & EU2).
  destruct (document_local c d _ _ _ D1 w r1 r2 its2 eq_refl Hr D2 i it Hi KR) as (it2' & A1' & _ & _ & A4'). rewrite Hi2 in A1'. injection A1' as <-.
  destruct (A4' Hn) as (EN & w' & ER1 & ER2).
  destruct (nth_error its1 (S i)) as [itn|] eqn:Hin; [|apply nth_error_None in Hin; lia].
  destruct (C49_rows_stay c d data tail its1 its2 R1 R2 (S i) itn Hin (or_introl Hn)) as (itn2 & Hin2 & _ & _).
  assert (Hl2 : S i < length its2) by (apply nth_error_Some; congruence).
  assert (X1 : it_rest it <> []) by (intros X; apply (document_last c d _ _ _ D1 i it Hi) in X; lia).
  assert (X2 : it_rest it2 <> []) by (intros X; apply (document_last c d _ _ _ D2 i it2 Hi2) in X; lia).
  split; [rewrite A4; apply Nat.eqb_neq; lia|]. split; [rewrite B4; apply Nat.eqb_neq; lia|]. split; [congruence|].
  rewrite A6, B6 by auto. 
  destruct (document_lines c d _ _ _ D1 i it Hi) as (v1 & EV1 & _). destruct (document_lines c d _ _ _ D2 i it2 Hi2) as (v2 & EV2 & _).
  assert (EV : v1 = v2).
  { rewrite ER1 in EV1. rewrite ER2 in EV2. rewrite app_assoc in EV1, EV2. apply app_inv_tail in EV1. apply app_inv_tail in EV2. rewrite EV1 in EV2. apply app_inv_tail in EV2. exact EV2. }
  subst v2. assert (BA : forall x y, bytes (x ++ y) = bytes x + bytes y) by (intros x y; unfold bytes; rewrite map_app, concat_app, app_length; reflexivity).
  assert (Y1 : length data = bytes u + (bytes v1 + bytes (it_rest it))) by (rewrite <- lines_bytes, EU1, BA, EV1, BA; reflexivity).
  assert (Y2 : length (data ++ tail) = bytes u + (bytes v1 + bytes (it_rest it2))) by (rewrite <- lines_bytes, EU2, BA, EV2, BA; reflexivity).
  rewrite Y1, Y2. lia.
Qed.
Print Assumptions C49_rows_before_the_cut.
