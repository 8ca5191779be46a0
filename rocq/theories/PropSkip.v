(** C68: ignore_next leaves a row out.  README: "To ignore a whole row, ignore_next could be used, returns
    false if eof"; "The header can be ignored using ignore_header or by calling ignore_next after the parser has been
    constructed".
    A program that goes through the rows of a file and skips some of them reads the others as if it had read and discarded
    those.  This holds for rows of one line; ignore_next skips a line, not a row ([C68_two_lines_refuted]).
    Vocabulary: ParserSpec.v, ParserApi.v, SessionApi.v. *)
From Verif Require Import Base Setup SetupProofs Splitter SplitPure ListFacts Extract Converter ConvProofs ConvTheorems Reader LineSpec LineProofs Parser ParserSpec ParserApi ParserInv ParserRows ParserOpen ParserSession ParserFacts PropParser PropExamples SessionApi SessionSpec PropSession PropCovered.
Local Open Scope monad_scope.

(** What the program does with a row: get_next with some types, or ignore_next. *)
Definition visit (q : option (list elem)) : call := match q with Some es => CGet es | None => CIgnore end.
(** The row is one line: its text has no newline. *)
Definition one_line (out : outcome) : Prop := exists t, out = Complete t /\ ~ In LF t.
(** The reply for a row: its values or its error; or true. *)
Definition answers (c : cfg) (d name : str) (it : item) (q : option (list elem)) (y : reply) : Prop :=
  match q with
  | Some es => exists o g, y = YGet g /\ row_reading c d [] 0 es (it_out it) o /\ shown c name (it_line it) (it_next it) o g
  | None => y = YBool true
  end.

(** ** Lines that are followed by another one end in a newline *)
Definition ended (ls : list (str * str)) : Prop := forall a t e b, ls = a ++ (t, e) :: b -> b <> [] -> In LF e.
Lemma physical_ended s ls : physical s ls -> ended ls.
Proof.
  intros P. induction P as [|t H1 H2|t rest ls H1 H2 P IH|t rest ls H1 P IH]; intros a t0 e b E Hb.
  - destruct a; discriminate.
  - destruct a as [|x [|y a]]; cbn in E; try discriminate. injection E as _ _ E. congruence.
  - destruct a as [|x a]; cbn in E; injection E as E1 E2; [|eapply IH; [exact E2|exact Hb]]. intros. subst. left. reflexivity.
  - destruct a as [|x a]; cbn in E; injection E as E1 E2; [|eapply IH; [exact E2|exact Hb]]. intros. subst. right. left. reflexivity.
Qed.
Lemma ended_tail x ls : ended (x :: ls) -> ended ls.
Proof. intros H a t e b E Hb. apply (H (x :: a) t e b); [cbn; rewrite E; reflexivity|exact Hb]. Qed.
Lemma ended_app a ls : ended (a ++ ls) -> ended ls.
Proof. induction a as [|x a IH]; [auto|]. intros H. apply IH. exact (ended_tail _ _ H). Qed.

Section W.
Context (c hc : cfg) (d name h : str).
Lemma row_from n T last e more out m rest : row c d n T last e more out m rest -> exists a, more = a ++ rest.
Proof.
  intros R. induction R as [n T last e more Hn|n T last e w t e' more out m rest G M R [a IH]|n T last e w more G M|n T last e G M|n T last e G M];
    try (exists []; reflexivity). exists ((t, e') :: a). cbn. rewrite IH. reflexivity.
Qed.
Lemma row_text n T last e more out m rest : row c d n T last e more out m rest -> forall t, out = Complete t -> exists s, t = T ++ s.
Proof.
  intros R. induction R as [n T last e more Hn|n T last e w t e' more out m rest G M R IH|n T last e w more G M|n T last e G M|n T last e G M]; intros u E; try discriminate.
  - injection E as <-. exists []. rewrite app_nil_r. reflexivity.
  - destruct (IH u E) as [s ->]. exists (e ++ t ++ s). rewrite <- !app_assoc. reflexivity.
Qed.
Lemma row_single n T last e more out m rest : row c d n T last e more out m rest -> ended ((last, e) :: more) -> one_line out -> m = n /\ rest = more.
Proof.
  intros R. destruct R as [n T last e more Hn|n T last e w t e' more out m rest G M R|n T last e w more G M|n T last e G M|n T last e G M]; intros E (u & Hu & HL);
    try discriminate; [auto|].
  exfalso. destruct (row_text _ _ _ _ _ _ _ _ R u Hu) as [s ->]. apply HL. rewrite !in_app_iff. left. right. left.
  apply (E [] last e ((t, e') :: more)); [reflexivity|discriminate].
Qed.
Lemma blanks_from ls j ls' : blanks c ls j ls' -> exists a, ls = a ++ ls'.
Proof. intros B. induction B as [ls Hn|e ls j ls' Hc B [a IH]]; [exists []; reflexivity|exists (([], e) :: a); cbn; rewrite IH; reflexivity]. Qed.

Notation at_row k L := (mkView k L (over L) [] 0 []) (only parsing).
Definition fine (its : list item) (qs : list (option (list elem))) : Prop :=
  length qs <= length its /\
  forall i it, nth_error qs i = Some None -> nth_error its i = Some it -> S i < length its /\ one_line (it_out it).
Lemma fine_tail it its q qs : fine (it :: its) (q :: qs) -> fine its qs.
Proof.
  intros [H1 H2]. split; [cbn in H1; lia|]. intros i it' Hq Hi. destruct (H2 (S i) it' Hq Hi) as [H3 H4]. cbn in H3. split; [lia|exact H4].
Qed.
Lemma document_over k L its : document c d k L its -> over L = match its with [] => true | _ => false end.
Proof. intros D. destruct D; reflexivity. Qed.

(** A step: one row. *)
Lemma steps k L it its q qs y v : document c d k L (it :: its) -> ended L -> fine (it :: its) (q :: qs) ->
  does c hc d name h (at_row k L) (visit q) y v ->
  answers c d name it q y /\ exists L', v = at_row (it_next it) L' /\ document c d (it_next it) L' its /\ ended L'.
Proof.
  intros D E F Do. inversion D as [|k0 t e ls out m rest j ls' its0 R B D']; subst.
  pose proof (ended_tail _ _ E) as E1.
  assert (ended ls') as E'.
  { destruct (row_from _ _ _ _ _ _ _ _ R) as [a ->]. destruct (blanks_from _ _ _ B) as [b ->]. apply (ended_app b), (ended_app a), E1. }
  destruct q as [es|]; cbn [visit answers it_out it_line it_next] in *.
  - inversion Do; subst.
    match goal with R2 : row c d 0 t t e ls _ _ _ |- _ => destruct (row_fun _ _ _ _ _ _ _ _ _ _ R _ _ _ R2) as (<- & <- & <-) end.
    match goal with B2 : blanks c rest _ _ |- _ => pose proof (blanks_fun _ _ _ _ B) as X; rewrite (blanks_fun _ _ _ _ B2) in X; injection X as -> -> end.
    split; [eauto|]. eexists. split; [reflexivity|]. auto.
  - destruct (proj2 F 0 _ eq_refl eq_refl) as [FL F1]. cbn [it_out length] in *.
    destruct (row_single _ _ _ _ _ _ _ _ R E F1) as [-> ->].
    inversion Do; subst.
    match goal with B2 : blanks c ls _ _ |- _ => pose proof (blanks_fun _ _ _ _ B) as X; rewrite (blanks_fun _ _ _ _ B2) in X; injection X as -> -> end.
    pose proof (document_over _ _ _ D') as O. destruct its as [|it' its]; [cbn in FL; lia|]. rewrite O. split; [reflexivity|].
    exists ls'. rewrite O. split; [f_equal; lia|]. split; [exact D'|exact E'].
Qed.
Lemma not_outside k L it its q qs : document c d k L (it :: its) -> ended L -> fine (it :: its) (q :: qs) ->
  ~ outside c hc d name h (at_row k L) (visit q).
Proof.
  intros D E F O. inversion D as [|k0 t e ls out m rest j ls' its0 R B D']; subst. destruct q as [es|]; cbn [visit] in O.
  - inversion O; subst. match goal with H : _ \/ _ |- _ => destruct H as [H|[H|[[? H]|[? H]]]]; discriminate end.
  - destruct (proj2 F 0 _ eq_refl eq_refl) as [FL F1]. cbn [it_out length] in *.
    destruct (row_single _ _ _ _ _ _ _ _ R E F1) as [-> ->].
    inversion O; subst; [match goal with H : _ \/ _ |- _ => destruct H as [H|[H|[[? H]|[? H]]]]; discriminate end|].
    match goal with B2 : blanks c ls _ [] |- _ => pose proof (blanks_fun _ _ _ _ B) as X; rewrite (blanks_fun _ _ _ _ B2) in X; injection X as <- <- end.
    inversion D'; subst. cbn in FL. lia.
Qed.
Lemma walk_covered qs : forall k L its, document c d k L its -> ended L -> fine its qs -> covered c hc d name h (at_row k L) (map visit qs).
Proof.
  induction qs as [|q qs IH]; intros k L its D E F; [exact Logic.I|]. destruct its as [|it its]; [destruct F as [F _]; cbn in F; lia|].
  cbn [map covered]. split; [exact (not_outside _ _ _ _ _ _ D E F)|]. intros y v Do.
  destruct (steps _ _ _ _ _ _ _ _ D E F Do) as (_ & L' & -> & D' & E'). exact (IH _ _ _ D' E' (fine_tail _ _ _ _ F)).
Qed.
Lemma walk_leads qs : forall k L its ys v, document c d k L its -> ended L -> fine its qs -> leads c hc d name h (at_row k L) (map visit qs) ys v ->
  w_over v = (length qs =? length its) /\
  (forall n it, length qs = S n -> nth_error its n = Some it -> w_line v = it_next it) /\
  forall i q it, nth_error qs i = Some q -> nth_error its i = Some it -> exists y, nth_error ys i = Some y /\ answers c d name it q y.
Proof.
  induction qs as [|q qs IH]; intros k L its ys v D E F Le.
  - inversion Le; subst. cbn [w_over]. rewrite (document_over _ _ _ D). split; [destruct its; reflexivity|]. split; [discriminate|]. intros [|i] q it Hq; discriminate.
  - destruct its as [|it its]; [destruct F as [F _]; cbn in F; lia|]. cbn [map] in Le. inversion Le as [|v0 k0 y v1 ks ys1 v2 Do Le']; subst.
    destruct (steps _ _ _ _ _ _ _ _ D E F Do) as (A & L' & -> & D' & E').
    destruct (IH _ _ _ _ _ D' E' (fine_tail _ _ _ _ F) Le') as (H1 & H2 & H3). split; [exact H1|]. split.
    + intros [|n] it' Hn Hi; [|apply (H2 n); [cbn in Hn; lia|exact Hi]].
      cbn in Hi, Hn. injection Hi as <-. destruct qs as [|q' qs]; [|cbn in Hn; lia]. inversion Le'; subst. cbn [w_line]. reflexivity.
    + intros [|i] q' it' Hq Hi; cbn in Hq, Hi; [injection Hq as <-; injection Hi as <-; exists y; auto|].
      exact (H3 i q' it' Hq Hi).
Qed.
End W.

(** ** C68 *)
Theorem C68_skipping_is_discarding : forall c cap d data name p its qs, fit c d -> enough cap -> opened c cap d data name p -> nuls_ok c data ->
  rows_of c d data its -> length qs <= length its -> (forall es, In (Some es) qs -> types es) ->
  (forall i it, nth_error qs i = Some None -> nth_error its i = Some it -> S i < length its /\ one_line (it_out it)) ->
  let ks := map visit qs in
  (forall i q it, nth_error qs i = Some q -> nth_error its i = Some it ->
     exists y, nth_error (replies c (header_cfg c) cap p ks) i = Some y /\ answers c d name it q y) /\
  (qs <> [] -> (p_eof (later c (header_cfg c) cap p ks) = true <-> length qs = length its)) /\
  (forall n it, length qs = S n -> S n < length its -> nth_error its n = Some it -> p_line (later c (header_cfg c) cap p ks) = it_next it).
Proof.
  intros c cap d data name p its qs F Hcap O N (k & L & St & D) Hl Hq Hs ks.
  destruct its as [|it its0].
  { destruct qs; [|cbn in Hl; lia]. split; [intros [|i] q it Hx; discriminate|]. split; [congruence|discriminate]. }
  assert (L <> []) as HL by (inversion D; discriminate).
  destruct (C34_header_line c data) as (h & Hh & _).
  assert (session c cap d data name h p (mkView k L (over L) [] 0 [])) as Se by (apply se; auto).
  assert (ended L) as E.
  { inversion St as [ls j ls' Hi P B|ls j t e ls1 j' ls' Hi P B B']; subst.
    - destruct (blanks_from _ _ _ _ B) as [a ->]. exact (ended_app a _ (physical_ended _ _ P)).
    - destruct (blanks_from _ _ _ _ B) as [a ->]. destruct (blanks_from _ _ _ _ B') as [b ->].
      exact (ended_app b _ (ended_tail _ _ (ended_app a _ (physical_ended _ _ P)))). }
  assert (Forall call_ok ks) as Hok.
  { apply Forall_forall. intros x Hx. apply in_map_iff in Hx as ([es|] & <- & Hi); [exact (Hq es Hi)|exact Logic.I]. }
  destruct (C44_covered_histories c (header_cfg c) cap d data name h p _ ks F Hcap (or_introl eq_refl) Se Hok
    (walk_covered c (header_cfg c) d name h qs k L _ D E (conj Hl Hs))) as ((v' & Le & H1 & H2 & H3 & _) & _).
  destruct (walk_leads c (header_cfg c) d name h qs k L _ _ v' D E (conj Hl Hs) Le) as (W1 & W2 & W3).
  split; [exact W3|]. split.
  - intros _. rewrite H1, W1. apply Nat.eqb_eq.
  - intros n it' Hn Hlt Hi. rewrite H3; [exact (W2 n it' Hn Hi)|]. rewrite W1. apply Nat.eqb_neq. lia.
Qed.
Print Assumptions C68_skipping_is_discarding.

(** The same, of two programs: one skips rows, the other one reads them all.  Rows read by both show the same. *)
Theorem C68_as_if_read : forall c cap d data name p its qs ess, fit c d -> enough cap -> opened c cap d data name p -> nuls_ok c data ->
  rows_of c d data its -> length qs <= length its -> Forall types ess ->
  (forall i it, nth_error qs i = Some None -> nth_error its i = Some it -> S i < length its /\ one_line (it_out it)) ->
  (forall i es, nth_error qs i = Some (Some es) -> nth_error ess i = Some es) ->
  forall i es, nth_error qs i = Some (Some es) ->
  exists g sn, nth_error (replies c (header_cfg c) cap p (map visit qs)) i = Some (YGet g) /\ nth_error (reads c cap p ess) i = Some sn /\ alike g (s_what sn).
Proof.
  intros c cap d data name p its qs ess F Hcap O N R Hl W Hs He i es Hi.
  assert (forall es', In (Some es') qs -> types es') as Hq.
  { intros es' Hx. apply In_nth_error in Hx as [j Hj]. rewrite Forall_forall in W. exact (W _ (nth_error_In _ _ (He _ _ Hj))). }
  destruct (nth_error its i) as [it|] eqn:Hit; [|apply nth_error_None in Hit; assert (i < length qs) by (apply nth_error_Some; congruence); lia].
  destruct (C68_skipping_is_discarding c cap d data name p its qs F Hcap O N R Hl Hq Hs) as [A _].
  destruct (A i _ it Hi Hit) as (y & Hy & o & g & -> & A1 & A2).
  assert (c_ignhdr c = true -> its <> []) as Hh by (intros _ ->; destruct i; discriminate).
  destruct (open_rows c cap d Hcap data name p its O N R Hh) as (X & L & k & PS & D & SO).
  destruct (reads_rows c d F cap Hcap ess _ _ _ _ _ _ _ PS D W i it es Hit (He _ _ Hi)) as (o' & sn & B1 & B2 & B3 & _).
  exists g, sn. split; [exact Hy|]. split; [exact B1|]. eapply shown_alike; [exact A1|exact B2|exact A2|exact B3].
Qed.
Print Assumptions C68_as_if_read.

(** ** Skipping the header by hand *)
Lemma row_keep c d : forall n t last e more out m rest, row c d n t last e more out m rest -> row (keep_header c) d n t last e more out m rest.
Proof.
  induction 1 as [n T last e more H|n T last e w t e' more out m rest G A R IH|n T last e w more G A|n T last e G A|n T last e G A].
  - apply row_done. intros w G. apply (goes_on_header c) in G. eapply H; eauto.
  - eapply row_more; [apply goes_on_header; exact G|exact A|exact IH].
  - eapply row_limit; [apply goes_on_header; exact G|exact A].
  - apply row_eof_escape; [apply goes_on_header; exact G|exact A].
  - apply row_eof_quote; [apply goes_on_header; exact G|exact A].
Qed.
Lemma document_keep c d : forall k L its, document c d k L its -> document (keep_header c) d k L its.
Proof. induction 1; [constructor|]. eapply doc_row; [apply row_keep; eassumption|apply blanks_header; eassumption|assumption]. Qed.

(** [c] has ignore_header, [keep_header c] is the same setup without it. *)
Theorem C68_header_by_hand : forall c cap d data name p its qs, fit c d -> enough cap -> c_ignhdr c = true ->
  opened (keep_header c) cap d data name p -> nuls_ok c data ->
  rows_of c d data its -> its <> [] -> length qs <= length its -> (forall es, In (Some es) qs -> types es) ->
  (forall i it, nth_error qs i = Some None -> nth_error its i = Some it -> S i < length its /\ one_line (it_out it)) ->
  let ys := replies (keep_header c) (header_cfg (keep_header c)) cap p (CIgnore :: map visit qs) in
  nth_error ys 0 = Some (YBool true) /\
  forall i q it, nth_error qs i = Some q -> nth_error its i = Some it -> exists y, nth_error ys (S i) = Some y /\ answers c d name it q y.
Proof.
  intros c cap d data name p its qs F Hcap Hi O N (k & L & St & D) Hne Hl Hq Hs ys.
  assert (L <> []) as HL by (inversion D; subst; [congruence|discriminate]).
  inversion St as [? ? ? X|ls j t e ls1 j' ls' X P B B']; subst; [congruence|]. clear X.
  destruct (C34_header_line (keep_header c) data) as (h & Hh & _).
  set (v0 := mkView j ((t, e) :: ls1) false [] 0 []).
  assert (session (keep_header c) cap d data name h p v0) as Se.
  { change v0 with (mkView j ((t, e) :: ls1) (over ((t, e) :: ls1)) [] 0 []). apply se; auto; [|discriminate].
    eapply st_all; [reflexivity|exact P|apply blanks_header; exact B]. }
  assert (ended L) as E.
  { destruct (blanks_from _ _ _ _ B) as [a ->]. destruct (blanks_from _ _ _ _ B') as [b ->].
    exact (ended_app b _ (ended_tail _ _ (ended_app a _ (physical_ended _ _ P)))). }
  assert (forall y v, does (keep_header c) (header_cfg (keep_header c)) d name h v0 CIgnore y v -> y = YBool true /\ v = mkView (j + S j') L (over L) [] 0 []) as Step.
  { intros y v Do. unfold v0 in Do. inversion Do; subst.
    match goal with B2 : blanks _ ls1 _ _ |- _ => apply (proj1 (blanks_header c _ _ _)) in B2; pose proof (blanks_fun _ _ _ _ B') as Y; rewrite (blanks_fun _ _ _ _ B2) in Y; injection Y as -> -> end.
    destruct L; [congruence|]. split; reflexivity. }
  pose proof (document_keep _ _ _ _ _ D) as D2.
  assert (covered (keep_header c) (header_cfg (keep_header c)) d name h v0 (CIgnore :: map visit qs)) as Cv.
  { cbn [covered]. split.
    - intros Ou. unfold v0 in Ou. inversion Ou; subst; [match goal with H : _ \/ _ |- _ => destruct H as [H|[H|[[? H]|[? H]]]]; discriminate end|].
      match goal with B2 : blanks _ ls1 _ [] |- _ => apply (proj1 (blanks_header c _ _ _)) in B2; pose proof (blanks_fun _ _ _ _ B') as Y; rewrite (blanks_fun _ _ _ _ B2) in Y; congruence end.
    - intros y v Do. destruct (Step y v Do) as [-> ->]. exact (walk_covered _ _ d name h qs _ _ _ D2 E (conj Hl Hs)). }
  assert (Forall call_ok (CIgnore :: map visit qs)) as Hok.
  { constructor; [exact Logic.I|]. apply Forall_forall. intros x Hx. apply in_map_iff in Hx as ([es|] & <- & Hx); [exact (Hq es Hx)|exact Logic.I]. }
  destruct (C44_covered_histories _ (header_cfg (keep_header c)) cap d data name h p v0 _ (fit_header _ _ F) Hcap (or_introl eq_refl) Se Hok Cv) as ((v' & Le & _) & _).
  fold ys in Le. clearbody ys. inversion Le as [|? ? y v1 ? ys1 ? Do Le' E1 E2 E3]; subst. destruct (Step _ _ Do) as [-> ->].
  destruct (walk_leads _ _ d name h qs _ _ _ _ v' D2 E (conj Hl Hs) Le') as (_ & _ & W3).
  split; [reflexivity|]. intros i q it Hqi Hit. destruct (W3 i q it Hqi Hit) as (y & Hy & A). exists y. split; [exact Hy|].
  destruct q as [es|]; [|exact A]. destruct A as (o & g & A1 & A2 & A3). exists o, g. split; [exact A1|]. split; [apply reading_header; exact A2|exact A3].
Qed.
Print Assumptions C68_header_by_hand.

(** ** Examples *)
(** The people of PropCovered.v: the header and two people are skipped. *)
Definition skips : list (option (list elem)) := [None; Some [text; text; text]; None; None; Some [int32]; Some [text; text]].
Theorem C68_case : exists p its, opened quotes as_needed (S2 ",") people (S2 "p.csv") p /\ rows_of quotes (S2 ",") people its /\ length skips <= length its /\
  (forall es, In (Some es) skips -> types es) /\
  (forall i it, nth_error skips i = Some None -> nth_error its i = Some it -> S i < length its /\ one_line (it_out it)) /\
  replies quotes (header_cfg quotes) as_needed p (map visit skips) =
    [YBool true; YGet (GValues [VStr (S2 "1"); VStr (S2 "ann"); VStr (S2 "30")]); YBool true; YBool true;
     YGet (GError (S2 "p.csv 5: invalid number of columns, expected: 1, got: 3")); YGet (GValues [VStr (S2 "5"); VStr (S2 "e")])].
Proof.
  set (doc := fix go k (ls : list (str * str)) := match ls with [] => [] | (t, e) :: ls' => mkItem (Complete t) (k + 1) (k + 1 + 0) ls' :: go (k + 1 + 0) ls' end).
  assert (B : forall ls, blanks quotes ls 0 ls) by (intros ls; apply bl_none; discriminate).
  assert (D : forall ls k, document quotes (S2 ",") k ls (doc k ls)).
  { induction ls as [|[t e] ls IH]; intros k; [constructor|]. apply (doc_row quotes (S2 ",") k t e ls (Complete t) 0 ls 0 ls); [|apply B|apply IH].
    apply row_done. intros w G. destruct G; discriminate. }
  eexists. exists (doc 0 (lines people)). split; [apply op_file; vm_compute; reflexivity|]. split; [|split; [|split; [|split]]].
  - exists 0, (lines people). split; [eapply st_all; [reflexivity|apply lines_physical|apply B]|apply D].
  - apply Nat.leb_le. vm_compute. reflexivity.
  - intros es H. cbn in H. destruct H as [H|[H|[H|[H|[H|[H|[]]]]]]]; try discriminate H; injection H as <-; unfold types; repeat (split || constructor || discriminate).
  - intros i it Hs Hi.
    assert (i < 6) as Hlt by (apply (nth_error_Some skips); congruence).
    split; [apply Nat.lt_le_trans with 7; [lia|apply Nat.leb_le; vm_compute; reflexivity]|].
    destruct i as [|[|[|[|[|[|i]]]]]]; [| | | | | |lia]; vm_compute in Hs; try discriminate Hs; vm_compute in Hi; injection Hi as <-; (eexists; split; [reflexivity|vm_compute; intuition discriminate]).
  - vm_compute. reflexivity.
Qed.
Print Assumptions C68_case.

(** A row of two lines cannot be skipped: ignore_next leaves its second line, which is then read as a row. *)
Definition quoted_lines : cfg := mkCfg (Some """"%char) [] [] [] true 0 EString false false.
Definition two_lines : str := S2 "1,""a" ++ [LF] ++ S2 "b""" ++ [LF] ++ S2 "2,c" ++ [LF].
Theorem C68_two_lines_refuted : exists p, opened quoted_lines as_needed (S2 ",") two_lines (S2 "f.csv") p /\
  map s_what (reads quoted_lines as_needed p [[int32; text]; [int32; text]]) =
    [GValues [VInt 1; VStr (S2 "a" ++ [LF] ++ S2 "b")]; GValues [VInt 2; VStr (S2 "c")]] /\
  exists m, replies quoted_lines (header_cfg quoted_lines) as_needed p [CIgnore; CGet [int32; text]] = [YBool true; YGet (GError m)].
Proof. eexists. split; [apply op_file; vm_compute; reflexivity|]. split; [vm_compute; reflexivity|]. eexists. vm_compute. reflexivity. Qed.
Print Assumptions C68_two_lines_refuted.
