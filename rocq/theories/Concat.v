(** The rows of one document after another (C59): lemmas. *)
From Verif Require Import Base Setup Splitter SplitPure ListFacts SplitApi LineSpec LineProofs ParserSpec ParserApi ParserRows ParserOpen ParserFacts PropParser PropCut.

Definition whole_lines (a : str) : Prop := a = [] \/ ends_line a.
Lemma ends_tail a x rest : ends_line (a ++ x :: rest) -> whole_lines rest.
Proof.
  intros (y & E). destruct rest as [|r rest]; [left; reflexivity|]. right. destruct (exists_last (l := r :: rest)) as (u & z & Ez); [discriminate|]. rewrite Ez in *.
  assert (X : (a ++ x :: u) ++ [z] = y ++ [LF]) by (rewrite <- E, <- app_assoc; reflexivity). apply app_inj_tail in X as [_ ->]. exists u. reflexivity.
Qed.
Lemma physical_app a la : physical a la -> whole_lines a -> forall b lb, physical b lb -> physical (a ++ b) (la ++ lb).
Proof.
  induction 1 as [|t Ht Hl|t rest ls Hl Hc P IH|t rest ls Hl P IH]; intros W b lb PB.
  - exact PB.
  - exfalso. destruct W as [W|(u & W)]; [congruence|]. apply Hl. rewrite W. apply in_or_app. right. left. reflexivity.
  - rewrite <- app_assoc. cbn [app]. apply ph_lf; auto. apply IH; [|exact PB]. destruct W as [W|W]; [destruct t; discriminate|]. exact (ends_tail _ _ _ W).
  - rewrite <- app_assoc. cbn [app]. apply ph_crlf; auto. apply IH; [|exact PB]. destruct W as [W|W]; [destruct t; discriminate|].
    change (CR :: LF :: rest) with ([CR] ++ LF :: rest) in W. rewrite app_assoc in W. exact (ends_tail _ _ _ W).
Qed.

(** The item [n] lines further down. *)
Definition moved (n : nat) (it : item) : item := mkItem (it_out it) (n + it_line it) (n + it_next it) (it_rest it).

Section Two.
Context (c : cfg) (d : str).
Lemma document_moved n k L its : document c d k L its -> document c d (n + k) L (map (moved n) its).
Proof.
  induction 1 as [k|k t e ls out m rest j ls' its R B D IH]; [constructor|]. cbn [map]. unfold moved at 1. cbn [it_out it_line it_next it_rest].
  replace (n + (k + S m)) with (n + k + S m) by lia. replace (n + (k + S m + j)) with (n + k + S m + j) in * by lia. eapply doc_row; eassumption.
Qed.
Lemma blanks_end x j y : blanks c x j y -> y = [] -> length x = j /\ forall L2 j2 y2, blanks c L2 j2 y2 -> blanks c (x ++ L2) (j + j2) y2.
Proof.
  induction 1 as [ls N|e ls j ls' H B IH]; intros E.
  - subst ls. split; [reflexivity|]. auto.
  - destruct (IH E) as [E1 E2]. split; [cbn; lia|]. intros L2 j2 y2 B2. cbn [app plus]. apply bl_skip; auto.
Qed.
Lemma blanks_row x j t e ls : blanks c x j ((t, e) :: ls) -> forall L2, blanks c (x ++ L2) j ((t, e) :: ls ++ L2).
Proof.
  intros B. remember ((t, e) :: ls) as y eqn:E. induction B as [ls0 N|e0 ls0 j ls' H B IH]; intros L2.
  - subst ls0. cbn [app]. apply bl_none. intros e1 ls1 He X. injection X as -> -> _. exact (N e1 ls He eq_refl).
  - cbn [app]. apply bl_skip; auto.
Qed.
(** Items that agree but for what follows. *)
Definition like (a b : item) : Prop := it_out a = it_out b /\ it_line a = it_line b.
Context (L2 : list (str * str)) (j2 : nat) (y2 : list (str * str)) (B2 : blanks c L2 j2 y2).
Lemma document_app n its2 : document c d (n + j2) y2 its2 -> forall k y its1, document c d k y its1 -> Forall (fun it => settled (it_out it)) its1 ->
  forall x j k0, blanks c x j y -> k = k0 + j -> n = k0 + length x ->
  exists j' y' its1', blanks c (x ++ L2) j' y' /\ document c d (k0 + j') y' (its1' ++ its2) /\ Forall2 like its1' its1 /\
    Forall2 (fun a b => it_rest b <> [] -> it_next a = it_next b /\ it_rest a = it_rest b ++ L2) its1' its1.
Proof.
  intros D2 k y its1 D1. induction D1 as [k|k t e ls out m rest j ls' its R B D IH]; intros S1 x j0 k0 B0 -> E.
  - destruct (blanks_end _ _ _ B0 eq_refl) as [E1 E2]. exists (j0 + j2), y2, []. split; [apply E2; exact B2|]. split; [|split; constructor].
    cbn [app]. replace (k0 + (j0 + j2)) with (n + j2) by lia. exact D2.
  - inversion S1 as [|? ? S1a S1b]; subst. cbn [it_out] in S1a.
    destruct (blanks_used c _ _ _ B0) as (u0 & E0 & Lu & _). destruct (row_lines c d _ _ _ _ _ _ _ _ R) as (u1 & E1 & Lu1).
    destruct (row_local c d _ _ _ _ _ _ _ _ R S1a) as (u1' & E1' & RL). rewrite E1 in E1'. apply app_inv_tail in E1'. subst u1'.
    assert (LX : length x = j0 + S (length u1 + length rest)) by (rewrite E0, E1, app_length; cbn; rewrite app_length; lia).
    destruct (IH S1b rest j (k0 + j0 + S m) B eq_refl ltac:(cbn in Lu1; lia)) as (j' & y' & its1' & A1 & A2 & A3 & A4).
    exists j0, ((t, e) :: ls ++ L2), (mkItem out (k0 + j0 + S m) (k0 + j0 + S m + j') y' :: its1'). split; [apply blanks_row; exact B0|]. split.
    + cbn [app]. eapply doc_row; [rewrite E1, <- app_assoc; apply RL|exact A1|exact A2].
    + split; [constructor; [split; reflexivity|exact A3]|]. constructor; [|exact A4]. cbn [it_rest it_next]. intros Hne.
      destruct ls' as [|[t' e'] ls']; [congruence|]. pose proof (blanks_row _ _ _ _ _ B L2) as B'.
      pose proof (blanks_fun _ _ _ _ B') as X. rewrite (blanks_fun _ _ _ _ A1) in X. injection X as -> ->. auto.
Qed.
End Two.

Section Docs.
Context (c : cfg) (d : str).
(** Number of lines of a text. *)
Theorem rows_app a b itsa itsb la : whole_lines a -> physical a la -> rows_of c d a itsa -> Forall (fun it => settled (it_out it)) itsa ->
  rows_of (keep_header c) d b itsb ->
  exists itsa', rows_of c d (a ++ b) (itsa' ++ map (moved (length la)) itsb) /\ Forall2 like itsa' itsa /\
    Forall2 (fun x y => it_rest y <> [] -> it_next x = it_next y /\ it_rest x = it_rest y ++ lines b) itsa' itsa.
Proof.
  intros W P (k & L & SO & D) St (k2 & L2 & SO2 & D2). inversion SO2 as [lb j2 L2' _ PB B2|lb j2 t2 e2 ls2 j2' L2' X]; [|discriminate X]. subst j2 L2'.
  pose proof (physical_unique _ _ PB _ (lines_physical b)) as ->. apply (proj1 (blanks_header c _ _ _)) in B2. apply document_header in D2.
  pose proof (physical_app a la P W b _ PB) as PA.
  apply (document_moved c d (length la)) in D2.
  inversion SO as [ls j L' Hh P1 B1|ls j t e ls1 j' L' Hh P1 B1 B1']; subst; rewrite <- (physical_unique _ _ P _ P1) in *.
  - destruct (document_app c d _ _ _ B2 (length la) _ D2 _ _ _ D St la k 0 B1 eq_refl eq_refl) as (j' & y' & its' & A1 & A2 & A3 & A4).
    exists its'. split; [|auto]. exists j', y'. split; [eapply st_all; eassumption|exact A2].
  - destruct (blanks_used c _ _ _ B1) as (u & Eu & Lu & _).
    destruct (document_app c d _ _ _ B2 (length la) _ D2 _ _ _ D St ls1 j' (j + 1) B1' ltac:(lia)) as (j'' & y' & its' & A1 & A2 & A3 & A4).
    { rewrite Eu, app_length. cbn. lia. }
    exists its'. split; [|auto]. exists (j + S j''), y'. split.
    + eapply st_header; [exact Hh|exact PA|apply blanks_row; exact B1|exact A1].
    + replace (j + S j'') with (j + 1 + j'') by lia. exact A2.
Qed.
End Docs.
