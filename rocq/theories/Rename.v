(** Replacing characters by others with the same role (C63): lemmas. *)
From Verif Require Import Base Setup Splitter SplitPure ListFacts SplitApi SplitRefine SplitSpecProofs Extract Converter ConvSpec ConvProofs LineSpec LineProofs ParserSpec ReaderEscape ReaderParse ParserRows ParserOpen ParserFacts Roles.

(** The character [f x] has in the second setup, and at each place of the second delimiter, the meaning of [x] in the first one. *)
Definition kept (f : ascii -> ascii) (c1 c2 : cfg) (d1 d2 : str) (x : ascii) : Prop :=
  (c_quote c1 = Some x <-> c_quote c2 = Some (f x)) /\ (In x (c_escape c1) <-> In (f x) (c_escape c2)) /\
  (In x (c_triml c1) <-> In (f x) (c_triml c2)) /\ (In x (c_trimr c1) <-> In (f x) (c_trimr c2)) /\
  Forall2 (fun y1 y2 => x = y1 <-> f x = y2) d1 d2.
Definition kepts f c1 c2 d1 d2 (text : str) : Prop := forall x, In x text -> kept f c1 c2 d1 d2 x.

Section Ren.
Context (f : ascii -> ascii) (c1 c2 : cfg) (d1 d2 : str) (Hd1 : d1 <> []) (Hd2 : d2 <> []).
Notation ok s := (kepts f c1 c2 d1 d2 s).
Notation mf := (map f).
Lemma ok_tail x s : ok (x :: s) -> ok s. Proof. intros H y K. apply H. right. exact K. Qed.
Lemma ok_sub s s' : ok s -> incl s' s -> ok s'. Proof. intros H K x L. apply H, K, L. Qed.
Lemma q_ren x : kept f c1 c2 d1 d2 x -> quote_match c2 (f x) = quote_match c1 x.
Proof.
  intros (H & _). apply iff_eqb. unfold quote_match.
  assert (Q : forall y (o : option ascii), match o with Some q => Ascii.eqb y q | None => false end = true <-> o = Some y).
  { intros y [q|]; [|split; discriminate]. rewrite Ascii.eqb_eq. split; [intros ->; reflexivity|intros E; injection E as ->; reflexivity]. }
  rewrite !Q. symmetry. exact H.
Qed.
Lemma e_ren x : kept f c1 c2 d1 d2 x -> escape_match c2 (f x) = escape_match c1 x.
Proof. intros (_ & H & _). apply iff_eqb. unfold escape_match. rewrite !mem_in. symmetry. exact H. Qed.
Lemma span_ren l1 l2 : forall s, (forall x, In x s -> (In x l1 <-> In (f x) l2)) -> span l2 (mf s) = (mf (fst (span l1 s)), mf (snd (span l1 s))).
Proof.
  induction s as [|x s IH]; intros H; [reflexivity|]. cbn [span map].
  assert (mem (f x) l2 = mem x l1) as -> by (apply iff_eqb; rewrite !mem_in; symmetry; apply H; left; reflexivity).
  destruct (mem x l1); [|reflexivity]. rewrite IH by (intros y K; apply H; right; exact K). destruct (span l1 s). reflexivity.
Qed.
Lemma dropc_ren s : ok s -> dropc (c_triml c2) (mf s) = mf (dropc (c_triml c1) s).
Proof. intros H. unfold dropc. rewrite (span_ren (c_triml c1)) by (intros x K; apply (H x K)). reflexivity. Qed.
Lemma strip_ren : forall s a b, length a = length b -> (forall x, In x s -> Forall2 (fun y1 y2 => x = y1 <-> f x = y2) a b) -> strip b (mf s) = option_map mf (strip a s).
Proof.
  induction s as [|x s IH]; intros a b L H.
  - destruct a, b; try discriminate L; reflexivity.
  - destruct a as [|y1 a], b as [|y2 b]; try discriminate L; [reflexivity|]. cbn [strip map].
    pose proof (H x (or_introl eq_refl)) as K. inversion K as [|? ? ? ? K1 K2]; subst.
    assert (Ascii.eqb (f x) y2 = Ascii.eqb x y1) as -> by (apply iff_eqb; rewrite !Ascii.eqb_eq; symmetry; exact K1).
    destruct (Ascii.eqb x y1); [|reflexivity]. apply IH; [injection L as L; exact L|]. intros z Z. pose proof (H z (or_intror Z)) as K'. inversion K'; assumption.
Qed.
Lemma delim_ren s : ok s -> strip d2 (mf s) = option_map mf (strip d1 s).
Proof.
  intros H. destruct s as [|x s].
  - destruct d1, d2; try contradiction; reflexivity.
  - apply strip_ren; [|intros y K; apply (H y K)]. destruct (H x (or_introl eq_refl)) as (_ & _ & _ & _ & K). exact (Forall2_length K).
Qed.
Definition ren_md (m : mdres) : mdres := match m with MEol => MEol | MDelim r => MDelim (mf r) | MOther t x r => MOther (mf t) (f x) (mf r) end.
Lemma md_ren s : ok s -> md c2 d2 (mf s) = ren_md (md c1 d1 s).
Proof.
  intros H. unfold md. rewrite (span_ren (c_trimr c1)) by (intros x K; apply (H x K)).
  pose proof (span_app (c_trimr c1) s) as E. destruct (span (c_trimr c1) s) as [t u]. cbn [fst snd] in *. destruct u as [|x r]; [reflexivity|].
  assert (Hu : ok (x :: r)) by (eapply ok_sub; [exact H|]; rewrite <- E; apply incl_appr, incl_refl).
  change (f x :: map f r) with (mf (x :: r)). rewrite (delim_ren _ Hu). cbn [map]. destruct (strip d1 (x :: r)) as [rest|] eqn:Es; [|reflexivity]. cbn [option_map ren_md]. f_equal. apply dropc_ren.
  eapply ok_sub; [exact Hu|]. rewrite (strip_eq _ _ _ Es). apply incl_appr, incl_refl.
Qed.
Definition ren_f (r : fres) : fres :=
  match r with FNext a rest => FNext (mf a) (mf rest) | FLast a => FLast (mf a) | FLastEsc a => FLastEsc (mf a) | FUnterm a => FUnterm (mf a) | FEscEnd => FEscEnd | FMismatch p e => FMismatch p e end.
Lemma acc_ren acc h : mf acc ++ [f h] = mf (acc ++ [h]). Proof. rewrite map_app. reflexivity. Qed.
Lemma normal_ren : forall s keep flag acc, ok s -> normal c2 d2 keep flag (mf acc) (mf s) = ren_f (normal c1 d1 keep flag acc s).
Proof.
  induction s as [|h s IH]; intros keep flag acc H; [destruct flag; reflexivity|]. pose proof (ok_tail _ _ H) as Hs. cbn [normal map].
  rewrite !acc_ren. destruct keep as [|k]; [|apply IH; exact Hs].
  change (f h :: map f s) with (mf (h :: s)). rewrite (md_ren _ H). destruct (md c1 d1 (h :: s)) as [|rest|t x r] eqn:Em; cbn [ren_md]; [destruct flag; reflexivity|reflexivity|].
  rewrite (e_ren x) by (apply H; exact (proj1 (md_other d1 c1 _ _ _ _ Em))). rewrite map_length. destruct (escape_match c1 x); [destruct r|]; apply IH; exact Hs.
Qed.
Lemma quoted_ren : forall s drop keep pos acc, ok s -> quoted c2 d2 drop keep pos (mf acc) (mf s) = ren_f (quoted c1 d1 drop keep pos acc s).
Proof.
  induction s as [|h s IH]; intros drop keep pos acc H; [reflexivity|]. pose proof (ok_tail _ _ H) as Hs. cbn [quoted map]. rewrite !acc_ren.
  destruct drop as [|n]; [|apply IH; exact Hs]. destruct keep as [|n]; [|apply IH; exact Hs].
  rewrite (q_ren h), (e_ren h) by (apply H; left; reflexivity). rewrite (md_ren _ Hs). destruct (quote_match c1 h).
  - destruct (md c1 d1 s) as [|rest|t x r] eqn:Em; cbn [ren_md]; try reflexivity. destruct (md_other d1 c1 _ _ _ _ Em) as [I1 I2]. rewrite (e_ren x), (q_ren x) by (apply Hs; exact I1). rewrite map_length.
    destruct (escape_match c1 x).
    + destruct r as [|y r]; [reflexivity|]. cbn [map]. rewrite (q_ren y) by (apply Hs, I2; left; reflexivity). destruct ((length t =? 0) && quote_match c1 y); [apply IH; exact Hs|reflexivity].
    + destruct ((length t =? 0) && quote_match c1 x); [apply IH; exact Hs|reflexivity].
  - destruct (escape_match c1 h); [destruct s; [reflexivity|]|]; apply IH; exact Hs.
Qed.
Lemma field_ren pos s : ok s -> field c2 d2 pos (mf s) = ren_f (field c1 d1 pos s).
Proof.
  intros H. unfold field. destruct s as [|h r]; [reflexivity|]. cbn [map]. rewrite (q_ren h) by (apply H; left; reflexivity).
  destruct (quote_match c1 h); [apply (quoted_ren r 0 0 (S pos) []); eapply ok_tail; exact H|apply (normal_ren (h :: r) 0 false []); exact H].
Qed.
Definition ren_t (t : ptail) : ptail := match t with TUnterm p a => TUnterm p (mf a) | t => t end.
Lemma fields_ren : forall fuel total s, ok s -> fields c2 d2 fuel total (mf s) = (map mf (fst (fields c1 d1 fuel total s)), ren_t (snd (fields c1 d1 fuel total s))).
Proof.
  induction fuel as [|k IH]; intros total s H; [reflexivity|]. cbn [fields]. rewrite map_length, (field_ren _ _ H).
  destruct (field c1 d1 (total - length s) s) as [a rest| | | | |] eqn:Ef; cbn [ren_f]; try reflexivity. rewrite IH by (eapply ok_sub; [exact H|]; eapply field_next; exact Ef).
  destruct (fields c1 d1 k total rest). reflexivity.
Qed.
Theorem psplit_ren s : ok s -> psplit c2 d2 (mf s) = (map mf (fst (psplit c1 d1 s)), ren_t (snd (psplit c1 d1 s))).
Proof. intros H. unfold psplit. rewrite map_length, (dropc_ren _ H). apply fields_ren. eapply ok_sub; [exact H|apply dropc_incl]. Qed.
Lemma qo_ren s : ok s -> qo c2 d2 (mf s) = qo c1 d1 s.
Proof. intros H. unfold qo. rewrite (psplit_ren _ H). cbn [snd]. destruct (snd (psplit c1 d1 s)); reflexivity. Qed.

(** What split shows *)
Context (H1 : cfg_ok c1) (H2 : cfg_ok c2) (N1 : nulfree d1) (N2 : nulfree d2) (Em : c_mode c1 = c_mode c2) (El : c_ml c1 = c_ml c2).
Definition ren_obs (o : sobs) : sobs := match o with SFields l => SFields (map mf l) | o => o end.
Theorem obs_ren s1 s2 line r1 r2 : reach c1 s1 -> reach c2 s2 -> nulfree line -> nulfree (mf line) -> ok line ->
  (c_ml c1 = true -> qo c1 d1 line = false) -> split_obs c2 s2 d2 (mf line) r2 = ren_obs (split_obs c1 s1 d1 line r1).
Proof.
  intros R1 R2 N N' S Q. pose proof (split_obs_psplit c1 H1 d1 N1 Hd1 s1 line r1 _ _ R1 N (surjective_pairing _)) as O1.
  pose proof (split_obs_psplit c2 H2 d2 N2 Hd2 s2 (mf line) r2 _ _ R2 N' (surjective_pairing _)) as O2.
  rewrite (psplit_ren _ S) in O2. cbn [fst snd] in O2. unfold qo in Q.
  assert (RR : report c2 (ren_t (snd (psplit c1 d1 line))) = report c1 (snd (psplit c1 d1 line))) by (unfold report; rewrite El; destruct (snd (psplit c1 d1 line)); reflexivity).
  rewrite RR, <- Em in O2.
  destruct (report c1 (snd (psplit c1 d1 line))) as [[m mt]|] eqn:Er.
  - rewrite O2, O1. destruct (c_mode c1); reflexivity.
  - destruct (snd (psplit c1 d1 line)) as [| | |p a|p e b|]; cbn [junk report ren_t] in *; try (rewrite O2, O1; reflexivity); try congruence.
    destruct (c_ml c1); [specialize (Q eq_refl)|]; discriminate.
Qed.
End Ren.

(** ** Lines and rows *)
Definition kept_ends (f : ascii -> ascii) (x : ascii) : Prop := (x = LF <-> f x = LF) /\ (x = CR <-> f x = CR) /\ (x = NUL <-> f x = NUL).
Definition ren_line (f : ascii -> ascii) (l : str * str) : str * str := (map f (fst l), map f (snd l)).
Definition ren_out (f : ascii -> ascii) (o : outcome) : outcome := match o with Complete t => Complete (map f t) | o => o end.
Definition ren_item (f : ascii -> ascii) (it : item) : item := mkItem (ren_out f (it_out it)) (it_line it) (it_next it) (map (ren_line f) (it_rest it)).

Section RenRows.
Context (f : ascii -> ascii) (c1 c2 : cfg) (d1 d2 : str) (Hd1 : d1 <> []) (Hd2 : d2 <> []).
Context (H1 : cfg_ok c1) (H2 : cfg_ok c2) (N1 : nulfree d1) (N2 : nulfree d2).
Context (El : c_ml c1 = c_ml c2) (Es : c_mlsize c1 = c_mlsize c2) (Ei : c_ignempty c1 = c_ignempty c2) (Eh : c_ignhdr c1 = c_ignhdr c2).
Notation mf := (map f). Notation ml := (map (ren_line f)).
Definition good (t : str) : Prop := (forall x, In x t -> kept f c1 c2 d1 d2 x /\ kept_ends f x) /\ (c_ml c1 = true -> nulfree t).
Definition goodl (l : str * str) : Prop := good (fst l) /\ good (snd l).
Lemma good_app a b : good (a ++ b) <-> good a /\ good b.
Proof.
  unfold good. assert (X : nulfree (a ++ b) <-> nulfree a /\ nulfree b) by apply nulfree_app.
  assert (Y : (forall x, In x (a ++ b) -> kept f c1 c2 d1 d2 x /\ kept_ends f x) <-> (forall x, In x a -> kept f c1 c2 d1 d2 x /\ kept_ends f x) /\ (forall x, In x b -> kept f c1 c2 d1 d2 x /\ kept_ends f x)).
  { split; [intros K; split; intros x J; apply K, in_or_app; auto|intros [K K'] x J; apply in_app_or in J; destruct J; auto]. }
  rewrite Y. clear - X. tauto.
Qed.
Lemma good_ok t : good t -> kepts f c1 c2 d1 d2 t. Proof. intros [K _] x J. apply (K x J). Qed.
Lemma good_nul t : good t -> c_ml c1 = true -> nulfree t /\ nulfree (mf t).
Proof.
  intros [K N] M. specialize (N M). split; [exact N|]. intros J. apply in_map_iff in J as (x & E & J). destruct (K x J) as (_ & _ & _ & _ & R). apply R in E. subst x. exact (N J).
Qed.
Lemma esc_tail_ren t : good t -> esc_tail c2 (mf t) = esc_tail c1 t.
Proof.
  intros [K _]. unfold esc_tail. rewrite <- map_rev. assert (J : kepts f c1 c2 d1 d2 (rev t)) by (intros x I; apply K, in_rev, I). clear K. induction (rev t) as [|x l IH]; [reflexivity|].
  cbn. rewrite (e_ren f c1 c2 d1 d2 x) by (apply J; left; reflexivity). rewrite IH by (intros y L; apply J; right; exact L). reflexivity.
Qed.
Lemma ends_ren t : good t -> (ends_escaped (c_escape c2) (mf t) <-> ends_escaped (c_escape c1) t).
Proof. intros G. rewrite <- !odd_ends_escaped, (esc_tail_ren _ G). reflexivity. Qed.
Lemma goes_ren T last w : good T -> good last -> (goes_on c2 d2 (mf T) (mf last) w <-> goes_on c1 d1 T last w).
Proof.
  intros A B. pose proof (ends_ren _ B) as EE. split; intros G; inversion G as [M E|M E Q O]; subst.
  - constructor; [congruence|apply EE; exact E].
  - rewrite <- El in M. destruct (good_nul _ A M) as [NT NT']. apply (qo_open c2 H2 d2 N2 Hd2 _ ltac:(congruence) NT') in O. rewrite (qo_ren f c1 c2 d1 d2 Hd1 Hd2 _ (good_ok _ A)) in O.
    constructor; [exact M|rewrite <- EE; exact E|exact (open_quoting _ _ _ O)|]. apply (qo_open c1 H1 d1 N1 Hd1 _ M NT). exact O.
  - constructor; [congruence|apply EE; exact E].
  - destruct (good_nul _ A M) as [NT NT']. apply (qo_open c1 H1 d1 N1 Hd1 _ M NT) in O. rewrite <- (qo_ren f c1 c2 d1 d2 Hd1 Hd2 _ (good_ok _ A)) in O.
    constructor; [congruence|rewrite EE; exact E|exact (open_quoting _ _ _ O)|]. apply (qo_open c2 H2 d2 N2 Hd2 _); [congruence|exact NT'|exact O].
Qed.
Lemma row_ren n T last e more out m rest : row c1 d1 n T last e more out m rest -> good T -> good last -> good e -> Forall goodl more ->
  row c2 d2 n (mf T) (mf last) (mf e) (ml more) (ren_out f out) m (ml rest).
Proof.
  assert (AI : forall n, may_add c1 n <-> may_add c2 n) by (intros k; unfold may_add; rewrite Es; reflexivity).
  induction 1 as [n T last e more N|n T last e w t e' more out m rest G A R IH|n T last e w more G A|n T last e G A|n T last e G A]; intros OT OL OE OM.
  - apply row_done. intros w G. apply (N w). apply goes_ren; assumption.
  - inversion OM as [|? ? [O1 O2] O3]; subst. cbn [map ren_line fst snd] in *. eapply row_more; [apply goes_ren; eassumption|apply AI; exact A|]. rewrite <- !map_app. apply IH; auto. rewrite !good_app. auto.
  - eapply row_limit; [apply goes_ren; eassumption|rewrite <- AI; exact A].
  - apply row_eof_escape; [apply goes_ren; assumption|apply AI; exact A].
  - apply row_eof_quote; [apply goes_ren; assumption|apply AI; exact A].
Qed.
Lemma blanks_ren ls j ls' : blanks c1 ls j ls' -> blanks c2 (ml ls) j (ml ls').
Proof.
  induction 1 as [ls N|e ls j ls' H B IH]; [apply bl_none|cbn [map ren_line fst snd]; apply bl_skip; [congruence|exact IH]].
  intros e ls' I E. destruct ls as [|[t e0] ls]; [discriminate|]. cbn [map] in E. unfold ren_line in E. cbn [fst snd] in E. injection E as Et _ _. destruct t; [|discriminate]. eapply (N e0 ls); congruence.
Qed.
Lemma document_ren k L its : document c1 d1 k L its -> Forall goodl L -> document c2 d2 k (ml L) (map (ren_item f) its).
Proof.
  induction 1 as [k|k t e ls out m rest j ls' its R B D IH]; intros O; [constructor|]. inversion O as [|? ? [O1 O2] O3]; subst. cbn [map ren_line fst snd] in *.
  unfold ren_item at 1. cbn [it_out it_line it_next it_rest].
  econstructor; [exact (row_ren _ _ _ _ _ _ _ _ R O1 O1 O2 O3)|apply blanks_ren; exact B|]. apply IH.
  destruct (row_lines c1 d1 _ _ _ _ _ _ _ _ R) as (u & -> & _). destruct (blanks_used c1 _ _ _ B) as (v & -> & _). apply Forall_app in O3 as [_ O3]. apply Forall_app in O3 as [_ O3]. exact O3.
Qed.
Lemma physical_good data ls : physical data ls -> good data -> Forall goodl ls.
Proof.
  assert (G0 : good []) by (split; [intros x []|intros _; apply nulfree_nil]).
  induction 1 as [|t Ht Hl|t rest ls Hl Hc P IH|t rest ls Hl P IH]; intros O.
  - constructor.
  - constructor; [|constructor]. split; [exact O|exact G0].
  - change (LF :: rest) with ([LF] ++ rest) in O. apply good_app in O as [O1 O]. apply good_app in O as [O2 O3]. constructor; [split; assumption|apply IH; exact O3].
  - change (CR :: LF :: rest) with ([CR; LF] ++ rest) in O. apply good_app in O as [O1 O]. apply good_app in O as [O2 O3]. constructor; [split; assumption|apply IH; exact O3].
Qed.
Lemma physical_ren data ls : physical data ls -> good data -> physical (mf data) (ml ls).
Proof.
  assert (LFF : forall t, good t -> ~ In LF t -> ~ In LF (mf t)).
  { intros t [K _] N J. apply in_map_iff in J as (x & E & J). destruct (K x J) as (_ & (R & _)). apply R in E. subst x. exact (N J). }
  assert (FL : forall t, good t -> In LF t -> f LF = LF) by (intros t [K _] J; destruct (K _ J) as (_ & (R & _)); apply R; reflexivity).
  assert (FC : forall t, good t -> In CR t -> f CR = CR) by (intros t [K _] J; destruct (K _ J) as (_ & (_ & R & _)); apply R; reflexivity).
  induction 1 as [|t Ht Hl|t rest ls Hl Hc P IH|t rest ls Hl P IH]; intros O.
  - constructor.
  - apply ph_last; [destruct t; [contradiction|discriminate]|apply LFF; assumption].
  - change (LF :: rest) with ([LF] ++ rest) in O. apply good_app in O as [O1 O]. apply good_app in O as [O2 O3].
    rewrite map_app. cbn [map]. unfold ren_line at 1. cbn [fst snd map]. rewrite (FL _ O2 (or_introl eq_refl)). apply ph_lf; [apply LFF; assumption| |apply IH; exact O3].
    intros t' E. assert (K : exists a b, t = a ++ b /\ mf b = [CR]) by (apply map_eq_app in E as (a & b & E & _ & Eb); eauto). destruct K as (a & b & -> & Eb).
    destruct b as [|x [|? ?]]; try discriminate. injection Eb as Eb. assert (x = CR) as -> by (apply good_app in O1 as [_ [K _]]; destruct (K x (or_introl eq_refl)) as (_ & (_ & R & _)); apply R; exact Eb). exact (Hc a eq_refl).
  - change (CR :: LF :: rest) with ([CR; LF] ++ rest) in O. apply good_app in O as [O1 O]. apply good_app in O as [O2 O3].
    rewrite map_app. cbn [map]. unfold ren_line at 1. cbn [fst snd map]. rewrite (FL _ O2), (FC _ O2) by (cbn; auto). apply ph_crlf; [apply LFF; assumption|apply IH; exact O3].
Qed.
Lemma starts_ren data k L : starts c1 data k L -> good data -> starts c2 (mf data) k (ml L).
Proof.
  intros H G. inversion H as [ls j ls' Hh P B|ls j t e ls1 j' ls' Hh P B B']; subst.
  - apply st_all with (ls := ml ls); [congruence|apply physical_ren; assumption|apply blanks_ren; exact B].
  - apply st_header with (ls := ml ls) (t := mf t) (e := mf e) (ls1 := ml ls1); [congruence|apply physical_ren; assumption|exact (blanks_ren _ _ _ B)|apply blanks_ren; exact B'].
Qed.
Theorem rows_ren data its : good data -> rows_of c1 d1 data its -> rows_of c2 d2 (mf data) (map (ren_item f) its).
Proof.
  intros O (k & L & SO & D). exists k, (ml L). split; [apply starts_ren; assumption|]. apply document_ren; [exact D|].
  destruct (starts_lines c1 data k L SO) as (u & E & _). pose proof (physical_good data _ (lines_physical data) O) as F. rewrite E in F. apply Forall_app in F as [_ F]. exact F.
Qed.
End RenRows.

(** ** Values *)
(** Types that hold text, and any text. *)
Fixpoint textual (t : ty) : Prop := match t with TString | TView | TChar => True | TOpt t' => textual t' | _ => False end.
Definition takes_text (e : elem) : Prop := match e with EVoid => True | EVal t => textual t | ERes t r => textual t /\ r = RNe end.
Fixpoint ren_val (f : ascii -> ascii) (v : val) : val :=
  match v with VStr s => VStr (map f s) | VView s => VView (map f s) | VChar x => VChar (f x) | VOpt (Some w) => VOpt (Some (ren_val f w)) | v => v end.
Definition ren_read (f : ascii -> ascii) (o1 o2 : list val + str) : Prop :=
  match o1, o2 with inl vs, inl ws => ws = map (ren_val f) vs | inr _, inr _ => True | _, _ => False end.
Section RenVal.
Context (f : ascii -> ascii).
Notation mf := (map f).
Lemma text_dec t : forall s, textual t -> (exists v, converts t s v) \/ (forall v, ~ converts t s v).
Proof.
  induction t as [i|i|fc| | | | |t IH|ts|u]; intros s T; cbn [textual] in T; try contradiction; cbn [converts].
  - destruct s as [|y [|z s]]; [right; intros v (x & _ & E); discriminate|left; exists (VChar y), y; auto|right; intros v (x & _ & E); discriminate].
  - left. eexists; reflexivity.
  - left. eexists; reflexivity.
  - left. destruct (IH s T) as [(v & K)|K]; [exists (VOpt (Some v))|exists (VOpt None)]; exact K.
Qed.
Lemma text_back t s w : textual t -> converts t (mf s) w -> exists v, converts t s v.
Proof.
  intros T. destruct t as [i|i|fc| | | | |t|ts|u]; cbn [textual] in T; try contradiction; cbn [converts].
  - intros (x & _ & E). destruct s as [|y [|? ?]]; try discriminate. exists (VChar y), y. auto.
  - intros _. eexists; reflexivity.
  - intros _. eexists; reflexivity.
  - intros _. destruct (text_dec t s T) as [[v K]|K]; [exists (VOpt (Some v))|exists (VOpt None)]; exact K.
Qed.
Lemma text_ren t : forall s v, textual t -> converts t s v -> converts t (mf s) (ren_val f v).
Proof.
  induction t as [i|i|fc| | | | |t IH|ts|u]; intros s v T; cbn [textual] in T; try contradiction; cbn [converts].
  - intros (x & -> & ->). exists (f x). auto.
  - intros ->. reflexivity.
  - intros ->. reflexivity.
  - destruct v as [| | | | | |o| |]; try contradiction. destruct o as [w|]; cbn [ren_val]; [apply IH; exact T|].
    intros N w K. destruct (text_back t s w T K) as (v & K'). exact (N v K').
Qed.
Lemma col_ren e s o : takes_text e -> col_ok e s o -> col_ok e (mf s) (option_map (ren_val f) o).
Proof.
  intros T C. inversion C as [|t s0 v K|t r s0 v K P]; subst; cbn [takes_text] in T; cbn [option_map]; [constructor|constructor; apply text_ren; assumption|].
  destruct T as [T ->]. constructor; [apply text_ren; assumption|]. destruct P as [A B].
  split; intros E; destruct v as [| | | |x|x|[x|]| |]; cbn [ren_val] in E; try discriminate; injection E as E; destruct x; try discriminate; contradiction.
Qed.
Lemma bad_ren n e s m : takes_text e -> col_bad n e s m -> exists m', col_bad n e (mf s) m'.
Proof.
  intros T C. inversion C as [t s0 K|t r s0 K|t r s0 v K P]; subst; cbn [takes_text] in T.
  - eexists. apply cb_val. intros w J. destruct (text_back _ _ _ T J) as (v & J'). exact (K v J').
  - eexists. apply cb_res_type. intros w J. destruct (text_back _ _ _ (proj1 T) J) as (v & J'). exact (K v J').
  - destruct T as [T ->]. eexists. eapply cb_res_val; [apply text_ren; [exact T|exact K]|]. intros [A B]. apply P.
    split; intros ->; cbn [ren_val map] in *; contradiction.
Qed.
Lemma row_ok_ren es ss vs : row_ok es ss vs -> Forall takes_text es -> row_ok es (map mf ss) (map (ren_val f) vs).
Proof.
  induction 1 as [|e s es ss vs C R IH|e s v es ss vs C R IH]; intros T; [constructor| |]; inversion T as [|? ? T1 T2]; subst; cbn [map].
  - apply ro_skip; [exact (col_ren _ _ None T1 C)|auto].
  - apply ro_cons; [exact (col_ren _ _ (Some v) T1 C)|auto].
Qed.
Lemma taken_ren mp n cols ps : taken mp n cols ps -> taken mp n (map mf cols) (map mf ps).
Proof.
  unfold taken. destruct mp as [|p mp]; [intros ->; reflexivity|]. intros [-> K]. split; [rewrite map_length; reflexivity|].
  induction K as [|a b l l' K1 K2 IH]; [constructor|]. cbn [map]. constructor; [rewrite nth_error_map, K1; reflexivity|exact IH].
Qed.
Lemma converted_ren mp n es cols o : Forall takes_text es -> converted mp n es cols o -> exists o', converted mp n es (map mf cols) o' /\ ren_read f o o'.
Proof.
  intros T C. inversion C as [ps vs A B R|ps m A B R|A B|A B|A B D]; subst.
  - eexists. split; [eapply cd_values; [apply taken_ren; exact A|rewrite map_length; exact B|apply row_ok_ren; [exact R|exact T]]|reflexivity].
  - inversion R as [es1 ss1 vs e s m0 es2 ss2 R1 K L E1 E2]; subst. apply Forall_app in T as [T1 T2]. inversion T2 as [|? ? T3 T4]; subst.
    destruct (bad_ren _ _ _ _ T3 K) as (m' & K'). exists (inr m'). split; [|exact Logic.I].
    eapply cd_column; [apply taken_ren; exact A|rewrite map_length; exact B|]. rewrite map_app. cbn [map]. eapply rb; [eapply row_ok_ren; eassumption|exact K'|rewrite map_length; exact L].
  - eexists. split; [apply cd_count; [reflexivity|rewrite map_length; exact B]|exact Logic.I].
  - eexists. split; [apply cd_mapping; assumption|exact Logic.I].
  - eexists. split; [apply cd_mapped_count; [exact A|exact B|rewrite map_length; exact D]|exact Logic.I].
Qed.
End RenVal.

Section RenReading.
Context (f : ascii -> ascii) (c1 c2 : cfg) (d1 d2 : str) (Hd1 : d1 <> []) (Hd2 : d2 <> []).
Context (H1 : cfg_ok c1) (H2 : cfg_ok c2) (N1 : nulfree d1) (N2 : nulfree d2) (Em : c_mode c1 = c_mode c2) (El : c_ml c1 = c_ml c2).
Notation mf := (map f). Notation good := (good f c1 c2 d1 d2). Notation goodl := (goodl f c1 c2 d1 d2).
Definition sound (out : outcome) : Prop := forall t, out = Complete t -> good t /\ (c_ml c1 = true -> qo c1 d1 t = false).
Lemma row_sound n T last e more out m rest : row c1 d1 n T last e more out m rest -> good T -> good last -> good e -> Forall goodl more -> sound out.
Proof.
  induction 1 as [n T last e more N|n T last e w t e' more out m rest G A R IH|n T last e w more G A|n T last e G A|n T last e G A]; intros OT OL OE OM;
    try (intros u X; discriminate X).
  - intros u X. injection X as <-. split; [exact OT|]. intros M. destruct (qo c1 d1 T) eqn:Q; [|reflexivity]. exfalso.
    pose proof (open_quoting _ _ _ Q) as Qn. apply (qo_open c1 H1 d1 N1 Hd1 T M (proj2 OT M)) in Q.
    assert (NE : ~ ends_escaped (c_escape c1) last) by (intros X; exact (N ByEscape (go_escape c1 d1 T last M X))).
    exact (N ByQuote (go_quote c1 d1 T last M NE Qn Q)).
  - inversion OM as [|? ? [O1 O2] O3]; subst. apply IH; auto. rewrite !good_app. auto.
Qed.
Lemma document_sound k L its : document c1 d1 k L its -> Forall goodl L -> Forall (fun it => sound (it_out it)) its.
Proof.
  induction 1 as [k|k t e ls out m rest j ls' its R B D IH]; intros O; [constructor|]. inversion O as [|? ? [O1 O2] O3]; subst.
  constructor; [exact (row_sound _ _ _ _ _ _ _ _ R O1 O1 O2 O3)|]. apply IH.
  destruct (row_lines c1 d1 _ _ _ _ _ _ _ _ R) as (u & -> & _). destruct (blanks_used c1 _ _ _ B) as (v & -> & _). apply Forall_app in O3 as [_ O3]. apply Forall_app in O3 as [_ O3]. exact O3.
Qed.
Theorem rows_sound data its : good data -> rows_of c1 d1 data its -> Forall (fun it => sound (it_out it)) its.
Proof.
  intros O (k & L & SO & D). apply (document_sound k L); [exact D|].
  destruct (starts_lines c1 data k L SO) as (u & E & _). pose proof (physical_good f c1 c2 d1 d2 data _ (lines_physical data) O) as F. rewrite E in F. apply Forall_app in F as [_ F]. exact F.
Qed.
Lemma c_string_ren t : (forall x, In x t -> kept_ends f x) -> c_string (mf t) = mf (c_string t).
Proof.
  induction t as [|x t IH]; intros K; [reflexivity|]. cbn [map c_string]. destruct (K x (or_introl eq_refl)) as (_ & _ & R).
  assert (Ascii.eqb (f x) NUL = Ascii.eqb x NUL) as -> by (apply iff_eqb; rewrite !Ascii.eqb_eq; symmetry; exact R).
  destruct (Ascii.eqb x NUL); [reflexivity|]. cbn [map]. rewrite IH by (intros y J; apply K; right; exact J). reflexivity.
Qed.
Theorem reading_ren mp n es out o : sound out -> Forall takes_text es -> row_reading c1 d1 mp n es out o ->
  exists o', row_reading c2 d2 mp n es (ren_out f out) o' /\ ren_read f o o'.
Proof.
  intros W T R. inversion R as [w E1 E2|t msg Ht E1 E2|t cols o' Ht Hs Hcv E1 E2|t msg msg' Ht Hs Hm Hm3 E1 E2]; subst; cbn [ren_out].
  - eexists. split; [apply rd_incomplete|exact Logic.I].
  - exists (inr []). split; [|exact Logic.I]. apply rd_empty. rewrite c_string_ren by (intros x J; apply (proj1 (proj1 (W t eq_refl)) x J)). rewrite Ht. reflexivity.
  - destruct (W t eq_refl) as [G Q]. pose proof (c_string_ren t ltac:(intros x J; apply (proj1 G x J))) as CS.
    destruct (converted_ren f _ _ _ _ _ T Hcv) as (o' & C & A). exists o'. split; [|exact A].
    eapply rd_row; [rewrite CS; destruct (c_string t); [contradiction|discriminate]| |exact C]. rewrite CS.
    rewrite (obs_ren f c1 c2 d1 d2 Hd1 Hd2 H1 H2 N1 N2 Em El sp_init sp_init (c_string t) [] []), Hs; try apply reach_init; [reflexivity|apply c_string_free|rewrite <- CS; apply c_string_free| |].
    + intros x J. apply (proj1 G x). apply c_string_incl. exact J.
    + intros M. rewrite (c_string_nulfree t (proj2 G M)). exact (Q M).
  - destruct (W t eq_refl) as [G Q]. pose proof (c_string_ren t ltac:(intros x J; apply (proj1 G x J))) as CS. exists (inr msg'). split; [|exact Logic.I].
    assert (X : split_obs c2 sp_init d2 (c_string (mf t)) [] = ren_obs f (split_obs c1 sp_init d1 (c_string t) [])).
    { rewrite CS. apply (obs_ren f c1 c2 d1 d2 Hd1 Hd2 H1 H2 N1 N2 Em El); try apply reach_init; [apply c_string_free|rewrite <- CS; apply c_string_free| |].
      - intros x J. apply (proj1 G x). apply c_string_incl. exact J.
      - intros M. rewrite (c_string_nulfree t (proj2 G M)). exact (Q M). }
    eapply rd_bad; [rewrite CS; destruct (c_string t); [contradiction|discriminate]|rewrite X|exact Hm|intros M; apply Hm3; congruence].
    destruct Hs as [-> | ->]; cbn [ren_obs]; auto.
Qed.
End RenReading.
