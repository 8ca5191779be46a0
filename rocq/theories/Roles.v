(** What an option does to a text depends on the characters of that text only (C58): lemmas. *)
From Verif Require Import Base Setup Splitter SplitPure ListFacts SplitApi SplitRefine SplitSpecProofs LineSpec LineProofs ParserSpec ReaderEscape ReaderParse ParserRows ParserOpen ParserFacts.

(** The character has the same meaning in both setups. *)
Definition same_role (c1 c2 : cfg) (x : ascii) : Prop :=
  (c_quote c1 = Some x <-> c_quote c2 = Some x) /\ (In x (c_escape c1) <-> In x (c_escape c2)) /\
  (In x (c_triml c1) <-> In x (c_triml c2)) /\ (In x (c_trimr c1) <-> In x (c_trimr c2)).
Definition same_roles (c1 c2 : cfg) (text : str) : Prop := forall x, In x text -> same_role c1 c2 x.

Lemma mem_in x l : mem x l = true <-> In x l.
Proof. unfold mem. rewrite existsb_exists. split; [intros (y & H & E); apply Ascii.eqb_eq in E; congruence|intros H; exists x; split; [exact H|apply Ascii.eqb_refl]]. Qed.
Lemma iff_eqb (a b : bool) : (a = true <-> b = true) -> a = b.
Proof. destruct a, b; intros [H1 H2]; try reflexivity; [symmetry; apply H1|apply H2]; reflexivity. Qed.
Lemma strip_eq : forall d s r, strip d s = Some r -> s = d ++ r.
Proof.
  induction d as [|x d IH]; intros s r H; [injection H as ->; reflexivity|]. destruct s as [|y s]; [discriminate|]. cbn in H.
  destruct (Ascii.eqb y x) eqn:E; [|discriminate]. apply Ascii.eqb_eq in E. subst y. cbn. f_equal. apply IH. exact H.
Qed.
Lemma span_app cs : forall s, fst (span cs s) ++ snd (span cs s) = s.
Proof. induction s as [|x s IH]; [reflexivity|]. cbn. destruct (mem x cs); [|reflexivity]. destruct (span cs s). cbn in *. congruence. Qed.
Lemma dropc_incl cs s : incl (dropc cs s) s.
Proof. intros x H. rewrite <- (span_app cs s). apply in_or_app. right. exact H. Qed.

Section Two.
Context (c1 c2 : cfg) (d : str).
Notation same s := (same_roles c1 c2 s).
Lemma same_tail x s : same (x :: s) -> same s. Proof. intros H y K. apply H. right. exact K. Qed.
Lemma same_sub s s' : same s -> incl s' s -> same s'. Proof. intros H K x L. apply H, K, L. Qed.
Lemma q_same x : same_role c1 c2 x -> quote_match c1 x = quote_match c2 x.
Proof.
  intros (H & _). apply iff_eqb. unfold quote_match.
  assert (Q : forall o : option ascii, match o with Some q => Ascii.eqb x q | None => false end = true <-> o = Some x).
  { intros [q|]; [|split; discriminate]. rewrite Ascii.eqb_eq. split; [intros ->; reflexivity|intros E; injection E as ->; reflexivity]. }
  rewrite !Q. exact H.
Qed.
Lemma e_same x : same_role c1 c2 x -> escape_match c1 x = escape_match c2 x.
Proof. intros (_ & H & _). apply iff_eqb. unfold escape_match. rewrite !mem_in. exact H. Qed.
Lemma span_same l1 l2 : forall s, (forall x, In x s -> (In x l1 <-> In x l2)) -> span l1 s = span l2 s.
Proof.
  induction s as [|x s IH]; intros H; [reflexivity|]. cbn [span].
  assert (mem x l1 = mem x l2) as -> by (apply iff_eqb; rewrite !mem_in; apply H; left; reflexivity). rewrite IH by (intros y K; apply H; right; exact K). reflexivity.
Qed.
Lemma dropc_same s : same s -> dropc (c_triml c1) s = dropc (c_triml c2) s.
Proof. intros H. unfold dropc. f_equal. apply span_same. intros x K. apply (H x K). Qed.
Lemma md_same s : same s -> md c1 d s = md c2 d s.
Proof.
  intros H. unfold md. rewrite (span_same (c_trimr c1) (c_trimr c2) s) by (intros x K; apply (H x K)).
  pose proof (span_app (c_trimr c2) s) as E. destruct (span (c_trimr c2) s) as [t u]. cbn [fst snd] in E. destruct u as [|x r]; [reflexivity|].
  destruct (strip d (x :: r)) as [rest|] eqn:Es; [|reflexivity]. f_equal. apply dropc_same. eapply same_sub; [exact H|].
  intros y K. rewrite <- E. apply in_or_app. right. rewrite (strip_eq _ _ _ Es). apply in_or_app. right. exact K.
Qed.
Lemma md_other c s t x r : md c d s = MOther t x r -> In x s /\ incl r s.
Proof.
  unfold md. pose proof (span_app (c_trimr c) s) as E. destruct (span (c_trimr c) s) as [t0 u]. cbn [fst snd] in E. destruct u as [|y u]; [discriminate|].
  destruct (strip d (y :: u)); [discriminate|]. intros K. injection K as -> -> ->. split; [rewrite <- E; apply in_or_app; right; left; reflexivity|].
  intros z Z. rewrite <- E. apply in_or_app. right. right. exact Z.
Qed.
Lemma md_delim c s rest : md c d s = MDelim rest -> incl rest s.
Proof.
  unfold md. pose proof (span_app (c_trimr c) s) as E. destruct (span (c_trimr c) s) as [t0 u]. cbn [fst snd] in E. destruct u as [|y u]; [discriminate|].
  destruct (strip d (y :: u)) as [r|] eqn:Es; [|discriminate]. intros K. injection K as <-. intros z Z. apply dropc_incl in Z. rewrite <- E. apply in_or_app. right.
  rewrite (strip_eq _ _ _ Es). apply in_or_app. right. exact Z.
Qed.
Lemma normal_same : forall s keep flag acc, same s -> normal c1 d keep flag acc s = normal c2 d keep flag acc s.
Proof.
  induction s as [|h s IH]; intros keep flag acc H; [reflexivity|]. pose proof (same_tail _ _ H) as Hs. cbn [normal]. destruct keep as [|k]; [|apply IH; exact Hs].
  rewrite (md_same _ H). destruct (md c2 d (h :: s)) as [|rest|t x r] eqn:Em; try reflexivity.
  rewrite (e_same x) by (apply H; exact (proj1 (md_other c2 _ _ _ _ Em))). destruct (escape_match c2 x); [destruct r|]; apply IH; exact Hs.
Qed.
Lemma quoted_same : forall s drop keep pos acc, same s -> quoted c1 d drop keep pos acc s = quoted c2 d drop keep pos acc s.
Proof.
  induction s as [|h s IH]; intros drop keep pos acc H; [reflexivity|]. pose proof (same_tail _ _ H) as Hs. cbn [quoted].
  destruct drop as [|n]; [|apply IH; exact Hs]. destruct keep as [|n]; [|apply IH; exact Hs].
  rewrite (q_same h), (e_same h) by (apply H; left; reflexivity). rewrite (md_same _ Hs). destruct (quote_match c2 h).
  - destruct (md c2 d s) as [|rest|t x r] eqn:Em; try reflexivity. destruct (md_other c2 _ _ _ _ Em) as [I1 I2]. rewrite (e_same x), (q_same x) by (apply Hs; exact I1).
    destruct (escape_match c2 x).
    + destruct r as [|y r]; [reflexivity|]. rewrite (q_same y) by (apply Hs, I2; left; reflexivity). destruct ((length t =? 0) && quote_match c2 y); [apply IH; exact Hs|reflexivity].
    + destruct ((length t =? 0) && quote_match c2 x); [apply IH; exact Hs|reflexivity].
  - destruct (escape_match c2 h); [destruct s; [reflexivity|]|]; apply IH; exact Hs.
Qed.
Lemma normal_next c : forall s keep flag acc a rest, normal c d keep flag acc s = FNext a rest -> incl rest s.
Proof.
  induction s as [|h s IH]; intros keep flag acc a rest; cbn [normal]; [destruct flag; discriminate|].
  assert (T : forall k f ac, normal c d k f ac s = FNext a rest -> incl rest (h :: s)) by (intros k f ac K; apply incl_tl; eapply IH; exact K).
  destruct keep as [|k]; [|apply T]. destruct (md c d (h :: s)) as [|r|t x r] eqn:Em.
  - destruct flag; discriminate.
  - intros E. injection E as <- <-. exact (md_delim c _ _ Em).
  - destruct (escape_match c x); [destruct r|]; apply T.
Qed.
Lemma quoted_next c : forall s drop keep pos acc a rest, quoted c d drop keep pos acc s = FNext a rest -> incl rest s.
Proof.
  induction s as [|h s IH]; intros drop keep pos acc a rest; cbn [quoted]; [discriminate|].
  assert (T : forall n k p ac, quoted c d n k p ac s = FNext a rest -> incl rest (h :: s)) by (intros n k p ac K; apply incl_tl; eapply IH; exact K).
  destruct drop as [|n]; [|apply T]. destruct keep as [|k]; [|apply T]. destruct (quote_match c h).
  - destruct (md c d s) as [|r|t x r] eqn:Em; [discriminate| |].
    + intros E. injection E as <- <-. apply incl_tl. exact (md_delim c _ _ Em).
    + destruct (escape_match c x); [destruct r as [|y r]; [discriminate|]|]; (destruct (_ && _); [apply T|discriminate]).
  - destruct (escape_match c h); [destruct s; [discriminate|]|]; apply T.
Qed.
Lemma field_same pos s : same s -> field c1 d pos s = field c2 d pos s.
Proof.
  intros H. unfold field. destruct s as [|h r]; [reflexivity|]. rewrite (q_same h) by (apply H; left; reflexivity).
  destruct (quote_match c2 h); [apply quoted_same; eapply same_tail; exact H|apply normal_same; exact H].
Qed.
Lemma field_next c pos s a rest : field c d pos s = FNext a rest -> incl rest s.
Proof. unfold field. destruct s as [|h r]; [discriminate|]. destruct (quote_match c h); intros H; [apply incl_tl; eapply quoted_next; exact H|eapply normal_next; exact H]. Qed.
Lemma fields_same : forall fuel total s, same s -> fields c1 d fuel total s = fields c2 d fuel total s.
Proof.
  induction fuel as [|f IH]; intros total s H; [reflexivity|]. cbn [fields]. rewrite (field_same _ _ H).
  destruct (field c2 d (total - length s) s) as [a rest| | | | |] eqn:Ef; try reflexivity. rewrite IH; [reflexivity|]. eapply same_sub; [exact H|]. eapply field_next; exact Ef.
Qed.
Theorem psplit_same s : same s -> psplit c1 d s = psplit c2 d s.
Proof. intros H. unfold psplit. rewrite (dropc_same _ H). apply fields_same. eapply same_sub; [exact H|apply dropc_incl]. Qed.

(** Split shows the same. *)
Context (H1 : cfg_ok c1) (H2 : cfg_ok c2) (Hd : nulfree d) (Hd0 : d <> []) (Em : c_mode c1 = c_mode c2) (El : c_ml c1 = c_ml c2).
Lemma report_same t : report c1 t = report c2 t. Proof. unfold report. rewrite El. reflexivity. Qed.
Theorem obs_same s1 s2 line r1 r2 : reach c1 s1 -> reach c2 s2 -> nulfree line -> same line ->
  (c_ml c1 = true -> qo c1 d line = false) -> split_obs c1 s1 d line r1 = split_obs c2 s2 d line r2.
Proof.
  intros R1 R2 N S Q. pose proof (split_obs_psplit c1 H1 d Hd Hd0 s1 line r1 _ _ R1 N (surjective_pairing _)) as O1.
  pose proof (split_obs_psplit c2 H2 d Hd Hd0 s2 line r2 _ _ R2 N (surjective_pairing _)) as O2.
  rewrite <- report_same, <- Em in O2. rewrite <- (psplit_same _ S) in O2. unfold qo in Q.
  destruct (report c1 (snd (psplit c1 d line))) as [[m mt]|] eqn:Er; [congruence|].
  destruct (snd (psplit c1 d line)) as [| | |p a|p e b|]; cbn [junk report] in *; try congruence.
  destruct (c_ml c1); [specialize (Q eq_refl)|]; discriminate.
Qed.
End Two.

(** ** Rows *)
Lemma same_sym c1 c2 s : same_roles c1 c2 s -> same_roles c2 c1 s.
Proof. intros H x K. destruct (H x K) as (A & B & C & D). unfold same_role. tauto. Qed.
Lemma same_app c1 c2 a b : same_roles c1 c2 (a ++ b) <-> same_roles c1 c2 a /\ same_roles c1 c2 b.
Proof. unfold same_roles. split; [intros H; split; intros x K; apply H, in_or_app; auto|intros [H K] x L; apply in_app_or in L; destruct L; auto]. Qed.
Lemma esc_tail_same c1 c2 t : same_roles c1 c2 t -> esc_tail c1 t = esc_tail c2 t.
Proof.
  intros H. unfold esc_tail. assert (K : same_roles c1 c2 (rev t)) by (intros x I; apply H, in_rev, I). clear H. induction (rev t) as [|x l IH]; [reflexivity|].
  cbn. rewrite (e_same c1 c2 x) by (apply K; left; reflexivity). rewrite IH by (intros y L; apply K; right; exact L). reflexivity.
Qed.
Lemma normal_not_open c d : forall s keep flag acc a, normal c d keep flag acc s <> FUnterm a.
Proof.
  induction s as [|h s IH]; intros keep flag acc a; cbn [normal]; [destruct flag; discriminate|]. destruct keep as [|k]; [|apply IH].
  destruct (md c d (h :: s)) as [|r|t x r]; [destruct flag; discriminate|discriminate|]. destruct (escape_match c x); [destruct r|]; apply IH.
Qed.
Lemma open_quoting c d t : qo c d t = true -> c_quote c <> None.
Proof.
  unfold qo, psplit. generalize (dropc (c_triml c) t) as s. generalize (S (length t)) as f. generalize (length t) as total.
  intros total f. induction f as [|f IH]; intros s; cbn [fields]; [discriminate|].
  destruct (field c d (total - length s) s) as [a rest|a|a|a| |p e] eqn:Ef; cbn [snd]; try discriminate.
  - specialize (IH rest). destruct (fields c d f total rest) as [l tl]. exact IH.
  - intros _ E. unfold field in Ef. destruct s as [|h r]; [discriminate|]. unfold quote_match in Ef. rewrite E in Ef. exact (normal_not_open _ _ _ _ _ _ _ Ef).
Qed.

Section Rows.
Context (c1 c2 : cfg) (d : str) (H1 : cfg_ok c1) (H2 : cfg_ok c2) (Hd : nulfree d) (Hd0 : d <> []).
Context (El : c_ml c1 = c_ml c2) (Es : c_mlsize c1 = c_mlsize c2) (Ei : c_ignempty c1 = c_ignempty c2) (Eh : c_ignhdr c1 = c_ignhdr c2).
Definition okt (t : str) : Prop := same_roles c1 c2 t /\ (c_ml c1 = true -> nulfree t).
Lemma okt_app a b : okt (a ++ b) <-> okt a /\ okt b.
Proof.
  unfold okt. rewrite same_app. assert (X : nulfree (a ++ b) <-> nulfree a /\ nulfree b) by apply nulfree_app. clear - X. tauto.
Qed.
Definition okl (l : str * str) : Prop := okt (fst l) /\ okt (snd l).
Lemma goes_same T last w : okt T -> okt last -> goes_on c1 d T last w -> goes_on c2 d T last w.
Proof.
  intros [A N] [B _] G. assert (EE : ends_escaped (c_escape c1) last <-> ends_escaped (c_escape c2) last).
  { rewrite <- !odd_ends_escaped, (esc_tail_same c1 c2 _ B). reflexivity. }
  inversion G as [M E|M E Q O]; subst.
  - constructor; [congruence|apply EE; exact E].
  - apply (qo_open c1 H1 d Hd Hd0 T M (N M)) in O. assert (O2 : qo c2 d T = true) by (unfold qo in *; rewrite <- (psplit_same c1 c2 d T A); exact O).
    constructor; [congruence|rewrite <- EE; exact E|exact (open_quoting _ _ _ O2)|]. apply (qo_open c2 H2 d Hd Hd0 T); [congruence|exact (N M)|exact O2].
Qed.
End Rows.

Section Docs.
Context (c1 c2 : cfg) (d : str) (H1 : cfg_ok c1) (H2 : cfg_ok c2) (Hd : nulfree d) (Hd0 : d <> []).
Context (El : c_ml c1 = c_ml c2) (Es : c_mlsize c1 = c_mlsize c2) (Ei : c_ignempty c1 = c_ignempty c2) (Eh : c_ignhdr c1 = c_ignhdr c2).
Notation okt := (okt c1 c2). Notation okl := (okl c1 c2).
Lemma okt_swap t : okt t -> Roles.okt c2 c1 t.
Proof. intros [A B]. split; [apply same_sym; exact A|rewrite <- El; exact B]. Qed.
Lemma goes_iff T last w : okt T -> okt last -> (goes_on c1 d T last w <-> goes_on c2 d T last w).
Proof.
  intros A B. split; [apply (goes_same c1 c2 d H1 H2 Hd Hd0 El); assumption|]. apply (goes_same c2 c1 d H2 H1 Hd Hd0 (eq_sym El)); apply okt_swap; assumption.
Qed.
Lemma add_iff n : may_add c1 n <-> may_add c2 n. Proof. unfold may_add. rewrite Es. reflexivity. Qed.
Lemma row_same n T last e more out m rest : row c1 d n T last e more out m rest -> okt T -> okt last -> okt e -> Forall okl more -> row c2 d n T last e more out m rest.
Proof.
  induction 1 as [n T last e more N|n T last e w t e' more out m rest G A R IH|n T last e w more G A|n T last e G A|n T last e G A]; intros OT OL OE OM.
  - apply row_done. intros w G. apply (N w). apply goes_iff; assumption.
  - inversion OM as [|? ? [O1 O2] O3]; subst. eapply row_more; [apply goes_iff; eassumption|apply add_iff; exact A|]. apply IH; auto. rewrite !okt_app. auto.
  - eapply row_limit; [apply goes_iff; eassumption|rewrite <- add_iff; exact A].
  - apply row_eof_escape; [apply goes_iff; assumption|apply add_iff; exact A].
  - apply row_eof_quote; [apply goes_iff; assumption|apply add_iff; exact A].
Qed.
Lemma blanks_same ls j ls' : blanks c1 ls j ls' -> blanks c2 ls j ls'.
Proof. induction 1 as [ls N|e ls j ls' H B IH]; [apply bl_none; rewrite <- Ei; exact N|apply bl_skip; [congruence|exact IH]]. Qed.
Lemma document_same k L its : document c1 d k L its -> Forall okl L -> document c2 d k L its.
Proof.
  induction 1 as [k|k t e ls out m rest j ls' its R B D IH]; intros O; [constructor|]. inversion O as [|? ? [O1 O2] O3]; subst.
  econstructor; [apply row_same; [exact R|exact O1|exact O1|exact O2|exact O3]|apply blanks_same; exact B|]. apply IH.
  destruct (row_lines c1 d _ _ _ _ _ _ _ _ R) as (u & -> & _). destruct (blanks_used c1 _ _ _ B) as (v & -> & _). apply Forall_app in O3 as [_ O3]. apply Forall_app in O3 as [_ O3]. exact O3.
Qed.
Lemma starts_same data k L : starts c1 data k L -> starts c2 data k L.
Proof.
  intros H. inversion H as [ls j ls' Hh P B|ls j t e ls1 j' ls' Hh P B B']; subst.
  - apply st_all with (ls := ls); [congruence|exact P|apply blanks_same; exact B].
  - apply st_header with (ls := ls) (t := t) (e := e) (ls1 := ls1); [congruence|exact P|apply blanks_same; exact B|apply blanks_same; exact B'].
Qed.
Lemma physical_ok data ls : physical data ls -> okt data -> Forall okl ls.
Proof.
  induction 1 as [|t Ht Hl|t rest ls Hl Hc P IH|t rest ls Hl P IH]; intros O.
  - constructor.
  - constructor; [|constructor]. split; [exact O|]. split; [intros x []|intros _; apply nulfree_nil].
  - change (LF :: rest) with ([LF] ++ rest) in O. apply okt_app in O as [O1 O]. apply okt_app in O as [O2 O3]. constructor; [split; assumption|apply IH; exact O3].
  - change (CR :: LF :: rest) with ([CR; LF] ++ rest) in O. apply okt_app in O as [O1 O]. apply okt_app in O as [O2 O3]. constructor; [split; assumption|apply IH; exact O3].
Qed.
Theorem rows_same data its : okt data -> rows_of c1 d data its -> rows_of c2 d data its.
Proof.
  intros O (k & L & SO & D). exists k, L. split; [apply starts_same; exact SO|]. apply document_same; [exact D|].
  destruct (starts_lines c1 data k L SO) as (u & E & _). pose proof (physical_ok data _ (lines_physical data) O) as F. rewrite E in F. apply Forall_app in F as [_ F]. exact F.
Qed.
End Docs.

(** ** What a row gives *)
Lemma c_string_incl t : incl (c_string t) t.
Proof. induction t as [|x t IH]; [intros y []|]. cbn. destruct (Ascii.eqb x NUL); [intros y []|]. intros y [->|K]; [left; reflexivity|right; apply IH; exact K]. Qed.

Section Reading.
Context (c1 c2 : cfg) (d : str) (H1 : cfg_ok c1) (H2 : cfg_ok c2) (Hd : nulfree d) (Hd0 : d <> []).
Context (Em : c_mode c1 = c_mode c2) (El : c_ml c1 = c_ml c2).
Notation okt := (okt c1 c2). Notation okl := (okl c1 c2).
(** A row that came out complete. *)
Definition whole (out : outcome) : Prop := forall t, out = Complete t -> okt t /\ (c_ml c1 = true -> qo c1 d t = false).
Lemma row_whole n T last e more out m rest : row c1 d n T last e more out m rest -> okt T -> okt last -> okt e -> Forall okl more -> whole out.
Proof.
  induction 1 as [n T last e more N|n T last e w t e' more out m rest G A R IH|n T last e w more G A|n T last e G A|n T last e G A]; intros OT OL OE OM;
    try (intros u X; discriminate X).
  - intros u X. injection X as <-. split; [exact OT|]. intros M. destruct (qo c1 d T) eqn:Q; [|reflexivity]. exfalso.
    pose proof (open_quoting _ _ _ Q) as Qn. apply (qo_open c1 H1 d Hd Hd0 T M (proj2 OT M)) in Q.
    assert (NE : ~ ends_escaped (c_escape c1) last) by (intros X; exact (N ByEscape (go_escape c1 d T last M X))).
    exact (N ByQuote (go_quote c1 d T last M NE Qn Q)).
  - inversion OM as [|? ? [O1 O2] O3]; subst. apply IH; auto. rewrite !okt_app. auto.
Qed.
Lemma document_whole k L its : document c1 d k L its -> Forall okl L -> Forall (fun it => whole (it_out it)) its.
Proof.
  induction 1 as [k|k t e ls out m rest j ls' its R B D IH]; intros O; [constructor|]. inversion O as [|? ? [O1 O2] O3]; subst.
  constructor; [exact (row_whole _ _ _ _ _ _ _ _ R O1 O1 O2 O3)|]. apply IH.
  destruct (row_lines c1 d _ _ _ _ _ _ _ _ R) as (u & -> & _). destruct (blanks_used c1 _ _ _ B) as (v & -> & _). apply Forall_app in O3 as [_ O3]. apply Forall_app in O3 as [_ O3]. exact O3.
Qed.
Theorem rows_whole data its : okt data -> rows_of c1 d data its -> Forall (fun it => whole (it_out it)) its.
Proof.
  intros O (k & L & SO & D). apply (document_whole k L); [exact D|].
  destruct (starts_lines c1 data k L SO) as (u & E & _). pose proof (physical_ok c1 c2 data _ (lines_physical data) O) as F. rewrite E in F. apply Forall_app in F as [_ F]. exact F.
Qed.
Lemma whole_obs t : whole (Complete t) -> split_obs c1 sp_init d (c_string t) [] = split_obs c2 sp_init d (c_string t) [].
Proof.
  intros W. destruct (W t eq_refl) as [[S N] Q]. apply (obs_same c1 c2 d H1 H2 Hd Hd0 Em El); try (apply reach_init); [apply c_string_free|intros x K; apply S, c_string_incl, K|].
  intros M. rewrite (c_string_nulfree t (N M)). exact (Q M).
Qed.
Theorem reading_same mp n es out o : whole out -> (row_reading c1 d mp n es out o <-> row_reading c2 d mp n es out o).
Proof.
  intros W. split; intros R; inversion R as [w E1 E2|t msg Ht E1 E2|t cols o' Ht Hs Hcv E1 E2|t msg msg' Ht Hs Hm Hm3 E1 E2]; subst;
    try (constructor; assumption); first [rewrite (whole_obs t W) in Hs|rewrite <- (whole_obs t W) in Hs].
  - eapply rd_row; eassumption.
  - eapply rd_bad; [exact Ht|exact Hs|exact Hm|]. intros M. apply Hm3. congruence.
  - eapply rd_row; eassumption.
  - eapply rd_bad; [exact Ht|exact Hs|exact Hm|]. intros M. apply Hm3. congruence.
Qed.
End Reading.

(** ** Turning multiline on *)
Section On.
Context (c1 c2 : cfg) (d : str) (H1 : cfg_ok c1) (H2 : cfg_ok c2) (Hd : nulfree d) (Hd0 : d <> []).
Context (M1 : c_ml c1 = false) (Em : c_mode c1 = c_mode c2) (Ei : c_ignempty c1 = c_ignempty c2) (Eh : c_ignhdr c1 = c_ignhdr c2).
(** The text is a row of its own that splits. *)
Definition single (t : str) : Prop :=
  nulfree t /\ same_roles c1 c2 t /\ ~ ends_escaped (c_escape c1) t /\ exists cols, split_obs c1 sp_init d t [] = SFields cols.
Lemma single_ok t : single t -> snd (psplit c1 d t) = TOk.
Proof.
  intros (N & S & E & cols & K). pose proof (split_obs_psplit c1 H1 d Hd Hd0 sp_init t [] _ _ (reach_init c1) N (surjective_pairing _)) as O.
  pose proof (psplit_nofuel c1 d Hd0 t) as NF.
  destruct (snd (psplit c1 d t)); cbn [report] in O; rewrite ?M1 in O; try reflexivity; try (exfalso; apply NF; reflexivity); rewrite O in K; destruct (c_mode c1); discriminate.
Qed.
Lemma single_obs t : single t -> split_obs c2 sp_init d t [] = split_obs c1 sp_init d t [].
Proof.
  intros St. pose proof (single_ok t St) as T. destruct St as (N & S & _).
  pose proof (split_obs_psplit c1 H1 d Hd Hd0 sp_init t [] _ _ (reach_init c1) N (surjective_pairing _)) as O1.
  pose proof (split_obs_psplit c2 H2 d Hd Hd0 sp_init t [] _ _ (reach_init c2) N (surjective_pairing _)) as O2.
  rewrite <- (psplit_same c1 c2 d t S) in O2. rewrite T in O1, O2. cbn [report junk] in O1, O2. congruence.
Qed.
Lemma single_ends t w : single t -> ~ goes_on c2 d t t w.
Proof.
  intros St G. pose proof (single_ok t St) as T. destruct St as (N & S & E & _). inversion G as [M X|M X Q O]; subst.
  - apply E. apply odd_ends_escaped. rewrite (esc_tail_same c1 c2 t S). apply odd_ends_escaped. exact X.
  - apply (qo_open c2 H2 d Hd Hd0 t M N) in O. unfold qo in O. rewrite <- (psplit_same c1 c2 d t S), T in O. discriminate.
Qed.
Lemma document_on k L its : document c1 d k L its -> (forall it t, In it its -> it_out it = Complete t -> single t) -> document c2 d k L its.
Proof.
  induction 1 as [k|k t e ls out m rest j ls' its R B D IH]; intros O; [constructor|].
  inversion R as [? ? ? ? ? N|? ? ? ? w ? ? ? ? ? ? G|? ? ? ? w ? G|? ? ? ? G|? ? ? ? G]; subst; try (inversion G; congruence).
  econstructor; [apply row_done; intros w; apply single_ends; exact (O _ t (or_introl eq_refl) eq_refl)|apply (blanks_same c1 c2 Ei); exact B|].
  apply IH. intros it u K. apply O. right. exact K.
Qed.
Theorem rows_on data its : rows_of c1 d data its -> (forall it t, In it its -> it_out it = Complete t -> single t) -> rows_of c2 d data its.
Proof. intros (k & L & SO & D) O. exists k, L. split; [apply (starts_same c1 c2 Ei Eh); exact SO|apply document_on; assumption]. Qed.
Theorem reading_on mp n es t o : single t -> row_reading c2 d mp n es (Complete t) o -> row_reading c1 d mp n es (Complete t) o.
Proof.
  intros St R. pose proof (single_obs t St) as E. destruct St as (N & _ & _ & cols0 & K).
  inversion R as [w E1 E2|? msg Ht E1 E2|? cols o' Ht Hs Hcv E1 E2|? msg msg' Ht Hs Hm Hm3 E1 E2]; subst; try (rewrite (c_string_nulfree t N), E in Hs).
  - constructor; assumption.
  - eapply rd_row; [exact Ht|rewrite (c_string_nulfree t N); exact Hs|exact Hcv].
  - destruct Hs as [Hs|Hs]; congruence.
Qed.
End On.

(** Rows that do not span lines are pieces of the data. *)
Section Piece.
Context (c : cfg) (d : str) (M : c_ml c = false).
Lemma physical_incl data ls : physical data ls -> forall t e, In (t, e) ls -> incl t data.
Proof.
  induction 1 as [|t Ht Hl|t rest ls Hl Hc P IH|t rest ls Hl P IH]; intros u e K.
  - destruct K.
  - destruct K as [K|[]]. injection K as <- <-. apply incl_refl.
  - destruct K as [K|K]; [injection K as <- <-; apply incl_appl, incl_refl|]. apply incl_appr, incl_tl. exact (IH _ _ K).
  - destruct K as [K|K]; [injection K as <- <-; apply incl_appl, incl_refl|]. apply incl_appr, incl_tl, incl_tl. exact (IH _ _ K).
Qed.
Lemma document_incl k L its : document c d k L its -> forall it t, In it its -> it_out it = Complete t -> exists e, In (t, e) L.
Proof.
  induction 1 as [k|k t e ls out m rest j ls' its R B D IH]; intros it u I E; [destruct I|]. destruct I as [<-|I].
  - cbn [it_out] in E. inversion R as [? ? ? ? ? N|? ? ? ? w ? ? ? ? ? ? G|? ? ? ? w ? G|? ? ? ? G|? ? ? ? G]; subst; try (inversion G; congruence).
    exists e. left. congruence.
  - destruct (IH it u I E) as (e' & K). exists e'. right.
    destruct (row_lines c d _ _ _ _ _ _ _ _ R) as (v & -> & _). destruct (blanks_used c _ _ _ B) as (w & -> & _). apply in_or_app. right. apply in_or_app. right. exact K.
Qed.
Lemma rows_incl data its : rows_of c d data its -> forall it t, In it its -> it_out it = Complete t -> incl t data.
Proof.
  intros (k & L & SO & D) it t I E. destruct (document_incl k L its D it t I E) as (e & K). destruct (starts_lines c data k L SO) as (u & EL & _).
  apply (physical_incl data _ (lines_physical data) t e). rewrite EL. apply in_or_app. right. exact K.
Qed.
End Piece.
