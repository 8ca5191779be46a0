(** Constructing a parser; ignore_next. *)
From Verif Require Import Base Setup Splitter SplitPure ListFacts SplitApi Extract Converter ConvSpec ConvProofs Reader LineSpec LineProofs GetLineProofs ReaderBase ReaderInv ReaderEscape ReaderParse Parser ParserSpec ParserApi ParserInv ParserRows.

Lemma given_some vs : given (map Some vs) = Some vs.
Proof. induction vs as [|v vs IH]; [reflexivity|]. cbn. rewrite IH. reflexivity. Qed.

Lemma fit_clean_ok c d : fit c d -> clean c d.
Proof.
  intros F Hm x Hx. destruct (fit_clean _ _ F Hm x Hx) as [A B]. split; [exact A|].
  destruct (escape_match c x) eqn:E; [|reflexivity]. exfalso. apply B. apply escape_match_in. exact E.
Qed.
Lemma nulfree_in (t : str) : nulfree t <-> ~ In NUL t.
Proof. unfold nulfree. tauto. Qed.

Section O.
Context (c : cfg) (d : str) (F : fit c d) (cap : nat -> nat -> nat) (Hcap : enough cap).

Lemma rinv_init src : src_okz src 0 -> rinv c d (rdr_init d src).
Proof.
  intros SO. split; cbn; auto; try constructor; auto; try (repeat split; cbn; auto).
Qed.

Lemma on_lp_nlsize {A} w (m : M lp A) r a r' : on_lp w m r = Ok a r' -> r_nlsize r' = r_nlsize r.
Proof. unfold on_lp, zoom. destruct (m (lp_of w r)); intros E; try discriminate. injection E as <- <-. destruct w; reflexivity. Qed.
Lemma get_line_nlsize w r o r' : get_line cap w r = Ok o r' -> r_nlsize r' = r_nlsize r.
Proof.
  unfold get_line, bind, get. destruct (r_src r).
  - destruct (on_lp w _ r) as [[? ?] ?| | |] eqn:E; try discriminate. apply on_lp_nlsize in E. cbn. intros X. injection X as <- <-. exact E.
  - destruct (on_lp w _ r) as [[? ?] ?| | |] eqn:E; try discriminate. apply on_lp_nlsize in E. cbn. intros X. injection X as <- <-. exact E.
  - destruct (on_lp w _ r) as [[? ?] ?| | |] eqn:E; try discriminate. apply on_lp_nlsize in E. cbn. intros X. injection X as <- <-. exact E.
  - destruct (_ <=? _)%Z; [|discriminate]. intros X. injection X as <- <-. reflexivity.
Qed.
Lemma remove_eol_nlsize w n r k r' : remove_eol w n r = Ok k r' -> r_nlsize r' = r_nlsize r.
Proof.
  unfold remove_eol. destruct n as [|n]; [discriminate|]. unfold bind at 1.
  destruct (on_lp w (peek n) r) as [a r1| | |] eqn:E1; try discriminate. apply on_lp_nlsize in E1.
  destruct (negb (Ascii.eqb a LF)).
  - cbn. intros X. injection X as <- <-. exact E1.
  - unfold bind at 1. destruct n as [|j].
    + cbn. unfold bind. destruct (on_lp w _ _) as [u r2| | |] eqn:E2; try discriminate. apply on_lp_nlsize in E2. cbn in E2.
      intros X. injection X as <- <-. congruence.
    + unfold bind at 1. destruct (on_lp w (peek j) r1) as [b r2| | |] eqn:E2; try discriminate. apply on_lp_nlsize in E2.
      destruct (Ascii.eqb b CR); cbn; unfold bind; destruct (on_lp w _ _) as [u r3| | |] eqn:E3; try discriminate; apply on_lp_nlsize in E3; cbn in E3;
      intros X; injection X as <- <-; congruence.
Qed.
Lemma read_next_loop_nlsize : forall fuel r r', read_next_loop c cap fuel r = Ok false r' -> r_nlsize r' = r_nlsize r.
Proof.
  induction fuel as [|f IH]; intros r r'; [discriminate|]. cbn [read_next_loop].
  unfold bind at 1, rupd at 1, modify at 1. unfold bind at 1, get at 1. unfold bind at 1.
  set (r1 := rset_line _ r). destruct ((if 0 <? r_nlsz r1 then on_lp NextLine (put 0 NUL) else ret tt) r1) as [u r2| | |] eqn:E1; try discriminate.
  assert (N2 : r_nlsize r2 = r_nlsize r).
  { destruct (0 <? r_nlsz r1); [apply on_lp_nlsize in E1; exact E1|]. injection E1 as _ <-. reflexivity. }
  unfold bind at 1, rupd at 1, modify at 1. unfold bind at 1.
  destruct (get_line cap NextLine _) as [o r3| | |] eqn:E2; try discriminate. apply get_line_nlsize in E2. cbn in E2.
  destruct o as [n|]; [|intros X; injection X as <-; congruence].
  unfold bind at 1. destruct (remove_eol NextLine n r3) as [k r4| | |] eqn:E3; try discriminate. apply remove_eol_nlsize in E3.
  destruct (c_ignempty c && (k =? 0)).
  - intros X. apply IH in X. congruence.
  - unfold bind, rupd, modify, ret. discriminate.
Qed.
Lemma read_next_nlsize r r' : read_next c cap r = Ok false r' -> r_nlsize r' = r_nlsize r.
Proof.
  unfold read_next. unfold bind at 1. unfold on_nconv, cv_clear_error, vupd, modify. cbn [fst snd]. unfold bind, get.
  intros E. apply read_next_loop_nlsize in E. exact E.
Qed.

Lemma get_buffer_line r t e : bufline r t e -> get_buffer r = Ok t r.
Proof.
  intros (b & X & Hb & Hc & Hn & _). unfold get_buffer. rewrite Hb, Hn. cbn [cells_of]. rewrite Hc.
  replace (range_str _ _ _) with (Some t); [reflexivity|]. symmetry. unfold range_str. rewrite app_length, map_length. cbn.
  replace (length t <=? length t + S (length X)) with true by (symmetry; apply Nat.leb_le; lia).
  rewrite Nat.sub_0_r, firstn_app, map_length, Nat.sub_diag, firstn_O, app_nil_r, firstn_all2 by (rewrite map_length; lia).
  clear. induction t as [|x t IH]; [reflexivity|]. cbn. rewrite IH. reflexivity.
Qed.

(** The first line of [data] that counts. *)
Definition first_line (ls : list (str * str)) : str := match ls with [] => [] | (t, _) :: _ => t end.

Lemma construct_state name src data : src_okz src 0 -> unread (rdr_init d src) = data -> nuls_ok c data ->
  let L := snd (skip_blank (c_ignempty c) (lines data)) in let j := fst (skip_blank (c_ignempty c) (lines data)) in
  exists p, read_line c cap (p_init name d src) = Ok tt p /\ pstate c d [] 0 (Z.of_nat (length data)) p L j /\
    p_name p = name /\ p_err p = None /\ p_header p = [] /\ p_raw p = [] /\
    (L = [] -> r_nlsize (p_rdr p) = 0) /\ (L = [] -> p_position p = Z.of_nat (length data)) /\ v_err (r_nconv (p_rdr p)) = None.
Proof.
  intros SO U N L j. pose proof (rinv_init src SO) as I.
  destruct (read_next_spec c d cap Hcap _ I) as (r' & E & I' & ST & NC & LN & REST). rewrite U in *. fold L j in E, LN, REST.
  exists (pset_eof (negb (match L with [] => false | _ => true end)) (pset_rdr r' (p_init name d src))).
  split; [apply read_line_eq; exact E|]. split.
  { split; cbn [p_rdr pset_eof pset_rdr p_eof].
    - exact I'.
    - destruct ST as (_ & _ & ->). reflexivity.
    - destruct ST as (_ & _ & ->). reflexivity.
    - rewrite LN. cbn. lia.
    - destruct L as [|[t e] ls] eqn:EL.
      + destruct REST as (A & B & _). split; [reflexivity|]. split; [exact A|]. rewrite NC. reflexivity.
      + destruct REST as (A & B & C & D & G). split; [reflexivity|]. split; [rewrite NC; reflexivity|]. split.
        { intros _. rewrite NC. destruct ST as (_ & _ & ->). auto. }
        split; [exact A|]. split; [exact B|]. split.
        { pose proof (skip_lines (tame c) (c_ignempty c) _ (lines_tame c _ N)) as X. fold L in X. rewrite EL in X. inversion X; subst. assumption. }
        split; [intros Em; apply C; exact (N Em)|]. cbn in D. unfold pos. split; [exact D|]. rewrite bytes_cons, <- B, lines_bytes, G. lia. }
  do 4 (split; [reflexivity|]). split; [|split].
  - intros EL. rewrite EL in E. apply read_next_nlsize in E. exact E.
  - intros EL. rewrite EL in REST. destruct REST as (A & B & _). unfold p_position. cbn [p_rdr pset_eof pset_rdr]. rewrite B. reflexivity.
  - cbn [p_rdr pset_eof pset_rdr]. rewrite NC. reflexivity.
Qed.

(** ignore_next, in front of a row. *)
Lemma ignore_state mp nc total p t e ls k : pstate c d mp nc total p ((t, e) :: ls) k ->
  let L := snd (skip_blank (c_ignempty c) ls) in let j := fst (skip_blank (c_ignempty c) ls) in
  exists p', ignore_next c cap p = Ok (match L with [] => false | _ => true end) p' /\
    (L <> [] -> pstate c d mp nc total p' L (k + S j)) /\ p' = pset_rdr (p_rdr p') p.
Proof.
  intros [I Hmp Hnc Hline (He & Hv & U & HB & HL & HT & HN & Hpos & Hch)] L j.
  destruct (read_next_spec c d cap Hcap _ I) as (r' & E & I' & ST & NC & LN & REST). rewrite HL in *. fold L j in E, LN, REST.
  exists (pset_rdr r' p). split; [unfold ignore_next, on_rdr, zoom; rewrite E; reflexivity|]. split; [|reflexivity].
  intros EL. split; cbn [p_rdr pset_rdr p_eof].
  - exact I'.
  - destruct ST as (_ & _ & ->). exact Hmp.
  - destruct ST as (_ & _ & ->). exact Hnc.
  - rewrite LN, Hline. lia.
  - destruct L as [|[t' e'] ls'] eqn:EL'; [congruence|].
    destruct REST as (A & B & C & D & G). split; [exact He|]. split; [rewrite NC; reflexivity|]. split.
    { intros Hq. destruct (U Hq) as [U1 U2]. rewrite NC. destruct ST as (_ & _ & ->). auto. }
    split; [exact A|]. split; [exact B|]. split.
    { pose proof (skip_lines (tame c) (c_ignempty c) _ (lines_tame c _ HN)) as X. rewrite HL in X. fold L in X. rewrite EL' in X. inversion X; subst. assumption. }
    split; [intros Em; apply C; exact (HN Em)|]. unfold pos in *. split; [lia|]. rewrite bytes_cons, <- B, lines_bytes, G. lia.
Qed.

Lemma blanks_lines ls j ls' data : physical data ls -> blanks c ls j ls' -> skip_blank (c_ignempty c) (lines data) = (j, ls').
Proof. intros P B. rewrite (physical_unique _ _ (lines_physical data) _ P). apply blanks_fun. exact B. Qed.

Lemma construct_opens name src data k L msg : src_okz src 0 -> unread (rdr_init d src) = data -> nuls_ok c data ->
  starts c data k L -> (c_ignhdr c = true -> L <> []) ->
  exists p, construct c cap true msg (p_init name d src) = Ok tt p /\ pstate c d [] 0 (Z.of_nat (length data)) p L k /\
    p_name p = name /\ p_err p = None /\ p_header p = [] /\ (c_ignhdr c = false -> p_raw p = first_line L) /\ (c_ignhdr c = true -> p_raw p = []) /\
    (L = [] -> p_position p = Z.of_nat (length data)).
Proof.
  intros SO U N ST HL. destruct (construct_state name src data SO U N) as (p0 & E & PS & A1 & A2 & A3 & A4 & A5 & A6 & A7).
  destruct ST as [ls j L Hh P B|ls j t e ls1 j' L Hh P B B'].
  - pose proof (blanks_lines _ _ _ _ P B) as EL. rewrite EL in *. cbn [fst snd] in *.
    assert (G : get_buffer (p_rdr p0) = Ok (first_line L) (p_rdr p0)).
    { destruct L as [|[t e] ls'].
      - unfold get_buffer. rewrite A5 by reflexivity. unfold range_str. cbn. reflexivity.
      - destruct PS as [_ _ _ _ (_ & _ & _ & X & _)]. eapply get_buffer_line. exact X. }
    exists (pset_raw (first_line L) (pset_rdr (p_rdr p0) p0)). split.
    { unfold construct. unfold bind at 1. rewrite E, Hh. unfold bind, on_rdr, zoom. rewrite G. reflexivity. }
    split; [destruct PS; split; assumption|]. split; [exact A1|]. split; [exact A2|]. split; [exact A3|]. split; [reflexivity|]. split; [congruence|]. exact A6.
  - pose proof (blanks_lines _ _ _ _ P B) as EL. rewrite EL in *. cbn [fst snd] in *.
    pose proof (blanks_fun _ _ _ _ B') as EL'.
    destruct (ignore_state _ _ _ _ _ _ _ _ PS) as (p' & E' & PS' & Ep). rewrite EL' in *. cbn [fst snd] in *.
    exists p'. split.
    { unfold construct. unfold bind at 1. rewrite E, Hh. unfold bind. rewrite E'. reflexivity. }
    rewrite Ep. cbn. rewrite <- Ep. split; [apply PS'; auto|]. rewrite Hh in *. split; [exact A1|]. split; [exact A2|]. split; [exact A3|]. split; [discriminate|]. split; [auto|].
    intros X. exfalso. apply HL; auto.
Qed.

(** A parser constructed on [data] is in front of the first row. *)
Theorem opened_state data name p k L : opened c cap d data name p -> nuls_ok c data -> starts c data k L -> (c_ignhdr c = true -> L <> []) ->
  pstate c d [] 0 (Z.of_nat (length data)) p L k /\ p_name p = name /\ p_err p = None /\ p_header p = [] /\
  (c_ignhdr c = false -> p_raw p = first_line L) /\ (c_ignhdr c = true -> p_raw p = []) /\ (L = [] -> p_position p = Z.of_nat (length data)).
Proof.
  intros O N ST HL. inversion O as [nm p0 E H1 H2|nm p0 N' E H1 H2|p0 E H1 H2].
  - destruct (construct_opens name (SFile data) data k L msg_not_open Logic.I eq_refl N ST HL) as (p' & E' & R).
    unfold parser_file in E. rewrite E' in E. injection E as <-. exact R.
  - destruct (construct_opens name (SPort data) data k L msg_not_open N' eq_refl N ST HL) as (p' & E' & R).
    unfold parser_file in E. rewrite E' in E. injection E as <-. exact R.
  - destruct (construct_opens (S2 "CSV data buffer") (SMem data) data k L msg_null_buffer ltac:(cbn; lia) eq_refl N ST HL) as (p' & E' & R).
    unfold parser_buffer in E. rewrite E' in E. injection E as <-. exact R.
Qed.
(** Constructing one succeeds. *)
Theorem can_open data k L : nuls_ok c data -> starts c data k L -> (c_ignhdr c = true -> L <> []) ->
  (forall name portable, (portable = true -> ~ In NUL data) -> exists p, parser_file c cap name d portable (Some data) = Ok tt p) /\
  (exists p, parser_buffer c cap d (Some data) (length data) = Ok tt p).
Proof.
  intros N ST HL. split.
  - intros name [|] N'.
    + destruct (construct_opens name (SPort data) data k L msg_not_open (N' eq_refl) eq_refl N ST HL) as (p' & E' & _). exists p'. exact E'.
    + destruct (construct_opens name (SFile data) data k L msg_not_open Logic.I eq_refl N ST HL) as (p' & E' & _). exists p'. exact E'.
  - destruct (construct_opens (S2 "CSV data buffer") (SMem data) data k L msg_null_buffer ltac:(cbn; lia) eq_refl N ST HL) as (p' & E' & _). exists p'. exact E'.
Qed.

(** Rows exist and are unique. *)
Lemma starts_fun data k L k' L' : starts c data k L -> starts c data k' L' -> k = k' /\ L = L'.
Proof.
  intros A B. inversion A as [ls j ls0 H1 H2 H3|ls j t e ls1 j1 ls0 H1 H2 H3 H4]; inversion B as [ms i ms0 K1 K2 K3|ms i t' e' ms1 i1 ms0 K1 K2 K3 K4]; try congruence.
  - pose proof (blanks_lines _ _ _ _ H2 H3). pose proof (blanks_lines _ _ _ _ K2 K3). split; congruence.
  - pose proof (blanks_lines _ _ _ _ H2 H3) as X1. pose proof (blanks_lines _ _ _ _ K2 K3) as X2. rewrite X1 in X2. injection X2 as -> -> -> ->.
    pose proof (blanks_fun _ _ _ _ H4) as X3. pose proof (blanks_fun _ _ _ _ K4) as X4. rewrite X3 in X4. injection X4 as -> ->. auto.
Qed.
Lemma document_fun k L its : document c d k L its -> forall its', document c d k L its' -> its = its'.
Proof.
  induction 1 as [k|k t e ls out m rest j ls' its R B D IH]; intros its' H; inversion H as [|k0 t0 e0 ls0 out0 m0 rest0 j0 ls0' its0 R0 B0 D0]; subst; [reflexivity|].
  destruct (row_fun _ _ _ _ _ _ _ _ _ _ R _ _ _ R0) as (<- & <- & <-).
  pose proof (blanks_fun _ _ _ _ B) as X. rewrite (blanks_fun _ _ _ _ B0) in X. injection X as -> ->. f_equal. apply IH. exact D0.
Qed.
Theorem rows_unique data its its' : rows_of c d data its -> rows_of c d data its' -> its = its'.
Proof.
  intros (k & L & S0 & D) (k' & L' & S' & D'). destruct (starts_fun _ _ _ _ _ S0 S') as [<- <-]. eapply document_fun; eauto.
Qed.
End O.
