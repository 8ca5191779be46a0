(** After skipping the last row: eof() is not yet true, and there is no row.  get_next reports an error, once. *)
From Verif Require Import Base Setup Splitter SplitPure ListFacts SplitApi Extract Converter ConvSpec ConvProofs Reader LineSpec LineProofs GetLineProofs ReaderBase ReaderInv ReaderLines ReaderEscape ReaderParse Parser ParserSpec ParserApi ParserInv ParserRows ParserOpen ParserSession.

Section G.
Context (c : cfg) (d : str) (F : fit c d) (cap : nat -> nat -> nat) (Hcap : enough cap).

Record pghost (mp : list nat) (nc : nat) (p : prs) (k : nat) : Prop := {
  gh_inv : pinv c d p;
  gh_map : v_map (r_conv (p_rdr p)) = mp;
  gh_nc : v_ncols (r_conv (p_rdr p)) = nc;
  gh_line : r_line (p_rdr p) = S k;
  gh_eof : p_eof p = false;
  gh_done : unread (p_rdr p) = [];
  gh_nul : stale0 (p_rdr p)
}.

Lemma stale_sized r b : rinv c d r -> r_nl r = Some b -> b_cells b <> [] -> 0 < r_nlsz r.
Proof. intros I Hb Hne. pose proof (i_nl _ _ _ I) as L. unfold bok in L. rewrite Hb in L. destruct L as [<- _]. destruct (b_cells b); [congruence|cbn; lia]. Qed.

(** Skipping the last row. *)
Lemma ghost_skip mp nc total p t e ls k : pstate c d mp nc total p ((t, e) :: ls) k -> let j := fst (skip_blank (c_ignempty c) ls) in
  snd (skip_blank (c_ignempty c) ls) = [] -> j = 0 \/ escaped_multiline c = false ->
  exists p', ignore_next c cap p = Ok false p' /\ pghost mp nc p' (k + S j) /\ p' = pset_rdr (p_rdr p') p.
Proof.
  intros [I Hmp Hnc Hline (He & Hv & U & HB & HL & HT & HN & Hpos & Hch)] j EL SK.
  destruct (read_next_spec c d cap Hcap _ I) as (r' & E & I' & ST & NC & LN & REST). rewrite HL in *. rewrite EL in E, REST. fold j in LN, REST.
  exists (pset_rdr r' p). split; [unfold ignore_next, on_rdr, zoom; rewrite E; reflexivity|]. split; [|reflexivity].
  destruct REST as (A & B & C & D).
  assert (NU : stale0 r').
  { pose proof HB as (b & X & Hb & Hcl & _). apply (C b Hb). eapply stale_sized; [exact I|exact Hb|]. rewrite Hcl. destruct t; discriminate. }
  destruct ST as (S1 & S2 & S3). split; cbn [p_rdr pset_rdr p_eof]; try assumption.
  - split; [exact I'|]. cbn [p_rdr pset_rdr p_eof]. split; [congruence|]. intros _. split; [rewrite NC; reflexivity|]. split.
    + intros Hq. rewrite NC, S3. apply (U Hq).
    + destruct SK as [Hj|Hm]; [|right; auto]. destruct (D t e Hj HB) as (B' & HB' & _). left. eauto.
  - congruence.
  - congruence.
  - rewrite LN, Hline. lia.
Qed.
(** Skipping again. *)
Lemma ghost_again mp nc p k : pghost mp nc p k -> exists p', ignore_next c cap p = Ok false p' /\ pghost mp nc p' (S k) /\ p' = pset_rdr (p_rdr p') p.
Proof.
  intros [(I & _ & HF) Hmp Hnc Hline He HU NU]. destruct (HF He) as (Hv & U & LR).
  destruct (read_next_spec c d cap Hcap _ I) as (r' & E & I' & ST & NC & LN & REST). rewrite HU, lines_nil in *. cbn [skip_blank fst snd] in *.
  exists (pset_rdr r' p). split; [unfold ignore_next, on_rdr, zoom; rewrite E; reflexivity|]. split; [|reflexivity].
  destruct REST as (A & B & C & D). pose proof NU as (b & T & Hb & Hcl).
  assert (NU' : stale0 r') by (apply (C b Hb); eapply stale_sized; [exact I|exact Hb|]; rewrite Hcl; discriminate).
  destruct ST as (S1 & S2 & S3). split; cbn [p_rdr pset_rdr p_eof]; try assumption.
  - split; [exact I'|]. cbn [p_rdr pset_rdr p_eof]. split; [congruence|]. intros _. split; [rewrite NC; reflexivity|]. split.
    + intros Hq. rewrite NC, S3. apply (U Hq).
    + destruct LR as [(B0 & e0 & HB)|[_ Hm]]; [|right; auto]. destruct (D B0 e0 eq_refl HB) as (B' & HB' & _). left. eauto.
  - congruence.
  - congruence.
  - rewrite LN, Hline. lia.
Qed.

(** What parse makes of it. *)
Lemma ghost_parse r : rinv c d r -> uqs c r -> lineready c r -> unread r = [] -> stale0 r ->
  (exists s r0, parse c cap r = stopped c s tt r0 /\ r_line r0 = r_line r /\ unread r0 = []) \/
  (exists r0, parse c cap r = Ok tt r0 /\ s_sd (v_sp (r_nconv r0)) = [] /\ r_line r0 = r_line r /\ unread r0 = []).
Proof.
  intros I U LR HU (b & T & Hb & Hcl).
  assert (PN : forall r3 b3 Y, rinv c d r3 -> r_nconv r3 = r_nconv r -> r_line r3 = r_line r -> unread r3 = [] -> r_nl r3 = Some b3 -> b_cells b3 = Some NUL :: Y ->
     forall k, exists r0, (on_next (fun id => cv_split c id (r_delim r3)) ;;
        if quoted_multiline c then r0 <- get ;; quote_loop c cap (S (length (unread r0))) k else ret tt) r3 = Ok tt r0 /\
        s_sd (v_sp (r_nconv r0)) = [] /\ r_line r0 = r_line r /\ unread r0 = []).
  { intros r3 b3 Y I3 N3 L3 U3 Hb3 Hc3 k. destruct (parse_nul c d cap r3 b3 Y I3 Hb3 Hc3) with (k := k) as [E _].
    - intros Hq. rewrite N3. apply U. exact Hq.
    - exists [], Y. exact Hc3.
    - eexists. split; [exact E|]. split; [reflexivity|]. split; [exact L3|exact U3]. }
  remember (parse c cap r) as o eqn:Eo. unfold parse in Eo. unfold bind at 1 in Eo.
  destruct LR as [(B & e & HB)|[_ Em]].
  - pose proof (escape_part_spec c d cap Hcap r B e 0 I HB) as P. change (lim c 0) with (if 0 <? c_mlsize c then 0 else 0) in P.
    replace (if 0 <? c_mlsize c then 0 else 0) with 0 in P by (destruct (0 <? c_mlsize c); reflexivity).
    rewrite HU, lines_nil in P.
    assert (G : egather_if c [] 0 B e = EGo B e 0 [] \/ exists s, egather_if c [] 0 B e = EStop s 0 []).
    { unfold egather_if. destruct (escaped_multiline c); [|auto]. cbn [egather]. destruct (Nat.odd _); [|auto]. destruct (hit c 0); eauto. }
    destruct G as [G|(s & G)]; rewrite G in P.
    + destruct P as (r3 & P1 & P2 & P3 & P4 & P5 & P6 & P7 & P8 & P9 & P10 & P11). rewrite P1 in Eo. right. unfold bind at 1, get at 1 in Eo. rewrite Eo.
      destruct P4 as (b3 & X3 & Hb3 & Hcl3 & _). destruct HB as (b0 & X0 & Hb0 & Hcl0 & _).
      assert (EY : exists Y, b_cells b3 = Some NUL :: Y).
      { rewrite Hcl3. rewrite Hb in Hb0. injection Hb0 as <-. rewrite Hcl in Hcl0. destruct B as [|x B]; [eexists; reflexivity|]. cbn in Hcl0. injection Hcl0 as <- _. eexists. reflexivity. }
      destruct EY as (Y & EY). apply (PN r3 b3 Y); auto; [apply P3|lia|apply lines_nil_inv; exact P5].
    + destruct P as (r3 & l & P1 & P2 & P3 & P4 & P5 & P6 & P7 & P8 & P9 & P10 & P11). rewrite P1 in Eo. left. exists s, r3. rewrite Eo.
      split; [apply stopped_bind; reflexivity|]. split; [lia|apply lines_nil_inv; exact P4].
  - right. unfold escape_part in Eo. rewrite Em in Eo. unfold ret at 1 in Eo. unfold bind at 1, get at 1 in Eo. rewrite Eo. apply (PN r b T); auto.
Qed.

(** get_next in front of no row. *)
Lemma ghost_next mp nc p k es : pghost mp nc p k -> types es ->
  exists m p', told c (p_name p) (S k) (S k) (inr m) (get_next c cap es p) p' /\ pend c d p' /\
    p_name p' = p_name p /\ p_header p' = p_header p /\ p_raw p' = p_raw p /\ p_line p' = S k /\
    (c_mode c <> EThrow -> v_err (r_conv (p_rdr p')) = after_error c m) /\ v_err (r_nconv (p_rdr p')) = None.
Proof.
  intros [PI Hmp Hnc Hline He HU NU] [W Hes]. pose proof PI as (I & _ & HF). destruct (HF He) as (Hv & U & LR).
  destruct (get_next_live c (fit_cfg _ _ F) d (proj2 (nulfree_in d) (fit_nul _ _ F)) cap Hcap p es PI He W) as (r1 & r2 & o & b & r' & p' & S0 & FD & I2 & _ & L2 & C2 & U2 & RN & EP & TD & _ & VE).
  pose proof (ghost_parse _ I U LR HU NU) as G.
  assert (L1 : r_line r1 = S k /\ unread r1 = [] /\ exists m, o = inr m).
  { destruct S0 as (_ & _ & UL & _ & S5). rewrite HU in UL.
    assert (U1 : unread r1 = []) by (destruct (unread r1); [reflexivity|cbn in UL; lia]).
    assert (SU : forall s r0 X, X = stopped c s tt r0 -> exists m, (X = Ok tt (rset_nconv (fail_conv c s (r_nconv r0)) r0) /\ c_mode c <> EThrow \/ X = Throw m (rset_nconv (fail_conv c s (r_nconv r0)) r0) /\ c_mode c = EThrow)).
    { intros s r0 X ->. unfold stopped. destruct (c_mode c); [exists []; left; split; [reflexivity|discriminate]|exists []; left; split; [reflexivity|discriminate]|eexists; right; split; reflexivity]. }
    destruct FD as [(s & r0 & E1 & E2 & ->)|[(m & E1 & E2 & ->)|(E1 & E2 & E3 & E4)]].
    - split; [|split; [exact U1|eauto]]. destruct G as [(s' & r3 & G1 & G2 & G3)|(r3 & G1 & G2 & G3 & G4)].
      + destruct (SU _ _ _ E2) as (m1 & K1), (SU _ _ _ G1) as (m2 & K2). assert (X : r1 = rset_nconv (fail_conv c s' (r_nconv r3)) r3) by (rewrite E1; destruct K1 as [[K1 K1']|[K1 K1']], K2 as [[K2 K2']|[K2 K2']]; congruence).
        rewrite X. cbn. congruence.
      + destruct (SU _ _ _ E2) as (m1 & [[K1 _]|[K1 _]]); rewrite G1 in K1; [|discriminate]. assert (r1 = r3) as -> by congruence. congruence.
    - split; [|split; [exact U1|eauto]]. destruct G as [(s' & r3 & G1 & G2 & G3)|(r3 & G1 & _)]; [|rewrite E2 in G1; discriminate].
      destruct (SU _ _ _ G1) as (m1 & [[K1 K2]|[K1 _]]); [contradiction|]. rewrite E2 in K1. injection K1 as _ ->. cbn. congruence.
    - destruct G as [(s' & r3 & G1 & G2 & G3)|(r3 & G1 & G2 & G3 & G4)].
      + exfalso. destruct (SU _ _ _ G1) as (m1 & [[K1 K2]|[K1 _]]); rewrite E1 in K1; [|discriminate]. assert (r1 = rset_nconv (fail_conv c s' (r_nconv r3)) r3) as -> by congruence.
        cbn [r_nconv rset_nconv] in E2. rewrite fail_err in E2 by exact K2. rewrite Hv in E2. unfold stop_err in E2. destruct (c_mode c); congruence.
      + assert (r1 = r3) as -> by congruence. split; [congruence|]. split; [exact G4|]. destruct E4 as (cols & X1 & X2 & X3). rewrite G2 in X1. inversion X1; subst cols.
        destruct o as [vs|m]; [exfalso|eauto].
        destruct (c_mode c) eqn:Em.
        * destruct (s_err (v_sp (r_nconv r3))) as [e|] eqn:Ee; [discriminate (X3 e ltac:(discriminate) eq_refl)|]. eapply converted_nil; [exact Hes|apply X2; auto].
        * destruct (s_err (v_sp (r_nconv r3))) as [e|] eqn:Ee; [discriminate (X3 e ltac:(discriminate) eq_refl)|]. eapply converted_nil; [exact Hes|apply X2; auto].
        * eapply converted_nil; [exact Hes|apply X2; auto]. }
  destruct L1 as (L1 & U1 & m & ->). rewrite U1 in U2.
  destruct (read_next_spec c d cap Hcap r2 I2) as (r3 & E & I' & ST & NC & LN & REST). rewrite U2, lines_nil in *. cbn [skip_blank fst snd] in *.
  rewrite RN in E. injection E as Eb Er. subst b r3. rewrite L1 in TD. rewrite LN, L2, L1 in TD.
  exists m, p'. replace (S k + 1 - 1) with (S k) in TD by lia. split; [exact TD|].
  rewrite EP. split; [|do 3 (split; [reflexivity|])].
  - split; [exact I'|]. split; [reflexivity|apply REST].
  - unfold p_line. cbn [p_rdr]. split; [rewrite LN, L2, L1; lia|]. split; [|rewrite NC; reflexivity].
    intros Hm. destruct ST as (_ & _ & ->). exact (VE Hm).
Qed.

(** With ignore_header, on a document without rows. *)
Lemma construct_ghost name src data ls j t e ls1 j' msg : c_ignhdr c = true -> src_okz src 0 -> unread (rdr_init d src) = data -> nuls_ok c data ->
  physical data ls -> blanks c ls j ((t, e) :: ls1) -> blanks c ls1 j' [] -> j' = 0 \/ escaped_multiline c = false ->
  exists p, construct c cap true msg (p_init name d src) = Ok tt p /\ pghost [] 0 p (j + S j') /\
    p_name p = name /\ p_err p = None /\ p_header p = [] /\ p_raw p = [].
Proof.
  intros Hh SO U N P B B' Hj. destruct (construct_state c d cap Hcap name src data SO U N) as (p0 & E & PS & A1 & A2 & A3 & A4 & A5 & A6 & A7).
  pose proof (blanks_lines c _ _ _ _ P B) as EL. rewrite EL in *. cbn [fst snd] in *. pose proof (blanks_fun c _ _ _ B') as EL'.
  destruct (ghost_skip _ _ _ _ _ _ _ _ PS) as (p' & E' & PG & Ep); rewrite ?EL'; auto.
  rewrite EL' in PG. cbn [fst] in PG. exists p'. split.
  { unfold construct. unfold bind at 1. rewrite E, Hh. unfold bind. rewrite E'. reflexivity. }
  split; [exact PG|]. rewrite Ep. repeat split; assumption.
Qed.
Lemma construct_nothing name src data ls j msg : c_ignhdr c = true -> src_okz src 0 -> unread (rdr_init d src) = data -> nuls_ok c data ->
  physical data ls -> blanks c ls j [] ->
  exists p, construct c cap true msg (p_init name d src) = Ok tt p /\ pend c d p /\
    p_name p = name /\ p_err p = None /\ p_header p = [] /\ p_raw p = [] /\ v_err (r_nconv (p_rdr p)) = None /\ r_line (p_rdr p) = S (S j).
Proof.
  intros Hh SO U N P B. destruct (construct_state c d cap Hcap name src data SO U N) as (p0 & E & PS & A1 & A2 & A3 & A4 & A5 & A6 & A7).
  pose proof (blanks_lines c _ _ _ _ P B) as EL. rewrite EL in *. cbn [fst snd] in *.
  destruct (proj1 (pstate_pend c d _ _ _ _ _ PS)) as (I & He & HU).
  destruct (read_next_spec c d cap Hcap _ I) as (r' & Er & I' & ST & NC & LN & REST). rewrite HU, lines_nil in *. cbn [skip_blank fst snd] in *.
  assert (EI : ignore_next c cap p0 = Ok false (pset_rdr r' p0)) by (unfold ignore_next, on_rdr, zoom; rewrite Er; reflexivity).
  exists (pset_rdr r' p0). split.
  { unfold construct. unfold bind at 1. rewrite E, Hh. unfold bind. rewrite EI. reflexivity. }
  split; [split; [exact I'|split; [exact He|apply REST]]|]. split; [exact A1|]. split; [exact A2|]. split; [exact A3|]. split; [exact A4|].
  cbn [p_rdr pset_rdr]. split; [rewrite NC; reflexivity|]. rewrite LN, (ps_line _ _ _ _ _ _ _ _ PS). lia.
Qed.
Theorem opened_ghost data name p ls j t e ls1 j' : opened c cap d data name p -> nuls_ok c data -> c_ignhdr c = true ->
  physical data ls -> blanks c ls j ((t, e) :: ls1) -> blanks c ls1 j' [] -> j' = 0 \/ escaped_multiline c = false ->
  pghost [] 0 p (j + S j') /\ p_name p = name /\ p_err p = None /\ p_header p = [] /\ p_raw p = [].
Proof.
  intros O N Hh P B B' Hj. inversion O as [nm p0 E H1 H2|nm p0 N' E H1 H2|p0 E H1 H2].
  - destruct (construct_ghost name (SFile data) data ls j t e ls1 j' msg_not_open Hh Logic.I eq_refl N P B B' Hj) as (p' & E' & R).
    unfold parser_file in E. rewrite E' in E. injection E as <-. exact R.
  - destruct (construct_ghost name (SPort data) data ls j t e ls1 j' msg_not_open Hh N' eq_refl N P B B' Hj) as (p' & E' & R).
    unfold parser_file in E. rewrite E' in E. injection E as <-. exact R.
  - destruct (construct_ghost (S2 "CSV data buffer") (SMem data) data ls j t e ls1 j' msg_null_buffer Hh ltac:(cbn; lia) eq_refl N P B B' Hj) as (p' & E' & R).
    unfold parser_buffer in E. rewrite E' in E. injection E as <-. exact R.
Qed.
Theorem opened_nothing data name p ls j : opened c cap d data name p -> nuls_ok c data -> c_ignhdr c = true -> physical data ls -> blanks c ls j [] ->
  pend c d p /\ p_name p = name /\ p_err p = None /\ p_header p = [] /\ p_raw p = [] /\ v_err (r_nconv (p_rdr p)) = None /\ r_line (p_rdr p) = S (S j).
Proof.
  intros O N Hh P B. inversion O as [nm p0 E H1 H2|nm p0 N' E H1 H2|p0 E H1 H2].
  - destruct (construct_nothing name (SFile data) data ls j msg_not_open Hh Logic.I eq_refl N P B) as (p' & E' & R).
    unfold parser_file in E. rewrite E' in E. injection E as <-. exact R.
  - destruct (construct_nothing name (SPort data) data ls j msg_not_open Hh N' eq_refl N P B) as (p' & E' & R).
    unfold parser_file in E. rewrite E' in E. injection E as <-. exact R.
  - destruct (construct_nothing (S2 "CSV data buffer") (SMem data) data ls j msg_null_buffer Hh ltac:(cbn; lia) eq_refl N P B) as (p' & E' & R).
    unfold parser_buffer in E. rewrite E' in E. injection E as <-. exact R.
Qed.
End G.
