(** The parser's invariant and one call of get_next. *)
From Verif Require Import Base Setup Splitter SplitPure Extract Converter ConvSpec Reader Parser ListFacts SplitSpec SplitRefine SplitSpecProofs SplitKeeps SplitModes SplitApi SplitContinue SplitWhole SplitLocal SplitSafe.
From Verif Require Import ConvProofs LineProofs GetLineProofs ReaderBase ReaderInv ReaderLines ReaderEscape ReaderParse.
From Coq Require Permutation.

(** The swap done by update. *)
Definition swapped (r : rdr) : rdr :=
  mkR (r_nl r) (r_buf r) (r_help r) (r_nconv r) (r_conv r) (r_nlsz r) (r_bufsz r) (r_helpsz r)
      (r_delim r) (r_src r) (r_curr r) (r_crlf r) (r_line r) (r_chars r) (r_nlsize r) (r_fresh r).
Lemma update_eq r : update r = Ok tt (swapped r). Proof. reflexivity. Qed.
Lemma swapped_eta r : swapped r = rset_conv (vup_err (v_err (r_nconv r)) (r_conv (swapped r))) (swapped r).
Proof. destruct r as [? ? ? ? [] ? ? ? ? ? ? ? ? ? ? ?]. reflexivity. Qed.
Lemma rinv_swapped c d r : rinv c d r -> rinv c d (swapped r).
Proof.
  intros []. split; cbn -[owned]; try assumption.
  - rewrite owned_eq in *. cbn -[ids]. eapply Permutation.Permutation_NoDup; [|exact i_nd].
    rewrite !app_assoc. apply Permutation.Permutation_app_tail, Permutation.Permutation_app_comm.
  - destruct i_map. split; congruence.
Qed.
Lemma rinv_conv c d v r : rinv c d r -> cvok c v -> v_map v = v_map (r_conv r) -> v_ncols v = v_ncols (r_conv r) -> rinv c d (rset_conv v r).
Proof. intros [] K M1 M2. split; cbn; try assumption. destruct i_map. split; congruence. Qed.

(** *** Converting readable columns *)
Definition row_cols (c : cfg) (es : list elem) (s : sp) (m : cells) (mp : list nat) (n : nat) (o : list val + str) : Prop :=
  exists cols, Forall2 (holds m) (s_sd s) cols /\
    (c_mode c = EThrow \/ s_err s = None -> converted mp n es cols o) /\ (forall e, c_mode c <> EThrow -> s_err s = Some e -> o = inr e).

Lemma convert_ends c es v m cols : cvok c v -> Forall wfelem es -> Forall2 (holds m) (s_sd (v_sp v)) cols ->
  exists o, ends c o v m (cv_convert c es (v, m)) /\ row_cols c es (v_sp v) m (v_map v) (v_ncols v) o.
Proof.
  intros (K1 & K2 & K3 & K4) W F. unfold cv_convert, cv_convert_data, bind, vget, gets. cbn [fst snd].
  destruct (sp_valid c (v_sp v)) eqn:Ev.
  - destruct (convert_impl_cases c es (s_sd (v_sp v)) cols v m Ev W F K3) as (o & C & En). exists o. split; [exact En|].
    exists cols. split; [exact F|]. split; [auto|]. intros e Hm He. unfold sp_valid, err_valid in Ev. rewrite He in Ev. destruct (c_mode c); congruence.
  - unfold convert_impl, bind, cv_clear_error, vupd, modify, vget, gets. cbn [fst snd].
    change (v_sp (vup_err None v)) with (v_sp v). rewrite Ev. cbn [negb].
    unfold sp_valid, err_valid in Ev. unfold handle_error_bad_split, bind, vget, gets, vupd, modify, ret. cbn [fst snd].
    destruct (c_mode c) eqn:Em; [| |discriminate].
    + destruct (s_err (v_sp v)) as [e|] eqn:Ee; [|discriminate]. exists (inr []). split.
      * unfold ends. rewrite Em. eexists. unfold after_error. rewrite Em. reflexivity.
      * exists cols. split; [exact F|]. split; [intros [?|?]; congruence|]. intros e' _ E'. destruct (K4 eq_refl) as [?|E2]; congruence.
    + destruct (s_err (v_sp v)) as [e|] eqn:Ee; [|discriminate]. exists (inr e). split.
      * unfold ends. rewrite Em. eexists. unfold after_error. rewrite Em. cbn [fst snd v_sp vup_err]. rewrite Ee. reflexivity.
      * exists cols. split; [exact F|]. split; [intros [?|?]; congruence|]. congruence.
Qed.

Lemma inr_holds B X rs : Forall (within (length B)) rs -> exists cols, Forall2 (holds (tm B ++ X)) rs cols.
Proof.
  induction 1 as [|[b e] rs [H1 H2] F [cols IH]]; [exists []; constructor|]. cbn [fst snd] in *.
  destruct (inited_range (tm B) b e (tm_inited B) H1) as (f & Ef); [rewrite tm_len; lia|].
  exists (f :: cols). constructor; [|exact IH]. split; cbn [fst snd].
  - apply range_str_app. exact Ef.
  - intros _. unfold rd. rewrite nth_error_app1 by (rewrite tm_len; cbn; lia).
    destruct (nth_error (tm B) (fst (b, e))) as [[x|]|] eqn:En.
    + eauto.
    + exfalso. apply nth_error_In in En. pose proof (tm_inited B) as I. unfold inited in I. rewrite Forall_forall in I. apply (I _ En eq_refl).
    + apply nth_error_None in En. rewrite tm_len in En. cbn in En. lia.
Qed.

(** The columns of the current converter can be read. *)
Definition convok (r : rdr) : Prop := exists cols, Forall2 (holds (seen_by (r_conv r) (r_buf r))) (s_sd (v_sp (r_conv r))) cols.
Lemma rowok_convok r : rowok r -> convok (swapped r).
Proof.
  intros (b & B & X & Hb & Hc & Hk & F). unfold convok, seen_by. cbn. rewrite Hb.
  destruct Hk as [E|E].
  - rewrite E. exists []. constructor.
  - rewrite E, Nat.eqb_refl, Hc. apply inr_holds. exact F.
Qed.

Section P.
Context (c : cfg) (Hc : cfg_ok c) (d : str) (Hd : nulfree d) (cap : nat -> nat -> nat) (Hcap : forall n need, need <= cap n need).

Lemma on_conv_ends es r : rinv c d r -> convok r -> Forall wfelem es ->
  exists o, row_cols c es (v_sp (r_conv r)) (seen_by (r_conv r) (r_buf r)) (v_map (r_conv r)) (v_ncols (r_conv r)) o /\
  match o with
  | inl vs => on_conv (cv_convert c es) r = Ok (map Some vs) (rset_conv (vup_err None (r_conv r)) r)
  | inr msg => match c_mode c with
       | EThrow => on_conv (cv_convert c es) r = Throw msg (rset_conv (vup_err None (r_conv r)) r)
       | _ => exists xs, on_conv (cv_convert c es) r = Ok xs (rset_conv (vup_err (after_error c msg) (r_conv r)) r)
       end
  end.
Proof.
  intros I (cols & F) W. destruct (convert_ends c es (r_conv r) _ cols (i_conv _ _ _ I) W F) as (o & E & K). exists o. split; [exact K|].
  unfold on_conv, ends in *. destruct o as [vs|msg]; [rewrite E; reflexivity|].
  destruct (c_mode c); [destruct E as (xs & ->); exists xs; reflexivity|destruct E as (xs & ->); exists xs; reflexivity|rewrite E; reflexivity].
Qed.

(** *** The invariant *)
Definition uqs (r : rdr) : Prop := quoted_multiline c = true -> s_uq (v_sp (r_conv r)) = false /\ s_uq (v_sp (r_nconv r)) = false.
Definition lineready (r : rdr) : Prop := (exists B e, bufline r B e) \/ (stale0 r /\ escaped_multiline c = false).
Definition pinv (p : prs) : Prop :=
  rinv c d (p_rdr p) /\ (p_eof p = true -> unread (p_rdr p) = []) /\
  (p_eof p = false -> v_err (r_nconv (p_rdr p)) = None /\ uqs (p_rdr p) /\ lineready (p_rdr p)).

(** parse, from either kind of ready line. *)
Lemma parse_safe r : rinv c d r -> uqs r -> lineready r -> exists r', safe_out c d r (parse c cap r) r'.
Proof.
  intros I U [(B & e & HB)|[(b & T & Hb & HcT) Em]].
  - destruct (parse_spec c Hc d Hd cap Hcap r B e I HB) as (r' & S & _); [intros Hq; apply U; exact Hq|]. exists r'. exact S.
  - destruct (parse_nul c d cap r b T I Hb HcT) with (k := 0) as [E S].
    + intros Hq. apply U. exact Hq.
    + exists [], T. exact HcT.
    + eexists. unfold parse, escape_part. rewrite Em. unfold bind at 1, ret at 1. unfold bind at 1, get at 1. rewrite E. exact S.
Qed.

(** What the user is told about a row: [o] its values or the message; [k1], [k2] line numbers. *)
Definition told (name : str) (k1 k2 : nat) (o : list val + str) (res : res prs (list slot)) (p' : prs) : Prop :=
  match o with
  | inl vs => res = Ok (map Some vs) p' /\ p_err p' = None
  | inr m => match c_mode c with
             | EThrow => res = Throw (name ++ S2 " " ++ dec k2 ++ S2 ": " ++ m) p'
             | EString => exists xs, res = Ok xs p' /\ p_err p' = Some (name ++ S2 " " ++ dec k1 ++ S2 ": " ++ m)
             | EBool => exists xs, res = Ok xs p' /\ p_err p' = Some []
             end
  end.

(** What was found in the row: [o1], [r1] the outcome of parse. *)
Definition found (es : list elem) (r : rdr) (o1 : res rdr unit) (r1 : rdr) (o : list val + str) : Prop :=
  (exists s r0, r1 = rset_nconv (fail_conv c s (r_nconv r0)) r0 /\ o1 = stopped c s tt r0 /\ o = inr (stop_msg s)) \/
  (exists m, c_mode c = EThrow /\ o1 = Throw m r1 /\ o = inr m) \/
  (o1 = Ok tt r1 /\ v_err (r_nconv r1) = v_err (r_nconv r) /\ rowok r1 /\
     row_cols c es (v_sp (r_nconv r1)) (seen_by (r_nconv r1) (r_nl r1)) (v_map (r_nconv r)) (v_ncols (r_nconv r)) o).

Lemma read_line_eq p b r' : read_next c cap (p_rdr p) = Ok b r' -> read_line c cap p = Ok tt (pset_eof (negb b) (pset_rdr r' p)).
Proof. intros E. unfold read_line, on_rdr, zoom, bind. rewrite E. reflexivity. Qed.

Lemma stable_map r r' : rinv c d r' -> stable r r' -> rinv c d r -> v_map (r_nconv r') = v_map (r_nconv r) /\ v_ncols (r_nconv r') = v_ncols (r_nconv r).
Proof. intros I' (_ & _ & E) I. destruct (i_map _ _ _ I) as [-> ->], (i_map _ _ _ I') as [-> ->]. rewrite E. auto. Qed.

(** What the converter of the row keeps of it. *)
Definition kept_error (o : list val + str) : err := match o with inl _ => None | inr m => after_error c m end.

Theorem get_next_live p es : pinv p -> p_eof p = false -> Forall wfelem es ->
  exists r1 r2 o b r' p', safe_out c d (p_rdr p) (parse c cap (p_rdr p)) r1 /\ found es (p_rdr p) (parse c cap (p_rdr p)) r1 o /\
    rinv c d r2 /\ (uqs r2 \/ unread r2 = []) /\
    r_line r2 = r_line r1 /\ r_curr r2 = r_curr r1 /\ unread r2 = unread r1 /\
    read_next c cap r2 = Ok b r' /\ p' = mkP (p_name p) (p_err p') r' (p_header p) (p_raw p) (negb b) /\
    told (p_name p) (r_line r1) (r_line r' - 1) o (get_next c cap es p) p' /\
    (c_mode c = EThrow /\ (exists m, parse c cap (p_rdr p) = Throw m r1) /\ r2 = r1 \/
     parse c cap (p_rdr p) = Ok tt r1 /\ exists x, r2 = rset_conv (vup_err x (r_conv (swapped r1))) (swapped r1)) /\
    (c_mode c <> EThrow -> v_err (r_conv r2) = kept_error o).
Proof.
  intros (I & _ & HF) He W. destruct (HF He) as (Hv & U & HL). set (r := p_rdr p) in *.
  destruct (parse_safe r I U HL) as (r1 & S). exists r1.
  assert (RN : forall r2, rinv c d r2 -> exists b r', read_next c cap r2 = Ok b r').
  { intros r2 I2. destruct (read_next_spec c d cap Hcap r2 I2) as (r' & E & _). eauto. }
  destruct S as (SA & SB & SC & SD & SE). assert (S : safe_out c d r (parse c cap r) r1) by (repeat (split; [assumption|]); assumption).
  destruct (stable_map r r1 SA SB I) as [M1 M2].
  remember (get_next c cap es p) as g eqn:Eg. unfold get_next in Eg. unfold bind at 1, get at 1 in Eg. rewrite He in Eg.
  (* after a throw from parse *)
  assert (TH : forall m, c_mode c = EThrow -> parse c cap r = Throw m r1 -> (uqs r1 \/ unread r1 = []) ->
    forall o, o = inr m -> found es r (parse c cap r) r1 o -> exists r2 o b r' p', safe_out c d r (parse c cap r) r1 /\ found es r (parse c cap r) r1 o /\
    rinv c d r2 /\ (uqs r2 \/ unread r2 = []) /\ r_line r2 = r_line r1 /\ r_curr r2 = r_curr r1 /\ unread r2 = unread r1 /\
    read_next c cap r2 = Ok b r' /\ p' = mkP (p_name p) (p_err p') r' (p_header p) (p_raw p) (negb b) /\
    told (p_name p) (r_line r1) (r_line r' - 1) o g p' /\ (c_mode c = EThrow /\ (exists m, parse c cap r = Throw m r1) /\ r2 = r1 \/
     parse c cap r = Ok tt r1 /\ exists x, r2 = rset_conv (vup_err x (r_conv (swapped r1))) (swapped r1)) /\
    (c_mode c <> EThrow -> v_err (r_conv r2) = kept_error o)).
  { intros m Em Ep Hu o -> Fo. destruct (RN r1 SA) as (b & r' & E).
    exists r1, (inr m), b, r', (mkP (p_name p) (p_err p) r' (p_header p) (p_raw p) (negb b)).
    split; [exact S|]. split; [exact Fo|]. split; [exact SA|]. split; [exact Hu|]. split; [reflexivity|]. split; [reflexivity|]. split; [reflexivity|]. split; [exact E|]. split; [reflexivity|].
    split; [|split; [left; eauto|congruence]]. unfold told. rewrite Em. rewrite Em in Eg. rewrite Eg. unfold bind at 1, catch, on_rdr at 1, zoom at 1.
    fold r. rewrite Ep. unfold bind at 1. rewrite (read_line_eq (pset_rdr r1 p) b r' E). reflexivity. }
  (* parse returned *)
  assert (OKP : parse c cap r = Ok tt r1 -> g =
     (on_rdr update ;; p <- get ;;
      if negb (cv_valid c (r_conv (p_rdr p))) then handle_error_invalid_conversion c ;; read_line c cap ;; ret (defaults es)
      else p_clear_error ;; if p_eof p then p_error c msg_eof ;; ret (defaults es) else
       match c_mode c with
      | EThrow =>
          catch (xs <- on_rdr (on_conv (cv_convert c es)) ;; read_line c cap ;; ret xs)
                (fun e => read_line c cap ;; decorate_rethrow e)
      | _ =>
          xs <- on_rdr (on_conv (cv_convert c es)) ;;
          p <- get ;;
          (if negb (cv_valid c (r_conv (p_rdr p))) then handle_error_invalid_conversion c else ret tt) ;;
          read_line c cap ;;
          ret xs
      end) (pset_rdr r1 p)).
  { intros Ep. rewrite Eg. unfold bind at 1. destruct (c_mode c); unfold catch, on_rdr at 1, zoom at 1; fold r; rewrite Ep; reflexivity. }
  assert (UP : forall k : M prs (list slot), (on_rdr update ;; k) (pset_rdr r1 p) = k (pset_rdr (swapped r1) p)) by reflexivity.
  assert (I2 : rinv c d (swapped r1)) by (apply rinv_swapped; exact SA).
  destruct SE as [(A1 & A2 & A3)|(s & r0 & A1 & A2 & A3)].
  - assert (U1 : uqs r1). { intros Hq. split; [|apply A2; exact Hq]. destruct SB as (_ & _ & ->). apply U. exact Hq. }
    destruct A3 as [[Ep RO]|(Em & m & Ep)].
    2:{ apply (TH m Em Ep (or_introl U1) (inr m) eq_refl). right. left. exists m. auto. }
    specialize (OKP Ep). rewrite UP in OKP. unfold bind at 1, get at 1 in OKP.
    change (r_conv (p_rdr (pset_rdr (swapped r1) p))) with (r_nconv r1) in OKP.
    assert (V1 : cv_valid c (r_nconv r1) = true). { unfold cv_valid, err_valid. rewrite A1, Hv. destruct (c_mode c); reflexivity. }
    rewrite V1 in OKP. cbn [negb] in OKP. change (p_eof (pset_rdr (swapped r1) p)) with (p_eof p) in OKP. rewrite He in OKP.
    unfold bind at 1 in OKP. unfold p_clear_error at 1, pupd, modify in OKP.
    set (q := pset_err None (pset_rdr (swapped r1) p)) in *.
    destruct (on_conv_ends es (swapped r1) I2 (rowok_convok r1 RO) W) as (o & RC & EC).
    assert (FD : found es r (parse c cap r) r1 o).
    { right. right. split; [exact Ep|]. split; [exact A1|]. split; [exact RO|]. rewrite <- M1, <- M2. exact RC. }
    assert (U2 : forall x, uqs (rset_conv (vup_err x (r_conv (swapped r1))) (swapped r1))).
    { intros x Hq. destruct (U1 Hq). cbn. auto. }
    assert (I3 : forall x, rinv c d (rset_conv (vup_err x (r_conv (swapped r1))) (swapped r1))).
    { intros x. apply rinv_conv; auto. exact (i_conv _ _ _ I2). }
    destruct o as [vs|m].
    + destruct (RN _ (I3 None)) as (b & r' & E).
      exists (rset_conv (vup_err None (r_conv (swapped r1))) (swapped r1)), (inl vs), b, r', (mkP (p_name p) None r' (p_header p) (p_raw p) (negb b)).
      split; [exact S|]. split; [exact FD|]. split; [apply I3|]. split; [left; apply U2|]. split; [reflexivity|]. split; [reflexivity|]. split; [reflexivity|]. split; [exact E|]. split; [reflexivity|].
      split; [|split; [right; eauto|intros Hm; first [reflexivity|congruence]]]. unfold told. split; [|reflexivity]. rewrite OKP.
      set (q2 := pset_rdr (rset_conv (vup_err None (r_conv (swapped r1))) (swapped r1)) q).
      assert (E2 : on_rdr (on_conv (cv_convert c es)) q = Ok (map Some vs) q2).
      { unfold on_rdr, zoom. change (p_rdr q) with (swapped r1). rewrite EC. reflexivity. }
      assert (V2 : cv_valid c (r_conv (p_rdr q2)) = true) by (unfold cv_valid, err_valid; destruct (c_mode c); reflexivity).
      destruct (c_mode c).
      * unfold bind at 1. rewrite E2. unfold bind at 1, get at 1. rewrite V2. cbn [negb]. unfold bind at 1, ret at 1. unfold bind at 1. rewrite (read_line_eq q2 b r' E). reflexivity.
      * unfold bind at 1. rewrite E2. unfold bind at 1, get at 1. rewrite V2. cbn [negb]. unfold bind at 1, ret at 1. unfold bind at 1. rewrite (read_line_eq q2 b r' E). reflexivity.
      * unfold catch. unfold bind at 1. rewrite E2. unfold bind at 1. rewrite (read_line_eq q2 b r' E). reflexivity.
    + destruct (c_mode c) eqn:Em.
      3:{ destruct (RN _ (I3 None)) as (b & r' & E).
          exists (rset_conv (vup_err None (r_conv (swapped r1))) (swapped r1)), (inr m), b, r', (mkP (p_name p) None r' (p_header p) (p_raw p) (negb b)).
          split; [exact S|]. split; [exact FD|]. split; [apply I3|]. split; [left; apply U2|]. split; [reflexivity|]. split; [reflexivity|]. split; [reflexivity|]. split; [exact E|]. split; [reflexivity|].
          split; [|split; [right; eauto|intros Hm; first [reflexivity|congruence]]]. unfold told. rewrite Em. rewrite OKP.
          set (q2 := pset_rdr (rset_conv (vup_err None (r_conv (swapped r1))) (swapped r1)) q).
          assert (E2 : on_rdr (on_conv (cv_convert c es)) q = Throw m q2).
          { unfold on_rdr, zoom. change (p_rdr q) with (swapped r1). rewrite EC. reflexivity. }
          unfold catch. unfold bind at 1. rewrite E2. unfold bind at 1. rewrite (read_line_eq q2 b r' E). reflexivity. }
      * destruct EC as (xs & EC). destruct (RN _ (I3 (after_error c m))) as (b & r' & E).
        exists (rset_conv (vup_err (after_error c m) (r_conv (swapped r1))) (swapped r1)), (inr m), b, r', (mkP (p_name p) (Some []) r' (p_header p) (p_raw p) (negb b)).
        split; [exact S|]. split; [exact FD|]. split; [apply I3|]. split; [left; apply U2|]. split; [reflexivity|]. split; [reflexivity|]. split; [reflexivity|]. split; [exact E|]. split; [reflexivity|].
        split; [|split; [right; eauto|intros Hm; first [reflexivity|congruence]]]. unfold told. rewrite Em. exists xs. split; [|reflexivity]. rewrite OKP.
        set (q2 := pset_rdr (rset_conv (vup_err (after_error c m) (r_conv (swapped r1))) (swapped r1)) q).
        assert (E2 : on_rdr (on_conv (cv_convert c es)) q = Ok xs q2).
        { unfold on_rdr, zoom. change (p_rdr q) with (swapped r1). rewrite EC. reflexivity. }
        unfold bind at 1. rewrite E2. unfold bind at 1, get at 1.
        assert (V2 : cv_valid c (r_conv (p_rdr q2)) = false) by (unfold cv_valid, err_valid; cbn; unfold after_error; rewrite Em; reflexivity).
        rewrite V2. cbn [negb]. unfold bind at 1. unfold handle_error_invalid_conversion. rewrite Em. unfold bind at 1, get at 1, pupd at 1, modify at 1.
        unfold bind at 1. rewrite (read_line_eq (pset_err (Some []) q2) b r' E). reflexivity.
      * destruct EC as (xs & EC). destruct (RN _ (I3 (after_error c m))) as (b & r' & E).
        exists (rset_conv (vup_err (after_error c m) (r_conv (swapped r1))) (swapped r1)), (inr m), b, r',
          (mkP (p_name p) (Some (p_name p ++ S2 " " ++ dec (r_line r1) ++ S2 ": " ++ m)) r' (p_header p) (p_raw p) (negb b)).
        split; [exact S|]. split; [exact FD|]. split; [apply I3|]. split; [left; apply U2|]. split; [reflexivity|]. split; [reflexivity|]. split; [reflexivity|]. split; [exact E|]. split; [reflexivity|].
        split; [|split; [right; eauto|intros Hm; first [reflexivity|congruence]]]. unfold told. rewrite Em. exists xs. split; [|reflexivity]. rewrite OKP.
        set (q2 := pset_rdr (rset_conv (vup_err (after_error c m) (r_conv (swapped r1))) (swapped r1)) q).
        assert (E2 : on_rdr (on_conv (cv_convert c es)) q = Ok xs q2).
        { unfold on_rdr, zoom. change (p_rdr q) with (swapped r1). rewrite EC. reflexivity. }
        unfold bind at 1. rewrite E2. unfold bind at 1, get at 1.
        assert (V2 : cv_valid c (r_conv (p_rdr q2)) = false) by (unfold cv_valid, err_valid; cbn; unfold after_error; rewrite Em; reflexivity).
        rewrite V2. cbn [negb]. unfold bind at 1. unfold handle_error_invalid_conversion. rewrite Em. unfold bind at 1, get at 1, pupd at 1, modify at 1.
        change (v_err (r_conv (p_rdr q2))) with (after_error c m). unfold after_error at 1. rewrite Em.
        unfold bind at 1. rewrite (read_line_eq (pset_err _ q2) b r' E). reflexivity.
  - assert (FD : found es r (parse c cap r) r1 (inr (stop_msg s))) by (left; exists s, r0; auto).
    assert (U1 : uqs (swapped r1) /\ uqs r1 \/ unread r1 = []).
    { destruct A3 as [->|E]; [left|right; rewrite A1; exact E].
      assert (s_uq (v_sp (r_nconv r1)) = false) by (rewrite A1; cbn [r_nconv rset_nconv]; rewrite fail_uq; reflexivity).
      split; intros Hq; cbn; destruct SB as (_ & _ & EC); rewrite EC; (split; [try assumption; apply U; exact Hq|try assumption; apply U; exact Hq]). }
    destruct (c_mode c) eqn:Em.
    3:{ assert (Ep : parse c cap r = Throw (stop_msg s) r1) by (rewrite A2; unfold stopped; rewrite Em, A1; reflexivity).
        apply (TH (stop_msg s) eq_refl Ep (ltac:(tauto)) _ eq_refl FD). }
    + assert (Ep : parse c cap r = Ok tt r1) by (rewrite A2; unfold stopped; rewrite Em, A1; reflexivity).
      specialize (OKP Ep). rewrite UP in OKP. unfold bind at 1, get at 1 in OKP.
      change (r_conv (p_rdr (pset_rdr (swapped r1) p))) with (r_nconv r1) in OKP.
      assert (VE : v_err (r_nconv r1) = Some []). { rewrite A1. cbn [r_nconv rset_nconv]. rewrite fail_err by congruence. unfold stop_err. rewrite Em. reflexivity. }
      assert (V1 : cv_valid c (r_nconv r1) = false). { unfold cv_valid, err_valid. rewrite VE, Em. reflexivity. }
      rewrite V1 in OKP. cbn [negb] in OKP.
      destruct (RN (swapped r1) I2) as (b & r' & E).
      exists (swapped r1), (inr (stop_msg s)), b, r', (mkP (p_name p) (Some []) r' (p_header p) (p_raw p) (negb b)).
      split; [exact S|]. split; [exact FD|]. split; [exact I2|]. split; [tauto|]. split; [reflexivity|]. split; [reflexivity|]. split; [reflexivity|]. split; [exact E|]. split; [reflexivity|].
      split; [|split; [right; split; [exact Ep|exists (v_err (r_nconv r1)); apply swapped_eta]|intros _; change (v_err (r_conv (swapped r1))) with (v_err (r_nconv r1)); rewrite VE; unfold kept_error, after_error; rewrite Em; reflexivity]]. unfold told. rewrite Em. exists (defaults es). split; [|reflexivity]. rewrite OKP.
      unfold handle_error_invalid_conversion. rewrite Em. unfold bind at 2, get at 1, pupd at 1, modify at 1. unfold bind at 1. unfold bind at 1. erewrite read_line_eq by exact E. reflexivity.
    + assert (Ep : parse c cap r = Ok tt r1) by (rewrite A2; unfold stopped; rewrite Em, A1; reflexivity).
      specialize (OKP Ep). rewrite UP in OKP. unfold bind at 1, get at 1 in OKP.
      change (r_conv (p_rdr (pset_rdr (swapped r1) p))) with (r_nconv r1) in OKP.
      assert (VE : v_err (r_nconv r1) = Some (stop_msg s)). { rewrite A1. cbn [r_nconv rset_nconv]. rewrite fail_err by congruence. unfold stop_err. rewrite Em. reflexivity. }
      assert (V1 : cv_valid c (r_nconv r1) = false). { unfold cv_valid, err_valid. rewrite VE, Em. reflexivity. }
      rewrite V1 in OKP. cbn [negb] in OKP.
      destruct (RN (swapped r1) I2) as (b & r' & E).
      exists (swapped r1), (inr (stop_msg s)), b, r',
        (mkP (p_name p) (Some (p_name p ++ S2 " " ++ dec (r_line r1) ++ S2 ": " ++ stop_msg s)) r' (p_header p) (p_raw p) (negb b)).
      split; [exact S|]. split; [exact FD|]. split; [exact I2|]. split; [tauto|]. split; [reflexivity|]. split; [reflexivity|]. split; [reflexivity|]. split; [exact E|]. split; [reflexivity|].
      split; [|split; [right; split; [exact Ep|exists (v_err (r_nconv r1)); apply swapped_eta]|intros _; change (v_err (r_conv (swapped r1))) with (v_err (r_nconv r1)); rewrite VE; unfold kept_error, after_error; rewrite Em; reflexivity]]. unfold told. rewrite Em. exists (defaults es). split; [|reflexivity]. rewrite OKP.
      unfold handle_error_invalid_conversion. rewrite Em. unfold bind at 2, get at 1, pupd at 1, modify at 1. unfold bind at 1. cbv beta.
      change (v_err (r_conv (p_rdr (pset_rdr (swapped r1) p)))) with (v_err (r_nconv r1)). rewrite VE. unfold bind at 1. erewrite read_line_eq by exact E. reflexivity.
Qed.
End P.
