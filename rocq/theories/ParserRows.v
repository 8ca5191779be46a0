(** Rows: the recursive functions of the proofs against the specification; one call of get_next. *)
From Verif Require Import Base Setup Splitter SplitPure Extract Converter ConvSpec Reader Parser ListFacts SplitSpec SplitRefine SplitSpecProofs SplitKeeps SplitModes SplitApi SplitContinue SplitWhole SplitLocal SplitSafe.
From Verif Require Import ConvProofs LineSpec LineProofs GetLineProofs ReaderBase ReaderInv ReaderLines ReaderEscape ReaderParse ParserSpec ParserInv.

Definition defect_of (s : stop) : defect := match s with StLimit => TooManyLines | StEscape => EscapeAtEnd | StQuote => QuoteAtEnd end.
Lemma defect_of_msg s : defect_text (defect_of s) = stop_msg s. Proof. destruct s; reflexivity. Qed.
Definition g_out (g : gres) : outcome := match g with GRow T _ _ => Complete T | GStop s _ _ => Incomplete (defect_of s) end.
Definition g_n (g : gres) : nat := match g with GRow _ n _ | GStop _ n _ => n end.
Definition g_more (g : gres) := match g with GRow _ _ m | GStop _ _ m => m end.

Lemma escape_match_in c x : escape_match c x = true <-> In x (c_escape c).
Proof. unfold escape_match, mem. rewrite existsb_exists. split; [intros (y & H & E); apply Ascii.eqb_eq in E; congruence|intros H; exists x; split; [exact H|apply Ascii.eqb_refl]]. Qed.

Lemma odd_ends_escaped c t : Nat.odd (esc_tail c t) = true <-> ends_escaped (c_escape c) t.
Proof.
  unfold esc_tail. split.
  - intros H. exists (rev (skipn (esc_run c (rev t)) (rev t))), (rev (firstn (esc_run c (rev t)) (rev t))).
    assert (L : esc_run c (rev t) <= length (rev t)).
    { generalize (rev t) as l. induction l as [|x l IH]; cbn; [lia|]. destruct (escape_match c x); lia. }
    split; [rewrite <- rev_app_distr, firstn_skipn, rev_involutive; reflexivity|]. split; [|split].
    + apply Forall_rev. generalize (rev t) as l. induction l as [|x l IH]; cbn; [constructor|].
      destruct (escape_match c x) eqn:E; [|constructor]. constructor; [apply escape_match_in; exact E|exact IH].
    + intros a' x E. apply (f_equal (@rev ascii)) in E. rewrite rev_involutive, rev_app_distr in E. cbn in E.
      revert E. generalize (rev t) as l. induction l as [|y l IH]; cbn; [discriminate|].
      destruct (escape_match c y) eqn:Ey; [exact IH|]. cbn. intros E. injection E as -> _. rewrite <- escape_match_in. congruence.
    + rewrite rev_length, firstn_length, Nat.min_l by exact L. apply Nat.odd_spec in H. exact H.
  - intros (a & es & -> & F & N & k & Hk). rewrite rev_app_distr.
    assert (E : esc_run c (rev es ++ rev a) = length es).
    { rewrite <- (rev_length es). apply Forall_rev in F. revert F. generalize (rev es) as l. induction l as [|x l IH]; intros F; cbn.
      - destruct (rev a) as [|x l] eqn:Ea; [reflexivity|]. cbn. destruct (escape_match c x) eqn:Ex; [|reflexivity].
        apply escape_match_in in Ex. exfalso. apply (N (rev l) x); [|exact Ex]. rewrite <- (rev_involutive a), Ea. reflexivity.
      - inversion F as [|? ? F1 F2]; subst. apply escape_match_in in F1. rewrite F1, (IH F2). reflexivity. }
    rewrite E. apply Nat.odd_spec. exists k. exact Hk.
Qed.

(** No NUL, if rows may span lines. *)
Definition tame (c : cfg) (t : str) : Prop := c_ml c = true -> nulfree t.
Lemma tame_nulfree c t : nulfree t -> tame c t. Proof. intros H _. exact H. Qed.
Lemma tame_app c a b : tame c (a ++ b) <-> tame c a /\ tame c b.
Proof. unfold tame. split; [intros H; split; intros Hm; specialize (H Hm); rewrite nulfree_app in H; tauto|intros [H1 H2] Hm; rewrite nulfree_app; auto]. Qed.
Lemma c_string_nulfree t : nulfree t -> c_string t = t.
Proof.
  induction t as [|x t IH]; intros H; [reflexivity|]. apply nulfree_cons in H as [H1 H2]. cbn. rewrite (proj2 (Ascii.eqb_neq x NUL) H1), (IH H2). reflexivity.
Qed.
Lemma c_string_free t : nulfree (c_string t).
Proof. induction t as [|x t IH]; [apply nulfree_nil|]. cbn. destruct (Ascii.eqb x NUL) eqn:E; [apply nulfree_nil|]. apply nulfree_cons. split; [apply Ascii.eqb_neq; exact E|exact IH]. Qed.
Lemma c_string_cells t Y : exists X, map Some t ++ Some NUL :: Y = tm (c_string t) ++ X.
Proof.
  induction t as [|x t (X & IH)]; [exists Y; reflexivity|]. cbn. destruct (Ascii.eqb x NUL) eqn:E.
  - apply Ascii.eqb_eq in E. subst x. exists (map Some t ++ Some NUL :: Y). reflexivity.
  - exists X. rewrite IH. reflexivity.
Qed.

Section R.
Context (c : cfg) (Hc : cfg_ok c) (d : str) (Hd : nulfree d) (Hd0 : d <> []).

Lemma qo_open t : c_ml c = true -> nulfree t -> (qo c d t = true <-> leaves_quote_open c d t).
Proof.
  intros Hml HT. pose proof (split_whole c Hc d Hd Hd0 sp_init 0 t [] eq_refl HT) as (l & tl & Ps & K).
  assert (Q : qo c d t = match tl with TUnterm _ _ => true | _ => false end).
  { unfold qo. destruct Ps as [[_ Ps] _]. cbn [snd] in Ps. destruct (snd (psplit c d t)), tl; cbn in Ps; try contradiction; try discriminate; reflexivity. }
  unfold leaves_quote_open, split_call.
  destruct (report c tl) as [[m mt]|] eqn:Er; [destruct (set_error (c_mode c) m)|]; destruct K as (s' & m' & E & W & _); rewrite E;
    pose proof (w_uq _ _ _ _ _ _ _ _ _ W) as U; rewrite <- Q in U.
  - split; [intros H; exists s', m'; split; congruence|]. intros (s & mm & E' & Hs). congruence.
  - split; [intros H|intros (s & mm & E' & _); discriminate]. rewrite Q in H. destruct tl; try discriminate. cbn in Er. rewrite Hml in Er. discriminate.
  - split; [intros H; exists s', m'; split; congruence|]. intros (s & mm & E' & Hs). congruence.
Qed.

Lemma ends_escaped_some esc t : ends_escaped esc t -> esc <> [].
Proof. intros (a & es & _ & F & _ & k & Hk) ->. destruct es as [|x es]; [cbn in Hk; lia|]. inversion F; subst. contradiction. Qed.
Lemma goes_escape T last : (escaped_multiline c && Nat.odd (esc_tail c last) = true) <-> goes_on c d T last ByEscape.
Proof.
  unfold escaped_multiline, escape_enabled. rewrite !andb_true_iff, odd_ends_escaped. split.
  - intros [[H1 H2] H3]. constructor; auto.
  - intros H. inversion H as [H1 H2|]; subst. repeat split; auto. apply ends_escaped_some in H2. destruct (c_escape c); congruence.
Qed.
Lemma goes_quote T last : tame c T -> escaped_multiline c && Nat.odd (esc_tail c last) = false ->
  (quoted_multiline c && qo c d T = true <-> goes_on c d T last ByQuote).
Proof.
  intros HT He. unfold quoted_multiline, quote_enabled. rewrite !andb_true_iff. split.
  - intros [[H1 H2] H3]. constructor; auto.
    + intros K. assert (G : goes_on c d T last ByEscape) by (constructor; auto). apply goes_escape in G. congruence.
    + destruct (c_quote c); congruence.
    + apply qo_open; auto.
  - intros H. inversion H as [|H1 H2 H3 H4]; subst. repeat split; auto; [destruct (c_quote c); congruence|apply qo_open; auto].
Qed.
Lemma may_add_hit n : may_add c n <-> hit c n = false.
Proof.
  unfold may_add, hit. destruct (0 <? c_mlsize c) eqn:E1; [apply Nat.ltb_lt in E1|apply Nat.ltb_ge in E1]; cbn; [|split; auto; lia].
  rewrite Nat.leb_gt. lia.
Qed.

Lemma gather_row : forall more n T last e, tame c T -> lines_wf e more -> Forall (fun l => tame c (fst l)) more ->
  let g := gather c d more n T last e in row c d n T last e more (g_out g) (g_n g) (g_more g).
Proof.
  assert (W2 : forall T last w, tame c T -> goes_on c d T last w ->
     escaped_multiline c && Nat.odd (esc_tail c last) = true \/ escaped_multiline c && Nat.odd (esc_tail c last) = false /\ quoted_multiline c && qo c d T = true).
  { intros T last [|] HT G; [left; apply (goes_escape T); exact G|].
    destruct (escaped_multiline c && Nat.odd (esc_tail c last)) eqn:E; [auto|]. right. split; [reflexivity|]. apply (goes_quote T last HT E). exact G. }
  induction more as [|[t e1] more IH]; intros n T last e HT HW HN g; subst g; cbn [gather].
  - destruct (escaped_multiline c && Nat.odd (esc_tail c last)) eqn:E1.
    { apply (goes_escape T) in E1. destruct (hit c n) eqn:Eh.
      - eapply row_limit; [exact E1|]. intros K; apply may_add_hit in K; cbn [g_n] in K; congruence.
      - apply row_eof_escape; [exact E1|]. apply may_add_hit. exact Eh. }
    destruct (quoted_multiline c && qo c d T) eqn:E2.
    { apply (goes_quote T last HT E1) in E2. destruct (hit c n) eqn:Eh.
      - eapply row_limit; [exact E2|]. intros K; apply may_add_hit in K; cbn [g_n] in K; congruence.
      - apply row_eof_quote; [exact E2|]. apply may_add_hit. exact Eh. }
    apply row_done. intros w G. apply W2 in G; auto. rewrite E1, E2 in G. intuition congruence.
  - assert (STEP : forall w, goes_on c d T last w -> hit c n = false ->
      row c d n T last e ((t, e1) :: more) (g_out (gather c d more (S n) (T ++ e ++ t) t e1)) (g_n (gather c d more (S n) (T ++ e ++ t) t e1)) (g_more (gather c d more (S n) (T ++ e ++ t) t e1))).
    { intros w G Eh. eapply row_more; [exact G|apply may_add_hit; exact Eh|]. inversion HN as [|? ? N1 N2]; subst. destruct HW as [He HW].
      apply IH; auto. rewrite !tame_app. repeat split; auto. apply tame_nulfree. destruct He as [->| ->]; unfold nulfree; cbn; intuition discriminate. }
    destruct (escaped_multiline c && Nat.odd (esc_tail c last)) eqn:E1.
    { apply (goes_escape T) in E1. destruct (hit c n) eqn:Eh; [|apply (STEP _ E1); reflexivity].
      eapply row_limit; [exact E1|]. intros K; apply may_add_hit in K; cbn [g_n] in K; congruence. }
    destruct (quoted_multiline c && qo c d T) eqn:E2.
    { apply (goes_quote T last HT E1) in E2. destruct (hit c n) eqn:Eh; [|apply (STEP _ E2); reflexivity].
      eapply row_limit; [exact E2|]. intros K; apply may_add_hit in K; cbn [g_n] in K; congruence. }
    apply row_done. intros w G. apply W2 in G; auto. rewrite E1, E2 in G. intuition congruence.
Qed.

(** The specification determines the outcome. *)
Lemma goes_on_fun T last w1 w2 : goes_on c d T last w1 -> goes_on c d T last w2 -> w1 = w2.
Proof. intros H1 H2. inversion H1; inversion H2; subst; congruence. Qed.
Lemma row_fun n T last e more o m rest : row c d n T last e more o m rest -> forall o' m' rest', row c d n T last e more o' m' rest' ->
  o = o' /\ m = m' /\ rest = rest'.
Proof.
  induction 1 as [n T last e more N|n T last e w t e' more out m rest G A R IH|n T last e w more G A|n T last e G A|n T last e G A]; intros o' m' rest' H';
    inversion H'; subst; try (exfalso; eapply N; eassumption); try contradiction; auto;
    try (exfalso; match goal with H : forall w, ~ _ |- _ => eapply H; eassumption end).
  - match goal with H1 : goes_on _ _ _ _ ByEscape, H2 : goes_on _ _ _ _ ByQuote |- _ => pose proof (goes_on_fun _ _ _ _ H1 H2); discriminate end.
  - match goal with H1 : goes_on _ _ _ _ ByEscape, H2 : goes_on _ _ _ _ ByQuote |- _ => pose proof (goes_on_fun _ _ _ _ H1 H2); discriminate end.
Qed.
Lemma blanks_fun ls j ls' : blanks c ls j ls' -> skip_blank (c_ignempty c) ls = (j, ls').
Proof.
  induction 1 as [ls N|e ls j ls' H B IH].
  - destruct ls as [|[[|x t] e] ls]; try reflexivity; destruct (c_ignempty c) eqn:E; try reflexivity. exfalso. eapply N; reflexivity.
  - cbn. rewrite IH, H. reflexivity.
Qed.
Lemma skip_blanks : forall ls, blanks c ls (fst (skip_blank (c_ignempty c) ls)) (snd (skip_blank (c_ignempty c) ls)).
Proof.
  induction ls as [|[t e] ls IH]; [apply bl_none; discriminate|].
  destruct t as [|x t].
  - destruct (c_ignempty c) eqn:E.
    + cbn. destruct (skip_blank true ls) as [j ls'] eqn:Es. cbn in *. apply bl_skip; auto.
    + cbn. apply bl_none. congruence.
  - cbn. destruct (c_ignempty c); apply bl_none; discriminate.
Qed.
End R.

(** ** Lines and bytes *)
Lemma cut_nulfree u : nulfree u -> nulfree (fst (cut_line u)) /\ nulfree (snd (cut_line u)).
Proof. intros H. rewrite <- (cut_line_app u) in H. apply nulfree_app in H. exact H. Qed.
Lemma lines_nulfree : forall u, nulfree u -> Forall (fun l => nulfree (fst l)) (lines u).
Proof.
  intros u. remember (length u) as k eqn:Ek. revert u Ek. induction k as [k IH] using lt_wf_ind. intros u -> H.
  destruct (list_eq_dec ascii_dec u []) as [->|Hu]; [constructor|]. rewrite lines_cons by exact Hu.
  destruct (cut_nulfree u H) as [H1 H2]. constructor; [|eapply IH; [apply (cut_line_len u Hu)|reflexivity|exact H2]].
  rewrite <- (chomp_app (fst (cut_line u))) in H1. apply nulfree_app in H1. apply H1.
Qed.
Lemma lines_tame c u : tame c u -> Forall (fun l => tame c (fst l)) (lines u).
Proof.
  intros H. destruct (c_ml c) eqn:Em.
  - eapply Forall_impl; [|apply lines_nulfree; apply H; exact Em]. intros l X _. exact X.
  - apply Forall_forall. intros l _ X. congruence.
Qed.
Lemma lines_bytes : forall u, bytes (lines u) = length u.
Proof.
  intros u. remember (length u) as k eqn:Ek. revert u Ek. induction k as [k IH] using lt_wf_ind. intros u ->.
  destruct (list_eq_dec ascii_dec u []) as [->|Hu]; [reflexivity|]. rewrite lines_cons by exact Hu.
  unfold bytes in *. cbn [map concat]. rewrite app_length, (IH _ (cut_line_len u Hu) _ eq_refl), chomp_app.
  rewrite <- (cut_line_app u) at 3. rewrite app_length. reflexivity.
Qed.
Lemma bytes_cons t e ls : bytes ((t, e) :: ls) = length (t ++ e) + bytes ls.
Proof. unfold bytes. cbn. rewrite app_length. reflexivity. Qed.

Section S.
Context (c : cfg) (Hc : cfg_ok c) (d : str) (Hd : nulfree d) (Hd0 : d <> []) (Hcl : clean c d) (cap : nat -> nat -> nat) (Hcap : forall n need, need <= cap n need).

(** A parser about to deliver the rows of the lines [L], after [k] lines; [mp], [nc] is the selection of columns; [total]
    the number of bytes of the source. *)
Record pstate (mp : list nat) (nc : nat) (total : Z) (p : prs) (L : list (str * str)) (k : nat) : Prop := {
  ps_inv : rinv c d (p_rdr p);
  ps_map : v_map (r_conv (p_rdr p)) = mp;
  ps_nc : v_ncols (r_conv (p_rdr p)) = nc;
  ps_line : r_line (p_rdr p) = S k;
  ps_more : match L with
            | [] => p_eof p = true /\ unread (p_rdr p) = [] /\ v_err (r_nconv (p_rdr p)) = None
            | (t, e) :: ls => p_eof p = false /\ v_err (r_nconv (p_rdr p)) = None /\ uqs c (p_rdr p) /\ bufline (p_rdr p) t e /\
                lines (unread (p_rdr p)) = ls /\ tame c t /\ tame c (unread (p_rdr p)) /\
                pos (p_rdr p) = total /\ (r_chars (p_rdr p) = total - Z.of_nat (bytes L))%Z
            end
}.
Lemma pstate_pinv mp nc total p L k : pstate mp nc total p L k -> pinv c d p.
Proof.
  intros [I _ _ _ K]. split; [exact I|]. destruct L as [|[t e] ls].
  - destruct K as (-> & K & _). split; [auto|discriminate].
  - destruct K as (-> & K1 & K2 & K3 & _). split; [discriminate|]. intros _. split; [exact K1|]. split; [exact K2|]. left. eauto.
Qed.

Lemma safe_out_state r o r' : safe_out c d r o r' -> o = Ok tt r' \/ exists m, o = Throw m r'.
Proof.
  intros (_ & _ & _ & _ & [(_ & _ & [[H _]|[_ H]])|(s & r1 & -> & -> & _)]); auto.
  unfold stopped. destruct (c_mode c); eauto.
Qed.

(** What was split and converted is what the specification says. *)
Lemma converted_nil mp n es vs : es <> [] -> ~ converted mp n es [] (inl vs).
Proof.
  intros He C. inversion C as [ps vs' T L R| | | |]; subst. unfold taken in T. destruct mp as [|p mp].
  - subst ps. destruct es; [congruence|discriminate].
  - destruct T as [_ F]. inversion F as [|? ? ? ? H]; subst. destruct p; discriminate.
Qed.
Lemma strings_holds m rs l : Forall2 (holds m) rs l -> strings_of m rs = Some l.
Proof. induction 1 as [|[b e] f rs l [H _] F IH]; [reflexivity|]. cbn in *. rewrite H, IH. reflexivity. Qed.
Lemma strings_of_tm m X : forall rs l, strings_of m rs = Some l -> strings_of (m ++ X) rs = Some l.
Proof.
  induction rs as [|[b e] rs IH]; intros l; cbn; [auto|]. destruct (range_str m b e) eqn:E; [|discriminate]. rewrite (range_str_app _ _ _ _ _ E).
  destruct (strings_of m rs); [|discriminate]. rewrite (IH _ eq_refl). auto.
Qed.
Lemma no_unterm_without_quote t p a : c_quote c = None -> snd (psplit c d t) <> TUnterm p a.
Proof.
  intros Hq. assert (N : forall s k fl acc a, normal c d k fl acc s <> FUnterm a).
  { induction s as [|h s IH]; intros k fl acc a0; cbn [normal]; [destruct fl; discriminate|].
    destruct k; [|apply IH]. destruct (md c d (h :: s)) as [|rest|t0 x r]; [destruct fl; discriminate|discriminate|].
    destruct (escape_match c x); [destruct r; apply IH|apply IH]. }
  assert (Q : forall x, quote_match c x = false) by (intros x; unfold quote_match; rewrite Hq; reflexivity).
  unfold psplit. assert (G : forall fu s tot, snd (fields c d fu tot s) <> TUnterm p a); [|apply G].
  induction fu as [|fu IH]; intros s tot; cbn [fields]; [discriminate|].
  destruct (field c d (tot - length s) s) as [a0 rest|a0|a0|a0| |p0 e0] eqn:Ef; try discriminate.
  - specialize (IH rest tot). destruct (fields c d fu tot rest). exact IH.
  - exfalso. unfold field in Ef. destruct s as [|h s]; [discriminate|]. rewrite Q in Ef. eapply N; exact Ef.
Qed.

Lemma same_text_digits a b : same_text a b <-> no_digits a = no_digits b.
Proof.
  assert (E : forall a, filter (fun x => negb (ParserSpec.is_digit x)) a = no_digits a).
  { clear. induction a as [|x a IH]; [reflexivity|]. unfold no_digits in *. cbn [filter]. rewrite IH. reflexivity. }
  unfold same_text. rewrite !E. reflexivity.
Qed.
Lemma MIS p p' : same_text (msg_mismatched p) (msg_mismatched p').
Proof. rewrite same_text_digits. apply no_digits_mismatched. Qed.
Lemma same_text_refl a : same_text a a. Proof. reflexivity. Qed.

(** The text [U] was split. *)
Definition split_out (U : str) (o : res rdr unit) (r' : rdr) : Prop :=
  exists b B X l t, r_nl r' = Some b /\ b_cells b = tm B ++ X /\ psimc c (psplit c d U) (l, t) /\
    match report c t with
    | None => o = Ok tt r' /\ whole c (b_id b) (length B) [] l t (v_sp (r_nconv r')) (tm B) true /\ s_err (v_sp (r_nconv r')) = None
    | Some (m, mt) =>
        match set_error (c_mode c) m with
        | Some e => o = Ok tt r' /\ whole c (b_id b) (length B) [] l t (v_sp (r_nconv r')) (tm B) true /\ s_err (v_sp (r_nconv r')) = e
        | None => o = Throw mt r'
        end
    end.
Definition row_out (U : str) (o : res rdr unit) (r' : rdr) : Prop := (U = [] -> o = Ok tt r' /\ s_sd (v_sp (r_nconv r')) = []) /\ (U <> [] -> split_out U o r').
Definition rows_out (g : gres) (r : rdr) (o : res rdr unit) (r' : rdr) : Prop :=
  match g with
  | GRow T n' more => row_out (c_string T) o r' /\ lines (unread r') = more /\ r_line r' = r_line r + n' /\ pos r' = pos r /\
      v_err (r_nconv r') = v_err (r_nconv r)
  | GStop _ _ _ => fun_out c d g r 0 o r'
  end.

(** A row of one line. *)
Lemma parse_cut r T e : c_ml c = false -> rinv c d r -> bufline r T e ->
  exists r', row_out (c_string T) (parse c cap r) r' /\ unread r' = unread r /\ r_line r' = r_line r /\ pos r' = pos r /\
    v_err (r_nconv r') = v_err (r_nconv r) /\ (parse c cap r = Ok tt r' \/ exists m, parse c cap r = Throw m r').
Proof.
  intros Hml I (b & Y & Hb & Hcx & _). destruct (c_string_cells T Y) as (X & EX). rewrite EX in Hcx. clear EX.
  pose proof (c_string_free T) as HU. set (U := c_string T) in *. clearbody U.
  assert (EP : parse c cap r = on_next (fun id => cv_split c id (r_delim r)) r).
  { unfold parse, escape_part, quoted_multiline, escaped_multiline. rewrite Hml. cbn [andb]. unfold bind, ret, get.
    destruct (on_next _ r) as [[] ?| | |]; reflexivity. }
  rewrite EP. clear EP. destruct U as [|x U].
  { rewrite (on_split_nul c r b X Hb Hcx). eexists. split; [split; [auto|congruence]|]. repeat split. auto. }
  apply nulfree_cons in HU as HU'. destruct HU' as [Hx _]. cbn [tm map app] in Hcx.
  rewrite (on_split_text c r b x _ Hb Hcx Hx). rewrite (i_delim _ _ _ I).
  set (B := x :: U) in *. change (b_cells b = tm B ++ X) in Hcx.
  pose proof (split_tm c Hc d Hd (b_id b) (v_sp (r_nconv r)) B (proj1 (i_nconv _ _ _ I))) as SG.
  destruct (on_next_lift c (fun id => sp_split c id d) r b B X Hb Hcx (lo_split c _ _) _ _ SG) as (s' & B' & L1 & L2 & L3 & L4 & L5).
  pose proof (split_whole c Hc d Hd Hd0 (v_sp (r_nconv r)) (b_id b) B [] (proj1 (i_nconv _ _ _ I)) HU) as W.
  replace (err0 c (v_sp (r_nconv r))) with (@None str) in W.
  2:{ unfold err0. destruct (c_mode c) eqn:Em; auto. destruct (i_nconv _ _ _ I) as (_ & Q & _). symmetry. auto. }
  exists (put_sp r b s' (tm B' ++ X)). split; [split; [discriminate|intros _]|].
  2:{ repeat split. destruct L5 as [(_ & -> & _)|(_ & e3 & _ & -> & _)]; eauto. }
  change (whole_post c d B (b_id b) (length B) [] None (sp_split c (b_id b) d (v_sp (r_nconv r), tm B))) in W.
  destruct W as (l & t4 & W1 & W2). exists (mkB (b_id b) (tm B' ++ X)), B', X, l, t4. split; [reflexivity|]. split; [reflexivity|]. split; [exact W1|].
  destruct L5 as [(L5 & L6 & L7 & L8)|(Em & e3 & L5 & L6 & L7)]; rewrite L6; rewrite L5 in W2.
  - destruct (report c t4) as [[m mt]|]; [destruct (set_error (c_mode c) m)|]; destruct W2 as (s5 & m5 & W2 & W3 & W4); try discriminate;
      injection W2 as <- <-; (split; [reflexivity|]); rewrite L1; auto.
  - destruct (report c t4) as [[m mt]|]; [destruct (set_error (c_mode c) m)|]; destruct W2 as (s5 & m5 & W2 & W3); try discriminate.
    injection W2 as <- <- <-. reflexivity.
Qed.
Lemma gather_plain more n T last e : c_ml c = false -> gather c d more n T last e = GRow T n more.
Proof. intros Hml. destruct more as [|[? ?] ?]; cbn [gather]; unfold escaped_multiline, quoted_multiline; rewrite Hml; reflexivity. Qed.

Lemma gather_nulfree : forall more n T last e T' n' more', gather c d more n T last e = GRow T' n' more' ->
  nulfree T -> lines_wf e more -> Forall (fun l => nulfree (fst l)) more -> nulfree T'.
Proof.
  induction more as [|[t e1] more IH]; intros n T last e T' n' more' E HT HW HN; cbn [gather] in E.
  - repeat match type of E with context [if ?b then _ else _] => destruct b end; try discriminate; injection E as <- _ _; exact HT.
  - assert (N2 : nulfree (T ++ e ++ t) /\ lines_wf e1 more /\ Forall (fun l => nulfree (fst l)) more).
    { inversion HN as [|? ? N1 N2]; subst. destruct HW as [He HW]. split; [|auto]. rewrite !nulfree_app. repeat split; auto. destruct He as [->| ->]; unfold nulfree; cbn; intuition discriminate. }
    destruct N2 as (N2 & N3 & N4).
    repeat match type of E with context [if ?b then _ else _] => destruct b end; try discriminate; try (injection E as <- _ _; exact HT); eapply IH; eassumption.
Qed.

Theorem parse_rows r T e : rinv c d r -> bufline r T e -> (quoted_multiline c = true -> s_uq (v_sp (r_nconv r)) = false) ->
  tame c T -> tame c (unread r) ->
  exists r', safe_out c d r (parse c cap r) r' /\ rows_out (gather c d (lines (unread r)) 0 T T e) r (parse c cap r) r'.
Proof.
  intros I HB Hu HT HN. destruct (parse_spec c Hc d Hd cap Hcap r T e I HB Hu) as (r' & SO & PO). exists r'. split; [exact SO|].
  destruct (c_ml c) eqn:Em.
  - specialize (PO Hcl Hd0 (HT Em) (HN Em)). pose proof (wf_bufline _ _ _ HB) as HW.
    destruct (gather c d (lines (unread r)) 0 T T e) as [T' n' more'|s n' more'] eqn:Eg; cbn [rows_out]; [|exact PO].
    assert (NT : nulfree T').
    { eapply gather_nulfree; [exact Eg|apply HT; exact Em|exact HW|apply lines_nulfree; apply HN; exact Em]. }
    rewrite (c_string_nulfree T' NT). destruct T' as [|x T'].
    + destruct PO as (A & B & C & D & E & G). split; [|auto]. split; [auto|congruence].
    + destruct PO as ((b & B & X & l & t & R1 & R2 & _ & R3 & R4) & A & _ & D & E & G). split; [|split; [exact A|split; [lia|auto]]].
      split; [discriminate|]. intros _. exists b, B, X, l, t. auto.
  - clear PO. destruct (parse_cut r T e Em I HB) as (r2 & A & B & C & D & E & G). rewrite (gather_plain _ _ _ _ _ Em). cbn [rows_out].
    assert (r2 = r') as <-.
    { destruct (safe_out_state _ _ _ SO) as [K|(m & K)], G as [G|(m' & G)]; congruence. }
    split; [exact A|]. rewrite B, C. split; [reflexivity|]. split; [lia|]. auto.
Qed.

Lemma found_reading es mp n r o1 r1 o T : found c es r o1 r1 o -> row_out (c_string T) o1 r1 -> v_err (r_nconv r1) = v_err (r_nconv r) ->
  v_err (r_nconv r) = None -> v_map (r_nconv r) = mp -> v_ncols (r_nconv r) = n -> es <> [] ->
  (c_ml c = true -> nulfree T) -> quoted_multiline c && qo c d T = false -> row_reading c d mp n es (Complete T) o.
Proof.
  intros F [P P'] R5 Hv Hm Hn Hes HT Hq. destruct (list_eq_dec ascii_dec (c_string T) []) as [HT0|HT0].
  { specialize (P HT0). clear P'. destruct F as [(s & r0 & _ & _ & ->)|[(e & _ & _ & ->)|(E1 & _ & RO & cols & F2 & K1 & K2)]]; try (apply rd_empty; exact HT0).
    destruct P as (_ & P). rewrite P in F2. inversion F2; subst cols.
    destruct o as [vs|e]; [|apply rd_empty; exact HT0]. exfalso.
    destruct (s_err (v_sp (r_nconv r1))) as [e|] eqn:Ee.
    - destruct (c_mode c) eqn:Em; [discriminate (K2 e ltac:(discriminate) eq_refl)|discriminate (K2 e ltac:(discriminate) eq_refl)|].
      apply (converted_nil _ _ _ _ Hes (K1 (or_introl eq_refl))).
    - apply (converted_nil _ _ _ _ Hes (K1 (or_intror eq_refl))). }
  specialize (P' HT0). clear P.
  assert (Hq0 : quoted_multiline c && qo c d (c_string T) = false).
  { destruct (c_ml c) eqn:Eml; [rewrite (c_string_nulfree T (HT eq_refl)); exact Hq|]. unfold quoted_multiline. rewrite Eml. reflexivity. }
  clear Hq. rename Hq0 into Hq. pose proof (c_string_free T) as HTf. set (T0 := c_string T) in *.
  destruct P' as (b & B & X & l & t & R1 & R2 & R3 & R4).
  pose proof (split_obs_psplit c Hc d Hd Hd0 sp_init T0 [] (fst (psplit c d T0)) (snd (psplit c d T0)) (reach_init c) HTf (surjective_pairing _)) as SO.
  destruct R3 as [[R3a R3b] R3c]. cbn [fst snd] in R3a, R3b.
  assert (NT : report c t = None -> forall p a, t <> TUnterm p a).
  { intros Hr p a ->. cbn in Hr. destruct (c_ml c) eqn:Eml; [|discriminate].
    destruct (snd (psplit c d T0)) eqn:Ep; cbn in R3b; try contradiction; try discriminate.
    unfold quoted_multiline, quote_enabled, qo in Hq. rewrite Eml, Ep in Hq.
    destruct (c_quote c) eqn:Eq; [discriminate|]. eapply no_unterm_without_quote; eauto. }
  assert (RS : forall e, report c t = Some e -> exists e', report c (snd (psplit c d T0)) = Some e' /\ same_text (fst e') (fst e) /\ same_text (snd e') (snd e) /\ (c_ml c = false -> e' = e)).
  { intros e He. enough (X0 : exists e', report c (snd (psplit c d T0)) = Some e' /\ same_text (fst e') (fst e) /\ same_text (snd e') (snd e)).
    { destruct X0 as (e' & X1 & X2 & X3). exists e'. split; [exact X1|]. split; [exact X2|]. split; [exact X3|]. intros X4. rewrite (R3c X4) in X1. cbn [snd] in X1. congruence. }
    revert He. unfold same_text. destruct (snd (psplit c d T0)), t; cbn in R3b; try contradiction; try discriminate; cbn [report]; try discriminate;
      try (destruct (c_ml c); [discriminate|]); intros E; injection E as <-; eexists; (split; [reflexivity|]); cbn [fst snd]; try (split; apply same_text_refl).
    rewrite R3b. split; [apply MIS|]. destruct (esc0 && negb (c_ml c)); [apply same_text_refl|apply MIS]. }
  destruct (report c t) as [[em et]|] eqn:Er.
  - destruct (RS _ eq_refl) as ([em' et'] & E1 & E2 & E3 & E4). cbn [fst snd] in E2, E3. rewrite E1 in SO. destruct (c_mode c) eqn:Emo; cbn [set_error] in R4.
    + destruct R4 as (Eo & W & We). destruct F as [(s & r0 & F1 & F2 & _)|[(e & F1 & _)|(_ & _ & RO & cols & F2 & K1 & K2)]]; [exfalso|congruence|].
      * rewrite F1 in R5. cbn [r_nconv rset_nconv] in R5. rewrite fail_err in R5 by congruence. unfold stop_err in R5. rewrite Emo, Hv in R5. discriminate.
      * rewrite (K2 [] ltac:(congruence) We). eapply rd_bad; [exact HT0|left; exact SO|apply same_text_refl|reflexivity].
    + assert (Hem : em <> []).
      { intros ->. destruct t; cbn in Er; try discriminate; try (destruct (c_ml c); discriminate). }
      destruct em as [|x0 em]; [congruence|]. destruct R4 as (Eo & W & We). destruct F as [(s & r0 & F1 & F2 & _)|[(e & F1 & _)|(_ & _ & RO & cols & F2 & K1 & K2)]]; [exfalso|congruence|].
      * rewrite F1 in R5. cbn [r_nconv rset_nconv] in R5. rewrite fail_err in R5 by congruence. unfold stop_err in R5. rewrite Emo, Hv in R5. discriminate.
      * rewrite (K2 _ ltac:(congruence) We). eapply rd_bad; [exact HT0|left; exact SO|exact E2|intros X9; specialize (E4 X9); congruence].
    + assert (Ho : o = inr et).
      { destruct F as [(s & r0 & F1 & F2 & ->)|[(e & _ & F2 & ->)|(F2 & _)]]; [| |congruence].
        - unfold stopped in F2. rewrite Emo in F2. congruence.
        - congruence. }
      rewrite Ho. eapply rd_bad; [exact HT0|right; exact SO|exact E3|intros X9; specialize (E4 X9); congruence].
  - destruct R4 as (Eo & W & We). destruct F as [(s & r0 & F1 & F2 & _)|[(e & F1 & F2 & _)|(_ & _ & RO & cols & F2 & K1 & K2)]]; [exfalso|exfalso; congruence|].
    { unfold stopped in F2. destruct (c_mode c) eqn:Emo; [| |congruence];
      rewrite F1 in R5; cbn [r_nconv rset_nconv] in R5; rewrite fail_err in R5 by congruence; unfold stop_err in R5; rewrite Emo, Hv in R5; discriminate. }
    assert (TM : forall p e b0, t <> TMismatch p e b0) by (intros p e b0 ->; discriminate Er).
    destruct (whole_strings _ _ _ _ _ _ _ _ W) as [_ WS].
    assert (Uq : s_uq (v_sp (r_nconv r1)) = false).
    { rewrite (w_uq _ _ _ _ _ _ _ _ _ W). destruct t; try reflexivity. exfalso. eapply NT; reflexivity. }
    specialize (WS Uq TM). apply strings_holds in F2. unfold seen_by in F2. rewrite R1, (w_blk _ _ _ _ _ _ _ _ _ W), Nat.eqb_refl, R2 in F2.
    rewrite (strings_of_tm _ X _ _ WS) in F2. injection F2 as <-.
    apply rd_row with (cols := l); [exact HT0| |rewrite <- Hm, <- Hn; apply K1; auto].
    rewrite <- R3a. destruct (snd (psplit c d T0)) eqn:Ep, t; cbn in R3b; try contradiction; try discriminate; cbn [report junk] in SO, Er; try exact SO.
    + destruct (c_ml c); [exact SO|discriminate].
    + destruct (c_ml c); [exact SO|discriminate].
    + exfalso. eapply NT; reflexivity.
Qed.

Lemma gather_more : forall more n T last e s n' more', gather c d more n T last e = GStop s n' more' -> s = StLimit \/ more' = [].
Proof.
  induction more as [|[t e1] more IH]; intros n T last e s n' more'; cbn [gather];
    repeat match goal with |- context [if ?b then _ else _] => destruct b end; intros E; try discriminate; try (injection E as <- _ <-; auto); eapply IH; exact E.
Qed.
Lemma gather_closed : forall more n T last e T' n' more', gather c d more n T last e = GRow T' n' more' -> quoted_multiline c && qo c d T' = false.
Proof.
  induction more as [|[t e1] more IH]; intros n T last e T' n' more'; cbn [gather].
  - destruct (escaped_multiline c && _); [destruct (hit c n); discriminate|]. destruct (quoted_multiline c && qo c d T) eqn:E; [destruct (hit c n); discriminate|].
    intros K; injection K as <- _ _. exact E.
  - destruct (escaped_multiline c && _); [destruct (hit c n); [discriminate|apply IH]|].
    destruct (quoted_multiline c && qo c d T) eqn:E; [destruct (hit c n); [discriminate|apply IH]|]. intros K; injection K as <- _ _. exact E.
Qed.
(** The row can be converted once more, to other types. *)
Definition remembers (mp : list nat) (nc : nat) (p : prs) (out : outcome) : Prop :=
  let r := p_rdr p in forall es, Forall wfelem es -> es <> [] ->
  exists o, row_reading c d mp nc es out o /\
  match o with
  | inl vs => on_conv (cv_convert c es) r = Ok (map Some vs) (rset_conv (vup_err None (r_conv r)) r)
  | inr msg => match c_mode c with
       | EThrow => on_conv (cv_convert c es) r = Throw msg (rset_conv (vup_err None (r_conv r)) r)
       | _ => exists xs, on_conv (cv_convert c es) r = Ok xs (rset_conv (vup_err (after_error c msg) (r_conv r)) r)
       end
  end.

Lemma skip_lines (P : str -> Prop) ie : forall ls, Forall (fun l : str * str => P (fst l)) ls -> Forall (fun l => P (fst l)) (snd (skip_blank ie ls)).
Proof.
  induction ls as [|[t e] ls IH]; intros H; [constructor|]. inversion H as [|? ? H1 H2]; subst. cbn. destruct ie; cbn; [|exact H].
  destruct t; cbn; [|exact H]. specialize (IH H2). destruct (skip_blank true ls). exact IH.
Qed.

Theorem step mp nc total p t e ls k es : pstate mp nc total p ((t, e) :: ls) k -> Forall wfelem es -> es <> [] ->
  let g := gather c d ls 0 t t e in let L' := snd (skip_blank (c_ignempty c) (g_more g)) in let j := fst (skip_blank (c_ignempty c) (g_more g)) in
  exists o p', row_reading c d mp nc es (g_out g) o /\
    told c (p_name p) (k + S (g_n g)) (k + S (g_n g) + j) o (get_next c cap es p) p' /\
    pstate mp nc total p' L' (k + S (g_n g) + j) /\
    p_name p' = p_name p /\ p_header p' = p_header p /\ p_raw p' = p_raw p /\
    (L' = [] -> match g_out g with Complete _ | Incomplete TooManyLines => p_position p' = total | _ => True end) /\
    (match g_out g with Complete T => (exists m, o = inr m) /\ c_mode c = EThrow \/ remembers mp nc p' (Complete T) | _ => True end) /\
    (c_mode c <> EThrow -> v_err (r_conv (p_rdr p')) = kept_error c o).
Proof.
  intros PS W Hes g L' j. pose proof (pstate_pinv _ _ _ _ _ _ PS) as PI. destruct PS as [I Hmp Hnc Hline (He & Hv & U & HB & HL & HT & HN & Hpos & Hch)].
  destruct (get_next_live c Hc d Hd cap Hcap p es PI He W) as (r1 & r2 & o & b & r' & p' & SO & F & I2 & U2 & E1 & E2 & E3 & RN & EP & TD & SH & VE).
  destruct (parse_rows (p_rdr p) t e I HB) as (r1' & S' & PO); [intros Hq; apply U; exact Hq|exact HT|exact HN|].
  rewrite HL in PO. fold g in PO.
  assert (r1' = r1) as ->.
  { destruct (safe_out_state _ _ _ SO) as [A|(m & A)], (safe_out_state _ _ _ S') as [B|(m' & B)]; congruence. }
  clear S'. destruct (i_map _ _ _ I) as [M1 M2].
  assert (NL : Forall (fun l => tame c (fst l)) ls) by (rewrite <- HL; apply lines_tame; exact HN).
  assert (HW : lines_wf e ls) by (rewrite <- HL; eapply wf_bufline; exact HB).
  assert (TAME : forall T' n' more', g = GRow T' n' more' -> c_ml c = true -> nulfree T').
  { intros T' n' more' Eg Em. eapply gather_nulfree; [exact Eg|apply HT; exact Em|exact HW|]. eapply Forall_impl; [|exact NL]. intros l X. apply X. exact Em. }
  assert (PO2 : lines (unread r1) = g_more g /\ r_line r1 = r_line (p_rdr p) + g_n g /\
     (match g_out g with Complete _ | Incomplete TooManyLines => pos r1 = total | _ => True end)).
  { destruct g as [T' n' more'|s n' more']; cbn [g_more g_n g_out].
    - destruct PO as (_ & A & B & C & _). split; [exact A|]. split; [exact B|congruence].
    - destruct PO as (_ & A & _ & B & C). split; [exact A|]. split; [lia|]. destruct s; cbn [defect_of]; auto. rewrite C by reflexivity. exact Hpos. }
  destruct PO2 as (Q1 & Q2 & Q3).
  assert (RR : exists o', row_reading c d mp nc es (g_out g) o' /\ (o' = o \/ c_mode c = EBool /\ exists m m', o' = inr m /\ o = inr m')).
  { unfold g in *. destruct (gather c d ls 0 t t e) as [T' n' more'|s n' more'] eqn:Eg; cbn [g_out].
    - exists o. split; [|auto]. eapply found_reading; try eassumption; try congruence; try apply PO.
      + exact (TAME _ _ _ eq_refl).
      + eapply gather_closed; eauto.
    - exists (inr (stop_msg s)). rewrite <- defect_of_msg. split; [constructor|]. rewrite defect_of_msg. destruct PO as ((r0 & A1 & A2) & _).
      destruct F as [(s' & r0' & F1 & F2 & F3)|[(m & F1 & F2 & F3)|(F1 & F2 & F3)]].
      + rewrite F3. destruct (c_mode c) eqn:Em; [right; eauto|left; f_equal..].
        * rewrite A1 in F1. apply (f_equal (fun r => v_err (r_nconv r))) in F1. cbn [r_nconv rset_nconv] in F1. rewrite !fail_err in F1 by congruence.
          unfold stop_err in F1. rewrite Em in F1. congruence.
        * rewrite A2 in F2. unfold stopped in F2. rewrite Em in F2. congruence.
      + left. rewrite A2 in F2. unfold stopped in F2. rewrite F1 in F2. congruence.
      + exfalso. rewrite A2 in F1. unfold stopped in F1. rewrite A1 in F2. cbn [r_nconv rset_nconv] in F2.
        destruct (c_mode c) eqn:Em; [| |discriminate]; rewrite fail_err in F2 by congruence; unfold stop_err in F2; rewrite Em, Hv in F2; discriminate. }
  destruct RR as (o' & RR & Eo).
  destruct (read_next_spec c d cap Hcap r2 I2) as (r'' & RN' & I' & ST & NC & LN & REST). rewrite RN in RN'.
  assert (EL : skip_blank (c_ignempty c) (lines (unread r2)) = (j, L')).
  { unfold j, L'. rewrite E3, Q1. destruct (skip_blank _ _); reflexivity. }
  rewrite EL in RN', LN, REST. cbn [fst snd] in RN', LN, REST. injection RN' as Eb <-.
  assert (K1 : r_line r1 = k + S (g_n g)) by lia.
  assert (K2 : r_line r' - 1 = k + S (g_n g) + j) by lia.
  rewrite K1, K2 in TD.
  exists o', p'. split; [exact RR|]. split.
  { destruct Eo as [->|(Em & m & m' & -> & Eo)]; [exact TD|]. rewrite Eo in TD. unfold told in *. rewrite Em in *. exact TD. }
  assert (MAP : v_map (r_conv r') = mp /\ v_ncols (r_conv r') = nc).
  { destruct ST as (_ & _ & ->). destruct SO as (SA & SB & _). destruct (stable_map c d _ _ SA SB I) as [N1 N2].
    destruct SH as [(_ & _ & ->)|(_ & x & ->)].
    - destruct SB as (_ & _ & ->). auto.
    - cbn. rewrite N1, N2, M1, M2. auto. }
  destruct MAP as [MAP1 MAP2].
  assert (PR : p_rdr p' = r') by (rewrite EP; reflexivity).
  assert (PST : pstate mp nc total p' L' (k + S (g_n g) + j)).
  { split; rewrite ?PR; auto; [lia|]. destruct L' as [|[t' e'] ls'] eqn:EL'.
    - split; [rewrite EP; cbn; rewrite Eb; reflexivity|]. split; [apply REST|]. rewrite NC. reflexivity.
    - destruct REST as (R1 & R2 & R3 & R4 & R5).
      assert (NU : tame c (unread r2)) by (intros Em; rewrite E3; apply SO; exact (HN Em)).
      split; [rewrite EP; cbn; rewrite Eb; reflexivity|]. split; [rewrite NC; reflexivity|]. split.
      { intros Hq. destruct U2 as [U2|U2]; [|rewrite U2 in EL; discriminate]. destruct (U2 Hq) as [X1 X2]. destruct ST as (_ & _ & ->). rewrite NC. auto. }
      split; [exact R1|]. split; [exact R2|]. split.
      { pose proof (skip_lines (tame c) (c_ignempty c) _ (lines_tame c _ NU)) as X. rewrite EL in X. inversion X; subst. assumption. }
      split; [intros Em; apply R3; exact (NU Em)|]. rewrite bytes_cons.
      assert (Q4 : pos r1 = total).
      { unfold g in *. destruct (gather c d ls 0 t t e) as [T' n' more'|s n' more'] eqn:Eg; cbn [g_out g_more] in *; [exact Q3|].
        destruct (gather_more _ _ _ _ _ _ _ _ Eg) as [->|X]; [exact Q3|]. exfalso. rewrite X in Q1. rewrite E3, Q1 in EL. discriminate. }
      unfold pos in *. rewrite <- R2, lines_bytes. split; [rewrite R4, E2, E3; exact Q4|]. rewrite R5. rewrite <- Q4, <- E2, <- E3, <- R4. lia. }
  split; [exact PST|]. split; [rewrite EP; reflexivity|]. split; [rewrite EP; reflexivity|]. split; [rewrite EP; reflexivity|]. split.
  - intros EL'. unfold p_position. rewrite PR. rewrite EL' in REST. destruct REST as (_ & REST & _). rewrite REST, E2, E3. unfold pos in Q3. exact Q3.
  - split.
    2:{ intros Hm. rewrite PR. destruct ST as (_ & _ & ->). rewrite (VE Hm). destruct Eo as [->|(Em & m & m' & -> & ->)]; [reflexivity|]. unfold kept_error, after_error. rewrite Em. reflexivity. }
    unfold g in *. destruct (gather c d ls 0 t t e) as [T' n' more'|s n' more'] eqn:Eg; cbn [g_out] in *; [|exact Logic.I].
    destruct SH as [(Em & (m & Ep) & Er)|(Ep & x & Er)].
    { left. split; [|exact Em]. destruct Eo as [->|(_ & m0 & m' & -> & _)]; [|eauto]. destruct F as [(s & r0 & _ & _ & ->)|[(m0 & _ & _ & ->)|(F1 & _)]]; eauto. congruence. }
    right. intros es' W' Hes'. rewrite PR.
    assert (RO : rowok r1 /\ v_err (r_nconv r1) = v_err (r_nconv (p_rdr p))).
    { destruct F as [(s & r0 & F1 & F2 & F3)|[(m & F1 & F2 & F3)|(F1 & F2 & F3 & F4)]]; [exfalso|congruence|auto].
      assert (Hve : v_err (r_nconv r1) = v_err (r_nconv (p_rdr p))) by apply PO.
      rewrite F2 in Ep. unfold stopped in Ep. rewrite F1 in Hve. cbn [r_nconv rset_nconv] in Hve.
      destruct (c_mode c) eqn:Em; [| |discriminate]; rewrite fail_err in Hve by congruence; unfold stop_err in Hve; rewrite Em, Hv in Hve; discriminate. }
    destruct RO as [RO Hve]. destruct ST as (ST1 & _ & ST2).
    assert (CO : convok r').
    { unfold convok. rewrite ST1, ST2, Er. exact (rowok_convok r1 RO). }
    destruct (on_conv_ends c d es' r' I' CO W') as (o2 & RC & EC). exists o2. split; [|exact EC].
    eapply found_reading with (o1 := parse c cap (p_rdr p)) (r := p_rdr p) (r1 := r1); try eassumption; try congruence.
    + right. right. split; [exact Ep|]. split; [exact Hve|]. split; [exact RO|].
      rewrite M1, M2, Hmp, Hnc. rewrite MAP1, MAP2, ST1, ST2, Er in RC. exact RC.
    + apply PO.
    + exact (TAME _ _ _ eq_refl).
    + eapply gather_closed; eauto.
Qed.
End S.
