(** C46.  Values of type std::string_view: they show the row they were read from until the next row is read. *)
From Verif Require Import Base Setup SetupProofs Splitter Extract Converter ConvSpec Reader ListFacts LineProofs ReaderBase ReaderInv ReaderParse Parser ConvProofs ParserApi ParserInv ParserRows ParserOpen ParserSession SessionApi SessionSpec SafeProofs PropSafe Views.
From Verif Require MemBound PropMemory.

(** ** What a user holds *)
(** A std::string_view: a memory block, a first and a last position. *)
Record sview := mkSv { sv_block : nat; sv_begin : nat; sv_end : nat }.
(** The text seen through it, in the memory of the parser [p]; [None]: the block is no longer there, or the text is outside
    of it or was never set. *)
Definition through (p : prs) (w : sview) : option str :=
  match find (fun b => b_id b =? sv_block w)
          (flat_map (fun o => match o with Some b => [b] | None => [] end) [r_buf (p_rdr p); r_nl (p_rdr p); r_help (p_rdr p)]) with
  | Some b => range_str (b_cells b) (sv_begin w) (sv_end w)
  | None => None
  end.
(** The columns of the row read last; a std::string_view converted from a column is the column itself (extract.hpp:257-262). *)
Definition columns (p : prs) : list sview :=
  let s := v_sp (r_conv (p_rdr p)) in map (fun r => mkSv (s_blk s) (fst r) (snd r)) (s_sd s).
(** The values a call delivered, with the types they were asked for. *)
Definition delivered (k : call) (y : reply) : list (list elem * list val) :=
  match k, y with
  | CGet es, YGet (GValues vs) => [(es, vs)]
  | CTry es _ ls, YTry values _ _ =>
      flat_map (fun a => match a with (es', Some vs) => [(es', vs)] | _ => [] end)
        (combine (es :: flat_map (fun l => match l with LElse es' _ => [es'] | _ => [] end) ls) values)
  | _, _ => []
  end.
(** Calls that do not deliver a row. *)
Definition no_row (k : call) : Prop := match k with CGet _ | CTry _ _ _ => False | _ => True end.

(** ** Proof *)
Section V.
Context (c hc : cfg) (d : str) (cap : nat -> nat -> nat) (NB : nat).
Context (Hc : cfg_ok c) (Hd : nulfree d) (Hcap : enough cap) (HS : header_setup c hc).
Notation sinv := (sinv c d NB).

Definition core (p : prs) := (v_sp (r_conv (p_rdr p)), r_buf (p_rdr p)).
Definition fields_now (p : prs) := (v_map (r_conv (p_rdr p)), v_ncols (r_conv (p_rdr p))).
Definition viewed (p : prs) (es : list elem) (vs : list val) : Prop :=
  exists cols, Forall2 (holds (seen_by (r_conv (p_rdr p)) (r_buf (p_rdr p)))) (s_sd (v_sp (r_conv (p_rdr p)))) cols /\
    (s_sd (v_sp (r_conv (p_rdr p))) = [] \/ exists b, r_buf (p_rdr p) = Some b /\ s_blk (v_sp (r_conv (p_rdr p))) = b_id b) /\
    converted (v_map (r_conv (p_rdr p))) (v_ncols (r_conv (p_rdr p))) es cols (inl vs).
Lemma viewed_core p q es vs : core q = core p -> fields_now q = fields_now p -> viewed p es vs -> viewed q es vs.
Proof. unfold core, fields_now, viewed, seen_by. intros E E'. injection E as -> ->. injection E' as -> ->. exact (fun x => x). Qed.
Lemma row_viewed p es vs (v : conv) buf : row_cols c es (v_sp v) (seen_by v buf) (v_map v) (v_ncols v) (inl vs) -> v_sp (r_conv (p_rdr p)) = v_sp v -> r_buf (p_rdr p) = buf ->
  v_map (r_conv (p_rdr p)) = v_map v -> v_ncols (r_conv (p_rdr p)) = v_ncols v -> (s_sd (v_sp v) = [] \/ exists b, buf = Some b /\ s_blk (v_sp v) = b_id b) -> viewed p es vs.
Proof.
  intros (cols & F & K1 & K2) E1 E2 E3 E4 HB. exists cols. unfold seen_by in *. rewrite E1, E2, E3, E4. split; [exact F|]. split; [exact HB|]. apply K1.
  destruct (c_mode c) eqn:Em; [|destruct (s_err (v_sp v)) as [e|] eqn:Ee; [|right; reflexivity]; discriminate (K2 e ltac:(congruence) eq_refl)|left; reflexivity].
  destruct (s_err (v_sp v)) as [e|] eqn:Ee; [|right; reflexivity]. discriminate (K2 e ltac:(congruence) eq_refl).
Qed.

Lemma get_viewed p es xs p' : sinv p -> types es -> get_next c cap es p = Ok xs p' -> p_valid c p' = true -> exists vs, given xs = Some vs /\ viewed p' es vs.
Proof.
  intros SI [W W2] E V. destruct (p_eof p) eqn:He.
  { exfalso. destruct SI as ((I & PU & _) & _). assert (PE : pend c d p) by (split; [exact I|split; [exact He|apply PU; exact He]]).
    destruct (pend_next c d cap Hcap p es PE) as (q & _ & _ & _ & _ & _ & K). rewrite E in K. cbn [get_obs] in K. rewrite V in K.
    destruct (given xs); destruct (c_mode c); try discriminate; destruct K as (m & K & _); discriminate. }
  destruct SI as (P & _). destruct (get_next_live c Hc d Hd cap Hcap p es P He W) as (r1 & r2 & o & b & r' & q & SO & FD & I2 & U2 & _ & _ & EU2 & ER & EP & TD & HOW & _).
  rewrite E in TD. destruct o as [vs|m].
  2:{ exfalso. cbn in TD. unfold p_valid, err_valid in V. destruct (c_mode c); [destruct TD as (ys & X & Y)|destruct TD as (ys & X & Y)|discriminate]; injection X as _ <-; rewrite Y in V; discriminate. }
  destruct TD as [X Y]. injection X as -> <-. exists vs. split; [apply given_some|].
  destruct HOW as [(Em & (m & Ep) & _)|(Ep & x & E2)].
  { exfalso. destruct FD as [(s & r0 & _ & _ & X)|[(m' & _ & _ & X)|(X & _)]]; [discriminate|discriminate|congruence]. }
  destruct FD as [(s & r0 & _ & _ & X)|[(m' & _ & _ & X)|(_ & _ & RO & RC)]]; [discriminate|discriminate|].
  destruct (read_next_spec c d cap Hcap r2 I2) as (r3 & E3 & _ & (S1 & S2 & S3) & _). rewrite ER in E3. injection E3 as _ <-.
  destruct SO as (I1 & ST & _). destruct P as (I & _). destruct (stable_map c d _ _ I1 ST I) as [M1 M2]. rewrite <- M1, <- M2 in RC.
  eapply row_viewed; [exact RC| | | | |]; try (rewrite EP; cbn [p_rdr]; rewrite ?S1, ?S3, E2; reflexivity).
  destruct RO as (b0 & B0 & X0 & R1 & _ & [R2|R2] & _); [left; exact R2|right; exists b0; auto].
Qed.

Lemma no_row_core k p : no_row k -> permitted c cap p k -> sinv p -> core (snd (do_call c hc cap p k)) = core p.
Proof.
  assert (AS : forall p q, alikep p q -> core q = core p) by (intros p0 q0 (X & _); unfold core; rewrite X; reflexivity).
  assert (IG : forall p b q, sinv p -> ignore_next c cap p = Ok b q -> core q = core p).
  { intros p0 b q ((I & _) & _) E. unfold ignore_next, on_rdr, zoom in E. destruct (read_next_spec c d cap Hcap (p_rdr p0) I) as (r' & E1 & _ & (S1 & S2 & S3) & _).
    rewrite E1 in E. injection E as _ <-. unfold core. cbn [p_rdr pset_rdr]. rewrite S1, S3. reflexivity. }
  intros NR PM SI. destruct k as [es|es cb ls| | | |f|fs]; cbn [do_call snd no_row permitted] in *; try contradiction.
  - destruct (ignore_safe c d cap NB Hcap p PM SI) as (b & p' & E & _). rewrite E. cbn. eapply IG; eauto.
  - reflexivity.
  - pose proof (header_as c hc d Hc Hd HS p (sinv_delim _ _ _ _ SI)) as H. destruct (header c hc p); cbn in H |- *; try contradiction; auto.
  - pose proof (field_as c hc d Hc Hd HS f p (sinv_delim _ _ _ _ SI)) as H. destruct (field_exists c hc f p); cbn in H |- *; try contradiction; auto.
  - unfold use_fields.
    set (K := fun (q0 : prs) (o : res prs unit) => match o with Ok _ q | Throw _ q => core q = core q0 | _ => True end).
    enough (G : K p (use_fields c hc cap fs p)) by (unfold use_fields in G; match type of G with K _ ?o => destruct o end; cbn in *; auto).
    unfold use_fields. unfold bind at 1, p_clear_error, pupd at 1, modify at 1. unfold bind at 1, get at 1. unfold bind at 1.
    assert (SI0 : sinv (pset_err None p)) by exact SI.
    set (o1 := match p_header (pset_err None p) with [] => _ | _ => _ end).
    assert (H1 : ends_as (pset_err None p) (o1 (pset_err None p))).
    { subst o1. destruct (p_header _); [|apply ends_ret]. destruct (p_eof _); [apply ends_ret|]. eapply split_header_as; eauto. apply (sinv_delim _ _ _ _ SI0). }
    destruct (o1 (pset_err None p)) as [u p1|e p1| |]; cbn in H1; try contradiction; [|exact (AS _ _ H1)].
    assert (SI1 : sinv p1) by (destruct H1 as (H1 & H2 & _); eapply sinv_eq; eauto). assert (C1 : core p1 = core p) by exact (AS _ _ H1).
    assert (PM1 : p_line p1 <> 0 \/ skip_ok c p1) by (destruct H1 as (RE & _); unfold p_line, skip_ok, line_left in *; rewrite RE; exact PM).
    unfold bind at 1, get at 1. destruct (negb (p_valid c p1)); [exact C1|].
    destruct fs as [|f fs].
    { pose proof (p_error_as c msg_use_fields p1) as H. destruct (p_error c msg_use_fields p1); cbn in H |- *; auto; rewrite <- C1; exact (AS _ _ H). }
    destruct (find_columns_as c (f :: fs) (f :: fs) p1) as [A B]. unfold bind at 1. destruct (find_columns c (f :: fs) (f :: fs) p1) as [[mp|] p2|e p2| |]; cbn in A; try contradiction.
    2:{ cbn. rewrite <- C1. exact (AS _ _ A). }
    2:{ cbn. rewrite <- C1. exact (AS _ _ A). }
    destruct (B mp p2 eq_refl) as [-> F]. cbv zeta.
    unfold bind at 1, on_rdr at 1, zoom at 1, rupd at 1, modify at 1. unfold bind at 1, on_rdr at 1, zoom at 1, rupd at 1, modify at 1.
    pose proof (sinv_map c d NB mp _ _ F SI1) as SM.
    match goal with |- K _ (bind get ?k ?q) => change (K p (k q q)); assert (SQ : sinv q) by exact SM; assert (CQ : core q = core p) by exact C1; assert (MQ : p_line q <> 0 \/ skip_ok c q) by exact PM1; generalize dependent q end.
    intros q SQ CQ MQ. cbv beta. destruct (p_line q =? 0) eqn:EL; [|exact CQ]. apply Nat.eqb_eq in EL. destruct MQ as [MQ|MQ]; [congruence|]. destruct (ignore_safe c d cap NB Hcap q MQ SQ) as (b & q' & E & _). unfold bind. rewrite E. cbn.
    rewrite <- CQ. eapply IG; eauto.
Qed.

(** Chains: every alternative reads the same columns. *)
Definition values_viewed (p : prs) (tl : list (list elem)) (vs : list (option (list slot))) : Prop :=
  Forall2 (fun es o => match o with None => True | Some xs => exists ws, given xs = Some ws /\ viewed p es ws end) tl vs.
Lemma values_core p q tl vs : core q = core p -> fields_now q = fields_now p -> values_viewed p tl vs -> values_viewed q tl vs.
Proof.
  intros E E' F. induction F as [|es o tl vs H F IH]; constructor; [|exact IH]. destruct o; auto. destruct H as (ws & H1 & H2). exists ws. split; [exact H1|]. eapply viewed_core; eauto.
Qed.
Definition chain_ends {A} (Q : A -> prs -> Prop) (o : res chain A) : Prop := match o with Ok a (p, _) => sinv p /\ Q a p | Throw _ (p, _) => sinv p | _ => False end.
Lemma ends_chain {A B} (Q : A -> prs -> Prop) (R : B -> prs -> Prop) (m : M chain A) (k : A -> M chain B) t :
  chain_ends Q (m t) -> (forall a p l, sinv p -> Q a p -> chain_ends R (k a (p, l))) -> chain_ends R (bind m k t).
Proof. unfold bind. intros H K. destruct (m t) as [a [p l]|e [p l]| |]; try exact H. destruct H as [H1 H2]. apply K; assumption. Qed.
Definition same_row (p q : prs) : Prop := core q = core p /\ fields_now q = fields_now p.
Lemma invoke_same arg cb p l : sinv p -> chain_ends (fun _ q => same_row p q) (try_invoke c arg cb (p, l)).
Proof.
  intros SI. assert (SR : sinv p /\ same_row p p) by (split; [exact SI|split; reflexivity]). destruct cb as [|k|k f]; [exact SR|exact SR|]. unfold try_invoke, bind, log, modify. cbn [fst snd].
  destruct (f arg); [exact SR|].
  unfold on_p, zoom. cbn [fst]. pose proof (p_error_as c msg_failed_check p) as H. destruct (p_error c msg_failed_check p); cbn in *; try contradiction; destruct H as (H1 & H2 & _).
  - split; [eapply sinv_eq; eauto|]. unfold same_row, core, fields_now. rewrite H1. auto.
  - eapply sinv_eq; eauto.
Qed.
Lemma try_next_viewed es cb p l : sinv p -> types es -> chain_ends (fun vs q => values_viewed q [es] vs) (try_next c cap es cb (p, l)).
Proof.
  intros SI W. destruct (next_safe c d cap NB Hc Hd Hcap p es SI W) as [N SN]. unfold try_next.
  apply ends_chain with (Q := fun xs q => p_valid c q = true -> exists ws, given xs = Some ws /\ viewed q es ws).
  - unfold on_p, zoom. cbn [fst]. pose proof (get_viewed p es) as GV. destruct (get_next c cap es p) as [xs p'|e p'| |]; cbn in *; auto; try congruence.
  - intros xs p1 l1 S1 G1. unfold bind at 1, get at 1. cbn [fst].
    apply ends_chain with (Q := fun _ q => p_valid c q = true -> exists ws, given xs = Some ws /\ viewed q es ws).
    { destruct (p_valid c p1) eqn:V1; [|cbn; split; [exact S1|congruence]]. pose proof (invoke_same xs cb p1 l1 S1) as H.
      destruct (try_invoke c xs cb (p1, l1)) as [a [q lq]|e [q lq]| |]; cbn in *; try contradiction; auto. destruct H as [H1 [H2 H3]]. split; [exact H1|].
      intros _. destruct (G1 eq_refl) as (ws & X1 & X2). exists ws. split; [exact X1|]. eapply viewed_core; eauto. }
    intros u p2 l2 S2 G2. unfold bind, get, ret. cbn. split; [exact S2|]. constructor; [|constructor]. destruct (p_valid c p2); auto.
Qed.
Lemma chain_both {A} (Q R : A -> prs -> Prop) o : chain_ends Q o -> chain_ends R o -> chain_ends (fun a p => Q a p /\ R a p) o.
Proof. destruct o as [a [p l]|e [p l]| |]; cbn; tauto. Qed.
Lemma viewed_filled p tl vs : values_viewed p tl vs -> filled vs.
Proof.
  unfold filled. induction 1 as [|es o tl vs H F IH]; cbn; [discriminate|]. destruct o as [xs|].
  - destruct H as (ws & -> & _). destruct (all_given vs); congruence.
  - destruct (all_given vs); congruence.
Qed.
Lemma or_else_viewed vs tl es cb p l : ready c p -> sinv p -> types es -> values_viewed p tl vs -> chain_ends (fun vs' q => values_viewed q (tl ++ [es]) vs') (or_else c vs es cb (p, l)).
Proof.
  intros MR SI [W _] FV. unfold or_else. unfold bind at 1, get at 1. cbn [fst].
  apply ends_chain with (Q := fun o q => same_row p q /\ match o with None => True | Some xs => exists ws, given xs = Some ws /\ viewed q es ws end).
  - destruct (p_valid c p) eqn:V; [split; [exact SI|split; [split; reflexivity|exact Logic.I]]|].
    assert (Ht : c_mode c <> EThrow) by (intros X; unfold p_valid in V; rewrite X in V; discriminate).
    destruct MR as [X|G1]; [congruence|].
    apply ends_chain with (Q := fun xs q => same_row p q /\ (p_valid c q = true -> exists ws, given xs = Some ws /\ viewed q es ws)).
    + pose proof SI as ((I & PU & PF) & CA & LN0). unfold present in G1.
      destruct (on_conv_ends c d es (p_rdr p) I (good_convok _ G1) W) as (o & RC & EC).
      assert (SV : forall x e, sinv (pset_err e (pset_rdr (rset_conv (vup_err x (r_conv (p_rdr p))) (p_rdr p)) p))).
      { intros x e. split.
        - split; [|split; [exact PU|exact PF]]. cbn [p_rdr pset_err pset_rdr]. apply rinv_conv; auto. destruct (i_conv _ _ _ I) as (A & B & C & D). repeat split; assumption.
        - split; [|exact LN0]. intros CM. destruct (CA CM) as (BG & _ & G2). split; [exact BG|]. split; [exact G1|exact G2]. }
      unfold on_p, zoom. cbn [fst]. remember (try_same c es p) as o' eqn:Eo. unfold try_same in Eo. unfold bind at 1, p_clear_error, pupd, modify in Eo. unfold bind at 1 in Eo. unfold on_rdr at 1, zoom at 1 in Eo.
      change (p_rdr (pset_err None p)) with (p_rdr p) in Eo. destruct o as [ws|m].
      * rewrite EC in Eo. unfold bind at 1, get at 1 in Eo. change (r_conv (p_rdr (pset_rdr (rset_conv (vup_err None (r_conv (p_rdr p))) (p_rdr p)) (pset_err None p)))) with (vup_err None (r_conv (p_rdr p))) in Eo.
        replace (cv_valid c (vup_err None (r_conv (p_rdr p)))) with true in Eo by (unfold cv_valid, err_valid; destruct (c_mode c); reflexivity). cbn [negb] in Eo. unfold bind, ret in Eo.
        rewrite Eo. cbn. split; [apply (SV None None)|]. split; [repeat split|]. intros _. exists ws. split; [apply given_some|].
        eapply row_viewed; [exact RC| | | | |]; try reflexivity.
        destruct G1 as [G1|(b0 & B0 & X0 & Q1 & _ & Q2 & _)]; [left; exact G1|right; exists b0; auto].
      * destruct (c_mode c) eqn:Em; [| |congruence]; destruct EC as (xs & EC); rewrite EC in Eo; unfold bind at 1, get at 1 in Eo;
        change (r_conv (p_rdr (pset_rdr (rset_conv (vup_err (after_error c m) (r_conv (p_rdr p))) (p_rdr p)) (pset_err None p)))) with (vup_err (after_error c m) (r_conv (p_rdr p))) in Eo;
        replace (cv_valid c (vup_err (after_error c m) (r_conv (p_rdr p)))) with false in Eo by (unfold cv_valid, err_valid, after_error; rewrite Em; reflexivity); cbn [negb] in Eo;
        unfold bind at 1, handle_error_invalid_conversion in Eo; rewrite Em in Eo; unfold bind at 1, get at 1, pupd at 1, modify at 1 in Eo; unfold ret in Eo; rewrite Eo; cbn -[S2 dec];
        (split; [apply (SV (after_error c m) _)|]); (split; [repeat split|]); unfold p_valid; rewrite Em; discriminate.
    + clear G1. intros xs p1 l1 S1 [R1 G1]. unfold bind at 1, get at 1. cbn [fst]. destruct (p_valid c p1) eqn:V1; cbn [negb]; [|cbn; auto].
      apply ends_chain with (Q := fun _ q => same_row p1 q); [apply invoke_same; exact S1|]. intros u p2 l2 S2 [R2 R3]. cbn. split; [exact S2|].
      destruct R1 as [R1 R1']. split; [split; congruence|]. destruct (G1 eq_refl) as (ws & X1 & X2). exists ws. split; [exact X1|]. eapply viewed_core; eauto.
  - intros o p1 l1 S1 [[R1 R2] G1]. unfold bind, get, ret. cbn. split; [exact S1|]. apply Forall2_app; [eapply values_core; eauto|]. constructor; [|constructor]. destruct (p_valid c p1); auto.
Qed.
Definition link_types (ls : list link) : list (list elem) := flat_map (fun l => match l with LElse es' _ => [es'] | _ => [] end) ls.
Lemma links_viewed : forall ls vs tl p l, (has_else ls -> ready c p) -> sinv p -> values_viewed p tl vs ->
  Forall (fun l => match l with LElse es' _ => types es' | LOnError _ => True end) ls -> chain_ends (fun vs' q => values_viewed q (tl ++ link_types ls) vs') (follow_links c vs ls (p, l)).
Proof.
  induction ls as [|k ls IH]; intros vs tl p l MR SI FV W; [cbn; rewrite app_nil_r; auto|]. inversion W as [|? ? W1 W2]; subst. cbn [follow_links]. destruct k as [es cb|k]; cbn [link_types flat_map].
  - assert (RP : ready c p) by (apply MR; constructor; exact Logic.I).
    apply ends_chain with (Q := fun vs' q => values_viewed q (tl ++ [es]) vs' /\ (filled vs' /\ ready c q)); [apply chain_both; [apply or_else_viewed; auto|apply or_else_safe; auto; eapply viewed_filled; eauto]|].
    intros vs' p' l' S' (F' & _ & R'). change (flat_map (fun l => match l with LElse es' _ => [es'] | _ => [] end) ls) with (link_types ls). cbn [app].
    replace (tl ++ es :: link_types ls) with ((tl ++ [es]) ++ link_types ls) by (rewrite <- app_assoc; reflexivity). apply IH; auto.
  - assert (MR' : has_else ls -> ready c p) by (intros X; apply MR; right; exact X).
    unfold bind at 1. unfold on_error. unfold bind at 1, get at 1. destruct (p_valid c _); apply IH; auto.
Qed.
Lemma all_given_in es tl : forall vs r, all_given vs = Some r -> forall ws p, values_viewed p tl vs ->
  In (es, ws) (flat_map (fun a => match a with (es', Some vs) => [(es', vs)] | _ => [] end) (combine tl r)) -> viewed p es ws.
Proof.
  induction tl as [|t tl IH]; intros vs r E ws p F H; [contradiction|]. inversion F as [|? o ? vs' H1 F']; subst. cbn in E.
  destruct o as [xs|].
  - destruct H1 as (ws1 & G & V). rewrite G in E. destruct (all_given vs') as [r'|] eqn:E'; [|discriminate]. injection E as <-. cbn in H.
    destruct H as [H|H]; [injection H as <- <-; exact V|]. eapply IH; eauto.
  - destruct (all_given vs') as [r'|] eqn:E'; [|discriminate]. injection E as <-. cbn in H. eapply IH; eauto.
Qed.
Lemma delivered_viewed k p es ws : permitted c cap p k -> call_ok k -> sinv p -> In (es, ws) (delivered k (fst (do_call c hc cap p k))) ->
  viewed (snd (do_call c hc cap p k)) es ws.
Proof.
  intros PM KO SI H. destruct k as [es0|es0 cb ls| | | |f|fs]; cbn [do_call fst snd delivered] in *; try contradiction.
  - destruct (get_next c cap es0 p) as [xs p'|m p'| |] eqn:E; try contradiction. cbn [get_obs after] in *. destruct (p_valid c p') eqn:V; [|contradiction].
    destruct (get_viewed p es0 xs p' SI KO E V) as (vs & G & X). rewrite G in H. destruct H as [H|[]]. injection H as <- <-. exact X.
  - destruct KO as [W WL].
    assert (CE : chain_ends (fun vs' q => values_viewed q ([es0] ++ link_types ls) vs') (chain_call c cap es0 cb ls (p, []))).
    { unfold chain_call. apply ends_chain with (Q := fun vs' q => values_viewed q [es0] vs' /\ (filled vs' /\ (retry_ok c cap p -> ready c q))); [apply chain_both; [apply try_next_viewed; auto|eapply try_next_safe; eauto]|]. intros vs p' l' S' (F' & _ & R'). apply links_viewed; auto. }
    destruct (chain_call c cap es0 cb ls (p, [])) as [vs [p' l]|m [p' l]| |]; cbn in CE, H |- *; try contradiction.
    destruct CE as [_ F]. destruct (all_given vs) as [r|] eqn:E; [|contradiction]. eapply all_given_in; [exact E|exact F|exact H].
Qed.

Lemma later_core : forall ks p, Forall no_row ks -> Forall call_ok ks -> all_covered c hc cap p ks -> sinv p -> core (later c hc cap p ks) = core p.
Proof.
  induction ks as [|k ks IH]; intros p N K P SI; [reflexivity|]. inversion N; inversion K; subst. destruct P as [P1 P2]. apply now_permitted in P1. cbn [later].
  destruct (call_safe c hc d cap NB Hc Hd Hcap HS k p) as [_ B]; auto. rewrite IH; auto. apply no_row_core; auto.
Qed.
Lemma viewed_through p es vs q : viewed p es vs -> core q = core p -> exists cols,
  converted (v_map (r_conv (p_rdr p))) (v_ncols (r_conv (p_rdr p))) es cols (inl vs) /\ Forall2 (fun w s => through q w = Some s) (columns p) cols.
Proof.
  intros (cols & F & HB & K) E. exists cols. split; [exact K|]. injection E as E1 E2. unfold columns. cbv zeta. destruct HB as [HB|(b & Hb & HB)].
  - rewrite HB in *. inversion F; subst. constructor.
  - unfold seen_by in F. rewrite Hb, HB, Nat.eqb_refl in F. rewrite HB. clear K. induction F as [|r s rs cols [H _] F IH]; cbn [map]; constructor; [|exact IH].
    unfold through. rewrite E2, Hb. cbn [flat_map app find sv_block sv_begin sv_end]. rewrite Nat.eqb_refl. exact H.
Qed.
End V.

(** The column the [i]-th of the converted values comes from: the [i]-th column, or the one selected by use_fields. *)
Definition column_of (p : prs) (i : nat) : option sview :=
  match v_map (r_conv (p_rdr p)) with
  | [] => nth_error (columns p) i
  | positions => match nth_error positions i with Some j => nth_error (columns p) j | None => None end
  end.
(** In any state of the parser, however it came about, and for any setup: if a call [k] delivers the values [vs] for the types
    [es], then these are the conversions of texts [ps]; the view of each column, which is what a std::string_view value is,
    has the length of its text, shows the text when the call returns, and still does after any calls that do not read a row.  (Through an
    empty view nothing is seen.) *)
Theorem C46_views_until_the_next_row : forall c hc cap p k es vs ks',
  call_ok k -> In (es, vs) (delivered k (fst (do_call c hc cap p k))) -> Forall no_row ks' ->
  let p' := snd (do_call c hc cap p k) in
  exists ps, row_ok es ps vs /\
    forall i e s, nth_error es i = Some e -> e <> EVoid -> nth_error ps i = Some s ->
      exists w, column_of p' i = Some w /\ sv_begin w + length s = sv_end w /\
        (s <> [] -> through p' w = Some s /\ through (later c hc cap p' ks') w = Some s).
Proof.
  intros c hc cap p k es vs ks' KO D NR p'.
  assert (FR : from_row p' es vs).
  { subst p'. destruct k as [es0|es0 cb ls| | | |f|fs]; cbn [do_call fst snd delivered] in *; try contradiction.
    - pose proof (get_row c cap es0 p (proj1 KO)) as G. destruct (get_next c cap es0 p) as [xs q|m q| |]; try contradiction. cbn [get_obs after ok_to] in *. destruct (p_valid c q); [|contradiction].
      destruct (G eq_refl) as (ws & -> & F). rewrite given_some in D. destruct D as [D|[]]. injection D as <- <-. exact F.
    - destruct KO as [KO1 KO2].
      assert (CR : ok_to (fun vs' t' => rows_of_values (fst t') ([es0] ++ types_of_links ls) vs') (chain_call c cap es0 cb ls (p, []))).
      { unfold chain_call. eapply ok_bind; [apply try_row; apply KO1|]. intros vs' t' F. apply links_row; auto. }
      destruct (chain_call c cap es0 cb ls (p, [])) as [vs' [q l]|m [q l]| |]; cbn [fst snd] in *; try contradiction. cbn [ok_to fst] in CR. destruct (all_given vs') as [r|] eqn:E; [|contradiction].
      eapply in_rows; [exact E|exact CR|exact D]. }
  assert (KC : kc p' (later c hc cap p' ks')).
  { clearbody p'. clear - NR. revert p' NR. induction ks' as [|k ks IH]; intros q NR; [split; reflexivity|]. inversion NR as [|? ? N1 N2]; subst. cbn [later].
    eapply kc_trans; [|apply IH; exact N2]. clear IH N2.
    assert (AF : forall A (o : res prs A), Ends.ends (fun _ q' => kc q q') (kc q) o -> kc q (after q o)) by (intros A [a s|e s| |] H; cbn in *; auto; split; reflexivity).
    destruct k as [es|es cb ls| | | |f|fs]; cbn [no_row do_call snd] in *; try contradiction; apply AF.
    - apply kc_ends. apply keepsp_ignore.
    - split; reflexivity.
    - apply kc_ends. apply keepsp_quiet. apply PropMemory.quiet_header.
    - apply kc_ends. apply keepsp_quiet. apply PropMemory.quiet_field.
    - apply use_kc. }
  destruct FR as (ps & RO & K). exists ps. split; [exact RO|]. intros i e s H1 H2 H3. destruct (K i e s H1 H2 H3) as (j & r & A1 & A2 & A3).
  exists (mkSv (s_blk (v_sp (r_conv (p_rdr p')))) (fst r) (snd r)).
  assert (CN : nth_error (columns p') j = Some (mkSv (s_blk (v_sp (r_conv (p_rdr p')))) (fst r) (snd r))) by (unfold columns; cbv zeta; rewrite nth_error_map, A2; reflexivity).
  split; [|split].
  - unfold column_of. unfold at_ in A1. destruct (v_map _); [injection A1 as <-; exact CN|]. rewrite A1. exact CN.
  - cbn [sv_begin sv_end]. clear - A3. apply range_str_bound in A3 as (? & ? & ?). lia.
  - intros NE. destruct KC as [E1 E2]. unfold seen_by in A3. destruct (r_buf (p_rdr p')) as [b|] eqn:Eb.
    + destruct (s_blk (v_sp (r_conv (p_rdr p'))) =? b_id b) eqn:Ei.
      * apply Nat.eqb_eq in Ei. unfold through. rewrite E1, Eb. cbn [flat_map app find sv_block sv_begin sv_end]. rewrite Ei, Nat.eqb_refl. auto.
      * exfalso. apply NE. apply range_str_bound in A3 as (X1 & X2 & X3). cbn [length] in X2. destruct s; [reflexivity|]. cbn [length] in X3. lia.
    + exfalso. apply NE. apply range_str_bound in A3 as (X1 & X2 & X3). cbn [length] in X2. destruct s; [reflexivity|]. cbn [length] in X3. lia.
Qed.
Print Assumptions C46_views_until_the_next_row.

(** Under the conditions of C41, for every column of the row, converted or not.
    Whatever was done before, and however a call [k] came to deliver the values [vs] for the types [es]: they are the
    conversions of texts [cols], the columns of the parser are views of these texts, and remain so during any calls that
    do not read a row: ignore_next, header, raw_header, field_exists, use_fields. *)
Theorem C46_every_column : forall c hc cap d data p0 ks k es vs ks',
  cfg_ok c -> header_setup c hc -> ~ In NUL d -> enough cap -> header_ok c data ->
  opened_any c cap d data p0 -> Forall call_ok (ks ++ k :: ks') -> all_covered c hc cap p0 (ks ++ k :: ks') ->
  let p := later c hc cap p0 ks in
  In (es, vs) (delivered k (fst (do_call c hc cap p k))) -> Forall no_row ks' ->
  let p' := snd (do_call c hc cap p k) in
  exists cols, converted (v_map (r_conv (p_rdr p'))) (v_ncols (r_conv (p_rdr p'))) es cols (inl vs) /\
    Forall2 (fun w s => through p' w = Some s) (columns p') cols /\
    Forall2 (fun w s => through (later c hc cap p' ks') w = Some s) (columns p') cols.
Proof.
  intros c hc cap d data p0 ks k es vs ks' Hc HS Hd Hcap Hh O KO KP p D NR p'.
  assert (Hd' : nulfree d) by (intros X; apply Hd; exact X).
  assert (SI : sinv c d (S (length data)) p0) by (eapply opened_any_safe; eauto). clear O.
  apply Forall_app in KO as [KO1 KO2]. inversion KO2 as [|? ? KO3 KO4]; subst.
  assert (SP : sinv c d (S (length data)) p /\ all_covered c hc cap p (k :: ks')).
  { subst p. clear D p' KO2. revert p0 SI KP. induction ks as [|k0 ks IH]; intros p0 SI KP; [auto|]. inversion KO1; subst. destruct KP as [KP1 KP2]. cbn [later].
    destruct (call_safe c hc d cap (S (length data)) Hc Hd' Hcap HS k0 p0) as [_ B]; auto using now_permitted. }
  destruct SP as [SP [KP3 PK]]. apply now_permitted in KP3. fold p' in PK.
  destruct (call_safe c hc d cap (S (length data)) Hc Hd' Hcap HS k p) as [_ B]; auto. fold p' in B.
  pose proof (delivered_viewed c hc d cap (S (length data)) Hc Hd' Hcap k p es vs KP3 KO3 SP D) as V. fold p' in V.
  pose proof (later_core c hc d cap (S (length data)) Hc Hd' Hcap HS ks' p' NR KO4 PK B) as LC.
  destruct (viewed_through p' es vs p' V eq_refl) as (cols & K1 & K2). destruct (viewed_through p' es vs _ V LC) as (cols' & K3 & K4).
  exists cols. split; [exact K1|]. split; [exact K2|].
  destruct V as (cols0 & F & HB & K). injection LC as E1 E2.
  assert (cols = cols') as <-; [|exact K4].
  assert (G : forall l q x y, core q = core p' -> Forall2 (fun w s => through p' w = Some s) l x -> Forall2 (fun w s => through q w = Some s) l y -> Forall (fun w => exists b, r_buf (p_rdr p') = Some b /\ sv_block w = b_id b) l -> x = y).
  { clear. induction l as [|w l IH]; intros q x y EC X Y Z; inversion X as [|? ? ? ? X1 X2]; inversion Y as [|? ? ? ? Y1 Y2]; inversion Z as [|? ? Z1 Z2]; subst; [reflexivity|]. f_equal; [|eapply IH; eauto].
    destruct Z1 as (b & Hb & HB). injection EC as _ EB. unfold through in *. rewrite EB, Hb in *. cbn [flat_map app find] in *. rewrite HB, Nat.eqb_refl in *. congruence. }
  eapply G; [|exact K2|exact K4|]; [unfold core; congruence|]. unfold columns. cbv zeta. destruct HB as [->|(b & Hb & HB)]; [constructor|].
  apply Forall_forall. intros w Hw. apply in_map_iff in Hw as (r & <- & _). exists b. auto.
Qed.
Print Assumptions C46_every_column.

(** ** Examples *)
Definition v_plain : cfg := mkCfg (Some """"%char) [] [] [] false 0 EString false false.
Definition v_get : call := CGet [EVal TString; EVal TString].
Definition v_data : str := S2 "a,b" ++ [LF] ++ S2 """one"",two" ++ [LF] ++ S2 "uno,dos" ++ [LF] ++ S2 "eins,zwei".
(** After the second row was read, other calls do not change what its columns show. *)
Example C46_example : exists p0,
  setup [OQuote """"%char; OStringError] = Some v_plain /\ opened_any v_plain tight (S2 ",") v_data p0 /\
  let p' := later v_plain (header_cfg v_plain) tight p0 [v_get; v_get] in
  let q := later v_plain (header_cfg v_plain) tight p' [CIgnore; CHeader; CField (S2 "a"); CUse [S2 "b"]] in
  map (through p') (columns p') = [Some (S2 "one"); Some (S2 "two")] /\ map (through q) (columns p') = [Some (S2 "one"); Some (S2 "two")] /\
  fst (do_call v_plain (header_cfg v_plain) tight (later v_plain (header_cfg v_plain) tight p0 [v_get]) v_get) = YGet (GValues [VStr (S2 "one"); VStr (S2 "two")]) /\
  Forall (covered_call v_plain) [v_get; v_get; CIgnore; CHeader; CField (S2 "a"); CUse [S2 "b"]] /\
  Forall call_ok [v_get; v_get; CIgnore; CHeader; CField (S2 "a"); CUse [S2 "b"]].
Proof.
  eexists. split; [reflexivity|]. split; [eapply oa_buffer; vm_compute; reflexivity|].
  cbv zeta. split; [vm_compute; reflexivity|]. split; [vm_compute; reflexivity|]. split; [vm_compute; reflexivity|].
  split.
  - repeat constructor; cbn; discriminate.
  - repeat constructor; cbn; try lia; try discriminate.
Qed.
(** Reading rows does: the two line buffers are used in turn, so a kept view then shows a piece of another row,
    or even text that belongs to no row at all. *)
Example C46_after_the_next_row : exists p0,
  opened_any v_plain tight (S2 ",") v_data p0 /\
  let p' := later v_plain (header_cfg v_plain) tight p0 [v_get; v_get] in
  let q n := later v_plain (header_cfg v_plain) tight p' (repeat v_get n) in
  map (through (q 0)) (columns p') = [Some (S2 "one"); Some (S2 "two")] /\
  map (through (q 1)) (columns p') = [Some (S2 "ins"); Some (S2 "wei")].
Proof.
  eexists. split; [eapply oa_buffer; vm_compute; reflexivity|]. split; vm_compute; reflexivity.
Qed.
(** Columns selected by use_fields, values from the second alternative of a chain. *)
Definition v_chain : call := CTry [EVal (TInt (mkIty true 32))] CbNone [LElse [EVal TView] CbNone].
Example C46_example_mapped : exists p0,
  opened_any v_plain tight (S2 ",") v_data p0 /\
  let p := later v_plain (header_cfg v_plain) tight p0 [CUse [S2 "b"]] in
  let p' := snd (do_call v_plain (header_cfg v_plain) tight p v_chain) in
  delivered v_chain (fst (do_call v_plain (header_cfg v_plain) tight p v_chain)) = [([EVal TView], [VView (S2 "two")])] /\
  call_ok v_chain /\ column_of p' 0 = Some (mkSv (s_blk (v_sp (r_conv (p_rdr p')))) 6 9) /\
  option_map (through p') (column_of p' 0) = Some (Some (S2 "two")) /\
  option_map (through (later v_plain (header_cfg v_plain) tight p' [CIgnore; CUse [S2 "a"]; CHeader])) (column_of p' 0) = Some (Some (S2 "two")).
Proof.
  eexists. split; [eapply oa_buffer; vm_compute; reflexivity|]. cbv zeta. split; [vm_compute; reflexivity|]. split.
  - repeat constructor; cbn; try lia; try discriminate.
  - split; [vm_compute; reflexivity|]. split; vm_compute; reflexivity.
Qed.
