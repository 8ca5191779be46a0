(** What a call that came back has read, and what calls that do not read a row leave alone; for any state of the parser. *)
From Verif Require Import Base Setup Splitter Extract Converter ConvSpec Reader ListFacts ExtractProofs Parser ConvProofs NoThrow ParserApi SessionApi MemBound PropMemory.

(** ** Conversion *)
Lemma extract_more m m' b e s : range_str m b e = Some s -> range_str m' b e = Some s -> (forall x, rd m b = Some x -> rd m' b = Some x) ->
  forall t y, extract m (b, e) t = Some y -> extract m' (b, e) t = Some y.
Proof.
  intros H1 H2 H3 t. induction t as [i|i|f| | | | |t IH|ts IH|f] using ty_rect'; intros y; cbn [extract]; rewrite H1, H2; try exact (fun x => x).
  - destruct (rd m b) as [x|]; [|discriminate]. rewrite (H3 x eq_refl). exact (fun x => x).
  - destruct (extract m (b, e) t) as [[[] [x|]]|]; try discriminate; rewrite (IH _ eq_refl); exact (fun x => x).
  - generalize 0 at 1 2 as i. induction ts as [|t ts IHs]; intros i; [exact (fun x => x)|]. inversion IH as [|? ? I1 I2]; subst.
    destruct (extract m (b, e) t) as [[[] [x|]]|]; try discriminate; rewrite (I1 _ eq_refl); try exact (fun x => x); apply IHs; exact I2.
Qed.
Lemma unopt_firstn0 (m : cells) b : range_str m b b = if b <=? length m then Some [] else None.
Proof. unfold range_str. rewrite Nat.leb_refl, Nat.sub_diag. cbn [firstn andb]. destruct (b <=? length m); reflexivity. Qed.
(** A readable memory in which nothing that was readable has changed. *)
Lemma readable_ext m b e s : range_str m b e = Some s -> exists m', range_str m' b e = Some s /\ (forall x, rd m b = Some x -> rd m' b = Some x) /\ readable m' (b, e).
Proof.
  intros H. destruct (rd m b) as [x|] eqn:Er.
  - exists m. split; [exact H|]. split; [intros y Hy; congruence|]. intros _. exists x. exact Er.
  - destruct (Nat.eq_dec b e) as [<-|N]; [|exists m; split; [exact H|split; [congruence|intros X; cbn in X; contradiction]]].
    rewrite unopt_firstn0 in H. destruct (b <=? length m) eqn:L; [|discriminate]. apply Nat.leb_le in L. injection H as <-.
    exists (firstn b m ++ [Some NUL]). split; [rewrite unopt_firstn0, app_length, firstn_length; cbn [length]; replace (b <=? Nat.min b (length m) + 1) with true by (symmetry; apply Nat.leb_le; lia); reflexivity|].
    split; [discriminate|]. intros _. exists NUL. cbn [fst]. unfold rd. rewrite nth_error_app2 by (rewrite firstn_length; lia). rewrite firstn_length, Nat.min_l by lia. rewrite Nat.sub_diag. reflexivity.
Qed.

Section Conv.
Context (c : cfg).
Lemma cv_valid_none v : v_err v = None -> cv_valid c v = true. Proof. intros H. unfold cv_valid, err_valid. rewrite H. destruct (c_mode c); reflexivity. Qed.
Lemma one_more e r n v m m' x st : e <> EVoid -> range_str m' (fst r) (snd r) = range_str m (fst r) (snd r) -> (forall y, rd m (fst r) = Some y -> rd m' (fst r) = Some y) ->
  extract_one c e None r n (v, m) = Ok x st -> exists st', extract_one c e None r n (v, m') = Ok x st' /\ fst st' = fst st.
Proof.
  intros He H1 H2 E. unfold extract_one, bind at 1, vget in E. unfold extract_one, bind at 1, vget. cbn [fst snd] in *.
  assert (RT : forall (y : slot) q0, ret y (v, m) = Ok x q0 -> exists st', ret y (v, m') = Ok x st' /\ fst st' = fst q0).
  { intros y q0. unfold ret. intros X. injection X as <- <-. eexists. split; reflexivity. }
  unfold gets at 1 in E. unfold gets at 1. cbn [fst] in *.
  destruct (negb (cv_valid c v)); [apply RT; exact E|].
  unfold bind at 1, gets in E. unfold bind at 1, gets. cbn [snd] in *.
  assert (CE : forall msg (y : slot) q0, bind (cv_error c msg) (fun _ => ret y) (v, m) = Ok x q0 -> exists st', bind (cv_error c msg) (fun _ => ret y) (v, m') = Ok x st' /\ fst st' = fst q0).
  { intros msg y q0. unfold cv_error, bind, ret, vupd, modify, throw. destruct (c_mode c); cbn; try discriminate; intros X; injection X as <- <-; eexists; split; reflexivity. }
  assert (K : forall t, match extract m r t with Some y => match range_str m (fst r) (snd r) with Some _ => extract m' r t = Some y | None => True end | None => True end).
  { intros t. destruct r as [b e0]. cbn [fst snd] in *. clear E. destruct (range_str m b e0) as [s|] eqn:Er; [|destruct (extract m (b, e0) t); exact Logic.I]. destruct (extract m (b, e0) t) as [y|] eqn:Ex; [|exact Logic.I]. exact (extract_more m m' b e0 s Er H1 H2 t y Ex). }
  destruct e as [|t|t r0]; [congruence| |]; specialize (K t); rewrite H1; (destruct (extract m r t) as [[ok stored]|]; [|discriminate]); (destruct (range_str m (fst r) (snd r)) as [s|]; [|discriminate]); rewrite K; cbv zeta in *.
  - destruct ok; [apply RT; exact E|]. destruct t; try (apply CE; exact E); apply RT; exact E.
  - destruct ok; [|apply CE; exact E]. destruct stored as [y|]; [|discriminate]. destruct (ss_valid _ _ _); [apply RT; exact E|apply CE; exact E].
Qed.
(** An element converted without an error: the text of its column was acceptable. *)
Lemma one_ok e r n v m x v' m' : e <> EVoid -> wfelem e -> v_err v = None -> extract_one c e None r n (v, m) = Ok x (v', m') -> cv_valid c v' = true ->
  v' = v /\ exists s y, range_str m (fst r) (snd r) = Some s /\ x = Some y /\ col_ok e s (Some y).
Proof.
  intros He W Hv E V. destruct (range_str m (fst r) (snd r)) as [s|] eqn:Er.
  2:{ exfalso. destruct r as [b0 e0]. cbn [fst snd] in Er. unfold extract_one, bind, vget, gets in E. cbn [fst snd] in E. rewrite (cv_valid_none v Hv) in E. cbn [negb] in E.
      destruct e as [|t|t r0]; [congruence| |]; cbn [fst snd] in E; rewrite Er in E; destruct (extract m (b0, e0) t) as [[? ?]|]; discriminate. }
  destruct r as [b e0]. cbn [fst snd] in *. destruct (readable_ext m b e0 s Er) as (m1 & R1 & R2 & R3).
  destruct (one_more e (b, e0) n v m m1 x (v', m') He ltac:(cbn [fst snd]; congruence) ltac:(exact R2) E) as (st & E1 & E2).
  cbn [fst] in E2. destruct (extract_one_cases c v m1 e (b, e0) s n Hv (conj R1 R3) W He) as [(y & K1 & K2)|(msg & K1 & K2)].
  - rewrite K2 in E1. injection E1 as <- <-. cbn in E2. split; [congruence|]. exists s, y. auto.
  - exfalso. rewrite E1 in K2. unfold cv_valid, err_valid, after_error in *. destruct (c_mode c) eqn:Em; [destruct K2 as (x' & K2)|destruct K2 as (x' & K2)|discriminate].
    + injection K2 as _ ->. cbn in E2. subst v'. discriminate.
    + injection K2 as _ ->. cbn in E2. subst v'. discriminate.
Qed.
Lemma one_frozen e r n v m x st : cv_valid c v = false -> extract_one c e None r n (v, m) = Ok x st -> st = (v, m).
Proof. intros V. unfold extract_one, bind at 1, vget, gets at 1. cbn [fst]. rewrite V. cbn [negb]. unfold ret. intros E. injection E as _ <-. reflexivity. Qed.
Lemma multiple_frozen elems : forall es n v m xs st, cv_valid c v = false -> extract_multiple c n es elems (v, m) = Ok xs st -> st = (v, m).
Proof.
  induction es as [|e es IH]; intros n v m xs st V E; cbn [extract_multiple] in E; [unfold ret in E; injection E as _ <-; reflexivity|].
  destruct e as [|t|t r0]; [eapply IH; eauto| |]; unfold bind at 1, vget, gets in E; cbn [fst] in E; (destruct (column_position v n); [|discriminate]); (destruct (nth_error elems _); [|discriminate]); unfold bind at 1 in E;
    (match type of E with match ?o with _ => _ end = _ => destruct o as [x s1| | |] eqn:E1; try discriminate end); apply one_frozen in E1; auto; subst s1; unfold bind at 1 in E;
    (match type of E with match ?o with _ => _ end = _ => destruct o as [x' s2| | |] eqn:E2; try discriminate end); apply IH in E2; auto; unfold ret in E; injection E as _ <-; exact E2.
Qed.
(** [at_ mp i]: the column the [i]-th element is taken from. *)
Definition at_ (mp : list nat) (i : nat) : option nat := match mp with [] => Some i | _ => nth_error mp i end.
Lemma multiple_ok elems : forall es n v m xs v' m', Forall wfelem es -> v_err v = None -> extract_multiple c n es elems (v, m) = Ok xs (v', m') -> cv_valid c v' = true ->
  v' = v /\ exists ps vs, xs = map Some vs /\ row_ok es ps vs /\
    forall i e s, nth_error es i = Some e -> e <> EVoid -> nth_error ps i = Some s ->
      exists j r, at_ (v_map v) (n + i) = Some j /\ nth_error elems j = Some r /\ range_str m (fst r) (snd r) = Some s.
Proof.
  induction es as [|e es IH]; intros n v m xs v' m' W Hv E V; cbn [extract_multiple] in E.
  { unfold ret in E. injection E as <- <- <-. split; [reflexivity|]. exists [], []. split; [reflexivity|]. split; [constructor|]. intros [|i]; discriminate. }
  inversion W as [|? ? W1 W2]; subst.
  assert (VOID : e = EVoid \/ e <> EVoid) by (destruct e; [left; reflexivity|right; discriminate..]). destruct VOID as [->|He].
  { destruct (IH (S n) v m xs v' m' W2 Hv E V) as (-> & ps & vs & -> & RO & K). split; [reflexivity|]. exists ([] :: ps), vs. split; [reflexivity|]. split; [constructor; [constructor|exact RO]|].
    intros [|i] e s; cbn [nth_error]; [congruence|]. rewrite Nat.add_succ_r. apply K. }
  assert (E' : bind (vget (fun v => v)) (fun v0 => match column_position v0 n with Some p => match nth_error elems p with Some r => bind (extract_one c e None r n) (fun x => bind (extract_multiple c (S n) es elems) (fun xs => ret (x :: xs))) | None => ub "converter: elems[] out of range" end | None => ub "converter: column_mappings_[] out of range" end) (v, m) = Ok xs (v', m')) by (destruct e; [congruence|exact E|exact E]).
  clear E. unfold bind at 1, vget, gets in E'. cbn [fst] in E'. destruct (column_position v n) as [j|] eqn:Ej; [|discriminate]. destruct (nth_error elems j) as [r|] eqn:En; [|discriminate]. unfold bind at 1 in E'.
  destruct (extract_one c e None r n (v, m)) as [x [v1 m1]| | |] eqn:E1; try discriminate. unfold bind at 1 in E'.
  destruct (extract_multiple c (S n) es elems (v1, m1)) as [xs' [v2 m2]| | |] eqn:E2; try discriminate. unfold ret in E'. injection E' as <- <- <-.
  destruct (cv_valid c v1) eqn:V1.
  2:{ apply multiple_frozen in E2; [|exact V1]. injection E2 as -> ->. congruence. }
  pose proof (oe_one c e None r n v m) as OE. rewrite E1 in OE. destruct OE as (_ & _ & _ & ->).
  destruct (one_ok e r n v m x v1 m He W1 Hv E1 V1) as (-> & s & y & K1 & -> & K2).
  destruct (IH (S n) v m xs' v2 m2 W2 Hv E2 V) as (-> & ps & vs & -> & RO & K). split; [reflexivity|]. exists (s :: ps), (y :: vs). split; [reflexivity|]. split; [constructor; assumption|].
  intros [|i] e' s'; cbn [nth_error].
  - intros X _ Y. injection X as <-. injection Y as <-. exists j, r. split; [|split; assumption]. rewrite Nat.add_0_r. unfold column_position, columns_mapped in Ej. unfold at_. destruct (v_map v); exact Ej.
  - rewrite Nat.add_succ_r. apply K.
Qed.
Lemma convert_ok es v m xs v' m' : Forall wfelem es -> cv_convert c es (v, m) = Ok xs (v', m') -> cv_valid c v' = true ->
  (c_mode c <> EThrow -> v_err v' = None) /\ exists ps vs, xs = map Some vs /\ row_ok es ps vs /\
    forall i e s, nth_error es i = Some e -> e <> EVoid -> nth_error ps i = Some s ->
      exists j r, at_ (v_map v) i = Some j /\ nth_error (s_sd (v_sp v)) j = Some r /\ range_str m (fst r) (snd r) = Some s.
Proof.
  intros W E V. unfold cv_convert, cv_convert_data, convert_impl, bind at 1, vget, gets in E. cbn [fst] in E. unfold bind at 1, cv_clear_error, vupd, modify in E. cbn [fst snd] in E.
  unfold bind at 1 in E. set (v0 := vup_err None v) in E. assert (N0 : v_err v0 = None) by reflexivity.
  assert (MO : extract_multiple c 0 es (s_sd (v_sp v)) (v0, m) = Ok xs (v', m') -> (c_mode c <> EThrow -> v_err v' = None) /\ exists ps vs, xs = map Some vs /\ row_ok es ps vs /\
    forall i e s, nth_error es i = Some e -> e <> EVoid -> nth_error ps i = Some s ->
      exists j r, at_ (v_map v) i = Some j /\ nth_error (s_sd (v_sp v)) j = Some r /\ range_str m (fst r) (snd r) = Some s).
  { intros E1. destruct (multiple_ok _ es 0 v0 m xs v' m' W N0 E1 V) as (-> & K). split; [intros _; exact N0|exact K]. }
  assert (CE : forall msg (y : list slot), msg <> [] -> (cv_error c msg ;; ret y) (v0, m) = Ok xs (v', m') -> False).
  { intros msg y Hm E1. pose proof (ok_or_error c msg v0 m y Hm) as K. rewrite E1 in K. unfold cv_valid, err_valid, after_error in *.
    destruct (c_mode c) eqn:Em; [destruct K as (x' & K)|destruct K as (x' & K)|discriminate]; injection K as _ -> _; discriminate. }
  cbn [fst] in E. destruct (negb (sp_valid c (v_sp v0))) eqn:SV.
  { exfalso. clear MO CE. unfold handle_error_bad_split, bind, ret, vupd, modify, vget in E. unfold sp_valid, cv_valid, err_valid in *. destruct (c_mode c) eqn:Em; cbn in E.
    - injection E as _ <- _. cbn in V. discriminate.
    - injection E as _ <- _. cbn in V. cbn in SV. destruct (s_err (v_sp v)); discriminate.
    - discriminate. }
  destruct (negb (columns_mapped v0)).
  - destruct (negb (length es =? length (s_sd (v_sp v)))); [exfalso; eapply CE; [|exact E]; discriminate|]. apply MO. exact E.
  - destruct (negb (length es =? length (v_map v0))); [exfalso; eapply CE; [|exact E]; discriminate|].
    destruct (negb (length (s_sd (v_sp v)) =? v_ncols v0)); [exfalso; eapply CE; [|exact E]; discriminate|]. apply MO. exact E.
Qed.
End Conv.

(** ** Steps that keep the line buffer and the converter of the row read last *)
Definition kp (r r' : rdr) : Prop := r_buf r' = r_buf r /\ r_conv r' = r_conv r.
Definition keeps {A} (m : M rdr A) : Prop := forall r, ends (fun _ r' => kp r r') (kp r) (m r).
Lemma keeps_ret {A} (a : A) : keeps (ret a). Proof. intros r. split; reflexivity. Qed.
Lemma keeps_ub {A} w : keeps (@ub rdr A w). Proof. intros r. exact Logic.I. Qed.
Lemma keeps_bind {A B} (m : M rdr A) (k : A -> M rdr B) : keeps m -> (forall a, keeps (k a)) -> keeps (bind m k).
Proof.
  intros H K r. eapply ends_bind; [apply H|]. intros a r' [F1 F2]. eapply ends_weaken; [apply K| |]; [intros ? s [K1 K2]|intros s [K1 K2]]; split; congruence.
Qed.
Lemma keeps_get {B} (k : rdr -> M rdr B) : (forall r, keeps (k r)) -> keeps (bind get k).
Proof. intros K r. unfold bind, get. apply K. Qed.
Lemma keeps_upd f : (forall r, kp r (f r)) -> keeps (rupd f). Proof. intros H r. apply H. Qed.
Lemma keeps_lp {A} w (m : M lp A) : keeps (on_lp w m).
Proof. intros r. unfold on_lp, zoom. destruct (m _); cbn; auto; destruct w; split; reflexivity. Qed.
Lemma keeps_nconv {A} (m : M (conv * list (option ascii)) A) : keeps (on_nconv m).
Proof. intros r. unfold on_nconv. destruct (m _) as [a [v cs]|e [v cs]| |]; cbn; auto; split; reflexivity. Qed.
Lemma keeps_line cap w : keeps (get_line cap w).
Proof.
  apply keeps_get. intros r. destruct (r_src r) as [rest|rest|data|size].
  1-3: (apply keeps_bind; [apply keeps_lp|]; intros [o x]; apply keeps_bind; [apply keeps_upd; intros; split; reflexivity|intros; apply keeps_ret]).
  destruct (_ <=? _)%Z; [apply keeps_ret|apply keeps_ub].
Qed.
Lemma keeps_remove w n : keeps (remove_eol w n).
Proof.
  destruct n as [|n]; [apply keeps_ub|]. cbn [remove_eol]. apply keeps_bind; [apply keeps_lp|]. intros a.
  destruct (negb _); [apply keeps_bind; [apply keeps_upd; intros r; split; reflexivity|intros; apply keeps_ret]|]. apply keeps_bind.
  - destruct n as [|j]; [apply keeps_bind; [apply keeps_upd; intros r; split; reflexivity|intros; apply keeps_ret]|]. apply keeps_bind; [apply keeps_lp|]. intros b.
    destruct (Ascii.eqb b CR); (apply keeps_bind; [apply keeps_upd; intros r; split; reflexivity|intros; apply keeps_ret]).
  - intros k. apply keeps_bind; [apply keeps_lp|intros; apply keeps_ret].
Qed.
Section Frame.
Context (c hc : cfg) (cap : nat -> nat -> nat).
Lemma keeps_loop : forall fuel, keeps (read_next_loop c cap fuel).
Proof.
  induction fuel as [|f IH]; [intros r; exact Logic.I|]. cbn [read_next_loop]. apply keeps_bind; [apply keeps_upd; intros; split; reflexivity|]. intros _. apply keeps_get. intros r.
  apply keeps_bind; [destruct (_ <? _); [apply keeps_lp|apply keeps_ret]|]. intros _. apply keeps_bind; [apply keeps_upd; intros; split; reflexivity|]. intros _. apply keeps_bind; [apply keeps_line|].
  intros [n|]; [|apply keeps_ret]. apply keeps_bind; [apply keeps_remove|]. intros k. destruct (_ && _); [exact IH|]. apply keeps_bind; [apply keeps_upd; intros; split; reflexivity|intros; apply keeps_ret].
Qed.
Lemma keeps_read : keeps (read_next c cap).
Proof. apply keeps_bind; [apply keeps_nconv|]. intros _. apply keeps_get. intros r. apply keeps_loop. Qed.

(** The same, for the parser. *)
Definition kpp (p q : prs) : Prop := kp (p_rdr p) (p_rdr q).
Definition keepsp {A} (m : M prs A) : Prop := forall p, ends (fun _ q => kpp p q) (kpp p) (m p).
Lemma kpp_trans p q s : kpp p q -> kpp q s -> kpp p s. Proof. intros [A B] [C D]. split; congruence. Qed.
Lemma keepsp_bind {A B} (m : M prs A) (k : A -> M prs B) : keepsp m -> (forall a, keepsp (k a)) -> keepsp (bind m k).
Proof. intros H K p. eapply ends_bind; [apply H|]. intros a q F. eapply ends_weaken; [apply K| |]; intros; (eapply kpp_trans; [exact F|assumption]). Qed.
Lemma keepsp_ret {A} (a : A) : keepsp (ret a). Proof. intros p. split; reflexivity. Qed.
Lemma keepsp_quiet {A} (m : M prs A) : quiet m -> keepsp m.
Proof. intros H p. eapply ends_weaken; [apply H| |]; [intros ? q [E _]|intros q [E _]]; unfold kpp; rewrite E; split; reflexivity. Qed.
Lemma keepsp_rdr {A} (m : M rdr A) : keeps m -> keepsp (on_rdr m).
Proof. intros H p. unfold on_rdr, zoom. pose proof (H (p_rdr p)) as K. destruct (m (p_rdr p)); exact K. Qed.
Lemma keepsp_line : keepsp (read_line c cap).
Proof. apply keepsp_bind; [apply keepsp_rdr; apply keeps_read|]. intros b p. split; reflexivity. Qed.
Lemma keepsp_ignore : keepsp (ignore_next c cap).
Proof. apply keepsp_rdr. apply keeps_read. Qed.
(** Calls that read no row keep the columns and the line buffer; use_fields sets the column mapping. *)
Definition kc (p q : prs) : Prop := r_buf (p_rdr q) = r_buf (p_rdr p) /\ v_sp (r_conv (p_rdr q)) = v_sp (r_conv (p_rdr p)).
Lemma kc_kpp p q : kpp p q -> kc p q. Proof. intros [A B]. split; congruence. Qed.
Lemma kc_trans p q s : kc p q -> kc q s -> kc p s. Proof. intros [A B] [C D]. split; congruence. Qed.
Lemma kc_ends {A} (m : M prs A) p : keepsp m -> ends (fun _ q => kc p q) (kc p) (m p).
Proof. intros H. eapply ends_weaken; [apply H| |]; intros; apply kc_kpp; assumption. Qed.
Lemma use_kc fs p : ends (fun _ q => kc p q) (kc p) (use_fields c hc cap fs p).
Proof.
  unfold use_fields. eapply ends_bind; [apply kc_ends; apply keepsp_quiet; apply quiet_clear|]. intros ? p0 K0. unfold bind at 1, get at 1.
  assert (GO : forall A (m : M prs A) q, keepsp m -> kc p q -> ends (fun _ q' => kc p q') (kc p) (m q)).
  { intros A m q Km Kq. eapply ends_weaken; [apply (kc_ends m q Km)| |]; intros; (eapply kc_trans; [exact Kq|assumption]). }
  eapply ends_bind; [apply GO; [|exact K0]; apply keepsp_quiet; destruct (p_header p0); [destruct (p_eof p0)|]; [apply quiet_ret|apply quiet_split_header|apply quiet_ret]|]. intros ? p1 K1.
  unfold bind at 1, get at 1. destruct (negb _); [exact K1|]. destruct fs as [|f fs]; [apply GO; [apply keepsp_quiet; apply quiet_error|exact K1]|].
  eapply ends_bind; [apply GO; [apply keepsp_quiet; apply quiet_columns|exact K1]|]. intros [mp|] p2 K2; [|exact K2]. cbv zeta.
  eapply ends_bind with (Q := fun _ q => kc p q); [exact K2|]. intros ? p3 K3. eapply ends_bind with (Q := fun _ q => kc p q); [exact K3|]. intros ? p4 K4.
  unfold bind at 1, get at 1. destruct (_ =? 0); [|exact K4]. eapply ends_bind; [apply GO; [apply keepsp_ignore|exact K4]|]. intros ? p5 K5. exact K5.
Qed.
End Frame.

(** ** Values and the columns they come from *)
(** The values [vs] for the types [es] were converted from the columns of the row read last. *)
Definition from_row (p : prs) (es : list elem) (vs : list val) : Prop :=
  let v := r_conv (p_rdr p) in
  exists ps, row_ok es ps vs /\
    forall i e s, nth_error es i = Some e -> e <> EVoid -> nth_error ps i = Some s ->
      exists j r, at_ (v_map v) i = Some j /\ nth_error (s_sd (v_sp v)) j = Some r /\ range_str (seen_by v (r_buf (p_rdr p))) (fst r) (snd r) = Some s.
(** The same row, the same mapping. *)
Definition sr (p q : prs) : Prop := kc p q /\ v_map (r_conv (p_rdr q)) = v_map (r_conv (p_rdr p)).
Lemma sr_refl p : sr p p. Proof. split; [split|]; reflexivity. Qed.
Lemma sr_trans p q s : sr p q -> sr q s -> sr p s. Proof. intros [A B] [C D]. split; [eapply kc_trans; eauto|congruence]. Qed.
Lemma sr_kpp p q : kpp p q -> sr p q. Proof. intros H. split; [apply kc_kpp; exact H|]. destruct H as [_ ->]. reflexivity. Qed.
Lemma sr_row p q es vs : sr p q -> from_row p es vs -> from_row q es vs.
Proof. intros [[E1 E2] E3]. unfold from_row, seen_by. cbv zeta. rewrite E1, E2, E3. exact (fun x => x). Qed.
Section Rows.
Context (c hc : cfg) (cap : nat -> nat -> nat).
Definition ok_to {S A} (Q : A -> S -> Prop) (o : res S A) : Prop := match o with Ok a s => Q a s | _ => True end.
Lemma ok_bind {S A B} (Q : A -> S -> Prop) (R : B -> S -> Prop) (m : M S A) (k : A -> M S B) s :
  ok_to Q (m s) -> (forall a s', Q a s' -> ok_to R (k a s')) -> ok_to R (bind m k s).
Proof. unfold bind. intros H K. destruct (m s); cbn in *; auto. Qed.
Lemma ok_ends {S A} (Q : A -> S -> Prop) E (o : res S A) : ends Q E o -> ok_to Q o.
Proof. destruct o; cbn; auto. Qed.
Lemma convert_row es p : Forall wfelem es ->
  ok_to (fun xs q => sr p q /\ p_err q = p_err p /\ (cv_valid c (r_conv (p_rdr q)) = true -> exists vs, xs = map Some vs /\ from_row q es vs)) (on_rdr (on_conv (cv_convert c es)) p).
Proof.
  intros W. unfold on_rdr, zoom, on_conv. set (v := r_conv (p_rdr p)). set (m := seen_by v (r_buf (p_rdr p))).
  assert (OE : only_err (cv_convert c es)) by (apply oe_bind; [apply oe_get|intros; apply oe_convert]). specialize (OE v m).
  pose proof (convert_ok c es v m) as CO. destruct (cv_convert c es (v, m)) as [xs [v' m']|e0 [v' m']| |]; [|exact Logic.I..]. destruct OE as (O1 & O2 & O3 & ->).
  split; [split; [split|]; [reflexivity|exact O1|exact O2]|]. split; [reflexivity|]. intros V. destruct (CO xs v' m W eq_refl V) as (_ & ps & vs & -> & RO & K).
  exists vs. split; [reflexivity|]. exists ps. split; [exact RO|]. cbn [p_rdr pset_rdr r_conv rset_conv r_buf]. unfold seen_by. rewrite O1, O2. exact K.
Qed.
Lemma line_row p : ok_to (fun _ q => sr p q /\ p_err q = p_err p) (read_line c cap p).
Proof.
  pose proof (keepsp_line c cap p) as H. unfold read_line, bind, on_rdr, zoom in *. destruct (read_next c cap (p_rdr p)); cbn in *; auto. split; [apply sr_kpp; exact H|reflexivity].
Qed.
Lemma conversion_error p : ok_to (fun _ q => sr p q /\ (c_mode c <> EThrow -> p_valid c q = false)) (handle_error_invalid_conversion c p).
Proof.
  unfold handle_error_invalid_conversion, bind, get, pupd, modify, ret, p_valid. destruct (c_mode c); cbn -[S2 dec]; (split; [split; [split|]; reflexivity|]); intros X; try reflexivity; congruence.
Qed.
Lemma eof_error p : ok_to (fun _ q => p_valid c q = false) (p_error c msg_eof p).
Proof. unfold p_error, bind, get, pupd, modify, throw, p_valid. destruct (c_mode c); cbn; auto. unfold msg_eof. destruct (p_name p); reflexivity. Qed.
Lemma valid_mode p q : p_err q = p_err p -> p_valid c q = p_valid c p. Proof. intros H. unfold p_valid. rewrite H. reflexivity. Qed.
Lemma not_throw p : p_valid c p = false -> c_mode c <> EThrow. Proof. unfold p_valid. intros H X. rewrite X in H. discriminate. Qed.
Lemma cv_not_throw v : cv_valid c v = false -> c_mode c <> EThrow. Proof. unfold cv_valid. intros H X. rewrite X in H. discriminate. Qed.
(** get_next: if the parser is valid afterwards, the values come from the columns of its row. *)
Lemma get_row es p : Forall wfelem es -> ok_to (fun xs q => p_valid c q = true -> exists vs, xs = map Some vs /\ from_row q es vs) (get_next c cap es p).
Proof.
  intros W. unfold get_next. unfold bind at 1, get at 1. eapply ok_bind with (Q := fun _ _ => True); [destruct (_ p); exact Logic.I|]. intros ? p1 _.
  eapply ok_bind with (Q := fun _ _ => True); [exact Logic.I|]. intros ? p2 _. unfold bind at 1, get at 1. destruct (negb _) eqn:CV.
  { apply Bool.negb_true_iff in CV. eapply ok_bind; [apply conversion_error|]. intros ? p3 [_ I3]. specialize (I3 (cv_not_throw _ CV)). eapply ok_bind; [apply line_row|]. intros ? p4 [_ I4].
    cbn. intros X. rewrite (valid_mode _ _ I4) in X. congruence. }
  eapply ok_bind with (Q := fun _ _ => True); [exact Logic.I|]. intros ? p3 _. destruct (p_eof p2).
  { eapply ok_bind; [apply eof_error|]. intros ? p4 I4. cbn. congruence. }
  assert (TH : c_mode c = EThrow -> ok_to (fun xs q => p_valid c q = true -> exists vs, xs = map Some vs /\ from_row q es vs)
                (catch (xs <- on_rdr (on_conv (cv_convert c es)) ;; read_line c cap ;; ret xs) (fun e => read_line c cap ;; decorate_rethrow e) p3)).
  { intros Em.
    assert (K : ok_to (fun xs q => p_valid c q = true -> exists vs, xs = map Some vs /\ from_row q es vs) ((xs <- on_rdr (on_conv (cv_convert c es)) ;; read_line c cap ;; ret xs) p3)).
    { eapply ok_bind; [apply convert_row; exact W|]. intros xs p4 (_ & _ & K4). eapply ok_bind; [apply line_row|]. intros ? p5 [S5 _]. cbn. intros _.
      destruct K4 as (vs & -> & F); [unfold cv_valid; rewrite Em; reflexivity|]. exists vs. split; [reflexivity|]. eapply sr_row; eauto. }
    unfold catch. destruct ((_ <- on_rdr _ ;; _) p3) as [xs q|e q| |]; [exact K| |exact Logic.I|exact Logic.I].
    unfold bind. destruct (read_line c cap q); cbn; exact Logic.I. }
  assert (NT : c_mode c <> EThrow -> ok_to (fun xs q => p_valid c q = true -> exists vs, xs = map Some vs /\ from_row q es vs)
      ((xs <- on_rdr (on_conv (cv_convert c es)) ;; p <- get ;; (if negb (cv_valid c (r_conv (p_rdr p))) then handle_error_invalid_conversion c else ret tt) ;; read_line c cap ;; ret xs) p3)).
  { intros Em. eapply ok_bind; [apply convert_row; exact W|]. intros xs p4 (_ & _ & K4). unfold bind at 1, get at 1.
    eapply ok_bind with (Q := fun _ q => p_valid c q = true -> exists vs, xs = map Some vs /\ from_row q es vs).
    { destruct (cv_valid c (r_conv (p_rdr p4))) eqn:V4; cbn [negb]; [cbn; auto|]. pose proof (conversion_error p4) as H. destruct (handle_error_invalid_conversion c p4); cbn in *; auto. destruct H as [_ H]. rewrite H by exact Em. discriminate. }
    intros ? p5 K5. eapply ok_bind; [apply line_row|]. intros ? p6 [S6 E6]. cbn. intros V. rewrite (valid_mode _ _ E6) in V. destruct (K5 V) as (vs & -> & F). exists vs. split; [reflexivity|]. eapply sr_row; eauto. }
  destruct (c_mode c) eqn:Em; [apply NT; congruence|apply NT; congruence|apply TH; reflexivity].
Qed.

(** Chains. *)
Definition rows_of_values (p : prs) (tl : list (list elem)) (vs : list (option (list slot))) : Prop :=
  Forall2 (fun es o => match o with None => True | Some xs => exists ws, xs = map Some ws /\ from_row p es ws end) tl vs.
Lemma rows_sr p q tl vs : sr p q -> rows_of_values p tl vs -> rows_of_values q tl vs.
Proof. intros E F. induction F as [|es o tl vs H F IH]; constructor; [|exact IH]. destruct o; auto. destruct H as (ws & H1 & H2). exists ws. split; [exact H1|]. eapply sr_row; eauto. Qed.
Lemma invoke_row arg cb p l : ok_to (fun _ t => sr p (fst t)) (try_invoke c arg cb (p, l)).
Proof.
  destruct cb as [|k|k f]; [apply sr_refl|apply sr_refl|]. unfold try_invoke, bind, log, modify. cbn [fst snd]. destruct (f arg); [apply sr_refl|].
  unfold on_p, zoom. cbn [fst]. unfold p_error, bind, get, pupd, modify, throw. destruct (c_mode c); cbn -[msg_failed_check]; auto; split; [split|reflexivity|split|]; reflexivity.
Qed.
Lemma on_p_ok {A} (Q : A -> prs -> Prop) (m : M prs A) t : ok_to Q (m (fst t)) -> ok_to (fun a t' => Q a (fst t')) (on_p m t).
Proof. unfold on_p, zoom. destruct (m (fst t)); auto. Qed.
Lemma try_row es cb t : Forall wfelem es -> ok_to (fun vs t' => rows_of_values (fst t') [es] vs) (try_next c cap es cb t).
Proof.
  intros W. unfold try_next. eapply ok_bind; [apply on_p_ok; apply get_row; exact W|]. intros xs [p1 l1] G1. cbn [fst] in G1. unfold bind at 1, get at 1. cbn [fst].
  eapply ok_bind with (Q := fun _ t' => p_valid c (fst t') = true -> exists ws, xs = map Some ws /\ from_row (fst t') es ws).
  { destruct (p_valid c p1) eqn:V1; [|cbn; congruence]. pose proof (invoke_row xs cb p1 l1) as H. destruct (try_invoke c xs cb (p1, l1)); cbn in *; auto. intros _. destruct (G1 eq_refl) as (ws & X1 & X2). exists ws. split; [exact X1|]. eapply sr_row; eauto. }
  intros ? [p2 l2] G2. unfold bind, get, ret. cbn. constructor; [|constructor]. cbn [fst] in G2. destruct (p_valid c p2); auto.
Qed.
Lemma try_same_row es p : Forall wfelem es -> ok_to (fun xs q => sr p q /\ (p_valid c q = true -> c_mode c <> EThrow -> exists vs, xs = map Some vs /\ from_row q es vs)) (try_same c es p).
Proof.
  intros W. unfold try_same. eapply ok_bind with (Q := fun _ q => sr p q); [split; [split|]; reflexivity|]. intros ? p1 S1. eapply ok_bind; [apply convert_row; exact W|]. intros xs p2 (S2 & _ & K2).
  unfold bind at 1, get at 1. assert (S3 : sr p p2) by (eapply sr_trans; eauto).
  eapply ok_bind with (Q := fun _ q => sr p q /\ (p_valid c q = true -> c_mode c <> EThrow -> exists vs, xs = map Some vs /\ from_row q es vs)).
  { destruct (cv_valid c (r_conv (p_rdr p2))) eqn:V; cbn [negb]; [cbn; auto|]. pose proof (conversion_error p2) as H. destruct (handle_error_invalid_conversion c p2); cbn in *; auto.
    destruct H as [H1 H2]. split; [eapply sr_trans; eauto|]. intros X Y. rewrite (H2 Y) in X. discriminate. }
  intros ? p3 K3. exact K3.
Qed.
Lemma or_else_row vs tl es cb t : Forall wfelem es -> rows_of_values (fst t) tl vs -> ok_to (fun vs' t' => rows_of_values (fst t') (tl ++ [es]) vs') (or_else c vs es cb t).
Proof.
  intros W F. destruct t as [p l]. cbn [fst] in F. unfold or_else. unfold bind at 1, get at 1. cbn [fst].
  eapply ok_bind with (Q := fun o t' => sr p (fst t') /\ match o with None => True | Some xs => exists ws, xs = map Some ws /\ from_row (fst t') es ws end).
  - destruct (p_valid c p) eqn:V; [split; [apply sr_refl|exact Logic.I]|]. pose proof (not_throw p V) as Em.
    eapply ok_bind; [apply on_p_ok; apply try_same_row; exact W|]. intros xs [p1 l1] [S1 K1]. cbn [fst] in *. unfold bind at 1, get at 1. cbn [fst].
    destruct (p_valid c p1); cbn [negb]; [|split; [exact S1|exact Logic.I]]. eapply ok_bind; [apply invoke_row|]. intros ? [p2 l2] S2. cbn [fst] in S2. cbn. split; [eapply sr_trans; eauto|].
    destruct (K1 eq_refl Em) as (ws & X1 & X2). exists ws. split; [exact X1|]. eapply sr_row; eauto.
  - intros o [p1 l1] [S1 K1]. cbn [fst] in *. unfold bind, get, ret. cbn. apply Forall2_app; [eapply rows_sr; eauto|]. constructor; [|constructor]. destruct (p_valid c p1); auto.
Qed.
Definition types_of_links (ls : list link) : list (list elem) := flat_map (fun l => match l with LElse es' _ => [es'] | _ => [] end) ls.
Lemma links_row : forall ls vs tl t, Forall (fun l => match l with LElse es' _ => types es' | LOnError _ => True end) ls -> rows_of_values (fst t) tl vs ->
  ok_to (fun vs' t' => rows_of_values (fst t') (tl ++ types_of_links ls) vs') (follow_links c vs ls t).
Proof.
  induction ls as [|k ls IH]; intros vs tl t W F; [cbn; rewrite app_nil_r; exact F|]. inversion W as [|? ? W1 W2]; subst. cbn [follow_links]. destruct k as [es cb|k].
  - eapply ok_bind; [apply or_else_row; [apply W1|exact F]|]. intros vs' t' F'. cbn [types_of_links flat_map app]. change (flat_map _ ls) with (types_of_links ls).
    replace (tl ++ es :: types_of_links ls) with ((tl ++ [es]) ++ types_of_links ls) by (rewrite <- app_assoc; reflexivity). apply IH; auto.
  - cbn [types_of_links flat_map app]. change (flat_map _ ls) with (types_of_links ls). unfold bind at 1, on_error. unfold bind at 1, get at 1. destruct (p_valid c _); apply IH; auto.
Qed.
Lemma given_map : forall xs vs, given xs = Some vs -> forall ws, xs = map Some ws -> vs = ws.
Proof. induction xs as [|x xs IH]; intros vs E [|w ws] X; try discriminate; cbn in *; [congruence|]. injection X as -> X. destruct (given xs) as [vs'|]; [|discriminate]. injection E as <-. f_equal. apply IH; auto. Qed.
Lemma in_rows p tl : forall vs r, all_given vs = Some r -> rows_of_values p tl vs -> forall es ws,
  In (es, ws) (flat_map (fun a => match a with (es', Some vs) => [(es', vs)] | _ => [] end) (combine tl r)) -> from_row p es ws.
Proof.
  induction tl as [|t tl IH]; intros vs r E F es ws H; [contradiction|]. inversion F as [|? o ? vs' H1 F']; subst. cbn in E. destruct o as [xs|].
  - destruct H1 as (ws1 & G & V). destruct (given xs) as [g|] eqn:Eg; [|discriminate]. pose proof (given_map _ _ Eg _ G) as ->. destruct (all_given vs') as [r'|] eqn:E'; [|discriminate]. injection E as <-. cbn in H.
    destruct H as [H|H]; [injection H as <- <-; exact V|]. eapply IH; eauto.
  - destruct (all_given vs') as [r'|] eqn:E'; [|discriminate]. injection E as <-. cbn in H. eapply IH; eauto.
Qed.
End Rows.
