(** convert computes [row_ok] / [row_bad]. *)
From Verif Require Import Base Setup Splitter SplitPure ListFacts SetupProofs SplitSpec SplitRefine SplitSpecProofs SplitKeeps SplitModes RowSpec RowProofs SplitApi SplitLocal SplitTheorems Extract Converter ConvSpec ExtractProofs.

Definition wfelem (e : elem) : Prop := match e with EVoid => True | EVal t => wfty t | ERes t r => wfty t /\ restricts t r end.

(** What a convert call shows: the values (valid() is true; [None] would be a value left as initialised), the error
    message (valid() is false), the exception, or a crash. *)
Inductive cobs := CValues (l : list slot) | CErr (msg : str) | CThrown (msg : str) | CCrash.
Definition cobserve (c : cfg) (o : res (conv * list (option ascii)) (list slot)) : cobs :=
  match o with
  | Ok xs (v, _) => if cv_valid c v then CValues xs else CErr (match v_err v with Some e => e | None => [] end)
  | Throw e _ => CThrown e
  | _ => CCrash
  end.
Definition errobs (c : cfg) (msg : str) : cobs :=
  match c_mode c with EBool => CErr [] | EString => CErr msg | EThrow => CThrown msg end.

(** The readable columns of a split line. *)
Definition readable (m : cells) (r : nat * nat) : Prop := fst r = snd r -> exists x, rd m (fst r) = Some x.
Definition holds (m : cells) (r : nat * nat) (s : str) : Prop := range_str m (fst r) (snd r) = Some s /\ readable m r.

Lemma Forall2_length {A B} {P : A -> B -> Prop} {l k} : Forall2 P l k -> length l = length k.
Proof. induction 1; cbn; congruence. Qed.
Lemma Forall2_nth {A B} {P : A -> B -> Prop} {l k} : Forall2 P l k -> forall i y, nth_error k i = Some y -> exists x, nth_error l i = Some x /\ P x y.
Proof.
  induction 1 as [|x y l k H F IH]; intros [|i] z Hz; try discriminate.
  - injection Hz as <-. exists x. auto.
  - apply IH; exact Hz.
Qed.

Section C.
Context (c : cfg).

Lemma cv_error_out msg v m : msg <> [] ->
  cv_error c msg (v, m) =
    match c_mode c with
    | EBool => Ok tt (vup_err (Some []) v, m)
    | EString => Ok tt (vup_err (Some msg) v, m)
    | EThrow => Throw msg (v, m)
    end.
Proof. intros H. unfold cv_error. destruct (c_mode c); [reflexivity| |reflexivity]. destruct msg; [congruence|reflexivity]. Qed.

Lemma ss_error_complaint r : ss_error r = complaint r.
Proof. destruct r as [| | | | | | | | |? []]; reflexivity. Qed.
Lemma col_bad_msg n e s msg : col_bad n e s msg -> msg <> [].
Proof. intros H E. destruct H as [| |t r]; try (cbn in E; discriminate). destruct (complaint r); discriminate. Qed.

Definition after_error (msg : str) : err := match c_mode c with EBool => Some [] | _ => Some msg end.

Lemma ok_or_error {A} (msg : str) (v : conv) m (x : A) : msg <> [] ->
  match c_mode c with
  | EThrow => (cv_error c msg ;; ret x) (v, m) = Throw msg (v, m)
  | _ => exists y, (cv_error c msg ;; ret x) (v, m) = Ok y (vup_err (after_error msg) v, m)
  end.
Proof.
  intros H. unfold bind. rewrite cv_error_out by exact H. unfold after_error.
  destruct (c_mode c); [eexists; reflexivity|eexists; reflexivity|reflexivity].
Qed.

Lemma extract_one_cases v m e r s n : v_err v = None -> holds m r s -> wfelem e -> e <> EVoid ->
  (exists x, col_ok e s (Some x) /\ extract_one c e None r n (v, m) = Ok (Some x) (v, m)) \/
  (exists msg, col_bad (S n) e s msg /\
     match c_mode c with
     | EThrow => extract_one c e None r n (v, m) = Throw msg (v, m)
     | _ => exists x, extract_one c e None r n (v, m) = Ok x (vup_err (after_error msg) v, m)
     end).
Proof.
  intros Hv [HR HC] W Hn. destruct r as [b e0]. cbn [fst snd] in HR. unfold readable in HC. cbn [fst snd] in HC.
  assert (V : cv_valid c v = true) by (unfold cv_valid, err_valid; rewrite Hv; destruct (c_mode c); reflexivity).
  assert (G : forall t, wfty t -> decides t s (extract m (b, e0) t)).
  { intros t Wt. apply extract_decides; auto. }
  assert (BAD : forall t (x : slot), (forall v, ~ converts t s v) -> extract m (b, e0) t = Some (false, x) ->
     (e = EVal t \/ exists r, e = ERes t r) ->
     match c_mode c with
     | EThrow => extract_one c e None (b, e0) n (v, m) = Throw (S2 "invalid conversion for parameter " ++ where_ (S n) s) (v, m)
     | _ => exists x, extract_one c e None (b, e0) n (v, m) = Ok x (vup_err (after_error (S2 "invalid conversion for parameter " ++ where_ (S n) s)) v, m)
     end).
  { intros t x G1 Ex He.
    assert (E : exists y, extract_one c e None (b, e0) n (v, m) =
       (cv_error c (S2 "invalid conversion for parameter " ++ where_ (S n) s) ;; ret y) (v, m)).
    { unfold extract_one, bind at 1 2, vget, gets. cbn [fst snd]. rewrite V. cbn [negb].
      assert (NS : t <> TString) by (intros ->; exact (G1 (VStr s) eq_refl)).
      destruct He as [-> | [r ->]]; cbn [snd]; rewrite Ex, HR; eexists; [destruct t; try congruence; reflexivity|reflexivity]. }
    destruct E as [y ->]. apply ok_or_error. discriminate. }
  destruct e as [|t|t r]; [congruence| |]; (assert (Wt : wfty t) by (try exact W; exact (proj1 W))); specialize (G t Wt);
    destruct (extract m (b, e0) t) as [[[] [x|]]|] eqn:Ex; cbn [decides] in G; try contradiction.
  - left. exists x. split; [constructor; exact G|].
    unfold extract_one, bind at 1 2, vget, gets. cbn [fst snd]. rewrite V. cbn [negb snd]. rewrite Ex, HR. reflexivity.
  - right. eexists. split; [constructor; exact G|]. eapply BAD; eauto.
  - right. eexists. split; [constructor; exact G|]. eapply BAD; eauto.
  - destruct (ss_valid (ity_of t) r x) eqn:Sv.
    + left. exists x. split; [constructor; [exact G|]; apply (passes_iff t s r x Wt G (proj2 W)); exact Sv|].
      unfold extract_one, bind at 1 2, vget, gets. cbn [fst snd]. rewrite V. cbn [negb snd]. rewrite Ex, HR, Sv. reflexivity.
    + right. exists (complaint r ++ S2 " " ++ where_ (S n) s). split; [eapply cb_res_val; [exact G|]; rewrite <- (passes_iff t s r x Wt G (proj2 W)); congruence|].
      assert (E : exists y, extract_one c (ERes t r) None (b, e0) n (v, m) =
         (cv_error c (complaint r ++ S2 " " ++ where_ (S n) s) ;; ret y) (v, m)).
      { unfold extract_one, bind at 1 2, vget, gets. cbn [fst snd]. rewrite V. cbn [negb snd]. rewrite Ex, HR, Sv, <- (ss_error_complaint r). eexists; reflexivity. }
      destruct E as [y ->]. apply ok_or_error. destruct (complaint r); discriminate.
  - right. eexists. split; [constructor; exact G|]. eapply BAD; eauto.
  - right. eexists. split; [constructor; exact G|]. eapply BAD; eauto.
Qed.

(** The columns the elements are taken from: [ps i] is the text for argument [argn + i]. *)
Definition picks (mp : list nat) (elems : list (nat * nat)) (m : cells) (argn : nat) (ps : list str) : Prop :=
  forall i s, nth_error ps i = Some s -> exists p r,
    (match mp with [] => Some (argn + i) | _ => nth_error mp (argn + i) end) = Some p /\ nth_error elems p = Some r /\ holds m r s.
Lemma picks_tl mp elems m argn s ps : picks mp elems m argn (s :: ps) -> picks mp elems m (S argn) ps.
Proof. intros H i t Hi. specialize (H (S i) t Hi). replace (S argn + i) with (argn + S i) by lia. exact H. Qed.
Lemma picks_hd mp elems m argn s ps v : v_map v = mp -> picks mp elems m argn (s :: ps) ->
  exists p r, column_position v argn = Some p /\ nth_error elems p = Some r /\ holds m r s.
Proof.
  intros E H. destruct (H 0 s eq_refl) as (p & r & A & B & C). rewrite Nat.add_0_r in A.
  exists p, r. split; [|auto]. unfold column_position, columns_mapped. rewrite E. destruct mp; exact A.
Qed.

(** After an error nothing more is converted. *)
Lemma extract_multiple_after es : forall argn ps elems v m, cv_valid c v = false ->
  length es = length ps -> picks (v_map v) elems m argn ps ->
  extract_multiple c argn es elems (v, m) = Ok (defaults es) (v, m).
Proof.
  induction es as [|e es IH]; intros argn ps elems v m V L P; [reflexivity|].
  destruct ps as [|s ps]; [discriminate|]. cbn in L.
  destruct (picks_hd _ _ _ _ _ _ v eq_refl P) as (p & r & A & B & _).
  pose proof (IH (S argn) ps elems v m V ltac:(lia) (picks_tl _ _ _ _ _ _ P)) as K.
  destruct e as [|t|t q]; cbn [extract_multiple]; [exact K| |].
  all: unfold bind at 1, vget at 1, gets at 1; cbn [fst]; rewrite A, B; unfold bind at 1;
    unfold extract_one at 1, bind at 1, vget, gets at 1; cbn [fst]; rewrite V; cbn [negb];
    unfold ret at 1; unfold bind; rewrite K; reflexivity.
Qed.

Lemma extract_multiple_cases es : forall argn ps elems v m, v_err v = None -> Forall wfelem es ->
  length es = length ps -> picks (v_map v) elems m argn ps ->
  (exists vs, row_ok es ps vs /\ extract_multiple c argn es elems (v, m) = Ok (map Some vs) (v, m)) \/
  (exists es1 ss1 vs e s msg es2 ss2, es = es1 ++ e :: es2 /\ ps = ss1 ++ s :: ss2 /\ length es2 = length ss2 /\
     row_ok es1 ss1 vs /\ col_bad (S (argn + length es1)) e s msg /\
     match c_mode c with
     | EThrow => extract_multiple c argn es elems (v, m) = Throw msg (v, m)
     | _ => exists xs, extract_multiple c argn es elems (v, m) = Ok xs (vup_err (after_error msg) v, m)
     end).
Proof.
  induction es as [|e es IH]; intros argn ps elems v m Hv W L P.
  { destruct ps; [|discriminate]. left. exists []. split; [constructor|reflexivity]. }
  destruct ps as [|s ps]; [discriminate|]. cbn in L.
  destruct (picks_hd _ _ _ _ _ _ v eq_refl P) as (p & r & A & B & C).
  assert (We : wfelem e) by (inversion W; assumption). assert (Wes : Forall wfelem es) by (inversion W; assumption).
  pose proof (picks_tl _ _ _ _ _ _ P) as P'.
  specialize (IH (S argn) ps elems v m Hv Wes ltac:(lia) P').
  assert (D : e = EVoid \/ e <> EVoid) by (destruct e; auto; right; discriminate).
  destruct D as [->|Hn].
  - cbn [extract_multiple].
    destruct IH as [(vs & R & E)|(es1 & ss1 & vs & e' & s' & msg & es2 & ss2 & E1 & E2 & E3 & R & Bd & E)].
    + left. exists vs. split; [|exact E]. apply ro_skip; [constructor|exact R].
    + right. exists (EVoid :: es1), (s :: ss1), vs, e', s', msg, es2, ss2. subst es ps.
      split; [reflexivity|]. split; [reflexivity|]. split; [exact E3|]. split; [apply ro_skip; [constructor|exact R]|].
      split; [cbn [length]; replace (argn + S (length es1)) with (S argn + length es1) by lia; exact Bd|exact E].
  - assert (EE : extract_multiple c argn (e :: es) elems (v, m) =
       (x <- extract_one c e None r argn ;; xs <- extract_multiple c (S argn) es elems ;; ret (x :: xs)) (v, m)).
    { destruct e as [|t|t q]; [congruence| |]; cbn [extract_multiple]; unfold bind at 1, vget at 1, gets at 1; cbn [fst]; rewrite A, B; reflexivity. }
    rewrite EE. clear EE.
    destruct (extract_one_cases v m e r s argn Hv C We Hn) as [(x & Ok1 & E1)|(msg & Bd & E1)].
    + unfold bind at 1. rewrite E1.
      destruct IH as [(vs & R & E)|(es1 & ss1 & vs & e' & s' & msg & es2 & ss2 & F1 & F2 & E3 & R & Bd & E)].
      * left. exists (x :: vs). split; [apply ro_cons; assumption|]. unfold bind. rewrite E. reflexivity.
      * right. exists (e :: es1), (s :: ss1), (x :: vs), e', s', msg, es2, ss2. subst es ps.
        split; [reflexivity|]. split; [reflexivity|]. split; [exact E3|]. split; [apply ro_cons; assumption|].
        split; [cbn [length]; replace (argn + S (length es1)) with (S argn + length es1) by lia; exact Bd|].
        unfold bind. rewrite E1. destruct (c_mode c); [destruct E as [xs ->]; eexists; reflexivity|destruct E as [xs ->]; eexists; reflexivity|rewrite E; reflexivity].
    + right. exists [], [], [], e, s, msg, es, ps. split; [reflexivity|]. split; [reflexivity|]. split; [lia|]. split; [constructor|].
      split; [rewrite Nat.add_0_r; exact Bd|].
      assert (AFT : forall y, c_mode c <> EThrow -> exists xs, (xs <- extract_multiple c (S argn) es elems ;; ret (y :: xs)) (vup_err (after_error msg) v, m)
                 = Ok xs (vup_err (after_error msg) v, m)).
      { intros y Hm. unfold bind. rewrite (extract_multiple_after es (S argn) ps elems); [eexists; reflexivity| |lia|exact P'].
        unfold cv_valid, err_valid, after_error. cbn. destruct (c_mode c); congruence. }
      unfold bind in AFT |- *. destruct (c_mode c).
      * destruct E1 as [y ->]. apply AFT; discriminate.
      * destruct E1 as [y ->]. apply AFT; discriminate.
      * rewrite E1. reflexivity.
Qed.

(** How a call ends that reports [o] ([inl]: values, [inr]: an error message) from converter [v]. *)
Definition ends (o : list val + str) (v : conv) (m : cells) (r : res (conv * list (option ascii)) (list slot)) : Prop :=
  match o with
  | inl vs => r = Ok (map Some vs) (vup_err None v, m)
  | inr msg => match c_mode c with
               | EThrow => r = Throw msg (vup_err None v, m)
               | _ => exists xs, r = Ok xs (vup_err (after_error msg) v, m)
               end
  end.
Lemma ends_observe o v m r : ends o v m r -> cobserve c r = match o with inl vs => CValues (map Some vs) | inr msg => errobs c msg end.
Proof.
  unfold ends, cobserve, errobs, cv_valid, err_valid, after_error. destruct o as [vs|msg].
  - intros ->. cbn. destruct (c_mode c); reflexivity.
  - destruct (c_mode c); [intros [xs ->]|intros [xs ->]|intros ->]; reflexivity.
Qed.
Lemma ends_error {msg} v m xs : msg <> [] -> v_err v = None ->
  ends (inr msg) v m ((cv_error c msg ;; ret xs) (v, m)).
Proof.
  intros H Hv. unfold ends, bind. rewrite cv_error_out by exact H. unfold after_error, ret.
  assert (E : vup_err None v = v) by (destruct v; cbn in *; rewrite Hv; reflexivity).
  destruct (c_mode c); [eexists; reflexivity|eexists; reflexivity|rewrite E; reflexivity].
Qed.

Theorem convert_impl_cases es elems cols v m :
  sp_valid c (v_sp v) = true -> Forall wfelem es -> Forall2 (holds m) elems cols -> Forall (fun p => p < v_ncols v) (v_map v) ->
  exists o, converted (v_map v) (v_ncols v) es cols o /\ ends o v m (convert_impl c es elems (v, m)).
Proof.
  intros Hs W F Hmp. pose proof (Forall2_length F) as FL.
  set (v0 := vup_err None v).
  assert (E : convert_impl c es elems (v, m) =
    (if negb (columns_mapped v0) then
       if negb (length es =? length elems) then cv_error c (msg_number_of_columns (length es) (length elems)) ;; ret (defaults es)
       else extract_multiple c 0 es elems
     else if negb (length es =? length (v_map v)) then cv_error c (msg_incompatible_mapping (length es) (length (v_map v))) ;; ret (defaults es)
     else if negb (length elems =? v_ncols v) then cv_error c (msg_number_of_columns (v_ncols v) (length elems)) ;; ret (defaults es)
     else extract_multiple c 0 es elems) (v0, m)).
  { unfold convert_impl, cv_clear_error, vupd, modify, vget, gets. unfold bind at 1 2. cbn [fst snd].
    change (v_sp (vup_err None v)) with (v_sp v). rewrite Hs. cbn [negb]. reflexivity. }
  rewrite E. clear E.
  assert (V0 : vup_err None v0 = v0) by reflexivity.
  assert (EN : forall o r, ends o v0 m r -> ends o v m r).
  { intros o r. unfold ends. destruct o; [auto|]. destruct (c_mode c); auto. }
  assert (X : forall ps, length es = length ps -> picks (v_map v) elems m 0 ps ->
     (exists vs, row_ok es ps vs /\ ends (inl vs) v m (extract_multiple c 0 es elems (v0, m))) \/
     (exists msg, row_bad es ps msg /\ ends (inr msg) v m (extract_multiple c 0 es elems (v0, m)))).
  { intros ps L P. destruct (extract_multiple_cases es 0 ps elems v0 m eq_refl W L P) as [(vs & R & E)|(es1 & ss1 & vs & e & s & msg & es2 & ss2 & -> & -> & E3 & R & Bd & E)].
    - left. exists vs. split; [exact R|]. exact E.
    - right. exists msg. split; [econstructor; eauto|]. unfold ends. destruct (c_mode c); exact E. }
  unfold columns_mapped. change (v_map v0) with (v_map v).
  destruct (v_map v) as [|p0 mp] eqn:Em.
  - cbn [negb]. destruct (length es =? length elems) eqn:L; cbn [negb].
    + apply Nat.eqb_eq in L. destruct (X cols) as [(vs & R & E)|(msg & R & E)].
      * congruence.
      * intros i s Hi. rewrite Nat.add_0_l. exists i. destruct (Forall2_nth F i s Hi) as (r & A & B). eauto.
      * exists (inl vs). split; [apply cd_values with cols; [reflexivity|congruence|exact R]|exact E].
      * exists (inr msg). split; [apply cd_column with cols; [reflexivity|congruence|exact R]|exact E].
    + apply Nat.eqb_neq in L. eexists. split; [apply cd_count; congruence|]. rewrite <- FL. apply EN, ends_error; [discriminate|reflexivity].
  - cbn [negb]. destruct (length es =? length (p0 :: mp)) eqn:L1; cbn [negb].
    + apply Nat.eqb_eq in L1. destruct (length elems =? v_ncols v) eqn:L2; cbn [negb].
      * apply Nat.eqb_eq in L2.
        assert (P : exists ps, Forall2 (fun p s => nth_error cols p = Some s) (p0 :: mp) ps).
        { assert (HH : Forall (fun p => p < length cols) (p0 :: mp)) by (rewrite <- FL, L2; exact Hmp).
          clear - HH. induction HH as [|p l Hp Hl IH]; [exists []; constructor|]. destruct IH as (ps & IH).
          destruct (nth_error cols p) as [s|] eqn:Es; [|apply nth_error_None in Es; lia]. exists (s :: ps). constructor; auto. }
        destruct P as (ps & P). destruct (X ps) as [(vs & R & E)|(msg & R & E)].
        -- rewrite <- (Forall2_length P). exact L1.
        -- intros i s Hi. destruct (Forall2_nth P i s Hi) as (p & A & B). destruct (Forall2_nth F p s B) as (r & A' & B').
           exists p, r. auto.
        -- exists (inl vs). split; [apply cd_values with ps; [split; [congruence|exact P]|rewrite <- (Forall2_length P); exact L1|exact R]|exact E].
        -- exists (inr msg). split; [apply cd_column with ps; [split; [congruence|exact P]|rewrite <- (Forall2_length P); exact L1|exact R]|exact E].
      * apply Nat.eqb_neq in L2. eexists. split; [apply cd_mapped_count; [discriminate|exact L1|congruence]|]. rewrite <- FL. apply EN, ends_error; [discriminate|reflexivity].
    + apply Nat.eqb_neq in L1. eexists. split; [apply cd_mapping; congruence|]. apply EN, ends_error; [discriminate|reflexivity].
Qed.
End C.

(** ** [converted] is a function *)
Lemma col_excl n e s o msg : col_ok e s o -> col_bad n e s msg -> False.
Proof.
  intros H K. destruct K as [t s N|t r s N|t r s v C V]; inversion H; subst.
  - eapply N; eauto.
  - eapply N; eauto.
  - match goal with A : converts t s ?w |- _ => assert (w = v) by (eapply converts_fun; eauto); subst end. congruence.
Qed.
Lemma col_ok_fun e s o1 o2 : col_ok e s o1 -> col_ok e s o2 -> o1 = o2.
Proof. intros H K; inversion H; subst; inversion K; subst; try reflexivity; f_equal; eapply converts_fun; eauto. Qed.
Lemma col_bad_fun n e s m1 m2 : col_bad n e s m1 -> col_bad n e s m2 -> m1 = m2.
Proof.
  intros H K. destruct H as [t s N|t r s N|t r s v C V]; inversion K; subst; try reflexivity; exfalso.
  - eapply N; eauto.
  - match goal with A : forall v, ~ converts t s v |- _ => eapply A; eauto end.
Qed.
Lemma row_ok_fun es ss v1 : row_ok es ss v1 -> forall v2, row_ok es ss v2 -> v1 = v2.
Proof.
  induction 1 as [|e s es ss vs H F IH|e s v es ss vs H F IH]; intros v2 K; inversion K as [|? ? ? ? ? H3|? ? ? ? ? ? H3]; subst; auto;
    pose proof (col_ok_fun _ _ _ _ H H3) as E; try discriminate. injection E as <-. f_equal; auto.
Qed.
Lemma row_ok_length es ss vs : row_ok es ss vs -> length es = length ss.
Proof. induction 1; cbn; congruence. Qed.
(** Two first bad columns. *)
Lemma row_bad_fun' es1 ss1 v1 : row_ok es1 ss1 v1 -> forall n e s m1 es2 ss2 es1' ss1' v1' e' s' m2 es2' ss2',
  row_ok es1' ss1' v1' -> es1 ++ e :: es2 = es1' ++ e' :: es2' -> ss1 ++ s :: ss2 = ss1' ++ s' :: ss2' ->
  col_bad (n + length es1) e s m1 -> col_bad (n + length es1') e' s' m2 -> m1 = m2.
Proof.
  induction 1 as [|a x es ss vs H F IH|a x v es ss vs H F IH];
    intros n e s m1 es2 ss2 es1' ss1' v1' e' s' m2 es2' ss2' K E1 E2 B1 B2.
  1: destruct K; cbn in E1, E2; injection E1 as <- E1; injection E2 as <- E2; [rewrite Nat.add_0_r in *; eapply col_bad_fun; eauto| |];
     exfalso; eapply col_excl; eauto.
  all: destruct K as [|b y fs ts ws H' F'|b y w fs ts ws H' F']; cbn in E1, E2; injection E1 as E1' E1; injection E2 as E2' E2;
    [exfalso; subst; eapply col_excl; eauto| |];
    apply (IH (S n) e s m1 es2 ss2 fs ts ws e' s' m2 es2' ss2' F' E1 E2); cbn [length] in *;
    replace (S n + length es) with (n + S (length es)) by lia;
    replace (S n + length fs) with (n + S (length fs)) by lia; assumption.
Qed.
Lemma row_bad_fun es ss m1 m2 : row_bad es ss m1 -> row_bad es ss m2 -> m1 = m2.
Proof.
  intros H K. destruct H as [es1 ss1 vs e s msg es2 ss2 R B L].
  inversion K as [es1' ss1' vs' e' s' msg' es2' ss2' R' B' L' E1 E2]; subst.
  eapply (row_bad_fun' es1 ss1 vs R 1); eauto.
Qed.
Lemma row_excl es1 ss1 vs : row_ok es1 ss1 vs -> forall n e s msg es2 ss2 vs', col_bad n e s msg -> row_ok (es1 ++ e :: es2) (ss1 ++ s :: ss2) vs' -> False.
Proof.
  induction 1 as [|a x es ss vs H F IH|a x v es ss vs H F IH]; intros n e s msg es2 ss2 vs' B K; cbn in K; inversion K; subst;
    try (eapply IH; eauto; fail); eapply col_excl; eauto.
Qed.
Lemma taken_fun mp n cols p1 p2 : taken mp n cols p1 -> taken mp n cols p2 -> p1 = p2.
Proof.
  unfold taken. destruct mp as [|p mp]; [congruence|]. intros [_ H] [_ K]. revert p2 K.
  induction H as [|a b l k H F IH]; intros p2 K; inversion K; subst; [reflexivity|]. f_equal; [congruence|auto].
Qed.
Lemma taken_length mp n cols ps : taken mp n cols ps -> mp <> [] -> length cols = n /\ length mp = length ps.
Proof. unfold taken. destruct mp; [congruence|]. intros [-> H] _. split; [reflexivity|]. exact (Forall2_length H). Qed.
Theorem converted_fun mp n es cols o1 o2 : converted mp n es cols o1 -> converted mp n es cols o2 -> o1 = o2.
Proof.
  assert (RE : forall ps vs msg, row_ok es ps vs -> row_bad es ps msg -> False).
  { intros ps vs msg H K. destruct K. eapply row_excl; eauto. }
  intros H K. inversion H as [p1 v1 T1 L1 R1|p1 m1 T1 L1 R1|E1 N1|E1 N1|E1 L1 N1]; subst;
    inversion K as [p2 v2 T2 L2 R2|p2 m2 T2 L2 R2|E2 N2|E2 N2|E2 L2 N2]; subst; try reflexivity; try contradiction;
    try (assert (p1 = p2) by (eapply taken_fun; eauto); subst).
  - f_equal. eapply row_ok_fun; eauto.
  - exfalso; eauto.
  - unfold taken in T1. subst. contradiction.
  - exfalso. destruct (taken_length _ _ _ _ T1 E2). lia.
  - exfalso. destruct (taken_length _ _ _ _ T1 E2). lia.
  - exfalso; eauto.
  - f_equal. eapply row_bad_fun; eauto.
  - unfold taken in T1. subst. contradiction.
  - exfalso. destruct (taken_length _ _ _ _ T1 E2). lia.
  - exfalso. destruct (taken_length _ _ _ _ T1 E2). lia.
  - unfold taken in T2. subst. contradiction.
  - unfold taken in T2. subst. contradiction.
  - exfalso. destruct (taken_length _ _ _ _ T2 E1). lia.
  - exfalso. destruct (taken_length _ _ _ _ T2 E1). lia.
  - exfalso. destruct (taken_length _ _ _ _ T2 E1). lia.
  - exfalso. destruct (taken_length _ _ _ _ T2 E1). lia.
Qed.

(** ** The converter on lines *)

(** Converters after any history of calls: split, convert of any columns, and the selections made by use_fields. *)
Inductive vreach (c : cfg) : conv -> Prop :=
| vr_init : vreach c conv_init
| vr_split v blk d m v' m' : vreach c v ->
    (cv_split c blk d (v, m) = Ok tt (v', m') \/ exists e, cv_split c blk d (v, m) = Throw e (v', m')) -> vreach c v'
| vr_convert v es elems m xs v' m' : vreach c v ->
    (cv_convert_data c es elems (v, m) = Ok xs (v', m') \/ exists e, cv_convert_data c es elems (v, m) = Throw e (v', m')) -> vreach c v'
| vr_line v blk d es m xs v' m' : vreach c v ->
    (cv_convert_line c blk d es (v, m) = Ok xs (v', m') \/ exists e, cv_convert_line c blk d es (v, m) = Throw e (v', m')) -> vreach c v'
| vr_map v mp n : vreach c v -> Forall (fun p => p < n) mp -> vreach c (vup_map mp n v).

(** Conversion changes only the converter's own error. *)
Definition only_err {A} (op : M (conv * list (option ascii)) A) : Prop :=
  forall v m, match op (v, m) with
    | Ok _ (v', m') | Throw _ (v', m') => v_sp v' = v_sp v /\ v_map v' = v_map v /\ v_ncols v' = v_ncols v /\ m' = m
    | _ => True
    end.
Lemma oe_bind {A B} (a : M (conv * list (option ascii)) A) (k : A -> M (conv * list (option ascii)) B) :
  only_err a -> (forall x, only_err (k x)) -> only_err (bind a k).
Proof.
  intros Ha Hk v m. unfold bind. specialize (Ha v m). destruct (a (v, m)) as [x [v1 m1]|e [v1 m1]|w|]; auto.
  destruct Ha as (A1 & A2 & A3 & ->). specialize (Hk x v1 m). destruct (k x (v1, m)) as [y [v2 m2]|e [v2 m2]|w|]; auto;
    destruct Hk as (B1 & B2 & B3 & ->); repeat split; congruence.
Qed.
Lemma oe_ret {A} (a : A) : only_err (ret a).
Proof. intros v m. cbn. auto. Qed.
Lemma oe_ub {A} w : only_err (@ub _ A w).
Proof. intros v m. exact I. Qed.
Lemma oe_get {A} (f : conv -> A) : only_err (vget f).
Proof. intros v m. cbn. auto. Qed.
Lemma oe_gets : only_err (gets snd).
Proof. intros v m. cbn. auto. Qed.
Lemma oe_upd e : only_err (vupd (vup_err e)).
Proof. intros v m. cbn. auto. Qed.
Section K.
Context (c : cfg).
Lemma oe_error msg : only_err (cv_error c msg).
Proof. unfold cv_error. destruct (c_mode c); [apply oe_upd|apply oe_upd|]. intros v m. cbn. auto. Qed.
Lemma oe_bad : only_err (handle_error_bad_split c).
Proof. unfold handle_error_bad_split. destruct (c_mode c); [apply oe_upd| |apply oe_ret]. apply oe_bind; [apply oe_get|]. intros; apply oe_upd. Qed.
Lemma oe_one e o r n : only_err (extract_one c e o r n).
Proof.
  unfold extract_one. apply oe_bind; [apply oe_get|]. intros v. destruct (negb _); [apply oe_ret|].
  apply oe_bind; [apply oe_gets|]. intros m.
  assert (B : forall msg (x : slot), only_err (cv_error c msg ;; ret x)) by (intros; apply oe_bind; [apply oe_error|intros; apply oe_ret]).
  destruct e as [|t|t q]; [apply oe_ret| |]; destruct (extract m r t) as [[ok st]|]; try apply oe_ub;
    destruct (range_str m (fst r) (snd r)); try apply oe_ub; destruct ok.
  - apply oe_ret.
  - destruct t; try apply B; apply oe_ret.
  - destruct st; [|apply oe_ub]. destruct (ss_valid _ _ _); [apply oe_ret|apply B].
  - apply B.
Qed.
Lemma oe_multiple elems : forall es n, only_err (extract_multiple c n es elems).
Proof.
  induction es as [|e es IH]; intros n; cbn [extract_multiple]; [apply oe_ret|].
  assert (G : only_err (v <- vget (fun v => v) ;;
          match column_position v n with
          | Some p => match nth_error elems p with
              | Some r => x <- extract_one c e None r n ;; xs <- extract_multiple c (S n) es elems ;; ret (x :: xs)
              | None => ub "converter: elems[] out of range" end
          | None => ub "converter: column_mappings_[] out of range" end)).
  { apply oe_bind; [apply oe_get|]. intros v. destruct (column_position v n); [|apply oe_ub]. destruct (nth_error elems _); [|apply oe_ub].
    apply oe_bind; [apply oe_one|]. intros. apply oe_bind; [apply IH|]. intros; apply oe_ret. }
  destruct e; [apply IH|exact G|exact G].
Qed.
Lemma oe_convert es elems : only_err (convert_impl c es elems).
Proof.
  unfold convert_impl. apply oe_bind; [apply oe_upd|]. intros _. apply oe_bind; [apply oe_get|]. intros v.
  assert (B : forall msg (x : list slot), only_err (cv_error c msg ;; ret x)) by (intros; apply oe_bind; [apply oe_error|intros; apply oe_ret]).
  destruct (negb _); [apply oe_bind; [apply oe_bad|intros; apply oe_ret]|].
  destruct (negb _); [destruct (negb _); [apply B|apply oe_multiple]|].
  destruct (negb _); [apply B|]. destruct (negb _); [apply B|apply oe_multiple].
Qed.

Lemma cv_split_out blk d v m : 
  cv_split c blk d (v, m) =
    let s0 := up_sd [] (v_sp v) in
    match rd m 0 with
    | None => UB "splitter: read outside the line"
    | Some a => if Ascii.eqb a NUL then Ok tt (vup_sp s0 v, m)
                else match sp_split c blk d (s0, m) with
                     | Ok _ (s', m') => Ok tt (vup_sp s' v, m')
                     | Throw e (s', m') => Throw e (vup_sp s' v, m')
                     | UB w => UB w
                     | OutOfFuel => OutOfFuel
                     end
    end.
Proof.
  unfold cv_split, on_sp, zoom, bind, upd, modify, load. cbn [fst snd]. cbv zeta.
  change (v_sp (vup_sp (up_sd [] (v_sp v)) v)) with (up_sd [] (v_sp v)).
  destruct (rd m 0) as [a|]; [|reflexivity]. cbn [fst snd]. destruct (Ascii.eqb a NUL); [reflexivity|]. cbn [fst snd].
  change (v_sp (vup_sp (up_sd [] (v_sp v)) (vup_sp (up_sd [] (v_sp v)) v))) with (up_sd [] (v_sp v)).
  destruct (sp_split c blk d (up_sd [] (v_sp v), m)) as [[] [s' m']|e [s' m']|w|]; reflexivity.
Qed.

Definition after_split (es : list elem) : M (conv * list (option ascii)) (list slot) :=
  s <- vget v_sp ;;
  if sp_valid c s then cv_convert_data c es (s_sd s) else handle_error_bad_split c ;; ret (defaults es).
Lemma cv_convert_line_out blk d es st :
  cv_convert_line c blk d es st =
    match cv_split c blk d st with Ok _ st1 => after_split es st1 | Throw e s => Throw e s | UB w => UB w | OutOfFuel => OutOfFuel end.
Proof. reflexivity. Qed.

Lemma vreach_inv v : vreach c v -> reach c (v_sp v) /\ Forall (fun p => p < v_ncols v) (v_map v).
Proof.
  assert (SP : forall v blk d m v' m', reach c (v_sp v) /\ Forall (fun p => p < v_ncols v) (v_map v) ->
     (cv_split c blk d (v, m) = Ok tt (v', m') \/ exists e, cv_split c blk d (v, m) = Throw e (v', m')) ->
     reach c (v_sp v') /\ Forall (fun p => p < v_ncols v') (v_map v')).
  { intros w blk d m v' m' [R F] H. rewrite cv_split_out in H. cbv zeta in H.
    destruct (rd m 0) as [a|]; [|destruct H as [H|[e H]]; discriminate].
    destruct (Ascii.eqb a NUL).
    - destruct H as [H|[e H]]; [|discriminate]. injection H as <- <-. split; [apply reach_clear; exact R|exact F].
    - destruct (sp_split c blk d (up_sd [] (v_sp w), m)) as [[] [s1 m1]|e1 [s1 m1]|x|] eqn:E;
        destruct H as [H|[e H]]; try discriminate; injection H; intros; subst; (split; [|exact F]);
        (eapply reach_split; [apply reach_clear; exact R|]); eauto. }
  assert (CV : forall {A} (op : M (conv * list (option ascii)) A) v m x v' m', only_err op ->
     reach c (v_sp v) /\ Forall (fun p => p < v_ncols v) (v_map v) ->
     (op (v, m) = Ok x (v', m') \/ exists e, op (v, m) = Throw e (v', m')) ->
     reach c (v_sp v') /\ Forall (fun p => p < v_ncols v') (v_map v')).
  { intros A op w m x v' m' O [R F] H. specialize (O w m). destruct H as [H|[e H]]; rewrite H in O; destruct O as (-> & -> & -> & _); auto. }
  induction 1 as [|v blk d m v' m' _ IH H|v es elems m xs v' m' _ IH H|v blk d es m xs v' m' _ IH H|v mp n _ IH H].
  - split; constructor.
  - eapply SP; eauto.
  - eapply CV; eauto. apply oe_convert.
  - rewrite cv_convert_line_out in H.
    destruct (cv_split c blk d (v, m)) as [[] [v1 m1]|e1 [v1 m1]|w|] eqn:E.
    + specialize (SP v blk d m v1 m1 IH (or_introl E)).
      eapply CV; [|exact SP|exact H]. apply oe_bind; [apply oe_get|]. intros s. destruct (sp_valid c s); [apply oe_convert|].
      apply oe_bind; [apply oe_bad|intros; apply oe_ret].
    + destruct H as [H|[e H]]; [discriminate|]. injection H as <- <- <-. eapply SP; eauto.
    + destruct H as [H|[e H]]; discriminate.
    + destruct H as [H|[e H]]; discriminate.
  - cbn. split; [apply IH|exact H].
Qed.
End K.

Lemma errb_keeps c blk d n s m : c_mode c = EBool -> (s_err s = None \/ s_err s = Some []) ->
  match sp_split c blk d (s, m) with Ok _ (s', _) | Throw _ (s', _) => s_err s' = None \/ s_err s' = Some [] | _ => True end /\
  match sp_resplit c blk n d (s, m) with Ok _ (s', _) | Throw _ (s', _) => s_err s' = None \/ s_err s' = Some [] | _ => True end.
Proof.
  intros Hm Hr. split.
  - pose proof (keeps_split c (fun st => s_err (fst st) = None \/ s_err (fst st) = Some [])) as K. cbn [fst] in K.
    specialize (K ltac:(rewrite Hm; cbn; intros ? ? ? ? E; injection E as <-; auto) ltac:(auto) ltac:(auto) ltac:(auto) ltac:(auto) ltac:(auto) ltac:(auto) ltac:(auto) ltac:(auto) ltac:(auto) ltac:(auto) ltac:(auto) blk d (s, m) Hr).
    destruct (sp_split c blk d (s, m)) as [? []|? []| |]; auto.
  - pose proof (keeps_resplit c (fun st => s_err (fst st) = None \/ s_err (fst st) = Some [])) as K. cbn [fst] in K.
    specialize (K ltac:(rewrite Hm; cbn; intros ? ? ? ? E; injection E as <-; auto) ltac:(auto) ltac:(auto) ltac:(auto) ltac:(auto) ltac:(auto) ltac:(auto) ltac:(auto) ltac:(auto) ltac:(auto) ltac:(auto) ltac:(auto) blk n d ltac:(auto) (s, m) Hr).
    destruct (sp_resplit c blk n d (s, m)) as [? []|? []| |]; auto.
Qed.
Lemma reach_errb c s : c_mode c = EBool -> reach c s -> s_err s = None \/ s_err s = Some [].
Proof.
  intros Hm H. induction H as [|s blk d m s' m' _ IH H|s blk n d m s' m' _ IH Hd H|s _ IH]; [auto| | |exact IH].
  - destruct (errb_keeps c blk d 0 s m Hm IH) as [K _]. destruct H as [H|[e H]]; rewrite H in K; exact K.
  - destruct (errb_keeps c blk d n s m Hm IH) as [_ K]. destruct H as [H|[e H]]; rewrite H in K; exact K.
Qed.

Section L.
Context (os : list opt) (c : cfg) (Hs : setup os = Some c) (d : str) (Hd : nulfree d).
Let Hc : cfg_ok c := setup_ok os c Hs.

(** All columns of a split line are readable, also the byte behind an empty column. *)
Lemma split_readable s line rest s' m' : reach c s -> nulfree line -> split_call c s d line rest = Ok tt (s', m') ->
  exists cols, Forall2 (holds m') (s_sd s') cols.
Proof.
  intros R HR E.
  destruct (safe_thm os c d s line [] Hs Hd HR R) as (s0 & Z & LZ & K).
  pose proof (split_inited c 0 d s (map Some line ++ [Some NUL])) as I.
  pose proof (lo_split c 0 d s (map Some line ++ [Some NUL]) rest) as LO.
  unfold split_call in *. rewrite <- app_assoc in LO. cbn [app] in LO.
  assert (IN : inited (map Some line ++ [Some NUL])).
  { unfold inited. rewrite Forall_app. split; [apply inited_map|repeat constructor; discriminate]. }
  destruct K as [[K F]|[e K]]; rewrite K in LO, I; destruct LO as [LO _]; rewrite E in LO; [|discriminate].
  injection LO as <- ->. specialize (I IN). clear E K.
  induction F as [|[b e] rs [F1 F2] F IH]; [exists []; constructor|]. destruct IH as (cols & IH). cbn [fst snd] in *.
  destruct (inited_range (Z ++ [Some NUL]) b e I F1) as (f & Ef); [rewrite app_length; cbn; lia|].
  exists (f :: cols). constructor; [|exact IH]. split; cbn [fst snd].
  - apply range_str_app. exact Ef.
  - intros _. unfold rd. cbn [fst snd]. rewrite nth_error_app1 by (rewrite app_length; cbn; lia).
    destruct (nth_error (Z ++ [Some NUL]) b) as [[x|]|] eqn:En.
    + eauto.
    + exfalso. apply nth_error_In in En. unfold inited in I. rewrite Forall_forall in I. apply (I _ En eq_refl).
    + apply nth_error_None in En. rewrite app_length in En. cbn in En. lia.
Qed.

Definition convert_call (v : conv) (line : str) (rest : cells) (es : list elem) :=
  cv_convert_line c 0 d es (v, map Some line ++ Some NUL :: rest).
Definition convert_obs v line rest es : cobs := cobserve c (convert_call v line rest es).
Definition show (o : list val + str) : cobs := match o with inl vs => CValues (map Some vs) | inr msg => errobs c msg end.

Lemma holds_strings m rs cols : Forall2 (holds m) rs cols -> strings_of m rs = Some cols.
Proof.
  intros H. apply rstr_strings. induction H as [|r s rs cols [H _] F IH]; constructor; auto.
Qed.

(** Converting a (non-empty) line is splitting it and converting the columns. *)
Theorem convert_line_thm v line rest es : vreach c v -> nulfree line -> line <> [] -> Forall wfelem es ->
  match split_obs c sp_init d line rest with
  | SFields cols => exists o, converted (v_map v) (v_ncols v) es cols o /\ convert_obs v line rest es = show o
  | SErr msg => convert_obs v line rest es = CErr msg
  | SThrown msg => convert_obs v line rest es = CThrown msg
  | SCrash => False
  end.
Proof.
  intros V HR Hne W. destruct (vreach_inv c v V) as [R F].
  assert (Hh : split_obs c sp_init d line rest = split_obs c (up_sd [] (v_sp v)) d line rest
               /\ (exists s m, (exists x, split_call c (up_sd [] (v_sp v)) d line rest = Ok x (s, m)) \/ exists e, split_call c (up_sd [] (v_sp v)) d line rest = Throw e (s, m))).
  { split.
    - destruct d as [|d0 d'].
      + unfold split_obs, split_call, sp_split, split_impl_select_delim, sp_clear_error, sp_error, bind, upd, modify, throw.
        cbn [fst snd]. unfold observe, sp_valid. destruct (c_mode c) eqn:Em; reflexivity.
      + unfold split_obs. erewrite history_thm; [reflexivity|exact Hs|discriminate|apply reach_init|apply reach_clear; exact R].
    - destruct (safe_thm os c d (up_sd [] (v_sp v)) line rest Hs Hd HR (reach_clear c _ R)) as (s' & Z & _ & [[K _]|[e K]]); eauto 6. }
  destruct Hh as [-> (s' & m' & E)].
  unfold convert_obs, convert_call. rewrite cv_convert_line_out, cv_split_out. cbv zeta.
  assert (R0 : exists a, rd (map Some line ++ Some NUL :: rest) 0 = Some a /\ Ascii.eqb a NUL = false).
  { destruct line as [|a l]; [congruence|]. exists a. split; [reflexivity|]. apply Ascii.eqb_neq. intros ->. apply HR. left; reflexivity. }
  destruct R0 as (a & -> & ->).
  unfold split_obs. change (sp_split c 0 d (up_sd [] (v_sp v), map Some line ++ Some NUL :: rest))
    with (split_call c (up_sd [] (v_sp v)) d line rest).
  destruct E as [[[] E]|[e E]].
  2: { rewrite E. cbn. reflexivity. }
  pose proof (split_readable (up_sd [] (v_sp v)) line rest s' m' (reach_clear c _ R) HR E) as (cols & HF).
  rewrite E. unfold observe, after_split, vget, gets, bind at 1. cbn [fst]. change (v_sp (vup_sp s' v)) with s'.
  destruct (sp_valid c s') eqn:Ev.
  - rewrite (holds_strings _ _ _ HF).
    destruct (convert_impl_cases c es (s_sd s') cols (vup_sp s' v) m') as (o & C & En); auto.
    exists o. split; [exact C|]. apply ends_observe in En. exact En.
  - unfold handle_error_bad_split, bind, vget, gets, vupd, modify, ret. cbn [fst snd v_sp vup_sp]. rewrite Ev.
    unfold sp_valid, err_valid in Ev. unfold cobserve, cv_valid, err_valid.
    destruct (c_mode c) eqn:Em; try discriminate; cbn.
    + destruct (s_err s') as [x|] eqn:Ex; [|discriminate].
      assert (K : s_err s' = Some []).
      { destruct (reach_errb c s' Em) as [K|K]; [|congruence|exact K].
        eapply reach_split; [apply reach_clear; exact R|left; exact E]. }
      rewrite Ex in K. injection K as ->. reflexivity.
    + destruct (s_err s'); [reflexivity|discriminate].
Qed.
End L.
