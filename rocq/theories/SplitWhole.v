(** A row split in one go, or in several by resplit: the same postcondition. *)
From Verif Require Import Base Setup Splitter SplitPure ListFacts SplitSpec SplitRefine SplitSpecProofs SplitKeeps SplitModes SplitApi SplitContinue.

(** The splitter [s] over the memory [m] has just split the text [full] (of which [n] bytes
    are left in memory), with columns [l] and end [t]. *)
Record whole (c : cfg) (blk n : nat) (X : cells) (l : list str) (t : ptail) (s : sp) (m : cells) (ok : bool) : Prop := {
  w_resp : s_resp s = false;
  w_blk : s_blk s = blk;
  w_uq : s_uq s = match t with TUnterm _ _ => true | _ => false end;
  w_mem : exists Z, m = Z ++ Some NUL :: X /\ length Z = n /\
    (ok = true ->
      s_done s = true /\
      exists P1 Z1 rs, Z = P1 ++ Z1 /\ s_sd s = rs ++ junk t /\ Forall2 (rstr P1) rs l /\
        (forall p a, t = TUnterm p a -> S (length P1) = p /\
           exists q G, Z1 = Some q :: map Some a ++ G /\ quote_match c q = true /\
             lay c s (P1 ++ [Some q]) a G []) /\
        (forall p e b, t = TMismatch p e b -> b <= length Z))
}.

(** As [psim]; without multiline nothing is ever read in two parts, and the positions are the same too. *)
Definition psimc (c : cfg) (x y : list str * ptail) : Prop := psim x y /\ (c_ml c = false -> x = y).
Definition whole_post (c : cfg) (d full : str) (blk n : nat) (X : cells) (e0 : err) (o : res (sp * list (option ascii)) unit) : Prop :=
  exists l t, psimc c (psplit c d full) (l, t) /\
  match report c t with
  | None => exists s' m', o = Ok tt (s', m') /\ whole c blk n X l t s' m' true /\ s_err s' = e0
  | Some (m, mt) =>
      match set_error (c_mode c) m with
      | Some e => exists s' m', o = Ok tt (s', m') /\ whole c blk n X l t s' m' true /\ s_err s' = e
      | None => exists s' m', o = Throw mt (s', m') /\ whole c blk n X l t s' m' false /\ s_err s' = e0
      end
  end.

Definition err0 (c : cfg) (s : sp) : err := match c_mode c with EThrow => s_err s | _ => None end.

Section W.
Context (c : cfg) (Hc : cfg_ok c) (d : str) (Hd : nulfree d) (Hd0 : d <> []).

Lemma row_end_whole s0 n X l t s' m' ok : s_resp s0 = false -> s_uq s0 = false -> s_sd s0 = [] ->
  row_end c s0 [] n X l t s' m' ok -> whole c (s_blk s0) n X l t s' m' ok.
Proof.
  intros R U SD [A1 A2 A3 (Z & Em & HZ & Hok)]. rewrite SD in Hok.
  split; [congruence|congruence|rewrite A3, U; reflexivity|].
  exists Z. split; [exact Em|]. split; [exact HZ|]. intros E. specialize (Hok E) as (Dn & P1 & Z1 & rs & EZ & Esd & F & _ & _ & HU & HM).
  split; [exact Dn|]. exists P1, Z1, rs. cbn [app] in *. split; [exact EZ|]. split; [exact Esd|]. split; [exact F|].
  split; [exact HU|]. intros p e b Et. rewrite EZ, app_length. eauto.
Qed.

Theorem split_whole s0 blk R X : s_resp s0 = false -> nulfree R ->
  whole_post c d R blk (length R) X (err0 c s0) (sp_split c blk d (s0, map Some R ++ Some NUL :: X)).
Proof.
  intros Hr HR. pose proof (sp_split_spec c Hc d Hd Hd0 s0 blk R X Hr HR) as K.
  assert (E : s_resp (start c blk s0) = false /\ s_uq (start c blk s0) = false /\ s_sd (start c blk s0) = [] /\ s_blk (start c blk s0) = blk
     /\ s_err (start c blk s0) = err0 c s0).
  { unfold start, cleared, err0. destruct (c_mode c); cbn; auto. }
  destruct E as (E1 & E2 & E3 & E4 & E5).
  exists (fst (psplit c d R)), (snd (psplit c d R)). split; [rewrite <- surjective_pairing; split; [apply psim_refl|reflexivity]|]. unfold row_post in K. rewrite E5 in K.
  destruct (report c (snd (psplit c d R))) as [[m mt]|]; [destruct (set_error (c_mode c) m)|];
    destruct K as (s' & m' & -> & RE & He); exists s', m'; (split; [reflexivity|]); (split; [|exact He]);
    apply row_end_whole in RE; auto; rewrite E4 in RE; exact RE.
Qed.

(** After an unterminated quote: the text kept, [firstn (n - size_shifted)], is followed by [u]. *)
Theorem resplit_whole full blk n X l p a s m blk' y u' X' new_size :
  c_ml c = true -> psim (psplit c d full) (l, TUnterm p a) -> whole c blk n X l (TUnterm p a) s m true ->
  ~ In y d -> nulfree (y :: u') -> n - s_esc s + length (y :: u') <= new_size ->
  whole_post c d (full ++ y :: u') blk' (n - s_esc s + length (y :: u')) X' (err0 c s)
    (sp_resplit c blk' new_size d (s, firstn (n - s_esc s) m ++ map Some (y :: u') ++ Some NUL :: X')).
Proof.
  intros Hml Hps W Hy HU Hsz. destruct W as [Wr Wb Wu (Z & Em & HZ & Hok)].
  destruct (Hok eq_refl) as (_ & P0 & Z1 & rs & EZ & Esd & F & Hun & _).
  destruct (Hun p a eq_refl) as (Hp & q & G & EZ1 & Hq & L). clear Hok Hun. cbn [junk] in Esd.
  assert (HG : s_esc s = length G) by (destruct L as [_ _ L _ _]; exact L).
  assert (Hk : n - s_esc s = S (length P0 + length a)).
  { rewrite HG, <- HZ, EZ, EZ1. lens. }
  assert (EF : firstn (n - s_esc s) m = P0 ++ Some q :: map Some a).
  { rewrite Em, EZ, EZ1. rewrite <- !app_assoc.
    replace (P0 ++ (Some q :: map Some a ++ G) ++ Some NUL :: X) with ((P0 ++ Some q :: map Some a) ++ G ++ Some NUL :: X) by aapp.
    rewrite Hk. replace (S (length P0 + length a)) with (length (P0 ++ Some q :: map Some a)) by lens.
    rewrite firstn_app, Nat.sub_diag, firstn_all, firstn_O, app_nil_r. reflexivity. }
  rewrite EF. rewrite Hk in Hsz.
  set (u := y :: u') in *.
  replace ((P0 ++ Some q :: map Some a) ++ map Some u ++ Some NUL :: X') with (P0 ++ Some q :: map Some a ++ map Some u ++ Some NUL :: X') by aapp.
  rewrite <- Hp in Esd.
  destruct (sp_resplit_spec c Hc d Hd Hd0 s blk' P0 q a G rs u X' new_size Wr Wu Hml Hq Esd L ltac:(lia) HU)
    as (s1 & A1 & A2 & A3 & A4 & A5 & K).
  set (r := fields_of c d _ _ _ _) in K. cbv zeta in K.
  exists (l ++ fst r), (snd r). split.
  { split; [|congruence]. destruct (psplit c d full) as [lf tf] eqn:Ef. destruct Hps as [Hl Ht]. cbn [fst snd] in Hl, Ht. rewrite Hl in Ef. clear Hl.
    destruct tf; cbn in Ht; try contradiction; try discriminate. rewrite Ht in Ef.
    apply (psplit_app c d Hd0 y u' Hy full l pos a _ _ _ _ Ef). fold u. lia. }
  assert (Ee : s_err s1 = err0 c s).
  { rewrite A2. unfold cleared, err0. destruct (c_mode c); reflexivity. }
  assert (RW : forall s' m' ok, row_end c s1 P0 (S (length a + length u)) X' (fst r) (snd r) s' m' ok ->
     whole c blk' (S (length P0 + length a) + length u) X' (l ++ fst r) (snd r) s' m' ok).
  { intros s' m' ok [B1 B2 B3 (Z' & Em' & HZ' & Hok')]. rewrite A1 in Hok'.
    split; [congruence|congruence|rewrite B3, A3; reflexivity|].
    exists (P0 ++ Z'). split; [rewrite Em'; aapp|]. split; [lens|]. intros E.
    specialize (Hok' E) as (Dn & P1 & Z2 & rs' & EZ' & Esd' & F' & _ & HP & HU' & HM).
    split; [exact Dn|]. exists P1, Z2, (rs ++ rs'). split; [exact EZ'|].
    split; [rewrite Esd'; aapp|].
    split.
    { apply Forall2_app; [|exact F'].
      destruct (app_prefix P0 Z' P1 Z2 EZ' HP) as (w & -> & _). apply rstr_app. exact F. }
    split; [exact HU'|]. intros p0 e b Et. rewrite EZ', app_length. eauto. }
  unfold row_post in K. rewrite Ee in K. rewrite Hk.
  destruct (report c (snd r)) as [[mm mt]|]; [destruct (set_error (c_mode c) mm)|];
    destruct K as (s' & m' & E & RE & He); exists s', m'; (split; [exact E|]); (split; [apply RW; exact RE|exact He]).
Qed.
End W.

(** ** For the user of split and resplit. *)

(** A split or resplit as seen: all columns; the columns before a field that is still open
    ([unterminated_quote()] is true and resplit is to follow; the last entry of the split data is a
    placeholder); an error or exception with this text; or a crash. *)
Inductive rview := VCols (l : list str) | VOpen (l : list str) | VError (msg : str) | VCrash.
Definition view (c : cfg) (o : res (sp * list (option ascii)) unit) : rview :=
  match o with
  | Ok _ (s, m) =>
      if sp_valid c s then
        if s_uq s then match strings_of m (removelast (s_sd s)) with Some l => VOpen l | None => VCrash end
        else match strings_of m (s_sd s) with Some l => VCols l | None => VCrash end
      else VError (match s_err s with Some e => e | None => [] end)
  | Throw e _ => VError e
  | _ => VCrash
  end.

(** resplit as the parser uses it: [n] bytes of line are in memory; the last [size_shifted()] are
    dropped, [u] and a terminator are put behind the rest (in a possibly new block). *)
Definition resplit_call (c : cfg) (d : str) (s : sp) (m : cells) (n : nat) (u : str) (rest : cells) :=
  sp_resplit c 1 (n - s_esc s + length u) d (s, firstn (n - s_esc s) m ++ map Some u ++ Some NUL :: rest).

(** A continuation whose first character cannot complete a delimiter begun before it. *)
Definition continues (d u : str) : Prop := nulfree u /\ exists y u', u = y :: u' /\ ~ In y d.

(** [text] was split, in one or more pieces, and ended inside quotes. *)
Inductive in_quotes (c : cfg) (d : str) : str -> sp -> cells -> nat -> Prop :=
| iq_split s0 line rest s m :
    reach c s0 -> nulfree line -> split_call c s0 d line rest = Ok tt (s, m) ->
    s_uq s = true -> sp_valid c s = true -> in_quotes c d line s m (length line)
| iq_resplit text s m n u rest s' m' :
    in_quotes c d text s m n -> continues d u ->
    resplit_call c d s m n u rest = Ok tt (s', m') ->
    s_uq s' = true -> sp_valid c s' = true -> in_quotes c d (text ++ u) s' m' (n - s_esc s + length u).

Definition is_digit (x : ascii) : bool := let n := nat_of_ascii x in (48 <=? n) && (n <=? 57).
Definition no_digits (s : str) : str := filter (fun x => negb (is_digit x)) s.
(** Equal up to the number in a message. *)
Definition same_view (v w : rview) : Prop :=
  match v, w with
  | VCols l, VCols l' | VOpen l, VOpen l' => l = l'
  | VError a, VError b => no_digits a = no_digits b
  | _, _ => False
  end.

Lemma no_digits_app a b : no_digits (a ++ b) = no_digits a ++ no_digits b.
Proof. apply filter_app. Qed.
Lemma no_digits_dec n : no_digits (dec n) = [].
Proof.
  unfold dec. assert (K : forall u, no_digits (S2 (DecimalString.NilEmpty.string_of_uint u)) = []).
  { induction u; cbn; auto. }
  unfold DecimalString.NilZero.string_of_uint. destruct (Nat.to_uint n) eqn:E; [reflexivity|..]; rewrite <- E; apply K.
Qed.
Lemma no_digits_mismatched p p' : no_digits (msg_mismatched p) = no_digits (msg_mismatched p').
Proof. unfold msg_mismatched. rewrite !no_digits_app, !no_digits_dec. reflexivity. Qed.

Section U.
Context (c : cfg) (Hc : cfg_ok c) (d : str) (Hd : nulfree d) (Hd0 : d <> []).

Lemma whole_strings blk n X l t s m : whole c blk n X l t s m true ->
  (s_uq s = true -> strings_of m (removelast (s_sd s)) = Some l) /\
  (s_uq s = false -> (forall p e b, t <> TMismatch p e b) -> strings_of m (s_sd s) = Some l).
Proof.
  intros [_ _ Wu (Z & Em & HZ & Hok)]. destruct (Hok eq_refl) as (_ & P1 & Z1 & rs & EZ & Esd & F & _ & _).
  assert (S : strings_of m rs = Some l).
  { apply rstr_strings. rewrite Em, EZ, <- app_assoc. apply rstr_app. exact F. }
  rewrite Esd. split.
  - intros E. rewrite E in Wu. destruct t; try discriminate. cbn [junk]. rewrite removelast_last. exact S.
  - intros E Ht. rewrite E in Wu. destruct t; try discriminate; cbn [junk]; rewrite ?app_nil_r; try exact S.
    exfalso; eapply Ht; reflexivity.
Qed.


(** What the user sees, from the pure splitting. *)
Definition pview (r : list str * ptail) : rview :=
  match report c (snd r) with
  | Some (m, mt) => VError (match c_mode c with EBool => [] | EString => m | EThrow => mt end)
  | None => match snd r with TUnterm _ _ => VOpen (fst r) | _ => VCols (fst r) end
  end.
Lemma pview_sim r1 r2 : psim r1 r2 -> same_view (pview r1) (pview r2).
Proof.
  destruct r1 as [l1 t1], r2 as [l2 t2]. intros [E T]. cbn in E. subst l2. unfold pview. cbn [fst snd] in *.
  assert (MM : forall p p' b, no_digits (if b : bool then msg_unterminated_escape else msg_mismatched p)
      = no_digits (if b then msg_unterminated_escape else msg_mismatched p')).
  { intros p p' []; [reflexivity|apply no_digits_mismatched]. }
  destruct t1 as [| | |p1 a1|p1 e1 b1|], t2 as [| | |p2 a2|p2 e2 b2|]; cbn in T; try contradiction; try discriminate.
  5:{ subst e2. cbn [report]. destruct (c_mode c); cbn [same_view]; [reflexivity|apply no_digits_mismatched|apply MM]. }
  all: cbn [report]; destruct (c_ml c); cbn [same_view]; reflexivity.
Qed.
Lemma same_view_sym v w : same_view v w -> same_view w v.
Proof. destruct v, w; cbn; auto. Qed.
Lemma same_view_trans u v w : same_view u v -> same_view v w -> same_view u w.
Proof. destruct u, v; cbn; try contradiction; destruct w; cbn; try contradiction; congruence. Qed.

Lemma whole_pview full blk n X e0 o : whole_post c d full blk n X e0 o -> (c_mode c <> EThrow -> e0 = None) ->
  same_view (view c o) (pview (psplit c d full)).
Proof.
  intros (l & t & [Hps _] & K) He0. apply pview_sim in Hps. apply same_view_sym in Hps. eapply same_view_trans; [|exact Hps].
  unfold pview; cbn [fst snd].
  assert (Hm : forall m mt, report c t = Some (m, mt) -> m <> []).
  { intros m mt Er. destruct t; cbn in Er; try discriminate; try (destruct (c_ml c); [discriminate|]); injection Er as <- _;
      unfold msg_mismatched; discriminate. }
  assert (V : forall s : sp, s_err s = e0 -> sp_valid c s = true).
  { intros s Es. unfold sp_valid. rewrite Es. destruct (c_mode c); cbn; auto; rewrite He0 by discriminate; reflexivity. }
  destruct (report c t) as [[m mt]|] eqn:Er.
  - specialize (Hm m mt eq_refl). destruct (set_error (c_mode c) m) as [e|] eqn:Es.
    + destruct K as (s' & m' & -> & W & He). unfold view, sp_valid. rewrite He.
      destruct (c_mode c); cbn in Es; [injection Es as <-; reflexivity| |discriminate].
      destruct m; [congruence|]. injection Es as <-. reflexivity.
    + destruct K as (s' & m' & -> & W & He). destruct (c_mode c); cbn in Es; try discriminate. cbn. reflexivity.
  - destruct K as (s' & m' & -> & W & He). unfold view. rewrite (V _ He).
    pose proof (whole_strings _ _ _ _ _ _ _ W) as [S1 S2']. pose proof (w_uq _ _ _ _ _ _ _ _ _ W) as Wu.
    destruct t; rewrite Wu in *; try (rewrite S2' by (auto; discriminate); reflexivity);
      try (rewrite S1 by auto; reflexivity).
Qed.


Lemma in_quotes_whole text s m n : in_quotes c d text s m n -> c_ml c = true ->
  exists blk X l p a, psim (psplit c d text) (l, TUnterm p a) /\ whole c blk n X l (TUnterm p a) s m true.
Proof.
  intros H Hml. assert (OK : forall full blk n X e0 s m, whole_post c d full blk n X e0 (Ok tt (s, m)) -> s_uq s = true ->
     exists l p a, psim (psplit c d full) (l, TUnterm p a) /\ whole c blk n X l (TUnterm p a) s m true).
  { clear. intros full blk n X e0 s m (l & t & [Hps _] & K) Hu.
    assert (W : whole c blk n X l t s m true).
    { destruct (report c t) as [[mm mt]|]; [destruct (set_error (c_mode c) mm)|]; destruct K as (s' & m' & E & W & _);
        try discriminate; injection E as <- <-; exact W. }
    pose proof (w_uq _ _ _ _ _ _ _ _ _ W) as Wu. rewrite Hu in Wu. destruct t; try discriminate. eauto. }
  induction H as [s0 line rest s m Hr HR E Hu Hv|text s m n u rest s' m' H IH Hcont E Hu Hv].
  - pose proof (split_whole c Hc d Hd Hd0 s0 0 line rest (reach_resp _ _ Hr) HR) as W.
    unfold split_call in E. rewrite E in W. apply OK in W; auto. destruct W as (l & p & a & A & B). exists 0, rest, l, p, a. auto.
  - destruct IH as (blk & X & l & p & a & A & B). destruct Hcont as (HU & y & u' & -> & Hy).
    pose proof (resplit_whole c Hc d Hd Hd0 text blk n X l p a s m 1 y u' rest _ Hml A B Hy HU (le_n _)) as W.
    unfold resplit_call in E. rewrite E in W. apply OK in W; auto. destruct W as (l2 & p2 & a2 & A2 & B2). exists 1, rest, l2, p2, a2. auto.
Qed.

Lemma in_quotes_nulfree text s m n : in_quotes c d text s m n -> nulfree text.
Proof. induction 1 as [|? ? ? ? ? ? ? ? ? IH [Hu _]]; [assumption|]. unfold nulfree in *. rewrite in_app_iff. tauto. Qed.

Theorem resplit_thm text s m n u rest s0 rest' : c_ml c = true -> nulfree text ->
  in_quotes c d text s m n -> continues d u -> reach c s0 ->
  same_view (view c (resplit_call c d s m n u rest)) (view c (split_call c s0 d (text ++ u) rest')).
Proof.
  intros Hml Ht H Hcont Hr0.
  assert (Hv : c_mode c <> EThrow -> s_err s = None).
  { intros Hm. assert (V : sp_valid c s = true) by (destruct H; assumption).
    unfold sp_valid in V. destruct (c_mode c); cbn in V; try congruence; destruct (s_err s); congruence. }
  pose proof (in_quotes_whole _ _ _ _ H Hml) as (blk & X & l & p & a & A & B).
  destruct Hcont as (HU & y & u' & -> & Hy).
  pose proof (resplit_whole c Hc d Hd Hd0 text blk n X l p a s m 1 y u' rest _ Hml A B Hy HU (le_n _)) as W.
  assert (HT : nulfree (text ++ y :: u')).
  { unfold nulfree in *. rewrite in_app_iff. tauto. }
  pose proof (split_whole c Hc d Hd Hd0 s0 0 (text ++ y :: u') rest' (reach_resp _ _ Hr0) HT) as W'.
  apply whole_pview in W, W'.
  - eapply same_view_trans; [exact W|]. apply same_view_sym. exact W'.
  - unfold err0. destruct (c_mode c); congruence.
  - unfold err0. destruct (c_mode c); congruence.
Qed.
End U.
