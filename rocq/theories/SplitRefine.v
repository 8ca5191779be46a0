(** L0 = L1: the splitter of Splitter.v computes SplitPure.psplit, in place,
    without leaving the line and without exhausting any loop bound. *)
From Verif Require Import Base Setup Splitter SplitPure ListFacts.

Ltac mred :=
  unfold fuel_of, sget, upd, when; unfold bind, ret, gets, modify, throw; cbn [fst snd];
  cbn [s_err s_uq s_done s_resp s_esc s_sd s_begin s_curr s_end s_blk
       up_err up_uq up_done up_resp up_esc up_sd up_begin up_curr up_end up_blk].

Ltac lens := repeat progress (rewrite ?app_length, ?map_length in *); cbn [length] in *; repeat progress (rewrite ?app_length, ?map_length in *); cbn [length] in *; lia.

Ltac aapp := repeat (progress (rewrite <- ?app_assoc; cbn [app])); reflexivity.

Definition delim_str (dl : delim) : str := match dl with DChar x => [x] | DStr s => s end.

(** The fields an operation inside a field leaves alone. *)
Definition same (s s' : sp) : Prop :=
  s_uq s' = s_uq s /\ s_resp s' = s_resp s /\ s_blk s' = s_blk s.

Section Refine.
Context (c : cfg) (Hc : cfg_ok c).
Context (d : str) (dl : delim) (Hdl : delim_str dl = d) (Hd : nulfree d) (Hd0 : d <> []).

Lemma load_at s P a Y p : p = length P -> load p (s, P ++ Some a :: Y) = Ok a (s, P ++ Some a :: Y).
Proof. intros Hp; unfold load; cbn [snd]; rewrite rd_at by exact Hp; reflexivity. Qed.

Lemma trim_loop_spec cs s P t u X : ~ In NUL cs ->
  span cs (t ++ u) = (t, u) ->
  forall fuel p, p = length P -> length t < fuel ->
  trim_loop fuel cs p (s, P ++ map Some (t ++ u) ++ Some NUL :: X)
  = Ok (length P + length t) (s, P ++ map Some (t ++ u) ++ Some NUL :: X).
Proof.
  intros Hn Hs; apply span_spec in Hs; destruct Hs as (_ & Ft & Hu).
  revert P; induction t as [|x t IH]; intros P fuel p -> Hf; (destruct fuel as [|f]; [cbn in Hf; lia|]).
  - cbn [trim_loop app]. mred.
    destruct u as [|y u]; cbn [map app].
    + rewrite load_at by reflexivity. apply mem_nIn in Hn; rewrite Hn. f_equal; cbn; lia.
    + rewrite load_at by reflexivity. apply mem_nIn in Hu; rewrite Hu. f_equal; cbn; lia.
  - inversion Ft as [|? ? Hx Ft']; subst.
    cbn [trim_loop app map]. mred. rewrite load_at by reflexivity.
    apply mem_In in Hx; rewrite Hx.
    change (P ++ Some x :: map Some (t ++ u) ++ Some NUL :: X) with (P ++ [Some x] ++ map Some (t ++ u) ++ Some NUL :: X).
    rewrite app_assoc. rewrite IH; auto.
    + f_equal. rewrite app_length; cbn; lia.
    + rewrite app_length; cbn; lia.
    + cbn in Hf; lia.
Qed.

Lemma trim_spec cs s P u X p : ~ In NUL cs -> p = length P ->
  trim_if_enabled cs p (s, P ++ map Some u ++ Some NUL :: X)
  = Ok (length P + (length u - length (dropc cs u))) (s, P ++ map Some u ++ Some NUL :: X).
Proof.
  intros Hn ->. unfold trim_if_enabled. destruct cs as [|x cs'] eqn:E.
  - rewrite dropc_nil_cs. unfold ret; f_equal; lia.
  - rewrite <- E in *. mred. unfold dropc.
    destruct (span cs u) as [t v] eqn:Es. pose proof Es as Es'.
    apply span_spec in Es'; destruct Es' as (-> & _).
    rewrite trim_loop_spec; auto.
    + cbn [snd]. f_equal. rewrite app_length; lia.
    + rewrite !app_length, map_length, app_length; lia.
Qed.

Lemma strncmp_spec s P u X : forall e p, p = length P -> nulfree u -> nulfree e ->
  strncmp_eq p e (s, P ++ map Some u ++ Some NUL :: X)
  = Ok (match strip e u with Some _ => true | None => false end) (s, P ++ map Some u ++ Some NUL :: X).
Proof.
  intros e; revert P u; induction e as [|x e IH]; intros P u p -> Hu He; cbn [strncmp_eq strip]; [reflexivity|].
  apply nulfree_cons in He; destruct He as [Hx He].
  destruct u as [|y u]; cbn [map app]; mred; rewrite load_at by reflexivity.
  - destruct (Ascii.eqb NUL x) eqn:E; [apply Ascii.eqb_eq in E; congruence|reflexivity].
  - destruct (Ascii.eqb y x) eqn:E; cbn [negb]; [|reflexivity].
    apply nulfree_cons in Hu; destruct Hu as [Hy Hu].
    destruct (Ascii.eqb y NUL) eqn:E0; [apply Ascii.eqb_eq in E0; congruence|].
    change (P ++ Some y :: map Some u ++ Some NUL :: X) with (P ++ [Some y] ++ map Some u ++ Some NUL :: X).
    rewrite app_assoc. rewrite IH; auto. rewrite app_length; cbn; lia.
Qed.

Lemma sp_match_spec s P u X p : p = length P -> nulfree u ->
  sp_match p dl (s, P ++ map Some u ++ Some NUL :: X)
  = Ok (match strip d u with Some _ => true | None => false end) (s, P ++ map Some u ++ Some NUL :: X).
Proof.
  intros -> Hu; unfold sp_match; destruct dl as [x|e]; cbn in Hdl; subst d.
  - mred. destruct u as [|y u]; cbn [map app]; rewrite load_at by reflexivity; cbn [strip].
    + apply nulfree_cons in Hd. destruct (Ascii.eqb NUL x) eqn:E; [apply Ascii.eqb_eq in E; intuition congruence|reflexivity].
    + destruct (Ascii.eqb y x); destruct u; reflexivity.
  - apply strncmp_spec; auto.
Qed.

Lemma delim_size : delimiter_size dl = length d.
Proof. destruct dl; cbn in *; subst; reflexivity. Qed.

Lemma md_dec u : match md c d u with
  | MEol => exists t, u = t /\ span (c_trimr c) u = (t, [])
  | MDelim rest => exists t v, span (c_trimr c) u = (t, d ++ v) /\ rest = dropc (c_triml c) v /\ u = t ++ d ++ v
  | MOther t x r => span (c_trimr c) u = (t, x :: r) /\ strip d (x :: r) = None /\ u = t ++ x :: r
  end.
Proof.
  unfold md. destruct (span (c_trimr c) u) as [t v] eqn:E.
  pose proof (span_spec _ _ _ _ E) as (Eu & _).
  destruct v as [|x r].
  - exists t. rewrite app_nil_r in Eu; auto.
  - destruct (strip d (x :: r)) as [rest|] eqn:Es.
    + apply strip_spec in Es. exists t, rest. rewrite Eu, Es. auto.
    + auto.
Qed.

Lemma md_spec s P u X p : p = length P -> nulfree u ->
  match_delimiter c p dl (s, P ++ map Some u ++ Some NUL :: X) =
  match md c d u with
  | MEol => Ok (0, false) (s, P ++ map Some u ++ Some NUL :: X)
  | MDelim rest => Ok (length u - length rest, true) (s, P ++ map Some u ++ Some NUL :: X)
  | MOther t x r =>
      (shift_if_escaped c (length P + length t) ;; ret (S (length t), false))
        (s, P ++ map Some u ++ Some NUL :: X)
  end.
Proof.
  intros -> Hu. pose proof (md_dec u) as Hm. unfold match_delimiter. unfold bind at 1.
  rewrite trim_spec by (auto; apply ok_nul_r; exact Hc).
  cbn iota beta.
  destruct (md c d u) as [|rest|t x r].
  - destruct Hm as (t & E & Es). unfold dropc; rewrite Es; cbn [snd length].
    rewrite Nat.sub_0_r. unfold bind at 1.
    replace (P ++ map Some u ++ Some NUL :: X) with ((P ++ map Some u) ++ Some NUL :: X) by (rewrite <- app_assoc; reflexivity).
    rewrite load_at by (rewrite app_length, map_length; reflexivity).
    cbn. reflexivity.
  - destruct Hm as (t & v & Es & -> & ->). unfold dropc; rewrite Es; cbn [snd length].
    replace (length (t ++ d ++ v) - length (d ++ v)) with (length t) by (rewrite app_length; lia).
    destruct d as [|x d'] eqn:Ed; [congruence|]. rewrite <- Ed in *.
    assert (Hx : x <> NUL) by (rewrite Ed in Hd; apply nulfree_cons in Hd; intuition).
    unfold bind at 1.
    replace (P ++ map Some (t ++ d ++ v) ++ Some NUL :: X)
      with ((P ++ map Some t) ++ map Some (d ++ v) ++ Some NUL :: X)
      by (rewrite !map_app, <- !app_assoc; reflexivity).
    rewrite Ed at 1. cbn [map app].
    rewrite load_at by (rewrite app_length, map_length; reflexivity).
    destruct (Ascii.eqb x NUL) eqn:E0; [apply Ascii.eqb_eq in E0; congruence|].
    unfold bind at 1.
    change (Some x :: map Some (d' ++ v) ++ Some NUL :: X) with (map Some ((x :: d') ++ v) ++ Some NUL :: X).
    rewrite <- Ed.
    rewrite sp_match_spec.
    2: rewrite app_length, map_length; reflexivity.
    2: apply nulfree_app in Hu; destruct Hu as [_ Hu]; exact Hu.
    rewrite strip_app. cbn [negb].
    unfold bind at 1.
    replace ((P ++ map Some t) ++ map Some (d ++ v) ++ Some NUL :: X)
      with ((P ++ map Some t ++ map Some d) ++ map Some v ++ Some NUL :: X)
      by (rewrite !map_app, <- !app_assoc; reflexivity).
    rewrite delim_size.
    rewrite trim_spec by (try (apply ok_nul_l; exact Hc); rewrite !app_length, !map_length; lia).
    unfold ret. f_equal. f_equal.
    pose proof (dropc_length (c_triml c) v). unfold dropc in *.
    rewrite !app_length, !map_length. lia.
  - destruct Hm as (Es & Est & ->). unfold dropc; rewrite Es; cbn [snd].
    replace (length (t ++ x :: r) - length (x :: r)) with (length t) by (rewrite app_length; lia).
    assert (Hx : x <> NUL) by (rewrite nulfree_app, nulfree_cons in Hu; intuition).
    unfold bind at 1.
    replace (P ++ map Some (t ++ x :: r) ++ Some NUL :: X)
      with ((P ++ map Some t) ++ map Some (x :: r) ++ Some NUL :: X)
      by (rewrite !map_app, <- !app_assoc; reflexivity).
    cbn [map app].
    rewrite load_at by (rewrite app_length, map_length; reflexivity).
    destruct (Ascii.eqb x NUL) eqn:E0; [apply Ascii.eqb_eq in E0; congruence|].
    unfold bind at 1.
    change (Some x :: map Some r ++ Some NUL :: X) with (map Some (x :: r) ++ Some NUL :: X).
    rewrite sp_match_spec.
    2: rewrite app_length, map_length; reflexivity.
    2: rewrite nulfree_app in Hu; intuition.
    rewrite Est. cbn [negb].
    unfold bind. destruct (shift_if_escaped c (length P + length t) _) as [[] st'|e st'|w|]; try reflexivity.
    unfold ret; f_equal; f_equal; lia.
Qed.

(** Memory layout inside a field: prefix [P], kept characters [A], gap [G] left by
    removed characters, pending characters [D], then the rest [Y]. *)
Record lay (s : sp) (P : cells) (A : str) (G : cells) (D : str) : Prop := {
  l_begin : s_begin s = length P;
  l_curr : s_curr s = length P + length A;
  l_esc : s_esc s = length G;
  l_end : s_end s = length P + length A + length G + length D;
  l_const : is_const_line c = true -> G = [];
}.

Lemma shift_spec s P A G D Y :
  lay s P A G D ->
  exists G', length G' = length G /\
  shift_and_set_current c (s, P ++ map Some A ++ G ++ map Some D ++ Y)
  = Ok tt (up_curr (length P + length (A ++ D)) s, P ++ map Some (A ++ D) ++ G' ++ Y)
  /\ lay (up_curr (length P + length (A ++ D)) s) P (A ++ D) G' [].
Proof.
  intros [Hb Hcu He Hen Hk]. unfold shift_and_set_current. mred.
  rewrite He, Hcu, Hen.
  destruct (negb (is_const_line c) && (0 <? length G)) eqn:E.
  - destruct (copyn_mid P (map Some A) G (map Some D) Y) as (G' & HG & HC).
    exists G'; split; [exact HG|].
    rewrite !map_length in HC.
    replace (length P + length A + length G + length D - (length P + length A) - length G) with (length D) by lia.
    cbn [fst snd]. rewrite HC. cbn [fst snd]. rewrite map_app, <- !app_assoc.
    split.
    + f_equal. f_equal. rewrite app_length. f_equal; lia.
    + split; cbn; auto; try (rewrite ?app_length; lia).
      intros Hk'. rewrite Hk' in E. discriminate.
  - exists G; split; [reflexivity|].
    assert (G = []) as ->.
    { apply andb_false_iff in E; destruct E as [E|E].
      - apply Hk. destruct (is_const_line c); [reflexivity|discriminate].
      - apply Nat.ltb_ge in E. destruct G; [reflexivity|cbn in E; lia]. }
    cbn [app length] in *. rewrite map_app, <- !app_assoc. split.
    + f_equal. f_equal. f_equal. lens.
    + split; cbn; auto; lens.
Qed.

(** shift_and_jump_escape: the character at [end_] moves into the gap. *)
Lemma jump_spec s P A G D x Y :
  is_const_line c = false -> lay s P A G D ->
  exists G' s', length G' = S (length G) /\
  shift_and_jump_escape c (s, P ++ map Some A ++ G ++ map Some D ++ Some x :: Y)
  = Ok tt (s', P ++ map Some (A ++ D) ++ G' ++ Y)
  /\ lay s' P (A ++ D) G' [] /\ s_end s' = S (s_end s)
  /\ same s s' /\ s_err s' = s_err s /\ s_done s' = s_done s /\ s_sd s' = s_sd s.
Proof.
  intros Hk L. destruct (shift_spec s P A G D (Some x :: Y) L) as (G' & HG & E & L').
  unfold shift_and_jump_escape. unfold bind at 1. rewrite E. rewrite Hk. cbn [negb]. mred.
  eexists (G' ++ [Some x]), _. split; [rewrite app_length; cbn; lia|].
  split.
  { f_equal. f_equal. rewrite <- !app_assoc. reflexivity. }
  destruct L' as [H1 H2 H3 H4 H5]. destruct L as [K1 K2 K3 K4 K5]. cbn in *.
  split; [split; cbn; auto; try (rewrite ?app_length in *; cbn; lia)|].
  { intros K; congruence. }
  split; [rewrite K4; rewrite ?app_length in *; lia|].
  unfold same; cbn; auto.
Qed.

(** Text-level lemmas about [normal] and [quoted]. *)
Lemma normal_keep : forall w flag acc r,
  normal c d (length w) flag acc (w ++ r) = normal c d 0 flag (acc ++ w) r.
Proof.
  induction w as [|x w IH]; intros flag acc r; cbn [length app].
  - rewrite app_nil_r; reflexivity.
  - cbn [normal]. rewrite IH, <- app_assoc; reflexivity.
Qed.

Lemma quoted_keep : forall w pos acc r,
  quoted c d 0 (length w) pos acc (w ++ r) = quoted c d 0 0 (pos + length w) (acc ++ w) r.
Proof.
  induction w as [|x w IH]; intros pos acc r; cbn [length app].
  - rewrite app_nil_r, Nat.add_0_r; reflexivity.
  - cbn [quoted]. rewrite IH, <- app_assoc. f_equal; lia.
Qed.

(** How reading a field may end, at L0. [s0] is the state when reading started,
    [P] the memory before the field's first character and [n] the number of
    characters from there to the terminator. *)
Definition field_post (s0 : sp) (P : cells) (n : nat) (X : cells)
    (r : fres) (o : res sst unit) : Prop :=
  match r with
  | FNext a rest => exists s' G,
      o = Ok tt (s', P ++ map Some a ++ G ++ map Some rest ++ Some NUL :: X)
      /\ same s0 s' /\ s_err s' = s_err s0 /\ s_done s' = s_done s0
      /\ s_sd s' = s_sd s0 ++ [(length P, length P + length a)]
      /\ s_begin s' = length P + length a + length G
      /\ length a + length G + length rest = n /\ nulfree rest /\ length rest < n
  | FLast a => exists s' G,
      o = Ok tt (s', P ++ map Some a ++ G ++ Some NUL :: X)
      /\ same s0 s' /\ s_err s' = s_err s0 /\ s_done s' = true
      /\ s_sd s' = s_sd s0 ++ [(length P, length P + length a)]
      /\ length a + length G = n
  | FLastEsc a =>
      match (if c_ml c then Some (s_err s0) else set_error (c_mode c) msg_unterminated_escape) with
      | Some e => exists s' G,
          o = Ok tt (s', P ++ map Some a ++ G ++ Some NUL :: X)
          /\ same s0 s' /\ s_err s' = e /\ s_done s' = true
          /\ s_sd s' = s_sd s0 ++ [(length P, length P + length a)]
          /\ length a + length G = n
      | None => exists s' Z, o = Throw msg_unterminated_escape (s', P ++ Z ++ Some NUL :: X)
          /\ same s0 s' /\ s_err s' = s_err s0 /\ length Z = n
      end
  | FEscEnd =>
      match (if c_ml c then Some (s_err s0) else set_error (c_mode c) msg_unterminated_escape) with
      | Some e => exists s' Z,
          o = Ok tt (s', P ++ Z ++ Some NUL :: X)
          /\ same s0 s' /\ s_err s' = e /\ s_done s' = true
          /\ s_sd s' = s_sd s0 /\ length Z = n
      | None => exists s' Z, o = Throw msg_unterminated_escape (s', P ++ Z ++ Some NUL :: X)
          /\ same s0 s' /\ s_err s' = s_err s0 /\ length Z = n
      end
  | FUnterm a =>
      match (if c_ml c then Some (s_err s0) else set_error (c_mode c) msg_unterminated_quote) with
      | Some e => exists s' G,
          o = Ok tt (s', P ++ map Some a ++ G ++ Some NUL :: X)
          /\ s_uq s' = true /\ s_resp s' = s_resp s0 /\ s_blk s' = s_blk s0
          /\ s_err s' = e /\ s_done s' = true
          /\ s_sd s' = s_sd s0 ++ [(0, length P)]
          /\ lay s' P a G []
          /\ length a + length G = n
      | None => exists s' Z, o = Throw msg_unterminated_quote (s', P ++ Z ++ Some NUL :: X)
          /\ s_uq s' = true /\ s_resp s' = s_resp s0 /\ s_blk s' = s_blk s0
          /\ s_err s' = s_err s0 /\ length Z = n
      end
  | FMismatch pos esc =>
      match set_error (c_mode c) (msg_mismatched pos) with
      | Some e => exists s' Z,
          o = Ok tt (s', P ++ Z ++ Some NUL :: X)
          /\ same s0 s' /\ s_err s' = e /\ s_done s' = true
          /\ s_sd s' = s_sd s0 ++ [(0, length P)] /\ length Z = n
      | None => exists s' Z,
          o = Throw (if esc && negb (c_ml c) then msg_unterminated_escape else msg_mismatched pos)
                    (s', P ++ Z ++ Some NUL :: X)
          /\ same s0 s' /\ s_err s' = s_err s0 /\ length Z = n
      end
  end.

Lemma escape_enabled_match x : escape_match c x = true -> escape_enabled c = true.
Proof. unfold escape_match, escape_enabled, mem. destruct (c_escape c); [discriminate|reflexivity]. Qed.
Lemma const_escape x : escape_match c x = true -> is_const_line c = false.
Proof. intros H; apply escape_enabled_match in H; unfold is_const_line; rewrite H; apply andb_false_r. Qed.
Lemma const_quote x : quote_match c x = true -> is_const_line c = false.
Proof. unfold quote_match, is_const_line, quote_enabled; destruct (c_quote c); [reflexivity|discriminate]. Qed.

Definition field_post_weaken_start s0 s1 P n X r o :
  same s0 s1 -> s_err s1 = s_err s0 -> s_done s1 = s_done s0 -> s_sd s1 = s_sd s0 ->
  field_post s1 P n X r o -> field_post s0 P n X r o.
Proof.
  intros (A1 & A2 & A3) B C D. unfold field_post, same.
  rewrite B, C, D, A1, A2, A3. exact (fun H => H).
Qed.

(** shift_if_escaped *)
Lemma sie_no s Q x Y p : escape_match c x = false -> p = length Q ->
  shift_if_escaped c p (s, Q ++ Some x :: Y) = Ok tt (s, Q ++ Some x :: Y).
Proof.
  intros E ->. unfold shift_if_escaped. destruct (escape_enabled c); [|reflexivity].
  unfold bind at 1. rewrite load_at by reflexivity. rewrite E. reflexivity.
Qed.
Lemma sie_last s Q x Y p : escape_match c x = true -> p = length Q ->
  shift_if_escaped c p (s, Q ++ Some x :: Some NUL :: Y)
  = (when (negb (c_ml c)) (sp_error c msg_unterminated_escape) ;; upd (up_done true))
      (s, Q ++ Some x :: Some NUL :: Y).
Proof.
  intros E ->. unfold shift_if_escaped. rewrite (escape_enabled_match x E).
  unfold bind at 1. rewrite load_at by reflexivity. rewrite E. unfold bind at 1.
  change (Q ++ Some x :: Some NUL :: Y) with (Q ++ [Some x] ++ Some NUL :: Y). rewrite app_assoc.
  rewrite load_at by lens. reflexivity.
Qed.
Lemma sie_jump s Q x y Y p : escape_match c x = true -> p = length Q -> y <> NUL ->
  shift_if_escaped c p (s, Q ++ Some x :: Some y :: Y)
  = shift_and_jump_escape c (s, Q ++ Some x :: Some y :: Y).
Proof.
  intros E -> Hy. unfold shift_if_escaped. rewrite (escape_enabled_match x E).
  unfold bind at 1. rewrite load_at by reflexivity. rewrite E. unfold bind at 1.
  change (Q ++ Some x :: Some y :: Y) with (Q ++ [Some x] ++ Some y :: Y). rewrite app_assoc.
  rewrite load_at by lens.
  destruct (Ascii.eqb y NUL) eqn:E0; [apply Ascii.eqb_eq in E0; congruence|reflexivity].
Qed.

(** read_normal *)
Lemma read_normal_spec : forall fuel P X s A G D R,
  lay s P A G D -> nulfree R -> length R < fuel ->
  field_post s P (length A + length G + length D + length R) X
    (normal c d 0 false (A ++ D) R)
    (read_normal c fuel dl (s, P ++ map Some A ++ G ++ map Some D ++ map Some R ++ Some NUL :: X)).
Proof.
  induction fuel as [|f IH]; intros P X s A G D R L HR Hf; [lia|].
  cbn [read_normal].
  unfold bind at 1. unfold sget, gets at 1. cbn [fst].
  unfold bind at 1.
  replace (P ++ map Some A ++ G ++ map Some D ++ map Some R ++ Some NUL :: X)
    with ((P ++ map Some A ++ G ++ map Some D) ++ map Some R ++ Some NUL :: X)
    by (rewrite <- !app_assoc; reflexivity).
  rewrite md_spec; auto.
  2:{ rewrite !app_length, !map_length. destruct L as [_ _ _ -> _]; lia. }
  set (M0 := (P ++ map Some A ++ G ++ map Some D) ++ map Some R ++ Some NUL :: X).
  pose proof (md_dec R) as Hm.
  destruct R as [|h R'].
  { (* end of line *)
    unfold md; cbn [span].
    cbn [negb Nat.eqb normal].
    destruct (shift_spec s P A G D (Some NUL :: X) L) as (G' & HG & E & L').
    unfold shift_and_push. unfold bind at 1 2.
    assert (EM : M0 = P ++ map Some A ++ G ++ map Some D ++ Some NUL :: X)
      by (unfold M0; cbn [map app]; rewrite <- !app_assoc; reflexivity).
    rewrite EM, E. mred. unfold field_post.
    eexists _, G'. split; [reflexivity|]. cbn. unfold same; cbn.
    destruct L as [-> _ _ _ _]. rewrite !app_length. repeat split; auto. lia. }
  cbn [normal].
  destruct (md c d (h :: R')) as [|rest|t x r].
  - (* only trimmed characters left *)
    cbn [negb Nat.eqb].
    destruct (shift_spec s P A G D (map Some (h :: R') ++ Some NUL :: X) L) as (G' & HG & E & L').
    unfold shift_and_push. unfold bind at 1 2.
    assert (EM : M0 = P ++ map Some A ++ G ++ map Some D ++ map Some (h :: R') ++ Some NUL :: X)
      by (unfold M0; cbn [map app]; rewrite <- !app_assoc; reflexivity).
    rewrite EM, E. mred. unfold field_post.
    eexists _, (G' ++ map Some (h :: R')). split; [rewrite <- !app_assoc; reflexivity|]. cbn. unfold same; cbn.
    destruct L as [-> _ _ _ _]. rewrite !app_length; cbn; rewrite !map_length. repeat split; auto. lia.
  - (* delimiter *)
    destruct Hm as (t & v & Es & -> & Eu).
    cbn [negb].
    set (R := h :: R') in *.
    destruct (dropc_suffix (c_triml c) v) as (w & Ew & _).
    set (rest := dropc (c_triml c) v) in *.
    assert (ER : R = (t ++ d ++ w) ++ rest) by (rewrite Eu, Ew, <- !app_assoc; reflexivity).
    destruct (shift_spec s P A G D (map Some R ++ Some NUL :: X) L) as (G' & HG & E & L').
    unfold shift_push_and_start_next, shift_and_push. unfold bind at 1 2.
    assert (EM : M0 = P ++ map Some A ++ G ++ map Some D ++ map Some R ++ Some NUL :: X)
      by (unfold M0; rewrite <- !app_assoc; reflexivity).
    rewrite EM, E. mred. unfold field_post.
    eexists _, (G' ++ map Some (t ++ d ++ w)). split.
    { rewrite ER, !map_app, <- !app_assoc. reflexivity. }
    assert (LR : S (length R') = length t + length d + length w + length rest).
    { change (S (length R')) with (length R). rewrite ER; lens. }
    assert (Hdn : length d <> 0) by (destruct d; [congruence|cbn; lia]).
    cbn. unfold same; cbn.
    destruct L as [Lb _ _ Le _]. rewrite Lb, Le, !app_length, !map_length, !app_length.
    repeat split; auto; try lia.
    rewrite ER in HR. apply nulfree_app in HR; intuition.
  - destruct Hm as (Es & Est & Eu).
    set (R := h :: R') in *.
    assert (EM : M0 = P ++ map Some A ++ G ++ map Some D ++ map Some R ++ Some NUL :: X)
      by (unfold M0; rewrite <- !app_assoc; reflexivity).
    assert (Hr : nulfree (x :: r)) by (rewrite Eu in HR; apply nulfree_app in HR; intuition).
    replace (length (P ++ map Some A ++ G ++ map Some D) + length t)
      with (length ((P ++ map Some A ++ G ++ map Some D) ++ map Some t))
      by (rewrite (app_length _ (map Some t)), map_length; reflexivity).
    assert (EM2 : M0 = ((P ++ map Some A ++ G ++ map Some D) ++ map Some t) ++ Some x :: map Some r ++ Some NUL :: X).
    { unfold M0. rewrite Eu. rewrite map_app; cbn [map]. rewrite <- !app_assoc. reflexivity. }
    destruct (escape_match c x) eqn:Ee.
    + (* escape *)
      unfold bind at 1. rewrite EM2 at 1.
      destruct r as [|y r'].
      * (* escape is the last character *)
        cbn [map app]. rewrite sie_last by auto.
        replace ((((P ++ map Some A ++ G ++ map Some D) ++ map Some t)) ++ Some x :: Some NUL :: X) with M0
          by (rewrite EM2; reflexivity).
        assert (Elen : length R' = length t).
        { assert (EL : length R = length (t ++ [x])) by (rewrite Eu; reflexivity).
          rewrite app_length in EL; unfold R in EL; cbn in EL; lia. }
        rewrite <- Elen.
        pose proof (normal_keep R' true ((A ++ D) ++ [h]) []) as NK.
        rewrite app_nil_r in NK. rewrite NK. cbn [normal].
        assert (EA : ((A ++ D) ++ [h]) ++ R' = A ++ (D ++ R)).
        { unfold R; rewrite <- !app_assoc; reflexivity. }
        rewrite EA.
        assert (Hfin : forall s1, lay s1 P A G D -> same s s1 -> s_sd s1 = s_sd s ->
          exists s' G', read_normal c f dl (up_end (s_end s1 + S (length R')) s1, M0)
              = Ok tt (s', P ++ map Some (A ++ D ++ R) ++ G' ++ Some NUL :: X)
            /\ same s s' /\ s_err s' = s_err s1 /\ s_done s' = true
            /\ s_sd s' = s_sd s ++ [(length P, length P + length (A ++ D ++ R))]
            /\ length (A ++ D ++ R) + length G' = length A + length G + length D + length R).
        { intros s1 L1 Hs Hsd.
          assert (L2 : lay (up_end (s_end s1 + S (length R')) s1) P A G (D ++ R)).
          { destruct L1 as [I1 I2 I3 I4 I5]. split; cbn; auto. rewrite I4, app_length; unfold R; cbn. lia. }
          specialize (IH P X _ A G (D ++ R) [] L2 nulfree_nil ltac:(cbn in *; lia)).
          cbn [normal map app] in IH.
          assert (EM4 : M0 = P ++ map Some A ++ G ++ map Some (D ++ R) ++ Some NUL :: X)
            by (rewrite EM, map_app, <- !app_assoc; reflexivity).
          rewrite EM4. destruct IH as (s' & G' & E1 & Sm & Er & Dn & Sd & Ln).
          exists s', G'. rewrite E1.
          destruct Hs as (S1 & S2 & S3). destruct Sm as (T1 & T2 & T3). cbn in *.
          unfold same. rewrite T1, T2, T3, Sd, Hsd. rewrite !app_length in *.
          repeat split; auto. change (length R) with (S (length R')) in *. lia. }
        assert (Hn : length (A ++ D ++ R) + 0 <= length A + length G + length D + length R)
          by (rewrite !app_length; lia).
        unfold field_post. destruct (c_ml c).
        -- cbn [negb]. mred.
           destruct (Hfin (up_done true s)) as (s' & G' & E1 & Hrest).
           { destruct L as [I1 I2 I3 I4 I5]; split; cbn; auto. }
           { unfold same; cbn; auto. } { reflexivity. }
           cbn [Nat.eqb]. cbn [s_end up_done] in E1.
           exists s', G'. split; [exact E1|]. exact Hrest.
        -- cbn [negb]. unfold sp_error. destruct (set_error (c_mode c) msg_unterminated_escape) as [e|] eqn:Eerr.
           ++ mred.
              destruct (Hfin (up_done true (up_err e s))) as (s' & G' & E1 & Hrest).
              { destruct L as [I1 I2 I3 I4 I5]; split; cbn; auto. }
              { unfold same; cbn; auto. } { reflexivity. }
              cbn [Nat.eqb]. exists s', G'. split; [exact E1|]. exact Hrest.
           ++ mred. exists s, (map Some A ++ G ++ map Some D ++ map Some R).
              split; [rewrite EM, <- !app_assoc; reflexivity|].
              unfold same. rewrite !app_length, !map_length. repeat split; auto. lia.
      * (* escaped character *)
        assert (Hy : y <> NUL) by (rewrite !nulfree_cons in Hr; intuition).
        cbn [map app]. rewrite sie_jump by auto.
        replace ((((P ++ map Some A ++ G ++ map Some D) ++ map Some t)) ++ Some x :: Some y :: map Some r' ++ Some NUL :: X) with M0
          by (rewrite EM2; reflexivity).
        destruct (jump_spec s P A G D h (map Some R' ++ Some NUL :: X) (const_escape x Ee) L)
          as (G' & s1 & HG & EJ & L1 & Hend & Sm & Er & Dn & Sd).
        assert (EM4 : M0 = P ++ map Some A ++ G ++ map Some D ++ Some h :: map Some R' ++ Some NUL :: X)
          by (rewrite EM; reflexivity).
        rewrite EM4, EJ. mred. cbn [negb Nat.eqb].
        (* characters kept: |t|+1 of them *)
        assert (EW : exists w, R' = w ++ r' /\ length w = S (length t)).
        { unfold R in Eu. destruct t as [|t0 t']; cbn in Eu; injection Eu as -> ->.
          - exists [y]; auto.
          - exists (t' ++ [x; y]). split; [rewrite <- app_assoc; reflexivity|rewrite app_length; cbn; lia]. }
        destruct EW as (w & EW & LW).
        rewrite <- LW, EW, normal_keep.
        apply (field_post_weaken_start s s1); auto.
        assert (L2 : lay (up_end (s_end s1 + length w) s1) P (A ++ D) G' w).
        { destruct L1 as [I1 I2 I3 I4 I5]; split; cbn; auto. rewrite I4; cbn; lia. }
        assert (Hr' : nulfree r') by (rewrite !nulfree_cons in Hr; intuition).
        assert (LR : length R = S (length w + length r')) by (unfold R; rewrite EW; cbn; rewrite app_length; lia).
        assert (Hlf : length r' < f) by lia.
        specialize (IH P X _ (A ++ D) G' w r' L2 Hr' Hlf).
        replace (length A + length G + length D + length R)
          with (length (A ++ D) + length G' + length w + length r')
          by (rewrite app_length, HG; lia).
        cbn [fst snd]. rewrite (map_app _ w r'), <- (app_assoc (map Some w)).
        apply (field_post_weaken_start s1 (up_end (s_end s1 + length w) s1)); [unfold same; cbn; auto|reflexivity..|].
        exact IH.
    + (* ordinary characters *)
      unfold bind at 1.
      assert (EW : exists w, R = w ++ r /\ length w = S (length t)).
      { exists (t ++ [x]). rewrite Eu, <- app_assoc. split; [reflexivity|lens]. }
      destruct EW as (w & EW & LW).
      assert (ER' : exists w', w = h :: w' /\ length w' = length t).
      { destruct w as [|h' w']; [cbn in LW; lia|]. unfold R in EW; cbn in EW; injection EW as <- EW.
        exists w'; split; [reflexivity|cbn in LW; lia]. }
      destruct ER' as (w' & Ew & Lw'). 
      assert (ER2 : R' = w' ++ r) by (unfold R in EW; rewrite Ew in EW; cbn in EW; congruence).
      rewrite EM2 at 1. rewrite sie_no by auto. rewrite <- EM2.
      mred. cbn [negb Nat.eqb].
      rewrite ER2, <- Lw', normal_keep.
      replace (((A ++ D) ++ [h]) ++ w') with (A ++ (D ++ w)) by (rewrite Ew, <- !app_assoc; reflexivity).
      assert (L2 : lay (up_end (s_end s + S (length w')) s) P A G (D ++ w)).
      { destruct L as [I1 I2 I3 I4 I5]; split; cbn; auto. rewrite I4, Ew. lens. }
      assert (Hlf : length r < f) by (rewrite EW in Hf; lens).
      assert (Hr' : nulfree r) by (rewrite !nulfree_cons in Hr; intuition).
      specialize (IH P X _ A G (D ++ w) r L2 Hr' Hlf).
      replace (length A + length G + length D + length R)
        with (length A + length G + length (D ++ w) + length r) by (rewrite EW; lens).
      apply (field_post_weaken_start s (up_end (s_end s + S (length w')) s)); [unfold same; cbn; auto|reflexivity..|].
      replace M0 with (P ++ map Some A ++ G ++ map Some (D ++ w) ++ map Some r ++ Some NUL :: X)
        by (rewrite EM, EW, !map_app, <- !app_assoc; reflexivity).
      exact IH.
Qed.

Lemma quote_nul : quote_match c NUL = false.
Proof.
  unfold quote_match. destruct (c_quote c) as [q|] eqn:E; [|reflexivity].
  destruct (Ascii.eqb NUL q) eqn:E0; [|reflexivity].
  apply Ascii.eqb_eq in E0; subst. destruct (ok_nul_q c Hc); exact E.
Qed.
Lemma escape_nul : escape_match c NUL = false.
Proof. unfold escape_match; apply mem_nIn, ok_nul_e; exact Hc. Qed.
Lemma quote_In x : quote_match c x = true -> In x (quote_list c).
Proof.
  unfold quote_match, quote_list. destruct (c_quote c); [|discriminate].
  intros E; apply Ascii.eqb_eq in E; subst; left; reflexivity.
Qed.
Lemma quote_trimr x : In x (c_trimr c) -> quote_match c x = false.
Proof.
  intros H. destruct (quote_match c x) eqn:E; [|reflexivity].
  apply quote_In in E. destruct (ok_qr c Hc x E H).
Qed.
Lemma quote_escape x : escape_match c x = true -> quote_match c x = false.
Proof.
  intros H. destruct (quote_match c x) eqn:E; [|reflexivity].
  apply quote_In in E. apply mem_In in H. destruct (ok_qe c Hc x H E).
Qed.

Lemma field_post_n s0 P n n' X r o : n = n' -> field_post s0 P n X r o -> field_post s0 P n' X r o.
Proof. intros ->; exact (fun H => H). Qed.

(** read_quoted *)
Lemma read_quoted_spec : is_const_line c = false ->
  forall fuel P X s A G D R,
  lay s P A G D -> nulfree R -> length R < fuel ->
  field_post s P (length A + length G + length D + length R) X
    (quoted c d 0 0 (s_end s) (A ++ D) R)
    (read_quoted c fuel dl (s, P ++ map Some A ++ G ++ map Some D ++ map Some R ++ Some NUL :: X)).
Proof.
  intros Hk. induction fuel as [|f IH]; intros P X s A G D R L HR Hf; [lia|].
  cbn [read_quoted].
  unfold bind at 1. unfold sget, gets at 1. cbn [fst].
  pose proof (l_end _ _ _ _ _ L) as Hend.
  set (Q := P ++ map Some A ++ G ++ map Some D).
  assert (HQ : s_end s = length Q) by (unfold Q; lens).
  replace (P ++ map Some A ++ G ++ map Some D ++ map Some R ++ Some NUL :: X)
    with (Q ++ map Some R ++ Some NUL :: X)
    by (unfold Q; rewrite <- !app_assoc; reflexivity).
  (* one step that leaves the removed character in the gap and keeps the next *)
  assert (Hjump2 : forall h y r, R = h :: y :: r ->
    exists s2 G2, (shift_and_jump_escape c ;; upd (fun s => up_end (S (s_end s)) s) ;; read_quoted c f dl)
        (s, Q ++ map Some R ++ Some NUL :: X)
      = read_quoted c f dl (s2, P ++ map Some (A ++ D) ++ G2 ++ map Some [y] ++ map Some r ++ Some NUL :: X)
      /\ lay s2 P (A ++ D) G2 [y] /\ length G2 = S (length G)
      /\ s_end s2 = S (S (s_end s))
      /\ same s s2 /\ s_err s2 = s_err s /\ s_done s2 = s_done s /\ s_sd s2 = s_sd s).
  { intros h y r ->.
    destruct (jump_spec s P A G D h (map Some (y :: r) ++ Some NUL :: X) Hk L)
      as (G' & s1 & HG & EJ & L1 & Hend1 & Sm & Er & Dn & Sd).
    unfold bind at 1.
    replace (Q ++ map Some (h :: y :: r) ++ Some NUL :: X)
      with (P ++ map Some A ++ G ++ map Some D ++ Some h :: map Some (y :: r) ++ Some NUL :: X)
      by (unfold Q; rewrite <- !app_assoc; reflexivity).
    rewrite EJ. unfold bind at 1. unfold upd, modify at 1; cbn [fst snd].
    eexists _, G'. split; [reflexivity|].
    split. { destruct L1 as [I1 I2 I3 I4 I5]; split; cbn; auto. rewrite I4; cbn; lia. }
    cbn. rewrite Hend1. unfold same in *; cbn. intuition. }
  (* the same, applied: continue with the induction hypothesis *)
  assert (Hcont : forall h y r, R = h :: y :: r ->
    field_post s P (length A + length G + length D + length R) X
      (quoted c d 0 0 (S (S (s_end s))) ((A ++ D) ++ [y]) r)
      ((shift_and_jump_escape c ;; upd (fun s => up_end (S (s_end s)) s) ;; read_quoted c f dl)
        (s, Q ++ map Some R ++ Some NUL :: X))).
  { intros h y r ER. destruct (Hjump2 h y r ER) as (s2 & G2 & E & L2 & HG2 & He2 & Sm & Er & Dn & Sd).
    rewrite E. apply (field_post_weaken_start s s2); auto.
    rewrite ER in HR, Hf. rewrite !nulfree_cons in HR.
    specialize (IH P X s2 (A ++ D) G2 [y] r L2 ltac:(intuition) ltac:(cbn in Hf; lia)).
    rewrite He2 in IH. eapply field_post_n; [|exact IH]. rewrite ER, HG2. lens. }
  destruct R as [|h r].
  { (* end of line *)
    unfold bind at 1. cbn [map app]. rewrite load_at by exact HQ.
    rewrite quote_nul, escape_nul, andb_false_r, Ascii.eqb_refl. cbn [negb quoted].
    destruct (shift_spec s P A G D (Some NUL :: X) L) as (G' & HG & E & L').
    unfold bind at 1.
    replace (Q ++ Some NUL :: X) with (P ++ map Some A ++ G ++ map Some D ++ Some NUL :: X)
      by (unfold Q; rewrite <- !app_assoc; reflexivity).
    rewrite E. unfold field_post.
    assert (Hb : s_begin s = length P) by (destruct L; auto).
    destruct (c_ml c); cbn [negb].
    - mred. eexists _, G'. split; [reflexivity|]. cbn. rewrite Hb.
      repeat split; auto; try (destruct L'; auto; fail). lens.
    - unfold sp_error. destruct (set_error (c_mode c) msg_unterminated_quote) as [e|].
      + mred. eexists _, G'. split; [reflexivity|]. cbn. rewrite Hb.
        repeat split; auto; try (destruct L'; auto; fail). lens.
      + mred. eexists _, (map Some (A ++ D) ++ G').
        split; [rewrite <- !app_assoc; reflexivity|]. cbn. repeat split; auto. lens. }
  assert (Hh : h <> NUL /\ nulfree r) by (apply nulfree_cons; exact HR).
  destruct Hh as [Hh Hr].
  unfold bind at 1. cbn [map app]. rewrite load_at by exact HQ.
  cbn [quoted].
  change (Q ++ Some h :: map Some r ++ Some NUL :: X) with (Q ++ map Some (h :: r) ++ Some NUL :: X) in *.
  destruct (quote_match c h) eqn:Eq; cbn [negb].
  - (* quote *)
    unfold bind at 1.
    replace (Q ++ map Some (h :: r) ++ Some NUL :: X)
      with ((Q ++ [Some h]) ++ map Some r ++ Some NUL :: X) in *
      by (rewrite <- !app_assoc; reflexivity).
    rewrite md_spec; auto; [|lens].
    pose proof (md_dec r) as Hm.
    destruct (md c d r) as [|rest|t x r'] eqn:Em.
    + (* end of line after the closing quote *)
      destruct Hm as (t & -> & Es). cbn [Nat.eqb].
      apply span_spec in Es; destruct Es as (_ & Ft & _).
      unfold bind at 1. unfold sget, gets at 1; cbn [fst].
      unfold bind at 1.
      assert (Hl : exists b, load (S (s_end s)) (s, (Q ++ [Some h]) ++ map Some t ++ Some NUL :: X)
                    = Ok b (s, (Q ++ [Some h]) ++ map Some t ++ Some NUL :: X) /\ quote_match c b = false).
      { destruct t as [|t0 t']; cbn [map app]; rewrite load_at by lens.
        - exists NUL; split; [reflexivity|apply quote_nul].
        - exists t0; split; [reflexivity|]. exact (quote_trimr _ (Forall_inv Ft)). }
      destruct Hl as (b & Hl & Hqb). rewrite Hl, Hqb.
      destruct (shift_spec s P A G D (map Some (h :: t) ++ Some NUL :: X) L) as (G' & HG & E & L').
      unfold shift_and_push. unfold bind at 1 2.
      replace ((Q ++ [Some h]) ++ map Some t ++ Some NUL :: X)
        with (P ++ map Some A ++ G ++ map Some D ++ map Some (h :: t) ++ Some NUL :: X)
        by (unfold Q; rewrite <- !app_assoc; reflexivity).
      rewrite E. mred. unfold field_post.
      eexists _, (G' ++ map Some (h :: t)). split; [rewrite <- !app_assoc; reflexivity|].
      cbn. unfold same; cbn. destruct L as [-> _ _ _ _]. repeat split; auto. lens.
    + (* delimiter after the closing quote *)
      destruct Hm as (t & v & Es & -> & Eu).
      destruct (dropc_suffix (c_triml c) v) as (w & Ew & _).
      set (rest := dropc (c_triml c) v) in *.
      assert (ER : r = (t ++ d ++ w) ++ rest) by (rewrite Eu, Ew, <- !app_assoc; reflexivity).
      destruct (shift_spec s P A G D (map Some (h :: r) ++ Some NUL :: X) L) as (G' & HG & E & L').
      unfold shift_push_and_start_next, shift_and_push. unfold bind at 1 2.
      replace ((Q ++ [Some h]) ++ map Some r ++ Some NUL :: X)
        with (P ++ map Some A ++ G ++ map Some D ++ map Some (h :: r) ++ Some NUL :: X)
        by (unfold Q; rewrite <- !app_assoc; reflexivity).
      rewrite E. mred. unfold field_post.
      eexists _, (G' ++ map Some (h :: t ++ d ++ w)). split.
      { replace (map Some (h :: r)) with (map Some (h :: t ++ d ++ w) ++ map Some rest)
          by (rewrite <- map_app, ER; reflexivity).
        rewrite <- !app_assoc. reflexivity. }
      assert (LR : length r = length t + length d + length w + length rest) by (rewrite ER; lens).
      assert (Hdn : length d <> 0) by (destruct d; [congruence|cbn; lia]).
      cbn. unfold same; cbn.
      destruct L as [Lb _ _ Le _]. rewrite Lb, Le, !app_length; cbn [length]; rewrite !map_length, !app_length.
      repeat split; auto; try lia.
      rewrite ER in Hr. apply nulfree_app in Hr; intuition.
    + destruct Hm as (Es & Est & Eu).
      apply span_spec in Es; destruct Es as (_ & Ft & _).
      assert (Hxr : x <> NUL /\ nulfree r') by (rewrite Eu in Hr; rewrite nulfree_app, nulfree_cons in Hr; intuition).
      set (M0 := (Q ++ [Some h]) ++ map Some r ++ Some NUL :: X) in *.
      assert (EM : M0 = P ++ map Some A ++ G ++ map Some D ++ map Some (h :: r) ++ Some NUL :: X)
        by (unfold M0, Q; rewrite <- !app_assoc; reflexivity).
      assert (EM2 : M0 = ((Q ++ [Some h]) ++ map Some t) ++ Some x :: map Some r' ++ Some NUL :: X)
        by (unfold M0; rewrite Eu, map_app, <- !app_assoc; reflexivity).
      (* the final mismatch step *)
      assert (Hmis : forall s1 Z w pos e0, 
         s_end s1 = pos -> same s s1 -> s_sd s1 = s_sd s -> s_begin s1 = length P ->
         (c_mode c = EThrow -> s_err s1 = s_err s) ->
         length Z = length A + length G + length D + S (length r) ->
         (e0 = true -> c_mode c = EThrow -> c_ml c = true) ->
         field_post s P (length A + length G + length D + length (h :: r)) X (FMismatch pos e0)
           (((if S w =? 0 then shift_and_push c
             else e'' <- sget s_end ;; sp_error c (msg_mismatched e'') ;;
                  upd (fun s => up_sd (s_sd s ++ [(0, s_begin s)]) s)) ;; upd (up_done true))
             (s1, P ++ Z ++ Some NUL :: X))).
      { intros s1 Z w pos e0 He1 Sm1 Sd1 Hb1 Her HZ Hesc. cbn [Nat.eqb].
        unfold field_post, sp_error. mred. rewrite He1.
        destruct (set_error (c_mode c) (msg_mismatched pos)) as [e|] eqn:Ese.
        - eexists _, Z. split; [reflexivity|]. destruct Sm1 as (S1 & S2 & S3). unfold same; cbn.
          rewrite Sd1, Hb1, S1, S2, S3. repeat split; auto.
        - assert (Hth : c_mode c = EThrow) by (destruct (c_mode c); cbn in Ese; congruence).
          exists s1, Z. split.
          { destruct e0; [|reflexivity]. rewrite (Hesc eq_refl Hth). reflexivity. }
          split; [exact Sm1|]. split; [apply Her; exact Hth|]. cbn. lia. }
      unfold bind at 1. rewrite EM2 at 1.
      destruct (escape_match c x) eqn:Ee.
      * assert (Hqx : quote_match c x = false) by (apply quote_escape; exact Ee).
        destruct r' as [|y r''].
        -- (* lone escape at the end of the line *)
           cbn [map app]. rewrite sie_last by (auto; lens).
           replace (((Q ++ [Some h]) ++ map Some t) ++ Some x :: Some NUL :: X) with M0
             by (rewrite EM2; reflexivity).
           assert (Hl : exists b, forall s1, load (S (s_end s)) (s1, M0) = Ok b (s1, M0) /\ quote_match c b = false).
           { destruct t as [|t0 t'].
             - exists x. intros s1. rewrite EM2. cbn [map]. rewrite app_nil_r. split; [apply load_at; lens|exact Hqx].
             - exists t0. intros s1. rewrite EM2. cbn [map]. rewrite <- (app_assoc (Q ++ [Some h])). cbn [app].
               split; [apply load_at; lens|]. exact (quote_trimr _ (Forall_inv Ft)). }
           destruct Hl as (b & Hl).
           assert (EMZ : M0 = P ++ (map Some A ++ G ++ map Some D ++ map Some (h :: r)) ++ Some NUL :: X)
             by (rewrite EM, <- !app_assoc; reflexivity).
           destruct (c_ml c) eqn:Eml; cbn [negb].
           ++ mred. destruct (Hl (up_done true s)) as (Hl1 & Hqb). 
              rewrite Hl1. rewrite Hqb.
              rewrite EMZ.
              apply (Hmis (up_done true s) _ (length t) _ true); cbn; auto; try (unfold same; cbn; auto); try (destruct L; auto; fail).
              lens.
           ++ unfold sp_error at 1. destruct (set_error (c_mode c) msg_unterminated_escape) as [e|] eqn:Ese.
              ** mred. destruct (Hl (up_done true (up_err e s))) as (Hl1 & Hqb). 
                 rewrite Hl1. rewrite Hqb.
                 rewrite EMZ.
                 assert (Hnt : c_mode c <> EThrow) by (intros K; rewrite K in Ese; discriminate).
                 apply (Hmis (up_done true (up_err e s)) _ (length t) _ true); cbn; auto; try (unfold same; cbn; auto); try (destruct L; auto; fail); try congruence.
                 lens.
              ** mred. unfold field_post.
                 assert (Hth : c_mode c = EThrow) by (destruct (c_mode c); cbn in Ese; congruence).
                 rewrite Hth, Eml. cbn [set_error andb negb].
                 exists s, (map Some A ++ G ++ map Some D ++ map Some (h :: r)).
                 split; [rewrite EMZ; reflexivity|]. unfold same. repeat split; auto. lens.
        -- assert (Hy : y <> NUL) by (destruct Hxr as [_ K]; rewrite nulfree_cons in K; intuition).
           cbn [map app]. rewrite sie_jump by (auto; lens).
           replace (((Q ++ [Some h]) ++ map Some t) ++ Some x :: Some y :: map Some r'' ++ Some NUL :: X) with M0
             by (rewrite EM2; reflexivity).
           destruct (jump_spec s P A G D h (map Some r ++ Some NUL :: X) Hk L)
             as (G' & s1 & HG & EJ & L1 & Hend1 & Sm & Er & Dn & Sd).
           replace (P ++ map Some A ++ G ++ map Some D ++ Some h :: map Some r ++ Some NUL :: X) with M0 in EJ
             by (rewrite EM; reflexivity).
           rewrite EJ. mred.
           set (M1 := P ++ map Some (A ++ D) ++ G' ++ map Some r ++ Some NUL :: X).
           assert (EMZ : M1 = P ++ (map Some (A ++ D) ++ G' ++ map Some r) ++ Some NUL :: X)
             by (unfold M1; rewrite <- !app_assoc; reflexivity).
           pose proof (l_end _ _ _ _ _ L1) as HE1.
           destruct t as [|t0 t'].
           ++ cbn [app] in Eu. subst r. cbn [length Nat.eqb andb].
              assert (Hl : load (S (s_end s1)) (s1, M1) = Ok y (s1, M1)).
              { unfold M1.
                replace (P ++ map Some (A ++ D) ++ G' ++ map Some (x :: y :: r'') ++ Some NUL :: X)
                  with ((P ++ map Some (A ++ D) ++ G' ++ [Some x]) ++ Some y :: map Some r'' ++ Some NUL :: X)
                  by (rewrite <- !app_assoc; reflexivity).
                apply load_at. lens. }
              rewrite Hl.
              destruct (quote_match c y) eqn:Eqy.
              ** (* accepted as if it were a doubled quote *)
                 destruct (jump_spec s1 P (A ++ D) G' [] x (map Some (y :: r'') ++ Some NUL :: X) Hk L1)
                   as (G2 & s2 & HG2 & EJ2 & L2 & Hend2 & Sm2 & Er2 & Dn2 & Sd2).
                 replace (P ++ map Some (A ++ D) ++ G' ++ map Some [] ++ Some x :: map Some (y :: r'') ++ Some NUL :: X)
                   with M1 in EJ2 by reflexivity.
                 rewrite EJ2. cbn [fst snd].
                 rewrite app_nil_r in L2 |- *.
                 cbn [quoted].
                 assert (L3 : lay (up_end (S (s_end s2)) s2) P (A ++ D) G2 [y]).
                 { destruct L2 as [I1 I2 I3 I4 I5]; split; cbn; auto. rewrite I4; cbn; lia. }
                 assert (Hr'' : nulfree r'') by (destruct Hxr as [_ K]; rewrite nulfree_cons in K; intuition).
                 specialize (IH P X _ (A ++ D) G2 [y] r'' L3 Hr'' ltac:(cbn in Hf; lia)).
                 cbn [s_end up_end] in IH. rewrite Hend2, Hend1 in IH |- *.
                 apply (field_post_weaken_start s (up_end (S (S (S (s_end s)))) s2)).
                 { unfold same in *; cbn; intuition congruence. }
                 { cbn; congruence. } { cbn; congruence. } { cbn; congruence. }
                 eapply field_post_n; [|exact IH]. rewrite HG2, HG. lens.
              ** rewrite EMZ.
                 apply (Hmis s1 _ 0 _ false); auto; try (destruct L1; auto; fail); try discriminate; try lens.
           ++ cbn [length Nat.eqb andb].
              assert (Hl : exists b, load (S (s_end s1)) (s1, M1) = Ok b (s1, M1) /\ quote_match c b = false).
              { unfold M1. rewrite Eu. destruct t' as [|t1 t''].
                - exists x. split; [|exact Hqx].
                  replace (P ++ map Some (A ++ D) ++ G' ++ map Some ([t0] ++ x :: y :: r'') ++ Some NUL :: X)
                    with ((P ++ map Some (A ++ D) ++ G' ++ [Some t0]) ++ Some x :: map Some (y :: r'') ++ Some NUL :: X)
                    by (rewrite <- !app_assoc; reflexivity).
                  apply load_at. lens.
                - exists t1. split.
                  2:{ exact (quote_trimr _ (Forall_inv (Forall_inv_tail Ft))). }
                  replace (P ++ map Some (A ++ D) ++ G' ++ map Some ((t0 :: t1 :: t'') ++ x :: y :: r'') ++ Some NUL :: X)
                    with ((P ++ map Some (A ++ D) ++ G' ++ [Some t0]) ++ Some t1 :: map Some (t'' ++ x :: y :: r'') ++ Some NUL :: X)
                    by (rewrite <- !app_assoc; reflexivity).
                  apply load_at. lens. }
              destruct Hl as (b & Hl & Hqb). rewrite Hl, Hqb.
              rewrite EMZ.
              apply (Hmis s1 _ (S (length t')) _ false); auto; try (destruct L1; auto; fail); try discriminate; try lens.
      * (* not an escape *)
        rewrite sie_no by (auto; lens). rewrite <- EM2. 
        unfold ret at 1. unfold bind at 1. unfold sget, gets at 1; cbn [fst].
        unfold bind at 1.
        assert (Hl : exists b, load (S (s_end s)) (s, M0) = Ok b (s, M0) /\
          quote_match c b = ((length t =? 0) && quote_match c x)
          /\ (t = [] -> b = x)).
        { rewrite EM2. destruct t as [|t0 t'].
          - exists x. cbn [map length Nat.eqb andb]. rewrite app_nil_r. split; [apply load_at; lens|auto].
          - exists t0. cbn [map length Nat.eqb andb]. rewrite <- (app_assoc (Q ++ [Some h])). cbn [app].
            split; [apply load_at; lens|]. split; [|discriminate]. exact (quote_trimr _ (Forall_inv Ft)). }
        destruct Hl as (b & Hl & Hqb & Hbx). rewrite Hl, Hqb.
        destruct ((length t =? 0) && quote_match c x) eqn:Edq.
        -- (* doubled quote *)
           apply andb_true_iff in Edq; destruct Edq as [Et Eqx].
           apply Nat.eqb_eq in Et. destruct t; [|discriminate]. cbn [app] in Eu.
           pose proof (Hcont h x r' ltac:(rewrite Eu; reflexivity)) as HC.
           rewrite Eu at 2. cbn [quoted].
           exact HC.
        -- assert (EMZ : M0 = P ++ (map Some A ++ G ++ map Some D ++ map Some (h :: r)) ++ Some NUL :: X)
             by (rewrite EM, <- !app_assoc; reflexivity).
           rewrite EMZ.
           apply (Hmis s _ (length t) _ false); auto; try (unfold same; auto); try (destruct L; auto; fail); try discriminate.
           lens.
  - destruct (escape_match c h) eqn:Ee.
    + rewrite (escape_enabled_match h Ee). cbn [andb]. unfold bind at 1.
      destruct r as [|y r'].
      * cbn [map app].
        replace (Q ++ Some h :: Some NUL :: X) with ((Q ++ [Some h]) ++ Some NUL :: X) by (rewrite <- app_assoc; reflexivity).
        rewrite load_at by lens. rewrite Ascii.eqb_refl.
        assert (EM : (Q ++ [Some h]) ++ Some NUL :: X = P ++ (map Some A ++ G ++ map Some D ++ [Some h]) ++ Some NUL :: X)
          by (unfold Q; rewrite <- !app_assoc; reflexivity).
        rewrite EM.
        unfold field_post. destruct (c_ml c); cbn [negb].
        -- mred. eexists _, _. split; [reflexivity|]. unfold same; cbn. repeat split; auto. lens.
        -- unfold sp_error. destruct (set_error (c_mode c) msg_unterminated_escape).
           ++ mred. eexists _, _. split; [reflexivity|]. unfold same; cbn. repeat split; auto. lens.
           ++ mred. eexists _, _. split; [reflexivity|]. unfold same; cbn. repeat split; auto. lens.
      * assert (Hy : y <> NUL) by (rewrite nulfree_cons in Hr; intuition).
        cbn [map app].
        replace (Q ++ Some h :: Some y :: map Some r' ++ Some NUL :: X)
          with ((Q ++ [Some h]) ++ Some y :: map Some r' ++ Some NUL :: X) by (rewrite <- app_assoc; reflexivity).
        rewrite load_at by lens.
        destruct (Ascii.eqb y NUL) eqn:E0; [apply Ascii.eqb_eq in E0; congruence|].
        replace ((Q ++ [Some h]) ++ Some y :: map Some r' ++ Some NUL :: X)
          with (Q ++ map Some (h :: y :: r') ++ Some NUL :: X) by (rewrite <- app_assoc; reflexivity).
        cbn [quoted].
        exact (Hcont h y r' eq_refl).
    + rewrite andb_false_r.
      destruct (Ascii.eqb h NUL) eqn:E0; [apply Ascii.eqb_eq in E0; congruence|].
      unfold bind at 1. unfold upd, modify at 1. cbn [fst snd].
      assert (L2 : lay (up_end (S (s_end s)) s) P A G (D ++ [h])).
      { destruct L as [I1 I2 I3 I4 I5]; split; cbn; auto. rewrite I4. lens. }
      specialize (IH P X _ A G (D ++ [h]) r L2 Hr ltac:(cbn in Hf; lia)).
      cbn [s_end up_end] in IH.
      apply (field_post_weaken_start s (up_end (S (s_end s)) s)); [unfold same; cbn; auto|reflexivity..|].
      replace (Q ++ map Some (h :: r) ++ Some NUL :: X)
        with (P ++ map Some A ++ G ++ map Some (D ++ [h]) ++ map Some r ++ Some NUL :: X)
        by (unfold Q; rewrite map_app, <- !app_assoc; reflexivity).
      rewrite <- app_assoc.
      eapply field_post_n; [|exact IH]. lens.
Qed.

(** One field. *)
Lemma sp_read_spec P X s R : s_resp s = false -> s_begin s = length P -> nulfree R ->
  exists P' n,
    (P' = P \/ exists h r, R = h :: r /\ quote_match c h = true /\ P' = P ++ [Some h]) /\
    length P' + n = length P + length R /\ n <= length R /\
    field_post s P' n X (field c d (length P) R)
      (sp_read c dl (s, P ++ map Some R ++ Some NUL :: X)) /\
    match field c d (length P) R with
    | FUnterm _ | FMismatch _ _ => length P' = S (length P)
    | _ => True
    end.
Proof.
  intros Hr Hb HR. unfold sp_read. unfold fuel_of. unfold bind at 1. unfold gets at 1.
  unfold bind at 1. unfold upd at 1, modify at 1. cbn [fst snd].
  set (f := S (length (P ++ map Some R ++ Some NUL :: X))).
  assert (Hf : length R < f) by (unfold f; lens).
  assert (Hn : forall s1, s_begin s1 = length P -> s_end s1 = length P -> s_curr s1 = length P -> s_esc s1 = 0 ->
     field_post s1 P (length R) X (normal c d 0 false [] R)
      (read_normal c f dl (s1, P ++ map Some R ++ Some NUL :: X))).
  { intros s1 H1 H2 H3 H4.
    apply (read_normal_spec f P X s1 [] [] [] R); auto.
    split; cbn; auto; try lia. }
  assert (Hnf : forall r, match normal c d 0 false [] r with FUnterm _ | FMismatch _ _ => False | _ => True end).
  { assert (K : forall r k b a, match normal c d k b a r with FUnterm _ | FMismatch _ _ => False | _ => True end).
    { induction r as [|h r IH]; intros k b a; cbn [normal]; [destruct b; exact I|].
      destruct k; [|apply IH]. destruct (md c d (h :: r)); [destruct b; exact I|exact I|].
      destruct (escape_match c x); [destruct r0; apply IH|apply IH]. }
    intros; apply K. }
  destruct (quote_enabled c) eqn:Eq.
  2:{ exists P, (length R). split; [auto|]. split; [lia|]. split; [lia|].
      assert (Ef : field c d (length P) R = normal c d 0 false [] R).
      { unfold field. destruct R; [reflexivity|].
        unfold quote_match. unfold quote_enabled in Eq. destruct (c_quote c); [discriminate|reflexivity]. }
      rewrite Ef. split; [|specialize (Hnf R); destruct (normal c d 0 false [] R); auto; contradiction].
      unfold sget. unfold bind at 1, gets at 1. unfold bind at 1, upd at 1, modify at 1. cbn [fst snd].
      cbn [s_begin up_esc]. rewrite Hb.
      eapply field_post_weaken_start; [| | | |apply Hn]; unfold same; cbn; auto. }
  unfold bind at 1. unfold sget at 1, gets at 1. cbn [fst s_resp up_esc]. rewrite Hr, andb_false_r.
  unfold bind at 1. unfold sget at 1, gets at 1. cbn [fst s_begin up_esc]. rewrite Hb.
  destruct R as [|h r].
  - exists P, 0. split; [auto|]. split; [cbn; lia|]. split; [lia|].
    cbn [field]. split; [|exact I].
    unfold bind at 1. cbn [map app]. rewrite load_at by reflexivity.
    rewrite quote_nul.
    unfold bind at 1, upd at 1, modify at 1. cbn [fst snd].
    eapply field_post_weaken_start; [| | | |apply Hn]; unfold same; cbn; auto.
  - unfold bind at 1. cbn [map app]. rewrite load_at by reflexivity. cbn [field].
    destruct (quote_match c h) eqn:Eh.
    + exists (P ++ [Some h]), (length r). 
      split; [right; exists h, r; auto|]. split; [lens|]. split; [cbn; lia|].
      split; [|destruct (quoted _ _ _ _ _ _ _); auto; lens].
      unfold bind at 1, upd at 1, modify at 1. cbn [fst snd].
      set (s1 := up_curr _ _).
      pose proof (read_quoted_spec (const_quote h Eh) f (P ++ [Some h]) X s1 [] [] [] r) as H.
      cbn [map app length] in H. rewrite <- app_assoc in H. cbn [app] in H.
      assert (L : lay s1 (P ++ [Some h]) [] [] []).
      { split; cbn; auto; lens. }
      apply nulfree_cons in HR. destruct HR as [_ HR].
      specialize (H L HR ltac:(cbn in Hf; lia)).
      eapply field_post_weaken_start; [| | | |eapply field_post_n; [|exact H]]; unfold same; cbn; auto.
    + exists P, (length (h :: r)). split; [auto|]. split; [lia|]. split; [lia|].
      split; [|specialize (Hnf (h :: r)); destruct (normal c d 0 false [] (h :: r)); auto; contradiction].
      unfold bind at 1, upd at 1, modify at 1. cbn [fst snd].
      change (P ++ Some h :: map Some r ++ Some NUL :: X) with (P ++ map Some (h :: r) ++ Some NUL :: X).
      eapply field_post_weaken_start; [| | | |apply Hn]; unfold same; cbn; auto.
Qed.

(** What a row that ends with [t] reports: (stored message, thrown message). *)
Definition report (t : ptail) : option (str * str) :=
  match t with
  | TOk | TFuel => None
  | TEsc | TEscQ => if c_ml c then None else Some (msg_unterminated_escape, msg_unterminated_escape)
  | TUnterm _ _ => if c_ml c then None else Some (msg_unterminated_quote, msg_unterminated_quote)
  | TMismatch p e _ =>
      Some (msg_mismatched p,
            if e && negb (c_ml c) then msg_unterminated_escape else msg_mismatched p)
  end.

Definition junk (t : ptail) : list (nat * nat) :=
  match t with
  | TUnterm p _ => [(0, p)]
  | TMismatch _ _ b => [(0, b)]
  | _ => []
  end.

Definition rstr (m : cells) (r : nat * nat) (f : str) : Prop := range_str m (fst r) (snd r) = Some f.

Lemma rstr_app m Y rs fs : Forall2 (rstr m) rs fs -> Forall2 (rstr (m ++ Y)) rs fs.
Proof. induction 1; constructor; auto. apply range_str_app; assumption. Qed.

(** The end of a whole row at L0: [P] is the memory before the text of length [n]. *)
Record row_end (s0 : sp) (P : cells) (n : nat) (X : cells) (l : list str) (t : ptail)
    (s' : sp) (m' : cells) (ok : bool) : Prop := {
  re_resp : s_resp s' = s_resp s0;
  re_blk : s_blk s' = s_blk s0;
  re_uq : s_uq s' = match t with TUnterm _ _ => true | _ => s_uq s0 end;
  re_mem : exists Z, m' = P ++ Z ++ Some NUL :: X /\ length Z = n /\
     (ok = true ->
       s_done s' = true /\
       exists P1 Z1 rs, P ++ Z = P1 ++ Z1 /\ s_sd s' = s_sd s0 ++ rs ++ junk t /\
         Forall2 (rstr P1) rs l /\
         Forall (fun r => length P <= fst r) rs /\
         length P <= length P1 /\
         (forall p a, t = TUnterm p a -> S (length P1) = p /\
             exists q G, Z1 = Some q :: map Some a ++ G /\ quote_match c q = true /\
               lay s' (P1 ++ [Some q]) a G []) /\
         (forall p e b, t = TMismatch p e b -> b <= length P1 + length Z1))
}.

Definition row_post (s0 : sp) (P : cells) (n : nat) (X : cells) (l : list str) (t : ptail)
    (o : res sst unit) : Prop :=
  match report t with
  | None => exists s' m', o = Ok tt (s', m') /\ row_end s0 P n X l t s' m' true
              /\ s_err s' = s_err s0
  | Some (m, mt) =>
      match set_error (c_mode c) m with
      | Some e => exists s' m', o = Ok tt (s', m') /\ row_end s0 P n X l t s' m' true
                    /\ s_err s' = e
      | None => exists s' m', o = Throw mt (s', m') /\ row_end s0 P n X l t s' m' false
                    /\ s_err s' = s_err s0
      end
  end.

Lemma split_loop_done f s m : 0 < f -> s_done s = true -> split_loop c f dl (s, m) = Ok tt (s, m).
Proof. destruct f; [lia|]. intros _ H. cbn [split_loop]. mred. rewrite H. reflexivity. Qed.

Lemma app_prefix {T} (a b p q : list T) : a ++ b = p ++ q -> length a <= length p -> exists w, p = a ++ w /\ b = w ++ q.
Proof.
  revert p; induction a as [|x a IH]; intros p E Hl; cbn in *.
  - exists p; auto.
  - destruct p as [|y p]; cbn in *; [lia|]. injection E as -> E.
    destruct (IH p E ltac:(lia)) as (w & -> & ->). exists w; auto.
Qed.

Lemma row_end_shift s P h n X l t s' m' ok :
  row_end s (P ++ [h]) n X l t s' m' ok -> row_end s P (S n) X l t s' m' ok.
Proof.
  intros [H1 H2 H3 (Z & E & HZ & H4)]. split; auto.
  exists (h :: Z). split; [rewrite E, <- app_assoc; reflexivity|]. split; [cbn; lia|].
  intros Hok. destruct (H4 Hok) as (Hd' & P1 & Z1 & rs & E1 & Es & F & FP & Hl & HU & HM).
  split; [exact Hd'|]. exists P1, Z1, rs.
  split; [rewrite <- E1, <- app_assoc; reflexivity|]. split; [exact Es|]. split; [exact F|].
  split; [eapply Forall_impl; [|exact FP]; cbn; intros; lens|]. split; [lens|]. split; [exact HU|exact HM].
Qed.

Lemma row_post_shift s P h n X l t o :
  row_post s (P ++ [h]) n X l t o -> row_post s P (S n) X l t o.
Proof.
  unfold row_post. destruct (report t) as [[m mt]|]; [destruct (set_error (c_mode c) m)|];
  intros (s' & m' & E & H & He); exists s', m'; (split; [exact E|]); (split; [|exact He]);
  apply row_end_shift in H; exact H.
Qed.

(** Rows from the end of the current field on. *)
Definition fields_of (fuel total begin : nat) (r : fres) : list str * ptail :=
  match r with
  | FNext a rest => let '(l, t) := fields c d fuel total rest in (a :: l, t)
  | FLast a => ([a], TOk)
  | FLastEsc a => ([a], TEsc)
  | FUnterm a => ([], TUnterm begin a)
  | FEscEnd => ([], TEscQ)
  | FMismatch p e => ([], TMismatch p e begin)
  end.

Lemma after_field fp s P n X r o begin f total :
  (forall s1 P1 R, length R < n -> s_resp s1 = false -> s_done s1 = false -> s_begin s1 = length P1 -> nulfree R ->
      length P1 + length R = total ->
      row_post s1 P1 (length R) X (fst (fields c d fp total R)) (snd (fields c d fp total R))
        (split_loop c f dl (s1, P1 ++ map Some R ++ Some NUL :: X))) ->
  0 < f -> s_resp s = false -> s_done s = false -> total = length P + n ->
  field_post s P n X r o ->
  (match r with FUnterm _ | FMismatch _ _ => begin = length P /\ exists P0 q, P = P0 ++ [Some q] /\ quote_match c q = true | _ => True end) ->
  exists h n', 
  match r with
  | FUnterm _ | FMismatch _ _ => P = fst h ++ [snd h] /\ n' = S n
  | _ => fst h = P /\ n' = n
  end /\
  row_post s (fst h) n' X (fst (fields_of fp total begin r)) (snd (fields_of fp total begin r))
    (match o with Ok a st => split_loop c f dl st | Throw e st => Throw e st | UB w => UB w | OutOfFuel => OutOfFuel end).
Proof.
  intros HA Hf Hr Hd' Ht HP Hb.
  destruct r as [a rest|a|a|a| |pos esc]; cbn [fields_of].
  - exists (P, None), n. split; [auto|]. cbn [fst].
    destruct HP as (s1 & G & -> & (U1 & U2 & U3) & Er & Dn & Sd & Bg & Ln & Nr & Lt).
    pose proof (HA s1 (P ++ map Some a ++ G) rest Lt) as H.
    specialize (H ltac:(congruence) ltac:(congruence) ltac:(rewrite Bg; lens) Nr ltac:(lens)).
    replace ((P ++ map Some a ++ G) ++ map Some rest ++ Some NUL :: X)
      with (P ++ map Some a ++ G ++ map Some rest ++ Some NUL :: X) in H by (aapp).
    destruct (fields c d fp total rest) as [l t] eqn:Ef. cbn [fst snd] in *.
    assert (K : forall s' m' ok, row_end s1 (P ++ map Some a ++ G) (length rest) X l t s' m' ok ->
              row_end s P n X (a :: l) t s' m' ok).
    { intros s' m' ok [R1 R2 R3 (Z & E & HZ & R4)].
      split; [congruence|congruence|rewrite R3, U1; reflexivity|].
      exists ((map Some a ++ G) ++ Z). split; [rewrite E, <- !app_assoc; reflexivity|]. split; [lens|].
      intros Hok. destruct (R4 Hok) as (Hd1 & P1 & Z1 & rs & E1 & Es & F & FP & Hl & HU & HM).
      split; [exact Hd1|]. exists P1, Z1, ((length P, length P + length a) :: rs).
      split; [rewrite <- E1, <- !app_assoc; reflexivity|].
      split; [rewrite Es, Sd, <- !app_assoc; reflexivity|].
      split; [|split; [|split; [lens|split; [exact HU|exact HM]]]].
      - constructor; [|exact F].
        destruct (app_prefix _ _ _ _ E1 Hl) as (w & -> & _).
        unfold rstr. cbn [fst snd]. rewrite <- !app_assoc. apply range_str_mid; reflexivity.
      - constructor; [cbn; lia|]. eapply Forall_impl; [|exact FP]. cbn; intros; lens.
    }
    unfold row_post in *.
    destruct (report t) as [[m mt]|]; [destruct (set_error (c_mode c) m)|];
    destruct H as (s' & m' & E & H & He); exists s', m'; (split; [exact E|]); (split; [apply K; exact H|congruence]).
  - exists (P, None), n. split; [auto|]. cbn [fst snd].
    destruct HP as (s1 & G & -> & (U1 & U2 & U3) & Er & Dn & Sd & Ln).
    unfold row_post; cbn [report].
    eexists _, _. split; [apply split_loop_done; auto|]. split; [|exact Er].
    split; [auto|auto|auto|]. exists (map Some a ++ G). split; [aapp|]. split; [lens|].
    intros _. split; [exact Dn|]. exists (P ++ map Some a), G, [(length P, length P + length a)].
    split; [aapp|]. split; [rewrite Sd; cbn [junk]; rewrite app_nil_r; reflexivity|].
    split; [constructor; [|constructor]; unfold rstr; cbn [fst snd]; rewrite <- (app_nil_r (map Some a)); apply range_str_mid; reflexivity|].
    split; [constructor; [cbn; lia|constructor]|]. split; [lens|]. split; discriminate.
  - exists (P, None), n. split; [auto|]. cbn [fst snd].
    unfold field_post in HP. unfold row_post; cbn [report].
    assert (K : forall s1 G m1, m1 = P ++ map Some a ++ G ++ Some NUL :: X -> same s s1 -> s_done s1 = true ->
        s_sd s1 = s_sd s ++ [(length P, length P + length a)] -> length a + length G = n ->
        row_end s P n X [a] TEsc s1 m1 true).
    { intros s1 G m1 -> (U1 & U2 & U3) Dn Sd Ln.
      split; [auto|auto|auto|]. exists (map Some a ++ G). split; [aapp|]. split; [lens|].
      intros _. split; [exact Dn|]. exists (P ++ map Some a), G, [(length P, length P + length a)].
      split; [aapp|]. split; [rewrite Sd; cbn [junk]; rewrite app_nil_r; reflexivity|].
      split; [constructor; [|constructor]; unfold rstr; cbn [fst snd]; rewrite <- (app_nil_r (map Some a)); apply range_str_mid; reflexivity|].
      split; [constructor; [cbn; lia|constructor]|]. split; [lens|]. split; discriminate. }
    destruct (c_ml c); [|destruct (set_error (c_mode c) msg_unterminated_escape)].
    + destruct HP as (s1 & G & -> & Sm & Er & Dn & Sd & Ln).
      eexists _, _. split; [apply split_loop_done; auto|]. split; [eapply K; eauto|exact Er].
    + destruct HP as (s1 & G & -> & Sm & Er & Dn & Sd & Ln).
      eexists _, _. split; [apply split_loop_done; auto|]. split; [eapply K; eauto|exact Er].
    + destruct HP as (s1 & Z & -> & (U1 & U2 & U3) & Er & Ln).
      eexists _, _. split; [reflexivity|]. split; [|exact Er].
      split; auto. exists Z. split; [reflexivity|]. split; [lens|discriminate].
  - destruct Hb as (-> & P0 & q & EP' & Hq).
    exists (P0, Some q), (S n). split; [auto|]. cbn [fst snd].
    unfold field_post in HP. unfold row_post; cbn [report].
    assert (K : forall s1 m1 G, m1 = P ++ map Some a ++ G ++ Some NUL :: X -> 
        s_uq s1 = true -> s_resp s1 = s_resp s -> s_blk s1 = s_blk s -> s_done s1 = true ->
        s_sd s1 = s_sd s ++ [(0, length P)] -> lay s1 P a G [] -> length a + length G = n ->
        row_end s (P0) (S n) X [] (TUnterm (length P) a) s1 m1 true).
    { intros s1 m1 G -> U1 U2 U3 Dn Sd L Ln.
      split; [auto|auto|auto|]. exists (Some q :: map Some a ++ G).
      split; [rewrite EP'; aapp|]. split; [lens|].
      intros _. split; [exact Dn|]. exists P0, (Some q :: map Some a ++ G), [].
      split; [aapp|]. split; [exact Sd|].
      split; [constructor|]. split; [constructor|]. split; [lia|]. split; [|discriminate].
      intros p a0 Hp. injection Hp as <- <-. split; [rewrite EP'; lens|].
      exists q, G. rewrite <- EP'. auto. }
    destruct (c_ml c); [|destruct (set_error (c_mode c) msg_unterminated_quote)].
    + destruct HP as (s1 & G & -> & U1 & U2 & U3 & Er & Dn & Sd & L & Ln).
      eexists _, _. split; [apply split_loop_done; auto|]. split; [eapply K; eauto|exact Er].
    + destruct HP as (s1 & G & -> & U1 & U2 & U3 & Er & Dn & Sd & L & Ln).
      eexists _, _. split; [apply split_loop_done; auto|]. split; [eapply K; eauto|exact Er].
    + destruct HP as (s1 & Z & -> & U1 & U2 & U3 & Er & Ln).
      eexists _, _. split; [reflexivity|]. split; [|exact Er].
      split; auto. exists (Some q :: Z). split; [rewrite EP'; aapp|]. split; [lens|discriminate].
  - exists (P, None), n. split; [auto|]. cbn [fst snd].
    unfold field_post in HP. unfold row_post; cbn [report].
    assert (K : forall s1 Z m1, m1 = P ++ Z ++ Some NUL :: X -> same s s1 -> s_done s1 = true ->
        s_sd s1 = s_sd s -> length Z = n ->
        row_end s P n X [] TEscQ s1 m1 true).
    { intros s1 Z m1 -> (U1 & U2 & U3) Dn Sd Ln.
      split; [auto|auto|auto|]. exists Z. split; [reflexivity|]. split; [exact Ln|].
      intros _. split; [exact Dn|]. exists P, Z, [].
      split; [reflexivity|]. split; [rewrite Sd; cbn [junk app]; rewrite app_nil_r; reflexivity|].
      split; [constructor|]. split; [constructor|]. split; [lia|]. split; discriminate. }
    destruct (c_ml c); [|destruct (set_error (c_mode c) msg_unterminated_escape)].
    + destruct HP as (s1 & Z & -> & Sm & Er & Dn & Sd & Ln).
      eexists _, _. split; [apply split_loop_done; auto|]. split; [eapply K; eauto|exact Er].
    + destruct HP as (s1 & Z & -> & Sm & Er & Dn & Sd & Ln).
      eexists _, _. split; [apply split_loop_done; auto|]. split; [eapply K; eauto|exact Er].
    + destruct HP as (s1 & Z & -> & (U1 & U2 & U3) & Er & Ln).
      eexists _, _. split; [reflexivity|]. split; [|exact Er].
      split; auto. exists Z. split; [reflexivity|]. split; [exact Ln|discriminate].
  - destruct Hb as (-> & P0 & q & EP' & Hq).
    exists (P0, Some q), (S n). split; [auto|]. cbn [fst snd].
    unfold field_post in HP. unfold row_post; cbn [report].
    destruct (set_error (c_mode c) (msg_mismatched pos)).
    + destruct HP as (s1 & Z & -> & (U1 & U2 & U3) & Er & Dn & Sd & Ln).
      eexists _, _. split; [apply split_loop_done; auto|]. split; [|exact Er].
      split; [auto|auto|auto|]. exists (Some q :: Z). split; [rewrite EP'; aapp|]. split; [lens|].
      intros _. split; [exact Dn|]. exists P, Z, [].
      split; [rewrite EP'; aapp|]. split; [exact Sd|].
      split; [constructor|]. split; [constructor|]. split; [rewrite EP'; lens|]. split; [discriminate|].
      intros p e b Hp. injection Hp as _ _ <-. lia.
    + destruct HP as (s1 & Z & -> & (U1 & U2 & U3) & Er & Ln).
      eexists _, _. split; [reflexivity|]. split; [|exact Er].
      split; auto. exists (Some q :: Z). split; [rewrite EP'; aapp|]. split; [lens|discriminate].
Qed.

Lemma split_loop_spec X : forall f fp s P R total,
  length R < fp -> S (length R) < f -> s_resp s = false -> s_done s = false -> s_begin s = length P ->
  nulfree R -> length P + length R = total ->
  row_post s P (length R) X (fst (fields c d fp total R)) (snd (fields c d fp total R))
    (split_loop c f dl (s, P ++ map Some R ++ Some NUL :: X)).
Proof.
  induction f as [|f IH]; intros fp s P R total Hfp Hf Hr Hdn Hb HR Ht; [lia|].
  destruct fp as [|fp]; [lia|].
  cbn [split_loop fields].
  replace (total - length R) with (length P) by lia.
  unfold bind at 1. unfold sget at 1, gets at 1. cbn [fst]. rewrite Hdn.
  destruct (sp_read_spec P X s R Hr Hb HR) as (P' & n & HP' & Hn & Hn2 & HF & Hbg).
  unfold bind at 1.
  assert (Hbg' : match field c d (length P) R with FUnterm _ | FMismatch _ _ => S (length P) = length P' /\ exists P0 q, P' = P0 ++ [Some q] /\ quote_match c q = true | _ => True end).
  { destruct HP' as [EP|(h & r & ER & Hq & ->)].
    - rewrite EP in *. destruct (field c d (length P) R); auto; lia.
    - destruct (field c d (length P) R); auto; (split; [lens|eauto]). }
  destruct (fun HA A B C D => after_field fp s P' n X _ _ (S (length P)) f total HA A B C D HF Hbg') as (h & n' & Hh & HRow); auto; try lia.
  { intros s1 P1 R1 L1 A1 A2 A3 A4 A5. apply IH; auto; lia. }
  match goal with |- row_post _ _ _ _ (fst ?x) _ _ =>
    change x with (fields_of fp total (S (length P)) (field c d (length P) R)) end.
  set (o := match sp_read c dl _ with Ok _ _ => _ | _ => _ end) in *.
  destruct HP' as [->|(q & r & ER & Hq & ->)].
  - assert (n = length R) by lia. subst n.
    destruct (field c d (length P) R) eqn:EF; destruct Hh as [Hh1 Hh2]; rewrite Hh2 in HRow;
      try (rewrite Hh1 in HRow; exact HRow); lia.
  - assert (n = length r) by (subst R; lens). subst n.
    assert (ELR : length R = S (length r)) by (subst R; reflexivity).
    rewrite ELR.
    destruct (field c d (length P) R) eqn:EF; destruct Hh as [Hh1 Hh2]; rewrite Hh2 in HRow;
      try (rewrite Hh1 in HRow; apply row_post_shift in HRow; exact HRow);
      apply app_inj_tail in Hh1; destruct Hh1 as [Hh1 _]; rewrite <- Hh1 in HRow; exact HRow.
Qed.

End Refine.

Lemma row_post_prefix c s X l t o : forall W P n,
  row_post c s (P ++ W) n X l t o -> row_post c s P (length W + n) X l t o.
Proof.
  induction W as [|w W IH] using rev_ind; intros P n H.
  - rewrite app_nil_r in H; exact H.
  - rewrite app_assoc in H. apply row_post_shift in H. apply IH in H.
    replace (length (W ++ [w]) + n) with (length W + S n) by lens. exact H.
Qed.

Lemma fst_snd_let {A B} (p : A * B) (Q : A -> B -> Prop) : Q (fst p) (snd p) -> let '(a, b) := p in Q a b.
Proof. destruct p; auto. Qed.

Definition delim_of (d : str) : delim := match d with [x] => DChar x | _ => DStr d end.
Lemma delim_of_str d : delim_str (delim_of d) = d.
Proof. destruct d as [|x [|y d]]; reflexivity. Qed.

(** State at the start of a split: errors cleared, [sd] kept ranges. *)
Definition cleared (c : cfg) (s : sp) : sp :=
  up_uq false (match c_mode c with EThrow => s | _ => up_err None s end).
Definition start (c : cfg) (blk : nat) (s : sp) : sp :=
  cleared c (up_begin 0 (up_blk blk (up_sd [] s))).

Section Split.
Context (c : cfg) (Hc : cfg_ok c) (d : str) (Hd : nulfree d) (Hd0 : d <> []).

Lemma split_impl_select_eq :
  split_impl_select_delim c d = (sp_clear_error c ;; split_impl c (delim_of d)).
Proof. unfold split_impl_select_delim. destruct d as [|x [|y d']]; [congruence|reflexivity|reflexivity]. Qed.

(** splitter::split on any state that is not in the middle of a resplit. *)
Theorem sp_split_spec s0 blk R X : s_resp s0 = false -> nulfree R ->
  row_post c (start c blk s0) [] (length R) X (fst (psplit c d R)) (snd (psplit c d R))
    (sp_split c blk d (s0, map Some R ++ Some NUL :: X)).
Proof.
  intros Hr HR. unfold sp_split. rewrite split_impl_select_eq.
  unfold sp_clear_error, split_impl. mred.
  match goal with |- row_post _ _ _ _ _ _ _ (match trim_if_enabled _ (s_begin ?b) _ with Ok _ _ => _ | _ => _ end) =>
    change (up_uq false b) with (start c blk s0);
    assert (Eb : s_begin b = 0) by (destruct (c_mode c); reflexivity) end.
  rewrite Eb.
  pose proof (trim_spec d (delim_of d) (delim_of_str d) Hd Hd0 (c_triml c) (start c blk s0) [] R X 0 (ok_nul_l c Hc) eq_refl) as ET.
  cbn [app length] in ET. rewrite ET. cbn [fst snd].
  destruct (dropc_suffix (c_triml c) R) as (w & Ew & _).
  unfold psplit. set (R' := dropc (c_triml c) R) in *.
  assert (HR' : nulfree R') by (apply dropc_nulfree; exact HR).
  set (s2 := up_done false (up_begin _ (start c blk s0))).
  replace (map Some R ++ Some NUL :: X) with (map Some w ++ map Some R' ++ Some NUL :: X)
    by (rewrite Ew, map_app, <- app_assoc; reflexivity).
  assert (LR : length R = length w + length R') by (rewrite Ew; lens).
  assert (H : row_post c s2 (map Some w) (length R') X
     (fst (fields c d (S (length R)) (length R) R')) (snd (fields c d (S (length R)) (length R) R'))
     (split_loop c (S (S (length (map Some w ++ map Some R' ++ Some NUL :: X)))) (delim_of d) (s2, map Some w ++ map Some R' ++ Some NUL :: X))).
  { apply split_loop_spec; auto; try lens.
    - apply delim_of_str.
    - unfold s2, start, cleared; destruct (c_mode c); cbn; exact Hr.
    - unfold s2; cbn. rewrite LR. lens. }
  pose proof (fun l t o => row_post_prefix c s2 X l t o (map Some w) [] (length R')) as K. cbn [app] in K.
  specialize (K _ _ _ H). rewrite map_length, <- LR in K.
  (* same fields of interest in s2 and start *)
  unfold row_post in *.
  destruct (report c _) as [[m mt]|]; [destruct (set_error (c_mode c) m)|];
    destruct K as (s' & m' & E & [Q1 Q2 Q3 Q4] & He); exists s', m';
    (split; [exact E|]); (split; [split; auto|exact He]).
Qed.

(** splitter::resplit after an unterminated quote, the text [U] having been appended
    after the kept characters [a]. *)
Theorem sp_resplit_spec s0 blk P0 q a G rs U X new_size :
  s_resp s0 = false -> s_uq s0 = true -> c_ml c = true -> quote_match c q = true ->
  s_sd s0 = rs ++ [(0, S (length P0))] -> lay c s0 (P0 ++ [Some q]) a G [] ->
  length P0 <= new_size -> nulfree U ->
  exists s1, s_sd s1 = rs /\ s_err s1 = s_err (cleared c s0) /\ s_uq s1 = false /\ s_resp s1 = false /\ s_blk s1 = blk /\
  let r := fields_of c d (S (length a + length U)) (S (length P0) + length a + length U) (S (length P0))
             (quoted c d 0 0 (S (length P0) + length a) a U) in
  row_post c s1 P0 (S (length a + length U)) X (fst r) (snd r)
    (sp_resplit c blk new_size d (s0, P0 ++ Some q :: map Some a ++ map Some U ++ Some NUL :: X)).
Proof.
  intros Hr Hu Hml Hq Hsd L Hsz HU.
  exists (up_resp false (cleared c (up_blk blk (up_sd rs s0)))).
  split; [unfold cleared; destruct (c_mode c); reflexivity|].
  split; [unfold cleared; destruct (c_mode c); reflexivity|].
  split; [unfold cleared; destruct (c_mode c); reflexivity|].
  split; [unfold cleared; destruct (c_mode c); reflexivity|].
  split; [unfold cleared; destruct (c_mode c); reflexivity|].
  assert (Hqe : quote_enabled c = true).
  { unfold quote_match in Hq. unfold quote_enabled. destruct (c_quote c); [reflexivity|discriminate]. }
  unfold sp_resplit. mred. rewrite Hqe, Hml, Hu, Hsd. cbn [negb orb].
  replace (match rs ++ [(0, S (length P0))] with [] => true | _ :: _ => false end) with false by (destruct rs; reflexivity).
  rewrite last_last. cbn [orb].
  replace (S (length P0) - 1) with (length P0) by lia.
  destruct (new_size <? length P0) eqn:En; [apply Nat.ltb_lt in En; lia|].
  cbn [fst snd]. rewrite Hsd, split_impl_select_eq, removelast_last.
  pose proof (l_end _ _ _ _ _ _ L) as HE. pose proof (l_esc _ _ _ _ _ _ L) as HES.
  match goal with |- row_post _ _ _ _ _ _ _ (_ (?x, _)) => set (sA := x) end.
  set (s1 := cleared c sA).
  assert (F1 : s_begin s1 = length P0 /\ s_curr s1 = s_end s0 - s_esc s0 /\ s_end s1 = s_end s0 - s_esc s0
     /\ s_sd s1 = rs /\ s_err s1 = s_err (cleared c s0) /\ s_uq s1 = false /\ s_resp s1 = true /\ s_blk s1 = blk).
  { unfold s1, cleared, sA. destruct (c_mode c); cbn; repeat split. }
  destruct F1 as (Fb & Fc & Fe & Fs & Fr & Fu & Fp & Fk).
  unfold sp_clear_error, split_impl. mred.
  match goal with |- row_post _ _ _ _ _ _ _ (match trim_if_enabled _ (s_begin ?b) _ with Ok _ _ => _ | _ => _ end) =>
    change (up_uq false b) with s1;
    assert (Eb : s_begin b = length P0) by (unfold sA; destruct (c_mode c); reflexivity) end.
  rewrite Eb. clearbody s1.
  set (Rq := q :: a ++ U).
  assert (EM : P0 ++ Some q :: map Some a ++ map Some U ++ Some NUL :: X = P0 ++ map Some Rq ++ Some NUL :: X)
    by (unfold Rq; cbn [map]; rewrite map_app; aapp).
  rewrite EM at 1.
  rewrite (trim_spec d (delim_of d) (delim_of_str d) Hd Hd0 (c_triml c) s1 P0 Rq X _ (ok_nul_l c Hc) eq_refl). cbn [fst snd].
  assert (EDr : dropc (c_triml c) Rq = Rq).
  { unfold dropc, Rq. cbn [span].
    assert (Hnl : mem q (c_triml c) = false).
    { apply mem_nIn. intros Hi. apply (ok_ql c Hc q); [exact (quote_In c d (delim_of d) (delim_of_str d) Hd Hd0 q Hq)|exact Hi]. }
    rewrite Hnl. reflexivity. }
  rewrite EDr, Nat.sub_diag, Nat.add_0_r, <- EM.
  set (M := P0 ++ Some q :: map Some a ++ map Some U ++ Some NUL :: X).
  set (s2 := up_done false (up_begin (length P0) s1)).
  set (fl := S (length M)).
  cbn [split_loop]. unfold bind at 1. unfold sget at 1, gets at 1. cbn [fst].
  change (s_done s2) with false. cbn iota.
  set (s3 := up_begin (S (length P0)) (up_resp false (up_esc 0 s2))).
  assert (ER : sp_read c (delim_of d) (s2, M) = read_quoted c fl (delim_of d) (s3, M)).
  { unfold sp_read. unfold fuel_of. unfold bind at 1. unfold gets at 1. unfold bind at 1, upd at 1, modify at 1. cbn [fst snd].
    rewrite Hqe. unfold bind at 1. unfold sget at 1, gets at 1. cbn [fst].
    change (s_resp (up_esc 0 s2)) with (s_resp s1). rewrite Fp, Hml. cbn [andb].
    unfold bind at 1, upd at 1, modify at 1. unfold bind at 1, upd at 1, modify at 1. cbn [fst snd].
    reflexivity. }
  unfold bind at 1. rewrite ER. unfold fl.
  assert (Hk : is_const_line c = false) by (apply (const_quote c q Hq)).
  assert (L3 : lay c s3 (P0 ++ [Some q]) a [] []).
  { split; unfold s3, s2; cbn; rewrite ?Fc, ?Fe, ?HE, ?HES; try lens; try reflexivity. }
  pose proof (read_quoted_spec c Hc d (delim_of d) (delim_of_str d) Hd Hd0 Hk (S (length M)) (P0 ++ [Some q]) X s3 a [] [] U L3 HU ltac:(unfold M; lens)) as HF.
  cbn [map app length] in HF. rewrite app_nil_r in HF.
  replace ((P0 ++ [Some q]) ++ map Some a ++ map Some U ++ Some NUL :: X) with M in HF by (unfold M; aapp).
  assert (HE3 : s_end s3 = S (length P0) + length a).
  { destruct L3 as [_ _ _ -> _]. lens. }
  rewrite HE3 in HF.
  set (r := quoted c d 0 0 (S (length P0) + length a) a U) in *.
  set (s1' := up_resp false (cleared c (up_blk blk (up_sd rs s0)))).
  assert (HF' : field_post c (up_done false s1') (P0 ++ [Some q]) (length a + length U) X r (read_quoted c (S (length M)) (delim_of d) (s3, M))).
  { apply (field_post_weaken_start c (up_done false s1') s3).
    - unfold same, s1', s3, s2; cbn. rewrite Fu, Fk. unfold cleared; destruct (c_mode c); cbn; auto.
    - unfold s1', s3, s2; cbn. rewrite Fr. unfold cleared; destruct (c_mode c); cbn; auto.
    - reflexivity.
    - unfold s1', s3, s2; cbn. rewrite Fs. unfold cleared; destruct (c_mode c); cbn; auto.
    - eapply field_post_n; [|exact HF]. lia. }
  destruct (fun HA A B C D E => after_field c d (delim_of d) (S (length a + length U)) (up_done false s1') (P0 ++ [Some q]) (length a + length U) X r _ (S (length P0)) (S (length M)) (S (length P0) + length a + length U) HA A B C D HF' E)
    as (h & n' & Hh & HRow).
  { intros t1 P1 R1 H1 H2 H3 H4 H5 H6. apply split_loop_spec; auto; try apply delim_of_str; unfold M; lens. }
  { lia. }
  { unfold s1', cleared; destruct (c_mode c); reflexivity. }
  { unfold s1', cleared; destruct (c_mode c); reflexivity. }
  { lens. }
  { destruct r; auto; (split; [lens|eauto]). }
  assert (K : row_post c (up_done false s1') P0 (S (length a + length U)) X
     (fst (fields_of c d (S (length a + length U)) (S (length P0) + length a + length U) (S (length P0)) r))
     (snd (fields_of c d (S (length a + length U)) (S (length P0) + length a + length U) (S (length P0)) r))
     (match read_quoted c (S (length M)) (delim_of d) (s3, M) with
      | Ok _ st => split_loop c (S (length M)) (delim_of d) st
      | Throw e st => Throw e st | UB w => UB w | OutOfFuel => OutOfFuel end)).
  { destruct r; destruct Hh as [Hh1 Hh2]; rewrite Hh2 in HRow;
      try (rewrite Hh1 in HRow; apply row_post_shift in HRow; exact HRow);
      apply app_inj_tail in Hh1; destruct Hh1 as [Hh1 _]; rewrite <- Hh1 in HRow; exact HRow. }
  cbv zeta.
  unfold row_post in *.
  destruct (report c _) as [[m mt]|]; [destruct (set_error (c_mode c) m)|];
    destruct K as (s' & m' & E & [Q1 Q2 Q3 Q4] & He); exists s', m';
    (split; [exact E|]); (split; [split; auto|exact He]).
Qed.

End Split.
