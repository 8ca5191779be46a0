(** How many accesses the splitter makes (C55): a bound that is linear in the part of the line it goes through. *)
From Verif Require Import Base Setup Splitter SplitPure ListFacts SplitApi SplitCost.

Definition oc {A} (o : res cst A) (Q : A -> sp -> cells -> nat -> Prop) (E : nat -> Prop) : Prop :=
  match o with
  | Ok a (s, m, n) => Q a s m n
  | Throw _ (_, n) => E n
  | _ => True
  end.
Lemma oc_bind {A B} (m : M cst A) (k : A -> M cst B) s c n Q E :
  oc (m (s, c, n)) (fun a s' c' n' => oc (k a (s', c', n')) Q E) E -> oc (bind m k (s, c, n)) Q E.
Proof. unfold bind, oc. destruct (m (s, c, n)) as [a [[s' c'] n']|e [[s' c'] n']|w|]; auto. Qed.
Lemma oc_ret {A} (a : A) s c n (Q : A -> sp -> cells -> nat -> Prop) E : Q a s c n -> oc (ret a (s, c, n)) Q E.
Proof. auto. Qed.
Lemma oc_weaken {A} (o : res cst A) (Q Q' : A -> sp -> cells -> nat -> Prop) (E E' : nat -> Prop) :
  oc o Q E -> (forall a s c n, Q a s c n -> Q' a s c n) -> (forall n, E n -> E' n) -> oc o Q' E'.
Proof. unfold oc. destruct o as [a [[s c] n]|e [[s c] n]|w|]; auto. Qed.
Lemma oc_load p s c n (Q : ascii -> sp -> cells -> nat -> Prop) E :
  (forall a, rd c p = Some a -> p < length c -> Q a s c (n + 1)) -> oc (cload p (s, c, n)) Q E.
Proof.
  intros H. unfold cload, bind, tick, modify, lift, zoom, load. cbn [fst snd].
  destruct (rd c p) as [a|] eqn:E1; cbn; [|exact I]. apply H; [reflexivity|].
  unfold rd in E1. destruct (nth_error c p) eqn:E2; [|discriminate]. apply nth_error_Some. congruence.
Qed.
Lemma oc_upd f s c n (Q : unit -> sp -> cells -> nat -> Prop) E : Q tt (f s) c n -> oc (cupd f (s, c, n)) Q E.
Proof. auto. Qed.
Lemma oc_get {A} (f : sp -> A) s c n (Q : A -> sp -> cells -> nat -> Prop) E : Q (f s) s c n -> oc (cget f (s, c, n)) Q E.
Proof. auto. Qed.

(** Characters waiting to be moved. *)
Definition pend (s : sp) : nat := s_end s - s_curr s - s_esc s.

Lemma oc_error c msg s m n (Q : unit -> sp -> cells -> nat -> Prop) (E : nat -> Prop) :
  (forall s', s_end s' = s_end s -> s_curr s' = s_curr s -> s_esc s' = s_esc s -> s_begin s' = s_begin s ->
     s_resp s' = s_resp s -> s_done s' = s_done s -> Q tt s' m n) -> E n ->
  oc (lift (sp_error c msg) (s, m, n)) Q E.
Proof.
  intros H1 H2. unfold lift, zoom, sp_error. cbn [fst snd]. destruct (set_error (c_mode c) msg); cbn; [|exact H2]. apply H1; reflexivity.
Qed.

Lemma n_strncmp_cost d : forall p s m n (Q : bool -> sp -> cells -> nat -> Prop) E,
  (forall b n', n' <= n + length d -> (b = true -> ~ In NUL d -> d <> [] -> p + length d <= length m) -> Q b s m n') ->
  oc (n_strncmp p d (s, m, n)) Q E.
Proof.
  induction d as [|x d IH]; intros p s m n Q E H; cbn [n_strncmp length] in *.
  - apply oc_ret, H; [lia|congruence].
  - apply oc_bind, oc_load. intros a Ha Hp. destruct (Ascii.eqb a x) eqn:Ex; cbn [negb].
    + destruct (Ascii.eqb a NUL) eqn:Ez.
      * apply oc_ret, H; [lia|]. intros _ Hn. exfalso. apply Hn. left. apply Ascii.eqb_eq in Ex, Ez. congruence.
      * apply IH. intros b n' Hn Hb. apply H; [lia|]. intros -> Hi _. destruct d as [|y d]; [cbn; lia|].
        specialize (Hb eq_refl ltac:(intros ?; apply Hi; now right) ltac:(discriminate)). cbn in *. lia.
    + apply oc_ret, H; [lia|congruence].
Qed.
Definition dok (d : delim) : Prop := match d with DChar _ => True | DStr s => s <> [] /\ ~ In NUL s end.
Lemma n_match_cost d p s m n (Q : bool -> sp -> cells -> nat -> Prop) E : dok d ->
  (forall b n', n' <= n + delimiter_size d -> (b = true -> p + delimiter_size d <= length m) -> Q b s m n') ->
  oc (n_match p d (s, m, n)) Q E.
Proof.
  intros Hd H. destruct d as [x|d]; cbn [n_match delimiter_size] in *.
  - apply oc_bind, oc_load. intros a Ha Hp. apply oc_ret, H; lia.
  - destruct Hd as [D1 D2]. apply n_strncmp_cost. intros b n' Hn Hb. apply H; auto.
Qed.
Lemma n_trim_loop_cost cs : forall f p s m n (Q : nat -> sp -> cells -> nat -> Prop) E,
  (forall e n', p <= e -> n' <= n + (e - p) + 1 -> e < length m -> (forall i, p <= i < e -> exists x, rd m i = Some x /\ In x cs) -> Q e s m n') ->
  oc (n_trim_loop f cs p (s, m, n)) Q E.
Proof.
  induction f as [|f IH]; intros p s m n Q E H; cbn [n_trim_loop]; [exact I|].
  apply oc_bind, oc_load. intros a Ha Hp. destruct (mem a cs) eqn:Em.
  - apply IH. intros e n' He Hn Hl Hi. apply H; [lia|lia|lia|]. intros i Hr. destruct (Nat.eq_dec i p) as [->|]; [|apply Hi; lia].
    exists a. split; [exact Ha|]. unfold mem in Em. apply existsb_exists in Em as (y & Hy & Ey). apply Ascii.eqb_eq in Ey. congruence.
  - apply oc_ret, H; [lia|lia|lia|intros; lia].
Qed.
Lemma n_trim_cost cs p s m n (Q : nat -> sp -> cells -> nat -> Prop) E :
  (forall e n', p <= e -> n' <= n + (e - p) + 1 -> (e = p \/ e < length m) ->
     (forall i, p <= i < e -> exists x, rd m i = Some x /\ In x cs) -> Q e s m n') ->
  oc (n_trim cs p (s, m, n)) Q E.
Proof.
  intros H. unfold n_trim. destruct cs as [|x cs]; [apply oc_ret, H; [lia|lia|lia|intros; lia]|].
  apply oc_bind. unfold n_fuel, lift, zoom, fuel_of, gets. cbn [fst snd oc]. apply n_trim_loop_cost. intros e n' H1 H2 H3 H4. apply H; auto.
Qed.

Ltac flat := unfold pend, up_end, up_esc, up_curr, up_begin, up_done, up_resp, up_sd, up_uq in *;
  cbn [s_end s_curr s_esc s_begin s_resp s_done s_sd] in *.

Section Work.
Context (c : cfg) (Hc : cfg_ok c).

Lemma copy_len m src k dst m' : copyn m src k dst = Some m' -> length m' = length m.
Proof.
  unfold copyn. destruct (_ && _) eqn:E; [|discriminate]. intros H; injection H as <-.
  apply andb_prop in E as [E1 E2]. apply Nat.leb_le in E1, E2.
  rewrite !app_length, !firstn_length, !skipn_length. lia.
Qed.
Lemma copy_above m src k dst m' i : copyn m src k dst = Some m' -> dst + k <= i -> rd m' i = rd m i.
Proof.
  unfold copyn. destruct (_ && _) eqn:E; [|discriminate]. intros H Hi; injection H as <-.
  apply andb_prop in E as [E1 E2]. apply Nat.leb_le in E1, E2. unfold rd.
  rewrite app_assoc, nth_error_app2 by (rewrite app_length, !firstn_length, skipn_length; lia).
  rewrite app_length, !firstn_length, skipn_length.
  replace (i - _) with (i - (dst + k)) by lia.
  assert (K : forall (l : cells) a b, nth_error (skipn a l) b = nth_error l (a + b)).
  { intros l a. revert l. induction a as [|a IH]; intros l b; [reflexivity|]. destruct l as [|y l]; [destruct b; reflexivity|]. cbn. apply IH. }
  rewrite K. replace (dst + k + (i - (dst + k))) with i by lia. reflexivity.
Qed.

(** Same except for the write position and the columns. *)
Record same (s s' : sp) (m m' : cells) : Prop := {
  sm_end : s_end s' = s_end s;
  sm_begin : s_begin s' = s_begin s;
  sm_resp : s_resp s' = s_resp s;
  sm_done : s_done s' = s_done s;
  sm_len : length m' = length m;
  sm_above : forall i, s_end s <= i -> rd m' i = rd m i }.

Lemma copy_none m src dst m' : copyn m src 0 dst = Some m' -> m' = m.
Proof.
  unfold copyn. destruct (_ && _); [|discriminate]. intros H; injection H as <-. cbn [firstn app]. rewrite Nat.add_0_r. apply firstn_skipn.
Qed.

Lemma n_shift_cost s m n (Q : unit -> sp -> cells -> nat -> Prop) E :
  (forall s' m' n', same s s' m m' -> s_esc s' = s_esc s -> pend s' = 0 -> n' <= n + pend s -> Q tt s' m' n') ->
  oc (n_shift_and_set_current c (s, m, n)) Q E.
Proof.
  intros H. unfold n_shift_and_set_current. apply oc_bind, oc_get, oc_bind.
  unfold tick, modify, moved, lift, zoom, shift_and_set_current, bind, sget, gets. cbn [oc fst snd].
  destruct (negb (is_const_line c) && (0 <? s_esc s)); cbn [fst snd].
  - destruct (copyn m (s_curr s + s_esc s) (s_end s - s_curr s - s_esc s) (s_curr s)) as [m'|] eqn:Ec; cbn; [|exact Logic.I].
    apply H; [|reflexivity|unfold pend; cbn; lia|unfold pend; lia].
    constructor; try reflexivity; [eapply copy_len; eauto|]. intros i Hi.
    destruct (s_end s - s_curr s - s_esc s) as [|k] eqn:Ek; [rewrite (copy_none _ _ _ _ Ec); reflexivity|].
    eapply copy_above; [exact Ec|lia].
  - cbn. apply H; [constructor; reflexivity|reflexivity|unfold pend; cbn; lia|lia].
Qed.

(** jump: the end moves by one. *)
Lemma n_jump_cost s m n (Q : unit -> sp -> cells -> nat -> Prop) E :
  (forall s' m' n', s_end s' = S (s_end s) -> s_begin s' = s_begin s -> s_resp s' = s_resp s -> s_done s' = s_done s ->
     length m' = length m -> (forall i, s_end s <= i -> rd m' i = rd m i) -> n' + pend s' <= n + pend s + 1 -> Q tt s' m' n') ->
  oc (n_jump c (s, m, n)) Q E.
Proof.
  intros H. unfold n_jump. apply oc_bind, n_shift_cost. intros s' m' n' [e1 e2 e3 e4 e5 e6] He Hp Hn.
  apply oc_bind. unfold when. destruct (negb (is_const_line c)).
  - apply oc_upd, oc_upd. apply H; flat; auto; try congruence; lia.
  - apply oc_ret, oc_upd. apply H; flat; auto; try congruence; lia.
Qed.

Lemma n_push_cost s m n (Q : unit -> sp -> cells -> nat -> Prop) E :
  (forall s' m' n', same s s' m m' -> pend s' = 0 -> n' <= n + pend s -> Q tt s' m' n') ->
  oc (n_push c (s, m, n)) Q E.
Proof.
  intros H. unfold n_push. apply oc_bind, n_shift_cost. intros s' m' n' [e1 e2 e3 e4 e5 e6] He Hp Hn.
  apply oc_upd, H; [constructor; assumption|exact Hp|exact Hn].
Qed.
Lemma n_push_next_cost w s m n (Q : unit -> sp -> cells -> nat -> Prop) E :
  (forall s' m' n', s_begin s' = s_end s + w -> s_resp s' = s_resp s -> s_done s' = s_done s -> length m' = length m ->
     n' <= n + pend s -> Q tt s' m' n') ->
  oc (n_push_next c w (s, m, n)) Q E.
Proof.
  intros H. unfold n_push_next. apply oc_bind, n_push_cost. intros s' m' n' [e1 e2 e3 e4 e5 e6] Hp Hn.
  apply oc_upd, H; cbn; congruence || assumption.
Qed.

(** An escape at [p]: the end moves by one, or the line is over. *)
Lemma n_shift_if_cost p s m n (Q : unit -> sp -> cells -> nat -> Prop) (E : nat -> Prop) :
  (forall s' m' n', s_begin s' = s_begin s -> s_resp s' = s_resp s ->
     (s_end s' = s_end s \/ s_end s' = S (s_end s) /\ exists x, rd m p = Some x /\ escape_match c x = true) ->
     length m' = length m -> (forall i, s_end s <= i -> rd m' i = rd m i) -> n' + pend s' <= n + pend s + 3 -> Q tt s' m' n') ->
  (forall n', n' <= n + 2 -> E n') ->
  oc (n_shift_if_escaped c p (s, m, n)) Q E.
Proof.
  intros H HE. unfold n_shift_if_escaped. destruct (escape_enabled c); [|apply oc_ret, H; auto; lia].
  apply oc_bind, oc_load. intros a Ha Hl. destruct (escape_match c a) eqn:Ee; [|apply oc_ret, H; auto; lia].
  apply oc_bind, oc_load. intros b Hb Hl2. destruct (Ascii.eqb b NUL).
  - apply oc_bind. unfold when. destruct (negb (c_ml c)).
    + apply oc_error; [|apply HE; lia]. intros s' e1 e2 e3 e4 e5 e6. apply oc_upd, H; flat; auto; try congruence. rewrite e1, e2, e3. lia.
    + apply oc_ret, oc_upd, H; flat; auto. lia.
  - apply n_jump_cost. intros s' m' n' e1 e2 e3 e4 e5 e6 e7. apply H; auto; [right; eauto|lia].
Qed.

Section Delim.
Context (d : delim) (Hd : dok d).
Notation D := (delimiter_size d).
Lemma D_pos : 1 <= D. Proof. clear - Hd. destruct d as [x|[|x s]]; cbn in *; [lia|destruct Hd; congruence|lia]. Qed.

(** The three answers of match_delimiter. *)
Lemma n_md_cost b s m n (Q : nat * bool -> sp -> cells -> nat -> Prop) (E : nat -> Prop) :
  (* a delimiter *)
  (forall w n', 1 <= w -> b + w <= length m -> n' <= n + w + 3 -> Q (w, true) s m n') ->
  (* the end of the line *)
  (forall e n', b <= e -> e < length m -> (forall i, b <= i < e -> exists x, rd m i = Some x /\ In x (c_trimr c)) ->
     n' <= n + (e - b) + 2 -> Q (0, false) s m n') ->
  (* another character *)
  (forall e s' m' n', b <= e -> e < length m -> (forall i, b <= i < e -> exists x, rd m i = Some x /\ In x (c_trimr c)) ->
     s_begin s' = s_begin s -> s_resp s' = s_resp s ->
     (s_end s' = s_end s \/ s_end s' = S (s_end s) /\ exists x, rd m e = Some x /\ escape_match c x = true) ->
     length m' = length m -> (forall i, s_end s <= i -> rd m' i = rd m i) ->
     n' + pend s' <= n + pend s + (e - b) + D + 5 -> Q (1 + e - b, false) s' m' n') ->
  (forall e n', b <= e -> e < length m -> n' <= n + (e - b) + D + 4 -> E n') ->
  oc (n_match_delimiter c b d (s, m, n)) Q E.
Proof.
  intros H1 H2 H3 HE. unfold n_match_delimiter. apply oc_bind, n_trim_cost. intros e n1 He Hn1 Hl1 Hi.
  apply oc_bind, oc_load. intros a Ha Hl. destruct (Ascii.eqb a NUL); [apply oc_ret; apply (H2 e); auto; lia|].
  apply oc_bind, n_match_cost; [exact Hd|]. intros x n2 Hn2 Hx. destruct x; cbn [negb].
  - apply oc_bind, n_trim_cost. intros e' n3 He' Hn3 Hl3 _. apply oc_ret. specialize (Hx eq_refl). pose proof D_pos.
    apply H1; lia.
  - apply oc_bind, n_shift_if_cost; [|intros n' Hn'; apply (HE e); lia].
    intros s' m' n' e1 e2 e3 e4 e5 e6. apply oc_ret. apply (H3 e); auto. lia.
Qed.

Notation K := (D + 8).
Lemma K_pos a w : 1 <= w -> a <= w + D + 7 -> a <= K * w.
Proof. nia. Qed.
Lemma K_pos2 a w : 1 <= w -> a <= w + 2 * D + 14 -> a <= K * S w.
Proof. nia. Qed.

(** Reading one column: it starts at [p], and [w] characters are gone through. *)
Definition column (p : nat) (s : sp) (m : cells) (n : nat) (a : unit) (s' : sp) (m' : cells) (n' : nat) : Prop :=
  exists w, 1 <= w /\ p + w <= length m /\ n' <= n + K * w /\ length m' = length m /\ s_resp s' = s_resp s
    /\ (s_done s' = true \/ s_begin s' = p + w).
Definition gone (p : nat) (m : cells) (n n' : nat) : Prop := exists w, 1 <= w /\ p + w <= length m /\ n' <= n + K * w.

Lemma n_normal_cost : forall f s m n,
  oc (n_normal c f d (s, m, n)) (column (s_end s) s m (n + pend s)) (gone (s_end s) m (n + pend s)).
Proof.
  induction f as [|f IH]; intros s m n; cbn [n_normal]; [exact Logic.I|].
  apply oc_bind, oc_get, oc_bind, n_md_cost.
  - intros w n1 Hw Hl Hn. cbn [negb]. apply n_push_next_cost. intros s' m' n' e1 e2 e3 e4 e5.
    assert (w + 3 <= K * w) by (apply K_pos; lia). exists w. repeat (apply conj); auto; lia.
  - intros e n1 He Hl _ Hn. cbn [negb Nat.eqb]. apply oc_bind, n_push_cost. intros s' m' n' [e1 e2 e3 e4 e5 e6] Hp Hn'.
    apply oc_upd.
    assert (e - s_end s + 2 <= K * S (e - s_end s)) by (apply K_pos; lia).
    exists (S (e - s_end s)). repeat (apply conj); flat; auto; lia.
  - intros e s1 m1 n1 He Hl _ e1 e2 e3 e4 e5 Hn. cbn [negb].
    replace (1 + e - s_end s) with (S (e - s_end s)) by lia. cbn [Nat.eqb].
    apply oc_bind, oc_upd.
    set (s2 := up_end (s_end s1 + S (e - s_end s)) s1).
    assert (E2 : s_end s2 = s_end s1 + S (e - s_end s)) by reflexivity.
    assert (P2 : pend s2 <= pend s1 + S (e - s_end s)) by (unfold s2; flat; lia).
    assert (R2 : s_resp s2 = s_resp s) by exact e2.
    eapply oc_weaken; [apply IH|..].
    + intros [] s' m' n' (w & Hw & Hlw & Hn' & Hm & Hr & Hb).
      exists (s_end s2 - s_end s + w). rewrite e4 in Hlw, Hm.
      assert (G : s_end s2 - s_end s >= S (e - s_end s)) by (destruct e3 as [->|[-> _]] in E2; lia).
      repeat (apply conj); try lia; try congruence.
      * enough ((e - s_end s) + D + 5 + S (e - s_end s) <= K * (s_end s2 - s_end s)) by nia. nia.
      * destruct Hb as [Hb|Hb]; [left; exact Hb|right; lia].
    + intros n' (w & Hw & Hlw & Hn').
      exists (s_end s2 - s_end s + w). rewrite e4 in Hlw.
      assert (G : s_end s2 - s_end s >= S (e - s_end s)) by (destruct e3 as [->|[-> _]] in E2; lia).
      repeat (apply conj); try lia.
      enough ((e - s_end s) + D + 5 + S (e - s_end s) <= K * (s_end s2 - s_end s)) by nia. nia.
  - intros e n' He Hl Hn. exists (S (e - s_end s)). repeat (apply conj); try lia. nia.
Qed.

Lemma quote_in x : quote_match c x = true -> In x (quote_list c).
Proof.
  unfold quote_match, quote_list. destruct (c_quote c); [|discriminate]. intros E. apply Ascii.eqb_eq in E. left; congruence.
Qed.
Lemma escape_in x : escape_match c x = true -> In x (c_escape c).
Proof.
  unfold escape_match, mem. intros E. apply existsb_exists in E as (y & H & E). apply Ascii.eqb_eq in E. congruence.
Qed.

Lemma step_on p p' w0 n n1 (m m1 : cells) s s1 : p' = p + w0 -> length m1 = length m -> s_resp s1 = s_resp s ->
  n1 <= n + K * w0 ->
  forall o, oc o (column p' s1 m1 n1) (gone p' m1 n1) -> oc o (column p s m n) (gone p m n).
Proof.
  intros -> Hm Hr Hn o Ho. eapply oc_weaken; [exact Ho|..].
  - intros [] s' m' n' (w & Hw & Hlw & Hn' & Hm' & Hr' & Hb). exists (w0 + w). rewrite Hm in *.
    repeat (apply conj); try lia; try congruence. destruct Hb as [Hb|Hb]; [left; exact Hb|right; lia].
  - intros n' (w & Hw & Hlw & Hn'). exists (w0 + w). rewrite Hm in *. repeat (apply conj); lia.
Qed.

Lemma n_quoted_cost : forall f s m n,
  oc (n_quoted c f d (s, m, n)) (column (s_end s) s m (n + pend s)) (gone (s_end s) m (n + pend s)).
Proof.
  assert (K1 : K <= K * 1) by lia.
  induction f as [|f IH]; intros s m n; cbn [n_quoted]; [exact Logic.I|].
  apply oc_bind, oc_get, oc_bind, oc_load. intros a Ha Hla. destruct (quote_match c a) eqn:Eq; cbn [negb].
  2:{ destruct (escape_enabled c && escape_match c a).
    - apply oc_bind, oc_load. intros b Hb Hlb. destruct (Ascii.eqb b NUL).
      + apply oc_bind. unfold when. destruct (negb (c_ml c)).
        * apply oc_error.
          -- intros s' e1 e2 e3 e4 e5 e6. apply oc_upd. exists 1. repeat (apply conj); flat; auto; lia.
          -- exists 1. repeat (apply conj); lia.
        * apply oc_ret, oc_upd. exists 1. repeat (apply conj); flat; auto; lia.
      + apply oc_bind, n_jump_cost. intros s1 m1 n1 e1 e2 e3 e4 e5 e6 e7. apply oc_bind, oc_upd.
        set (s2 := up_end (S (s_end s1)) s1). assert (pend s2 <= pend s1 + 1) by (unfold s2; flat; lia).
        eapply (step_on (s_end s) (s_end s2) 2 _ _ _ _ s s2); [change (s_end s2) with (S (s_end s1)); lia|exact e5|exact e3| |apply IH]. lia.
    - destruct (Ascii.eqb a NUL).
      + apply oc_bind, n_shift_cost. intros s' m' n' [e1 e2 e3 e4 e5 e6] He Hp Hn.
        apply oc_bind, oc_upd, oc_bind. unfold when. destruct (negb (c_ml c)).
        * apply oc_error.
          -- intros s2 f1 f2 f3 f4 f5 f6. apply oc_bind, oc_upd, oc_upd. exists 1. repeat (apply conj); flat; auto; try lia. congruence.
          -- exists 1. repeat (apply conj); lia.
        * apply oc_ret, oc_bind, oc_upd, oc_upd. exists 1. repeat (apply conj); flat; auto; lia.
      + apply oc_bind, oc_upd.
        set (s2 := up_end (S (s_end s)) s). assert (pend s2 <= pend s + 1) by (unfold s2; flat; lia).
        eapply (step_on (s_end s) (s_end s2) 1 _ _ _ _ s s2); [change (s_end s2) with (S (s_end s)); lia|reflexivity|reflexivity| |apply IH]. lia. }
  apply oc_bind, n_md_cost.
  - intros w n1 Hw Hl Hn. apply n_push_next_cost. intros s' m' n' e1 e2 e3 e4 e5.
    assert (w + 5 <= K * (w + 1)) by nia. exists (w + 1). repeat (apply conj); auto; lia.
  - intros e n1 He Hl Hi Hn. apply oc_bind, oc_get, oc_bind, oc_load. intros b Hb Hlb.
    destruct (quote_match c b) eqn:Eb.
    + assert (e = S (s_end s)).
      { destruct (Nat.eq_dec e (S (s_end s))) as [|ne]; [assumption|exfalso].
        destruct (Hi (S (s_end s)) ltac:(lia)) as (x & Hx & Ix). rewrite Hb in Hx. injection Hx as <-.
        apply (ok_qr c Hc b); [apply quote_in; exact Eb|exact Ix]. }
      subst e. apply oc_bind, n_jump_cost. intros s1 m1 n2 e1 e2 e3 e4 e5 e6 e7. apply oc_bind, oc_upd.
      set (s2 := up_end (S (s_end s1)) s1). assert (pend s2 <= pend s1 + 1) by (unfold s2; flat; lia).
      eapply (step_on (s_end s) (s_end s2) 2 _ _ _ _ s s2); [change (s_end s2) with (S (s_end s1)); lia|exact e5|exact e3| |apply IH]. lia.
    + apply oc_bind. cbn [Nat.eqb]. apply n_push_cost. intros s' m' n' [e1 e2 e3 e4 e5 e6] Hp Hn'. apply oc_upd.
      assert (e - s_end s + 4 <= K * (S (e - s_end s))) by nia.
      exists (S (e - s_end s)). repeat (apply conj); flat; auto; lia.
  - intros e s1 m1 n1 He Hl Hi e1 e2 e3 e4 e5 Hn. replace (1 + e - S (s_end s)) with (S (e - S (s_end s))) by lia.
    apply oc_bind, oc_get, oc_bind, oc_load. intros b Hb Hlb.
    destruct (quote_match c b) eqn:Eb.
    + assert (Ee : e = S (s_end s)).
      { destruct (Nat.eq_dec e (S (s_end s))) as [|ne]; [assumption|exfalso].
        rewrite e5 in Hb by (destruct e3 as [->|[-> _]]; lia).
        destruct e3 as [e3|[e3 (y & Hy & Ey)]]; rewrite e3 in Hb.
        - destruct (Hi (S (s_end s)) ltac:(lia)) as (x & Hx & Ix). rewrite Hb in Hx. injection Hx as <-.
          apply (ok_qr c Hc b); [apply quote_in; exact Eb|exact Ix].
        - destruct (Nat.eq_dec e (S (S (s_end s)))) as [->|ne2].
          + rewrite Hb in Hy. injection Hy as <-. apply (ok_qe c Hc b); [apply escape_in; exact Ey|apply quote_in; exact Eb].
          + destruct (Hi (S (S (s_end s))) ltac:(lia)) as (x & Hx & Ix). rewrite Hb in Hx. injection Hx as <-.
            apply (ok_qr c Hc b); [apply quote_in; exact Eb|exact Ix]. }
      subst e. apply oc_bind, n_jump_cost. intros s2 m2 n2 g1 g2 g3 g4 g5 g6 g7. apply oc_bind, oc_upd.
      set (s3 := up_end (S (s_end s2)) s2). assert (pend s3 <= pend s2 + 1) by (unfold s3; flat; lia).
      eapply (step_on (s_end s) (s_end s3) (s_end s3 - s_end s) _ _ m m2 s s3); [change (s_end s3) with (S (s_end s2)); destruct e3 as [e3|[e3 _]]; lia|congruence|change (s_resp s3) with (s_resp s2); congruence| |apply IH].
      assert (G : 2 <= s_end s3 - s_end s) by (change (s_end s3) with (S (s_end s2)); destruct e3 as [e3|[e3 _]]; lia).
      assert (K * 2 <= K * (s_end s3 - s_end s)) by (apply Nat.mul_le_mono_l; exact G). lia.
    + assert (B : e - s_end s + D + 7 <= K * (S (e - s_end s))) by nia.
      cbn [Nat.eqb]. apply oc_bind, oc_bind, oc_get, oc_bind, oc_error.
      * intros s2 f1 f2 f3 f4 f5 f6. apply oc_upd, oc_upd. exists (S (e - s_end s)).
        repeat (apply conj); flat; auto; try lia; congruence.
      * exists (S (e - s_end s)). repeat (apply conj); lia.
  - intros e n' He Hl Hn. assert (B : e - s_end s + D + 7 <= K * (S (e - s_end s))) by nia.
    exists (S (e - s_end s)). repeat (apply conj); lia.
Qed.

(** Where the next column starts, and what must hold there. *)
Definition start_at (s : sp) : nat := if s_resp s then s_end s else s_begin s.
Definition settled (s : sp) : Prop := s_resp s = true -> quote_enabled c = true /\ c_ml c = true /\ s_curr s = s_end s.
Notation K' := (D + 9).
Definition column' (p : nat) (s : sp) (m : cells) (n : nat) (a : unit) (s' : sp) (m' : cells) (n' : nat) : Prop :=
  exists w, 1 <= w /\ p + w <= length m /\ n' <= n + K' * w /\ length m' = length m /\ s_resp s' = false
    /\ (s_done s' = true \/ s_begin s' = p + w).
Definition gone' (p : nat) (m : cells) (n n' : nat) : Prop := exists w, p + w <= length m /\ n' <= n + K' * w.

Lemma n_read_cost s m n : settled s ->
  oc (n_read c d (s, m, n)) (column' (start_at s) s m n) (gone' (start_at s) m n).
Proof.
  intros Hs. unfold n_read. apply oc_bind. unfold n_fuel, lift, zoom, fuel_of, gets. cbn [oc fst snd].
  generalize (S (length m)); intros f. apply oc_bind, oc_upd. unfold start_at, settled in *.
  assert (R0 : s_resp (up_esc 0 s) = s_resp s) by reflexivity.
  assert (fin : forall s1 n1 k, s_resp s1 = false -> s_end s1 = k + (if s_resp s then s_end s else s_begin s) -> n1 + pend s1 <= n + 1 -> k <= 1 ->
    forall o, oc o (column (s_end s1) s1 m (n1 + pend s1)) (gone (s_end s1) m (n1 + pend s1)) ->
    oc o (column' (if s_resp s then s_end s else s_begin s) s m n) (gone' (if s_resp s then s_end s else s_begin s) m n)).
  { intros s1 n1 k Hr He Hn Hk o Ho. eapply oc_weaken; [exact Ho|..].
    - intros [] s' m' n' (w & Hw & Hlw & Hn' & Hm' & Hr' & Hb). exists (k + w).
      assert (1 + K * w <= K' * (k + w)) by nia.
      repeat (apply conj); try lia; try congruence. destruct Hb as [Hb|Hb]; [left; exact Hb|right; lia].
    - intros n' (w & Hw & Hlw & Hn'). exists (k + w). assert (1 + K * w <= K' * (k + w)) by nia. repeat (apply conj); lia. }
  destruct (quote_enabled c) eqn:Q.
  - apply oc_bind, oc_get. rewrite R0. destruct (s_resp s) eqn:Hr.
    + destruct (Hs eq_refl) as (_ & Hml & He). rewrite Hml. cbn [andb]. apply oc_bind, oc_upd, oc_bind, oc_upd.
      eapply (fin _ n 0); [| | | |apply n_quoted_cost]; flat; auto; lia.
    + rewrite andb_false_r. apply oc_bind, oc_get, oc_bind, oc_load. intros a Ha Hl. destruct (quote_match c a).
      * apply oc_bind, oc_upd. eapply (fin _ (n + 1) 1); [| | | |apply n_quoted_cost]; flat; auto; lia.
      * apply oc_bind, oc_upd. eapply (fin _ (n + 1) 0); [| | | |apply n_normal_cost]; flat; auto; lia.
  - destruct (s_resp s) eqn:Hr; [destruct (Hs eq_refl); discriminate|].
    apply oc_bind, oc_get, oc_bind, oc_upd. eapply (fin _ n 0); [| | | |apply n_normal_cost]; flat; auto; lia.
Qed.

Lemma n_loop_cost : forall f s m n, settled s -> start_at s <= length m ->
  oc (n_loop c f d (s, m, n)) (fun _ _ _ => gone' (start_at s) m n) (gone' (start_at s) m n).
Proof.
  induction f as [|f IH]; intros s m n Hs Hl; cbn [n_loop]; [exact Logic.I|].
  apply oc_bind, oc_get. destruct (s_done s); [apply oc_ret; exists 0; lia|].
  apply oc_bind. eapply oc_weaken; [apply n_read_cost; exact Hs| |auto].
  intros [] s1 m1 n1 (w & Hw & Hlw & Hn & Hm & Hr & Hb).
  destruct (s_done s1) eqn:Hd1.
  - destruct f as [|f]; cbn [n_loop]; [exact Logic.I|]. apply oc_bind, oc_get. rewrite Hd1. apply oc_ret. exists w. lia.
  - destruct Hb as [Hb|Hb]; [congruence|].
    assert (S1 : start_at s1 = start_at s + w) by (unfold start_at in *; rewrite Hr; exact Hb).
    eapply oc_weaken; [apply IH; [unfold settled; rewrite Hr; discriminate|rewrite Hm; lia]|..].
    + intros _ _ _ n2 (w2 & Hl2 & Hn2). exists (w + w2). rewrite Hm in Hl2. lia.
    + intros n2 (w2 & Hl2 & Hn2). exists (w + w2). rewrite Hm in Hl2. lia.
Qed.

(** A whole line. *)
Lemma n_impl_cost s m n : s_resp s = false -> s_begin s <= length m ->
  oc (n_impl c d (s, m, n)) (fun _ _ _ n' => n' <= n + 1 + K' * (length m - s_begin s)) (fun n' => n' <= n + 1 + K' * (length m - s_begin s)).
Proof.
  intros Hr Hb. unfold n_impl. apply oc_bind, oc_get, oc_bind, n_trim_cost. intros e n1 He Hn Hl _.
  apply oc_bind, oc_upd, oc_bind, oc_upd, oc_bind. unfold n_fuel, lift, zoom, fuel_of, gets. cbn [oc fst snd].
  set (s1 := up_done false (up_begin e s)).
  assert (S1 : start_at s1 = e) by (unfold start_at, s1; flat; rewrite Hr; reflexivity).
  eapply oc_weaken; [apply n_loop_cost; [unfold settled, s1; flat; congruence|lia]|..].
  - intros _ _ _ n2 (w & Hw & Hn2). rewrite S1 in *. nia.
  - intros n2 (w & Hw & Hn2). rewrite S1 in *. nia.
Qed.

(** A line that goes on: the part that was gone through before is not gone through again. *)
Lemma n_impl_resplit_cost s m n x : settled s -> s_resp s = true -> s_end s <= length m ->
  rd m (s_begin s) = Some x -> ~ In x (c_triml c) ->
  oc (n_impl c d (s, m, n)) (fun _ _ _ n' => n' <= n + 1 + K' * (length m - s_end s)) (fun n' => n' <= n + 1 + K' * (length m - s_end s)).
Proof.
  intros Hs Hr He Hx Hi. unfold n_impl. apply oc_bind, oc_get, oc_bind, n_trim_cost. intros e n1 Hle Hn Hl Ht.
  assert (Ee : e = s_begin s).
  { destruct (Nat.eq_dec e (s_begin s)) as [|ne]; [assumption|exfalso].
    destruct (Ht (s_begin s) ltac:(lia)) as (y & Hy & Iy). rewrite Hx in Hy. injection Hy as <-. contradiction. }
  subst e. apply oc_bind, oc_upd, oc_bind, oc_upd, oc_bind. unfold n_fuel, lift, zoom, fuel_of, gets. cbn [oc fst snd].
  set (s1 := up_done false (up_begin (s_begin s) s)).
  assert (S1 : start_at s1 = s_end s) by (unfold start_at, s1; flat; rewrite Hr; reflexivity).
  eapply oc_weaken; [apply n_loop_cost; [exact Hs|lia]|..].
  - intros _ _ _ n2 (w & Hw & Hn2). rewrite S1 in *. nia.
  - intros n2 (w & Hw & Hn2). rewrite S1 in *. nia.
Qed.
End Delim.
End Work.
