(** How much work reading takes (C57): rows put together from lines and split. *)
From Verif Require Import Base Setup Splitter SplitPure ListFacts SplitSpec SplitRefine SplitSpecProofs SplitKeeps SplitApi SplitSafe Extract Converter Reader LineSpec LineProofs GetLineProofs ReaderBase ReaderInv ReaderEscape ReaderParse Parser ParserInv SplitCost SplitWork SplitFrame PropWork ReadCost ReadWork.

(** ** Splitting, wherever the splitter stands *)
Section S.
Context (c : cfg) (Hc : cfg_ok c).
Section Delim.
Context (d : delim) (Hd : dok d).
Notation D := (delimiter_size d).
Lemma n_loop_any f s m n : settled c s ->
  oc (n_loop c f d (s, m, n)) (fun _ _ _ n' => n' <= n + (D + 9) * length m) (fun n' => n' <= n + (D + 9) * length m).
Proof.
  intros Hs. destruct (Nat.le_gt_cases (start_at s) (length m)) as [L|L].
  - eapply oc_weaken; [apply (n_loop_cost c Hc d Hd); assumption|..].
    + intros _ _ _ n' (w & A & B). nia.
    + intros n' (w & A & B). nia.
  - destruct f as [|f]; cbn [n_loop]; [exact Logic.I|]. apply oc_bind, oc_get. destruct (s_done s); [apply oc_ret; lia|].
    apply oc_bind. eapply oc_weaken; [apply (n_read_cost c Hc d Hd); exact Hs|..].
    + intros [] s1 m1 n1 (w & A & B & _). lia.
    + intros n' (w & A & B). nia.
Qed.
Lemma n_impl_any s m n : settled c s ->
  oc (n_impl c d (s, m, n)) (fun _ _ _ n' => n' <= n + 1 + (D + 10) * length m) (fun n' => n' <= n + 1 + (D + 10) * length m).
Proof.
  intros Hs. unfold n_impl. apply oc_bind, oc_get, oc_bind, n_trim_cost. intros e n1 He Hn Hl _.
  apply oc_bind, oc_upd, oc_bind, oc_upd, oc_bind. unfold n_fuel, lift, zoom, fuel_of, gets. cbn [oc fst snd].
  eapply oc_weaken; [apply n_loop_any; exact Hs|..]; cbv beta; intros; nia.
Qed.
End Delim.

Context (d : str) (Hd : nulfree d).
Lemma select_any s m n : settled c s ->
  oc (n_select c d (s, m, n)) (fun _ _ _ n' => n' <= n + 1 + (length d + 10) * length m) (fun n' => n' <= n + 1 + (length d + 10) * length m).
Proof.
  intros Hs. unfold n_select. apply oc_bind. unfold lift, zoom, sp_clear_error, upd, modify. cbn [fst snd oc].
  set (s1 := up_uq false _). assert (S1 : settled c s1) by (unfold settled, s1 in *; destruct (c_mode c); exact Hs). clearbody s1.
  destruct d as [|x [|y d']]; [apply oc_error; intros; lia| |].
  - apply (n_impl_any (DChar x) Logic.I s1 m n S1).
  - assert (K : dok (DStr (x :: y :: d'))) by (split; [discriminate|exact Hd]). exact (n_impl_any _ K s1 m n S1).
Qed.
Lemma split_any blk s m n : s_resp s = false ->
  oc (n_split c blk d (s, m, n)) (fun _ _ _ n' => n' <= n + 1 + (length d + 10) * length m) (fun n' => n' <= n + 1 + (length d + 10) * length m).
Proof. intros Hr. unfold n_split. apply oc_bind, oc_upd. apply select_any. unfold settled. cbn. congruence. Qed.
Lemma resplit_any blk k s m n :
  oc (n_resplit c blk k d (s, m, n)) (fun _ _ _ n' => n' <= n + 1 + (length d + 10) * length m) (fun n' => n' <= n + 1 + (length d + 10) * length m).
Proof.
  unfold n_resplit. apply oc_bind, oc_get. destruct (_ || _) eqn:G; [apply oc_error; intros; lia|].
  destruct (last (s_sd s) (0, 0)) as [x y]. cbv zeta. destruct (_ <? _); [apply oc_error; intros; lia|].
  apply oc_bind, oc_upd. apply select_any. intros _.
  destruct (quote_enabled c), (c_ml c); try discriminate. repeat (apply conj); auto.
Qed.
End S.

Lemma add_up n n1 n2 a b K w1 w2 w z : n1 <= n + a * (K * w1) -> n2 <= n1 + b * (K * w2) + z -> w1 <= w -> w2 <= w -> n2 <= n + (a + b) * (K * w) + z.
Proof.
  intros H1 H2 L1 L2. assert (a * (K * w1) <= a * (K * w)) by (apply Nat.mul_le_mono_l, Nat.mul_le_mono_l; exact L1).
  assert (b * (K * w2) <= b * (K * w)) by (apply Nat.mul_le_mono_l, Nat.mul_le_mono_l; exact L2). lia.
Qed.
(** ** Rows *)
Definition pot (r : rdr) : nat := r_nlsize r + 3 * length (unread r).
(** [q] lines were appended between [r] and [r']. *)
Record span (r : rdr) (q : nat) (r' : rdr) : Prop := {
  sp_has : has Helper r';
  sp_delim : r_delim r' = r_delim r;
  sp_used : length (unread r') + q <= length (unread r) }.
Definition slim (r r' : rdr) : Prop := pot r' <= pot r.
Lemma span_refl r : has Helper r -> span r 0 r.
Proof. intros H. split; auto; lia. Qed.
Lemma span_trans r q r1 q1 r2 : span r q r1 -> span r1 q1 r2 -> span r (q + q1) r2.
Proof. intros [A B D] [A1 B1 D1]. split; [exact A1|congruence|lia]. Qed.
(** How much there is between [r] and [r']: at least the size of the line at any time. *)
Definition wide (r r' : rdr) : nat := pot r - 3 * length (unread r') + 1.
Lemma wide_size r q r' : span r q r' -> r_nlsize r < wide r r' /\ 3 * (length (unread r) - length (unread r')) < wide r r' /\ 1 <= wide r r'.
Proof. intros [A B D]. unfold wide, pot in *. lia. Qed.
Lemma slim_size r r' : slim r r' -> r_nlsize r' < wide r r'.
Proof. unfold wide, slim, pot. lia. Qed.
Lemma wide_in r q r1 q1 r2 : slim r r1 -> span r q r1 -> span r1 q1 r2 -> wide r r1 <= wide r r2 /\ wide r1 r2 <= wide r r2.
Proof. unfold slim. intros C [A B D] [A1 B1 D1]. unfold wide, pot in *. lia. Qed.
Definition full (r : rdr) : Prop := length (cells_of (r_nl r)) = r_nlsize r + 3.

Section R.
Context (c : cfg) (Hc : cfg_ok c) (d : str) (Hd : nulfree d) (cap : nat -> nat -> nat) (Hcap : forall n need, need <= cap n need).
(** Within the limit of the setup. *)
Definition within (limit q : nat) : Prop := 0 < c_mlsize c -> limit <= c_mlsize c -> limit + q <= c_mlsize c.

Lemma escapes_cost : forall i r n, ob (n_count_escapes c i (r, n)) (fun _ r' n' => r' = r /\ n' <= n + i) (fun _ _ => False).
Proof.
  induction i as [|i IH]; intros r n; cbn [n_count_escapes]; [apply ob_ret; auto with arith|].
  apply ob_bind. unfold n_on_lp. apply ob_inside. unfold n_peek. apply ob_bind, ob_spend, ob_free.
  - intros a l' E. assert (l' = lp_of NextLine r).
    { unfold peek in E. destruct (rd _ _); [|discriminate E]. injection E as _ <-. reflexivity. }
    subst l'. replace (lp_to NextLine (lp_of NextLine r) r) with r by (destruct r; reflexivity).
    destruct (escape_match c a); [|apply ob_ret; split; [reflexivity|lia]].
    apply ob_bind. eapply ob_weaken; [apply IH| |auto]. intros k r' n' [-> Hn]. apply ob_ret. split; [reflexivity|lia].
  - intros e l' E. unfold peek in E. destruct (rd _ _); discriminate E.
Qed.
Lemma escaped_cost k r n : ob (n_escaped_eol c k (r, n)) (fun _ r' n' => r' = r /\ n' <= n + k) (fun _ _ => False).
Proof. unfold n_escaped_eol. apply ob_bind. eapply ob_weaken; [apply escapes_cost| |auto]. intros a r' n' H. apply ob_ret. exact H. Qed.

(** The error handlers touch the splitter only. *)
Lemma span_nconv v r q r' : span r q r' -> span r q (rset_nconv v r').
Proof. intros [A B D]. split; assumption. Qed.
Lemma limit_cost limit r n (Q : nat * bool -> rdr -> nat -> Prop) (E : rdr -> nat -> Prop) :
  (forall v, Q (S limit, true) (rset_nconv v r) n) -> (forall v, E (rset_nconv v r) n) ->
  ((0 < c_mlsize c -> limit < c_mlsize c) -> Q ((if 0 <? c_mlsize c then S limit else limit), false) r n) ->
  ob (free (multiline_limit_reached c limit) (r, n)) Q E.
Proof.
  intros H1 H2 H3. unfold multiline_limit_reached. destruct (0 <? c_mlsize c) eqn:E0.
  - destruct (c_mlsize c <=? limit) eqn:E1.
    + apply ob_free; unfold bind; rewrite stop_limit_eq; unfold stopped; destruct (c_mode c); try discriminate.
      * intros a s' X. injection X as <- <-. apply H1.
      * intros a s' X. injection X as <- <-. apply H1.
      * intros a s' X. injection X as _ <-. apply H2.
    + apply ob_free; [|discriminate]. intros a s' X. injection X as <- <-. apply H3. intros _. apply Nat.leb_gt in E1. exact E1.
  - apply ob_free; [|discriminate]. intros a s' X. injection X as <- <-. apply H3. intros X. apply Nat.ltb_ge in E0. lia.
Qed.
Lemma stop_cost m r n (Q : unit -> rdr -> nat -> Prop) (E : rdr -> nat -> Prop) s : on_nconv m r = stopped c s tt r ->
  (forall v, Q tt (rset_nconv v r) n) -> (forall v, E (rset_nconv v r) n) -> ob (free (on_nconv m) (r, n)) Q E.
Proof.
  intros ES H1 H2. apply ob_free; rewrite ES; unfold stopped; destruct (c_mode c); try discriminate.
  - intros a s' X. injection X as <- <-. apply H1.
  - intros a s' X. injection X as <- <-. apply H1.
  - intros e s' X. injection X as _ <-. apply H2.
Qed.

(** append as a span *)
Lemma append_span r n : has Helper r ->
  ob (n_append_next_line_to_buffer cap (r, n))
    (fun more r' n' => span r (if more : bool then 1 else 0) r' /\ if more then slim r r' /\ full r' /\ n' <= n + 138 * wide r r' else n' <= n + 2)
    (fun _ _ => False).
Proof.
  intros H. eapply ob_weaken; [apply (append_cost cap Hcap); exact H| |auto]. intros [|] r' n' (H' & D' & V' & X).
  - destruct X as (k & K1 & KU & KS & KF & KN). assert (S : span r 1 r') by (split; [exact H'|exact D'|lia]).
    assert (L : slim r r') by (unfold slim, pot; lia). pose proof (slim_size _ _ L).
    split; [exact S|]. split; [exact L|]. split; [exact KF|]. destruct (wide_size _ _ _ S) as (W2 & W3 & W4). lia.
  - destruct X as (XU & XN). split; [|exact XN]. split; [exact H'|exact D'|rewrite XU; lia].
Qed.

Definition gone (r : rdr) (n limit q : nat) (r' : rdr) (n' : nat) : Prop := span r q r' /\ within limit q /\ n' <= n + (q + 1) * (140 * wide r r').
Definition went (r : rdr) (limit q : nat) (x : bool * nat) (r' : rdr) : Prop :=
  fst x = true -> (0 < c_mlsize c -> snd x = limit + q) /\ (full r -> full r') /\ slim r r'.
Lemma escape_cost : forall f limit r n, has Helper r ->
  ob (n_escape_loop c cap f limit (r, n))
    (fun x r' n' => exists q, gone r n limit q r' n' /\ went r limit q x r')
    (fun r' n' => exists q, gone r n limit q r' n').
Proof.
  induction f as [|f IH]; intros limit r n H; cbn [n_escape_loop]; [exact Logic.I|].
  pose proof (span_refl r H) as S0. destruct (wide_size _ _ _ S0) as (W2 & W3 & W4).
  assert (G0 : forall v n1, n1 <= n + 2 + r_nlsize r -> gone r n limit 0 (rset_nconv v r) n1).
  { intros v n1 Hn. split; [apply span_nconv; exact S0|]. split; [intros _ X; lia|]. change (wide r (rset_nconv v r)) with (wide r r). lia. }
  apply ob_bind, ob_ask, ob_bind. eapply ob_weaken; [apply escaped_cost| |contradiction]. intros e r0 n0 [-> N0].
  destruct e.
  - apply ob_bind, limit_cost.
    + intros v. apply ob_ret. exists 0. split; [apply G0; lia|discriminate].
    + intros v. exists 0. apply G0. lia.
    + intros HL. apply ob_bind. eapply ob_weaken; [apply append_span; exact H| |contradiction]. intros [|] r1 n1 (S1 & X).
      * destruct X as (L1 & F1 & N1).
        assert (G : forall q r' n', gone r1 n1 (if 0 <? c_mlsize c then S limit else limit) q r' n' -> gone r n limit (1 + q) r' n').
        { intros q r' n' (S2 & L2 & N2). destruct (wide_in _ _ _ _ _ L1 S1 S2) as [A B].
          pose proof (span_trans _ _ _ _ _ S1 S2) as S3. destruct (wide_size _ _ _ S3) as (V2 & V3 & V4).
          split; [exact S3|split].
          - intros Z ZL. specialize (HL Z). unfold within in L2. replace (0 <? c_mlsize c) with true in L2 by (symmetry; apply Nat.ltb_lt; exact Z). specialize (L2 Z). lia.
          - set (X := wide r r') in *. assert (n1 <= n + 139 * X) by lia.
            apply Nat.le_trans with (n1 + (q + 1) * (140 * X)); [|lia]. apply Nat.le_trans with (1 := N2). apply Nat.add_le_mono_l, Nat.mul_le_mono_l. lia. }
        eapply ob_weaken; [apply IH; apply S1|..].
        -- intros x r' n' (q & G2 & X2). exists (1 + q). split; [apply G; exact G2|]. intros Hx. destruct (X2 Hx) as (Y1 & Y2 & Y3).
           split; [|split; [intros _; apply Y2; exact F1|unfold slim in *; lia]]. intros Z. specialize (Y1 Z).
           replace (0 <? c_mlsize c) with true in Y1 by (symmetry; apply Nat.ltb_lt; exact Z). lia.
        -- intros r' n' (q & G2). exists (1 + q). apply G. exact G2.
      * destruct (wide_size _ _ _ S1) as (V2 & V3 & V4).
        apply ob_bind. eapply stop_cost; [apply stop_escape_eq|..].
        -- intros v. apply ob_ret. exists 0. split; [|discriminate]. split; [apply span_nconv; exact S1|]. split; [intros _ Z; lia|].
           change (wide r (rset_nconv v r1)) with (wide r r1). lia.
        -- intros v. exists 0. split; [apply span_nconv; exact S1|]. split; [intros _ Z; lia|].
           change (wide r (rset_nconv v r1)) with (wide r r1). lia.
  - apply ob_ret. exists 0. split; [|intros _; split; [cbn; lia|split; [auto|unfold slim; lia]]]. replace r with (rset_nconv (r_nconv r) r) at 2 by (destruct r; reflexivity). apply G0. lia.
Qed.
Lemma escape_part_cost limit r n : has Helper r ->
  ob (n_escape_part c cap limit (r, n))
    (fun x r' n' => exists q, gone r n limit q r' n' /\ went r limit q x r')
    (fun r' n' => exists q, gone r n limit q r' n').
Proof.
  intros H. unfold n_escape_part. destruct (escaped_multiline c).
  - apply ob_bind, ob_ask. apply escape_cost. exact H.
  - apply ob_ret. exists 0. split; [|intros _; split; [cbn; lia|split; [auto|unfold slim; lia]]]. split; [apply span_refl; exact H|]. split; [intros _ X; lia|]. lia.
Qed.

(** A splitter operation on the buffered line. *)
Lemma ob_of_oc {A} (o : res cst A) (Q : A -> sp -> cells -> nat -> Prop) (E : nat -> Prop) : oc o Q E -> ob o (fun a s n' => Q a (fst s) (snd s) n') (fun _ n' => E n').
Proof. unfold oc, ob. destruct o as [a [[s m] n]|e [[s m] n]|w|]; auto. Qed.
Lemma next_cost (m : nat -> M (vst * nat) unit) r n B :
  (forall b, r_nl r = Some b -> ob (m (b_id b) ((r_nconv r, b_cells b), n)) (fun _ _ n' => n' <= n + B) (fun _ n' => n' <= n + B)) ->
  ob (n_on_next m (r, n)) (fun _ r' n' => (forall r0 q, span r0 q r -> span r0 q r') /\ (unread r' = unread r /\ pot r' = pot r) /\ n' <= n + B)
    (fun r' n' => (forall r0 q, span r0 q r -> span r0 q r') /\ (unread r' = unread r /\ pot r' = pot r) /\ n' <= n + B).
Proof.
  intros H. unfold n_on_next. cbn [fst snd]. destruct (r_nl r) as [b|]; [|exact Logic.I]. specialize (H b eq_refl).
  destruct (m (b_id b) (r_nconv r, b_cells b, n)) as [a [[v cs] n']|e [[v cs] n']|w|]; cbn [ob] in *; auto.
  - split; [|split; [split; reflexivity|exact H]]. intros r0 q [P1 P2 P3]. split; assumption.
  - split; [|split; [split; reflexivity|exact H]]. intros r0 q [P1 P2 P3]. split; assumption.
Qed.
Lemma resplit_cost r n : r_delim r = d -> full r ->
  ob (n_on_next (fun id => n_cv_resplit c id (r_nlsize r) (r_delim r)) (r, n))
    (fun _ r' n' => (forall r0 q, span r0 q r -> span r0 q r') /\ (unread r' = unread r /\ pot r' = pot r) /\ n' <= n + (1 + (length d + 10) * (r_nlsize r + 3)))
    (fun r' n' => (forall r0 q, span r0 q r -> span r0 q r') /\ (unread r' = unread r /\ pot r' = pot r) /\ n' <= n + (1 + (length d + 10) * (r_nlsize r + 3))).
Proof.
  intros Ed F. apply next_cost. intros b Hb. unfold n_cv_resplit, n_on_sp. rewrite Ed. apply ob_inside.
  unfold full in F. rewrite Hb in F. cbn [cells_of] in F. rewrite <- F. cbn [fst snd].
  eapply ob_weaken; [apply ob_of_oc; apply (resplit_any c Hc d Hd)|..]; cbv beta; [intros _ _ n1 H1|intros _ n1 H1]; rewrite Nat.add_assoc; exact H1.
Qed.

Notation Kc := (4 * length d + 400).
Definition spent (r : rdr) (n limit q : nat) (r' : rdr) (n' : nat) : Prop := span r q r' /\ within limit q /\ n' <= n + q * (Kc * wide r r') + 2.
Lemma quote_cost : forall f limit r n, has Helper r -> r_delim r = d ->
  ob (n_quote_loop c cap f limit (r, n))
    (fun _ r' n' => exists q, spent r n limit q r' n') (fun r' n' => exists q, spent r n limit q r' n').
Proof.
  induction f as [|f IH]; intros limit r n H Ed; cbn [n_quote_loop]; [exact Logic.I|].
  pose proof (span_refl r H) as S0.
  assert (Z0 : forall q r0, span r q r0 -> q = 0 -> forall v n1, n1 <= n + 2 -> spent r n limit 0 (rset_nconv v r0) n1).
  { intros q r0 S E v n1 Hn. subst q. split; [apply span_nconv; exact S|]. split; [intros _ X; lia|]. lia. }
  apply ob_bind, ob_ask. destruct (cv_unterminated_quote (r_nconv r)).
  2:{ apply ob_ret. exists 0. replace r with (rset_nconv (r_nconv r) r) at 2 by (destruct r; reflexivity). eapply Z0; [exact S0|reflexivity|lia]. }
  apply ob_bind. destruct (r_nlsize r <? cv_size_shifted (r_nconv r)); [exact Logic.I|]. apply ob_ret.
  apply ob_bind, ob_free; [|discriminate]. intros [] r1 E1. injection E1 as <-. set (r1 := rset_nlsize _ r).
  assert (S1 : span r 0 r1) by (split; [exact H|reflexivity|change (unread r1) with (unread r); lia]).
  assert (L1 : slim r r1) by (unfold slim, pot; change (unread r1) with (unread r); cbn [r1 r_nlsize rset_nlsize]; lia).
  assert (U1 : unread r1 = unread r) by reflexivity. clearbody r1.
  apply ob_bind, limit_cost.
  - intros v. apply ob_ret. exists 0. eapply Z0; [exact S1|reflexivity|lia].
  - intros v. exists 0. eapply Z0; [exact S1|reflexivity|lia].
  - intros HL. apply ob_bind. eapply ob_weaken; [apply append_span; apply S1| |contradiction]. intros [|] r2 n2 (S2 & X).
    + destruct X as (L2 & F2 & N2). pose proof (span_trans _ _ _ _ _ S1 S2) as S02. destruct (wide_in _ _ _ _ _ L1 S1 S2) as [A1 A2]. assert (L02 : slim r r2) by (unfold slim in *; lia).
      apply ob_bind. 
      assert (LIM : forall q, within (if 0 <? c_mlsize c then S limit else limit) q -> within limit (1 + q)).
      { intros q W Z ZL. specialize (HL Z). unfold within in W. replace (0 <? c_mlsize c) with true in W by (symmetry; apply Nat.ltb_lt; exact Z). specialize (W Z). lia. }
      assert (G : forall q r3 n3, gone r2 n2 (if 0 <? c_mlsize c then S limit else limit) q r3 n3 -> spent r n limit (1 + q) r3 n3 /\ n3 + (q + 1) * ((4 * length d + 100) * wide r r3) <= n + (1 + q) * (Kc * wide r r3)).
      { intros q r3 n3 (S3 & L3 & N3). pose proof (span_trans _ _ _ _ _ S02 S3) as S03. destruct (wide_in _ _ _ _ _ L02 S02 S3) as [A3 A4].
        assert (NN : n3 <= n + (q + 1) * (280 * wide r r3)).
        { set (X := wide r r3) in *. assert (n2 <= n + 138 * X) by lia. assert ((q + 1) * (140 * wide r2 r3) <= (q + 1) * (140 * X)) by (apply Nat.mul_le_mono_l; lia). lia. } split; [split; [exact S03|split; [apply LIM; exact L3|nia]]|nia]. }
      eapply ob_weaken; [apply escape_part_cost; apply S2|..].
      * intros [go l3] r3 n3 (q & G3 & X3). unfold went in X3. cbn [fst snd] in X3. destruct (G _ _ _ G3) as [P3 P4]. destruct go; [|apply ob_ret; exists (1 + q); exact P3].
        destruct (X3 eq_refl) as (Y3 & F3 & L23). specialize (F3 F2). assert (L03 : slim r r3) by (unfold slim in *; lia). destruct G3 as (S3 & L3 & N3). pose proof (span_trans _ _ _ _ _ S02 S3) as S03.
        pose proof (wide_size _ _ _ S03) as (V2 & V3 & V4). pose proof (slim_size _ _ L03) as V1.
        apply ob_bind, ob_ask, ob_bind. assert (Ed3 : r_delim r3 = d) by (rewrite (sp_delim _ _ _ S03); exact Ed).
        eapply ob_weaken; [apply resplit_cost; assumption|..].
        -- intros [] r4 n4 (S4 & [U4 E4] & N4). pose proof (S4 _ _ S03) as S04. assert (L04 : slim r r4) by (unfold slim in *; lia). assert (Ed4 : r_delim r4 = d) by (rewrite (sp_delim _ _ _ S04); exact Ed).
           assert (WE : wide r r4 = wide r r3) by (unfold wide; rewrite U4; reflexivity).
           assert (N5 : n4 <= n + (1 + q) * (Kc * wide r r4)) by (rewrite WE; nia).
           eapply ob_weaken; [apply IH; [apply S04|exact Ed4]|..].
           ++ intros [] r5 n5 (q5 & S5 & L5 & N6). exists (1 + q + q5). pose proof (span_trans _ _ _ _ _ S04 S5) as S05. destruct (wide_in _ _ _ _ _ L04 S04 S5) as [A5 A6].
              split; [exact S05|]. split; [|exact (add_up _ _ _ _ _ _ _ _ _ _ N5 N6 A5 A6)]. replace (1 + q + q5) with (1 + (q + q5)) by lia. apply LIM. intros Z ZL. specialize (L3 Z ZL). rewrite (Y3 Z) in L5. specialize (L5 Z). lia.
           ++ intros r5 n5 (q5 & S5 & L5 & N6). exists (1 + q + q5). pose proof (span_trans _ _ _ _ _ S04 S5) as S05. destruct (wide_in _ _ _ _ _ L04 S04 S5) as [A5 A6].
              split; [exact S05|]. split; [|exact (add_up _ _ _ _ _ _ _ _ _ _ N5 N6 A5 A6)]. replace (1 + q + q5) with (1 + (q + q5)) by lia. apply LIM. intros Z ZL. specialize (L3 Z ZL). rewrite (Y3 Z) in L5. specialize (L5 Z). lia.
        -- intros r4 n4 (S4 & [U4 E4] & N4). exists (1 + q). split; [apply S4; exact S03|]. split; [apply LIM; exact L3|].
           assert (WE : wide r r4 = wide r r3) by (unfold wide; rewrite U4; reflexivity). rewrite WE. nia.
      * intros r3 n3 (q & G3). exists (1 + q). apply G. exact G3.
    + pose proof (span_trans _ _ _ _ _ S1 S2) as S02. eapply stop_cost; [apply stop_quote_eq|..].
      * intros v. exists 0. eapply Z0; [exact S02|reflexivity|lia].
      * intros v. exists 0. eapply Z0; [exact S02|reflexivity|lia].
Qed.

(** Splitting a line that is terminated: what is behind it in the buffer does not matter. *)
Lemma split_line_cost id v B X n : s_resp (v_sp v) = false ->
  ob (n_cv_split c id d ((v, tm B ++ X), n)) (fun _ _ n' => n' <= n + (2 + (length d + 10) * (length B + 1))) (fun _ n' => n' <= n + (2 + (length d + 10) * (length B + 1))).
Proof.
  intros Hr. unfold n_cv_split. apply ob_bind, ob_free; [|discriminate]. intros [] t E. unfold on_sp, zoom, upd, modify in E. cbn [fst snd] in E. injection E as <-.
  apply ob_bind, ob_spend, ob_bind, ob_free; [|unfold on_sp, zoom, load; intros e s' E; destruct (rd _ _); discriminate E].
  intros a t E. assert (Et : t = (vup_sp (up_sd [] (v_sp v)) v, tm B ++ X)).
  { unfold on_sp, zoom, load in E. cbn [fst snd] in E. destruct (rd _ _); [|discriminate E]. injection E as _ <-. reflexivity. }
  clear E. subst t. destruct (Ascii.eqb a NUL); [apply ob_ret; lia|]. unfold n_on_sp. apply ob_inside. cbn [fst snd].
  change (v_sp (vup_sp (up_sd [] (v_sp v)) v)) with (up_sd [] (v_sp v)). set (s := up_sd [] (v_sp v)). assert (Rs : s_resp s = false) by exact Hr. clearbody s.
  pose proof (fr_split X c id d s (tm B) (n + 1)) as F. pose proof (split_any c Hc d Hd id s (tm B) (n + 1) Rs) as C.
  pose proof (er_split c id d (s, tm B) (n + 1)) as ER. destruct (split_tm c Hc d Hd id s B Rs) as (s' & B' & _ & _ & _ & _ & G).
  assert (L : length (tm B) = length B + 1) by (unfold tm; rewrite app_length, map_length; reflexivity). rewrite L in C.
  destruct (n_split c id d (s, tm B, n + 1)) as [u [[s1 m1] n1]|e [[s1 m1] n1]|w|]; cbn [oc forget fst] in C, ER; rewrite <- ER in G.
  - rewrite F. cbn [ob]. lia.
  - rewrite F. cbn [ob]. lia.
  - destruct G as [[G _]|(_ & e & G & _)]; discriminate G.
  - destruct G as [[G _]|(_ & e & G & _)]; discriminate G.
Qed.
Lemma split_cost_line r n B e : r_delim r = d -> s_resp (v_sp (r_nconv r)) = false -> bufline r B e ->
  ob (n_on_next (fun id => n_cv_split c id (r_delim r)) (r, n))
    (fun _ r' n' => (forall r0 q, span r0 q r -> span r0 q r') /\ (unread r' = unread r /\ pot r' = pot r) /\ n' <= n + (2 + (length d + 10) * (r_nlsize r + 1)))
    (fun r' n' => (forall r0 q, span r0 q r -> span r0 q r') /\ (unread r' = unread r /\ pot r' = pot r) /\ n' <= n + (2 + (length d + 10) * (r_nlsize r + 1))).
Proof.
  intros Ed Hr (b & X & Hb & HC & HN & _). apply next_cost. intros b' Hb'. rewrite Hb in Hb'. injection Hb' as <-. rewrite HC, HN, Ed.
  replace (map Some B ++ Some NUL :: X) with (tm B ++ X) by (unfold tm; rewrite <- app_assoc; reflexivity).
  apply split_line_cost. exact Hr.
Qed.

Definition allowed (q : nat) : Prop := if c_ml c then 0 < c_mlsize c -> q <= c_mlsize c else q = 0.
Definition parsed (r : rdr) (n : nat) (r' : rdr) (n' : nat) : Prop := exists q, span r q r' /\ allowed q /\ n' <= n + (q + 1) * (Kc * wide r r').
Lemma rinv_has w r : rinv c d r -> direct r -> has w r.
Proof. intros I D. split; [apply (lp_ok_inv c d w r I)|]. split; [apply (i_src _ _ _ I)|exact D]. Qed.
Lemma parse_line_cost r n B e : rinv c d r -> direct r -> bufline r B e ->
  ob (n_parse c cap (r, n)) (fun _ r' n' => parsed r n r' n') (fun r' n' => parsed r n r' n').
Proof.
  intros I DR HB. pose proof (rinv_has Helper r I DR) as HH. unfold n_parse, parsed, allowed. destruct (c_ml c) eqn:Eml.
  - assert (WI : forall q, within 0 q -> 0 < c_mlsize c -> q <= c_mlsize c) by (unfold within; intros q W Z; specialize (W Z); lia).
    assert (DONE : forall q r' n', gone r n 0 q r' n' -> exists q, span r q r' /\ (0 < c_mlsize c -> q <= c_mlsize c) /\ n' <= n + (q + 1) * (Kc * wide r r')).
    { intros q r' n' (S1 & L1 & N1). exists q. split; [exact S1|]. split; [apply WI; exact L1|]. nia. }
    apply ob_bind. eapply ob_with; [apply ct_escape_part|].
    pose proof (escape_part_spec c d cap Hcap r B e 0 I HB) as ES. assert (L0 : lim c 0 = 0) by (unfold lim; destruct (0 <? c_mlsize c); reflexivity). rewrite L0 in ES.
    eapply ob_weaken; [apply (escape_part_cost 0 r n HH)|..].
    + intros [go l1] r1 n1 (q & G1 & W1) E1. destruct go; [|apply ob_ret; eapply DONE; exact G1].
      assert (B1 : exists B1 e1, bufline r1 B1 e1 /\ rinv c d r1).
      { destruct (egather_if c (lines (unread r)) 0 B e) as [B' e' n' more|st n' more].
        - destruct ES as (r' & X & I' & _ & BL & _). rewrite X in E1. injection E1 as _ <-. eauto.
        - destruct ES as (r' & l & X & _). rewrite X in E1. unfold stopped in E1. destruct (c_mode c); discriminate. }
      destruct B1 as (B1 & e1 & HB1 & I1). unfold went in W1. cbn [fst snd] in W1. destruct (W1 eq_refl) as (Y1 & _ & SL1). destruct G1 as (S1 & L1 & N1).
      destruct (wide_size _ _ _ S1) as (V2 & V3 & V4). pose proof (slim_size _ _ SL1) as V1.
      assert (Ed1 : r_delim r1 = d) by apply (i_delim _ _ _ I1).
      apply ob_bind, ob_ask, ob_bind. eapply ob_weaken; [apply (split_cost_line r1 n1 B1 e1); [exact Ed1|apply (i_nconv _ _ _ I1)|exact HB1]|..].
      * intros [] r2 n2 (S2 & [U2 P2] & N2). pose proof (S2 _ _ S1) as S02. assert (WE : wide r r2 = wide r r1) by (unfold wide; rewrite U2; reflexivity).
        assert (N02 : n2 + 2 <= n + (q + 1) * (Kc * wide r r2)) by (rewrite WE; nia).
        destruct (quoted_multiline c).
        -- assert (SL2 : slim r r2) by (unfold slim in *; lia). assert (Ed2 : r_delim r2 = d) by (rewrite (sp_delim _ _ _ S02); apply (i_delim _ _ _ I)).
           assert (FIN : forall r3 n3, (exists q3, spent r2 n2 l1 q3 r3 n3) -> exists q, span r q r3 /\ (0 < c_mlsize c -> q <= c_mlsize c) /\ n3 <= n + (q + 1) * (Kc * wide r r3)).
           { intros r3 n3 (q3 & S3 & L3 & N3). exists (q + q3). destruct (wide_in _ _ _ _ _ SL2 S02 S3) as [A1 A2]. split; [eapply span_trans; eassumption|]. split.
             - intros Z. specialize (WI _ L1 Z). unfold within in L3. specialize (L3 Z). rewrite (Y1 Z) in L3. cbn in L3. lia.
             - assert (N3' : n3 <= (n2 + 2) + q3 * (Kc * wide r2 r3) + 0) by lia. pose proof (add_up _ _ _ _ _ _ _ _ _ _ N02 N3' A1 A2) as K.
               replace (q + q3 + 1) with (q + 1 + q3) by lia. lia. }
           apply ob_bind, ob_ask. eapply ob_weaken; [apply quote_cost; [apply S02|exact Ed2]|..].
           ++ intros [] r3 n3 X. apply FIN. exact X.
           ++ intros r3 n3 X. apply FIN. exact X.
        -- apply ob_ret. exists q. split; [exact S02|]. split; [apply WI; exact L1|lia].
      * intros r2 n2 (S2 & [U2 P2] & N2). pose proof (S2 _ _ S1) as S02. assert (WE : wide r r2 = wide r r1) by (unfold wide; rewrite U2; reflexivity).
        exists q. split; [exact S02|]. split; [apply WI; exact L1|]. rewrite WE. nia.
    + intros r1 n1 (q & G1) _. eapply DONE. exact G1.
  - unfold n_escape_part, escaped_multiline, quoted_multiline. rewrite Eml. cbn [andb]. apply ob_bind, ob_ret, ob_bind, ob_ask, ob_bind.
    assert (Ed : r_delim r = d) by apply (i_delim _ _ _ I). pose proof (span_refl r HH) as S0. destruct (wide_size _ _ _ S0) as (V2 & V3 & V4).
    eapply ob_weaken; [apply (split_cost_line r n B e); [exact Ed|apply (i_nconv _ _ _ I)|exact HB]|..].
    + intros [] r2 n2 (S2 & [U2 P2] & N2). apply ob_ret. exists 0. split; [apply S2; exact S0|]. split; [reflexivity|].
      assert (WE : wide r r2 = wide r r) by (unfold wide; rewrite U2; reflexivity). rewrite WE. nia.
    + intros r2 n2 (S2 & [U2 P2] & N2). exists 0. split; [apply S2; exact S0|]. split; [reflexivity|].
      assert (WE : wide r r2 = wide r r) by (unfold wide; rewrite U2; reflexivity). rewrite WE. nia.
Qed.
(** From either kind of ready line. *)
Lemma parse_cost r n : rinv c d r -> direct r -> uqs c r -> lineready c r ->
  ob (n_parse c cap (r, n)) (fun _ r' n' => parsed r n r' n') (fun r' n' => parsed r n r' n').
Proof.
  intros I DR U [(B & e & HB)|[(b & T & Hb & HcT) Em]]; [eapply parse_line_cost; eassumption|].
  pose proof (rinv_has Helper r I DR) as HH. pose proof (span_refl r HH) as S0. destruct (wide_size _ _ _ S0) as (V2 & V3 & V4).
  assert (AL : allowed 0) by (unfold allowed; destruct (c_ml c); lia).
  unfold n_parse, n_escape_part. rewrite Em. apply ob_bind, ob_ret, ob_bind, ob_ask, ob_bind. unfold n_on_next. cbn [fst snd]. rewrite Hb.
  assert (EQ : n_cv_split c (b_id b) (r_delim r) (r_nconv r, b_cells b, n) = Ok tt (vup_sp (up_sd [] (v_sp (r_nconv r))) (r_nconv r), b_cells b, n + 1)) by (rewrite HcT; reflexivity).
  rewrite EQ. cbn [ob].
  set (r2 := rset_nl _ _ _ _). assert (S2 : span r 0 r2) by (destruct S0 as [P1 P2 P3]; split; assumption). assert (U2 : unread r2 = unread r) by reflexivity.
  assert (P2 : parsed r n r2 (n + 1)).
  { exists 0. split; [exact S2|]. split; [exact AL|]. assert (WE : wide r r2 = wide r r) by (unfold wide; rewrite U2; reflexivity). rewrite WE. nia. }
  destruct (quoted_multiline c) eqn:Eq; [|exact P2].
  cbn [n_quote_loop]. unfold bind, ask, gets. cbn [fst]. unfold cv_unterminated_quote. change (s_uq (v_sp (r_nconv r2))) with (s_uq (v_sp (r_nconv r))). rewrite (proj2 (U Eq)). exact P2.
Qed.
End R.
