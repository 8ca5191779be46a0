(** How much work reading takes (C57): bounds for the counted functions of ReadCost.v. *)
From Verif Require Import Base Setup Splitter SplitPure ListFacts SplitApi SplitSafe Extract Converter Reader LineSpec LineProofs GetLineProofs ReaderBase ReaderInv ReaderEscape ReaderParse Parser SplitCost SplitWork SplitFrame PropWork ReadCost.

(** ** Outcomes *)
Definition ob {S A} (o : res (S * nat) A) (Q : A -> S -> nat -> Prop) (E : S -> nat -> Prop) : Prop :=
  match o with
  | Ok a (s, n) => Q a s n
  | Throw _ (s, n) => E s n
  | _ => True
  end.
Lemma ob_bind {S A B} (m : M (S * nat) A) (k : A -> M (S * nat) B) s n Q E :
  ob (m (s, n)) (fun a s' n' => ob (k a (s', n')) Q E) E -> ob (bind m k (s, n)) Q E.
Proof. unfold bind, ob. destruct (m (s, n)) as [a [s' n']|e [s' n']|w|]; auto. Qed.
Lemma ob_ret {S A} (a : A) (s : S) n (Q : A -> S -> nat -> Prop) (E : S -> nat -> Prop) : Q a s n -> ob (ret a (s, n)) Q E.
Proof. auto. Qed.
Lemma ob_weaken {S A} (o : res (S * nat) A) (Q Q' : A -> S -> nat -> Prop) (E E' : S -> nat -> Prop) :
  ob o Q E -> (forall a s n, Q a s n -> Q' a s n) -> (forall s n, E s n -> E' s n) -> ob o Q' E'.
Proof. unfold ob. destruct o as [a [s n]|e [s n]|w|]; auto. Qed.
Lemma ob_spend {S} k (s : S) n (Q : unit -> S -> nat -> Prop) E : Q tt s (n + k) -> ob (spend k (s, n)) Q E.
Proof. auto. Qed.
Lemma ob_ask {S} (s : S) n (Q : S -> S -> nat -> Prop) E : Q s s n -> ob (ask (s, n)) Q E.
Proof. auto. Qed.
Lemma ob_free {S A} (m : M S A) s n (Q : A -> S -> nat -> Prop) (E : S -> nat -> Prop) :
  (forall a s', m s = Ok a s' -> Q a s' n) -> (forall e s', m s = Throw e s' -> E s' n) -> ob (free m (s, n)) Q E.
Proof. intros H K. unfold free, zoom. cbn [fst snd]. destruct (m s) as [a s'|e s'|w|] eqn:X; cbn; eauto. Qed.
Lemma ob_inside {T S A} (g : T -> S) p (m : M (S * nat) A) t n (Q : A -> T -> nat -> Prop) (E : T -> nat -> Prop) :
  ob (m (g t, n)) (fun a s n' => Q a (p s t) n') (fun s n' => E (p s t) n') -> ob (inside g p m (t, n)) Q E.
Proof. unfold inside, zoom, ob. cbn [fst snd]. destruct (m (g t, n)) as [a [s' n']|e [s' n']|w|]; auto. Qed.
Lemma ob_catch {S A} (m : M (S * nat) A) h s n (Q : A -> S -> nat -> Prop) (E : S -> nat -> Prop) :
  ob (m (s, n)) Q (fun s' n' => forall e, ob (h e (s', n')) Q E) -> ob (catch m h (s, n)) Q E.
Proof. unfold catch. destruct (m (s, n)) as [a [s' n']|e [s' n']|w|]; cbn [ob]; auto. Qed.
Lemma counted_ok {S A} (m' : M (S * nat) A) m s a s' : counts m' m -> m s = Ok a s' -> forall n, exists n', m' (s, n) = Ok a (s', n').
Proof. intros C E n. specialize (C s n). rewrite E in C. destruct (m' (s, n)) as [b [t k]|e [t k]|w|]; try discriminate. cbn in C. injection C as -> ->. eauto. Qed.
(** With what is known without counting. *)
Lemma ob_with {S A} (m' : M (S * nat) A) m s n (Q : A -> S -> nat -> Prop) (E : S -> nat -> Prop) : counts m' m ->
  ob (m' (s, n)) (fun a s' n' => m s = Ok a s' -> Q a s' n') (fun s' n' => (exists e, m s = Throw e s') -> E s' n') -> ob (m' (s, n)) Q E.
Proof.
  intros C. specialize (C s n). unfold ob. destruct (m' (s, n)) as [b [t k]|e [t k]|w|]; auto; cbn in C; intros H; apply H; eauto.
Qed.

(** ** Lines *)
Notation len1 s := (length (fst (cut_line s))).
Lemma cut_cons ch rest : fst (cut_line (ch :: rest)) = if Ascii.eqb ch LF then [ch] else ch :: fst (cut_line rest).
Proof. cbn [cut_line]. destruct (Ascii.eqb ch LF); [reflexivity|]. destruct (cut_line rest); reflexivity. Qed.
Definition sized (l : lp) : Prop := length (cells_of (l_blk l)) = l_n l.
Lemma lp_sized l : lp_ok l -> sized l.
Proof. unfold lp_ok, bok, sized. destruct (l_blk l); cbn; [tauto|congruence]. Qed.

Lemma wr_len m i ch m' : wr m i ch = Some m' -> length m' = length m.
Proof.
  unfold wr. destruct (i <? length m) eqn:E; [|discriminate]. apply Nat.ltb_lt in E. intros H. remember (skipn (S i) m) as t eqn:Et. injection H as <-.
  rewrite app_length. cbn [length]. rewrite firstn_length, Et, skipn_length. lia.
Qed.
Lemma ob_put i ch l n (Q : unit -> lp -> nat -> Prop) E : sized l ->
  (forall l', sized l' -> l_n l' = l_n l -> Q tt l' (n + 1)) -> ob (n_put i ch (l, n)) Q E.
Proof.
  intros Z H. unfold n_put. apply ob_bind, ob_spend, ob_free.
  - intros [] l'. unfold put. destruct (l_blk l) as [b|] eqn:Eb; [|discriminate]. destruct (wr (b_cells b) i ch) as [m|] eqn:Ew; [|discriminate].
    intros X. injection X as <-. apply H; [|reflexivity]. unfold sized in *. rewrite Eb in Z. cbn [cells_of l_blk l_n b_cells] in *.
    apply wr_len in Ew. congruence.
  - intros e s'. unfold put. destruct (l_blk l); [|discriminate]. destruct (wr _ _ _); discriminate.
Qed.
Lemma ob_grow new l n (Q : unit -> lp -> nat -> Prop) E :
  (forall l', sized l' -> l_n l' = new -> Q tt l' (n + Nat.min new (length (cells_of (l_blk l))))) -> ob (n_grow new (l, n)) Q E.
Proof.
  intros H. unfold n_grow. apply ob_bind, ob_ask, ob_bind, ob_spend, ob_free; unfold grow, modify; [|discriminate].
  intros [] l' X. injection X as <-. apply H; [|reflexivity]. unfold sized. cbn [l_blk l_n cells_of realloc b_cells].
  rewrite app_length, firstn_length, repeat_length. lia.
Qed.

(** Doubling copies every byte less than twice. *)
Definition copied (n used : nat) : nat := if n <=? used then 2 * used - n else 0.
Lemma glb_cost : forall rest used k l n, sized l ->
  ob (n_glb_loop used k rest (l, n)) (fun _ _ n' => n' <= n + len1 rest + 1 + copied (l_n l) (used + len1 rest)) (fun _ _ => False).
Proof.
  induction rest as [|ch rest IH]; intros used k l n Z.
  - cbn [n_glb_loop]. apply ob_bind, ob_put; [exact Z|]. intros l' _ _. apply ob_ret. lia.
  - cbn [n_glb_loop]. rewrite cut_cons. apply ob_bind, ob_ask, ob_bind.
    assert (G : forall l1 n1 b, sized l1 -> n1 + copied (l_n l1) (used + S b) <= n + copied (l_n l) (used + S b) ->
      b = length (if Ascii.eqb ch LF then [] else fst (cut_line rest)) ->
      ob ((n_put used ch ;; (if Ascii.eqb ch LF then n_put (S used) NUL ;; ret (S used, S k) else n_glb_loop (S used) (S k) rest)) (l1, n1))
        (fun _ _ n' => n' <= n + length (if Ascii.eqb ch LF then [ch] else ch :: fst (cut_line rest)) + 1 + copied (l_n l) (used + length (if Ascii.eqb ch LF then [ch] else ch :: fst (cut_line rest)))) (fun _ _ => False)).
    { intros l1 n1 b Z1 H Hb. apply ob_bind, ob_put; [exact Z1|]. intros l2 Z2 E2. destruct (Ascii.eqb ch LF); cbn [length] in *.
      - apply ob_bind, ob_put; [exact Z2|]. intros l3 _ _. apply ob_ret. subst b. lia.
      - eapply ob_weaken; [apply IH; exact Z2| |auto]. intros [u k'] _ n' Hn. cbv beta in Hn. rewrite E2 in Hn. subst b.
        replace (S used + len1 rest) with (used + S (len1 rest)) in Hn by lia. lia. }
    destruct (l_n l <=? used + 1) eqn:Eg.
    + apply Nat.leb_le in Eg. apply ob_grow. intros l1 Z1 E1. unfold sized in Z.
      set (b := length (if Ascii.eqb ch LF then [] else fst (cut_line rest))).
      apply (G l1 _ b Z1); [|reflexivity]. rewrite E1, Z. unfold copied.
      replace (l_n l <=? used + S b) with true by (symmetry; apply Nat.leb_le; lia).
      destruct (l_n l * 2 <=? used + S b) eqn:E3; [apply Nat.leb_le in E3; lia|lia].
    + apply ob_ret. eapply (G l n); [exact Z|lia|reflexivity].
Qed.
Lemma buffer_cost rest l n : sized l ->
  ob (n_get_line_buffer rest (l, n)) (fun _ _ n' => n' <= n + 3 * len1 rest + 128) (fun _ _ => False).
Proof.
  intros Z. unfold n_get_line_buffer. destruct rest as [|ch rest0] eqn:Er; [apply ob_ret; lia|]. rewrite <- Er. clear Er ch rest0.
  assert (G : forall l1 n1, sized l1 -> n1 + copied (l_n l1) (len1 rest) <= n + 2 * len1 rest + 127 ->
    ob (('(used, consumed) <- n_glb_loop 0 0 rest ;; ret (Some used, consumed)) (l1, n1)) (fun _ _ n' => n' <= n + 3 * len1 rest + 128) (fun _ _ => False)).
  { intros l1 n1 Z1 H. apply ob_bind. eapply ob_weaken; [apply glb_cost; exact Z1| |auto]. intros [u k] l2 n2 Hn. cbv beta in Hn. apply ob_ret. rewrite Nat.add_0_l in Hn. lia. }
  assert (CP : forall a b, copied a b <= 2 * b) by (intros a b; unfold copied; destruct (a <=? b); lia).
  apply ob_bind, ob_ask, ob_bind. destruct (match l_blk l with None => true | Some _ => l_n l <? initial_size end) eqn:Eg.
  - apply ob_grow. intros l1 Z1 E1. apply G; [exact Z1|]. specialize (CP (l_n l1) (len1 rest)). unfold sized in Z. rewrite Z.
    destruct (l_blk l) as [b|]; [apply Nat.ltb_lt in Eg; unfold initial_size in *; lia|cbn in Z; lia].
  - apply ob_ret. apply G; [exact Z|]. specialize (CP (l_n l) (len1 rest)). lia.
Qed.
Lemma posix_cost cap rest l n : sized l ->
  ob (n_get_line_posix cap rest (l, n)) (fun _ _ n' => n' <= n + match rest with [] => 0 | _ => 2 * len1 rest + 2 end) (fun _ _ => False).
Proof.
  intros Z. unfold n_get_line_posix. apply ob_bind, ob_ask, ob_bind, ob_spend, ob_free.
  - intros a s' _. unfold posix_work. destruct rest as [|ch rest0] eqn:Er; [lia|]. rewrite <- Er.
    unfold sized in Z. destruct (_ <=? _) eqn:El; [lia|]. apply Nat.leb_gt in El. lia.
  - intros e s' X. unfold get_line_posix in X. destruct rest as [|ch rest0].
    + destruct (l_blk l); [discriminate|]. destruct (cap 0 0); discriminate.
    + destruct (cut_line (ch :: rest0)). destruct (l_blk l); [destruct (_ <=? _)|]; discriminate.
Qed.

(** ** get_line *)
Definition direct (r : rdr) : Prop := match r_src r with SPort _ => False | _ => True end.
Section R.
Context (c : cfg) (cap : nat -> nat -> nat) (Hcap : forall n need, need <= cap n need).

Lemma get_line_cost w r n : direct r -> sized (lp_of w r) ->
  ob (n_get_line cap w (r, n)) (fun _ _ n' => n' <= n + match unread r with [] => 0 | _ => 3 * len1 (unread r) + 128 end) (fun _ _ => False).
Proof.
  intros D Z. unfold n_get_line. apply ob_bind, ob_ask. unfold unread, direct in *. destruct (r_src r) as [rest|rest|data|k]; [|contradiction| |].
  - apply ob_bind, ob_inside. eapply ob_weaken; [apply posix_cost; exact Z| |auto]. intros [a b] l1 n1 H. cbv beta in H.
    apply ob_bind, ob_free; [|discriminate]. intros [] r2 _. apply ob_ret. destruct rest; lia.
  - apply ob_bind, ob_inside. destruct (skipn (Z.to_nat (r_curr r)) data) as [|ch rest0] eqn:Er.
    + cbn [n_get_line_buffer]. apply ob_ret. apply ob_bind, ob_free; [|discriminate]. intros [] r2 _. apply ob_ret. lia.
    + eapply ob_weaken; [apply buffer_cost; exact Z| |auto]. intros [a b] l1 n1 H. cbv beta in H.
      apply ob_bind, ob_free; [|discriminate]. intros [] r2 _. apply ob_ret. lia.
  - destruct (_ <=? _)%Z; [apply ob_ret; lia|exact Logic.I].
Qed.
Lemma direct_src s z w l r : (match s with SPort _ => False | _ => True end) -> direct (rset_src s z (lp_to w l r)).
Proof. intros H. exact H. Qed.
Lemma get_line_direct w r o r' : direct r -> get_line cap w r = Ok o r' -> direct r'.
Proof.
  unfold direct, get_line, bind, get, on_lp, zoom. destruct (r_src r) as [x|x|x|x] eqn:Es; intros D.
  - destruct (get_line_posix _ _ _) as [[? ?] ?| | |]; try discriminate. intros E. injection E as <- <-. exact Logic.I.
  - contradiction.
  - destruct (get_line_buffer _ _) as [[? ?] ?| | |]; try discriminate. intros E. injection E as <- <-. exact Logic.I.
  - destruct (_ <=? _)%Z; [|discriminate]. intros E. injection E as <- <-. rewrite Es. exact Logic.I.
Qed.
(** A line: all there is to know about it. *)
Definition has (w : which) (r : rdr) : Prop := lp_ok (lp_of w r) /\ src_ok r /\ direct r.
Lemma lp_of_to w l r s z : lp_of w (rset_src s z (lp_to w l r)) = l.
Proof. destruct w, l; reflexivity. Qed.
Lemma line_cost w r n : has w r ->
  match unread r with
  | [] => exists l' z' n', n_get_line cap w (r, n) = Ok None (rset_src (r_src r) z' (lp_to w l' r), n') /\ has w (rset_src (r_src r) z' (lp_to w l' r)) /\
      unread (rset_src (r_src r) z' (lp_to w l' r)) = [] /\ n' <= n
  | u => exists l' s' z' n', n_get_line cap w (r, n) = Ok (Some (len1 u)) (rset_src s' z' (lp_to w l' r), n') /\ has w (rset_src s' z' (lp_to w l' r)) /\
      holds_line l' (fst (cut_line u)) /\ unread (rset_src s' z' (lp_to w l' r)) = snd (cut_line u) /\ n' <= n + 3 * len1 u + 128
  end.
Proof.
  intros (L & SO & D). pose proof (get_line_cost w r n D (lp_sized _ L)) as C. destruct (unread r) as [|ch u] eqn:Eu.
  - destruct (get_line_none cap w r L SO Eu) as (l' & z' & E & A1 & A2 & A3 & A4 & _).
    destruct (counted_ok _ _ _ _ _ (ct_get_line cap w) E n) as (n' & E'). rewrite E' in C. unfold ob in C.
    exists l', z', n'. split; [exact E'|]. split; [|split; [rewrite unread_eq; exact A3|lia]].
    split; [rewrite lp_of_to; exact A1|]. split; [exact A4|]. eapply get_line_direct; eassumption.
  - assert (Hne : unread r <> []) by (rewrite Eu; discriminate).
    destruct (get_line_some cap Hcap w r L SO Hne) as (l' & s' & E & A1 & A2 & A3 & A4 & A5). rewrite Eu in *.
    destruct (counted_ok _ _ _ _ _ (ct_get_line cap w) E n) as (n' & E'). rewrite E' in C. unfold ob in C.
    eexists l', s', _, n'. split; [exact E'|]. split; [|split; [exact A3|split; [rewrite unread_eq; exact A4|rewrite <- Nat.add_assoc; exact C]]].
    split; [rewrite lp_of_to; exact A1|]. split; [exact A5|]. eapply get_line_direct; eassumption.
Qed.

Lemma ob_put_ok i ch l n (Q : unit -> lp -> nat -> Prop) (E : lp -> nat -> Prop) : lp_ok l ->
  (forall l', lp_ok l' -> l_n l' = l_n l -> l_fresh l' = l_fresh l -> Q tt l' (n + 1)) -> ob (n_put i ch (l, n)) Q E.
Proof.
  intros Z H. unfold n_put. apply ob_bind, ob_spend, ob_free.
  - intros [] l'. unfold put. destruct (l_blk l) as [b|] eqn:Eb; [|discriminate]. destruct (wr (b_cells b) i ch) as [m|] eqn:Ew; [|discriminate].
    intros X. injection X as <-. apply H; try reflexivity. unfold lp_ok, bok in *. rewrite Eb in Z. cbn in *.
    apply wr_len in Ew. destruct Z. split; congruence.
  - intros e s'. unfold put. destruct (l_blk l); [|discriminate]. destruct (wr _ _ _); discriminate.
Qed.
Lemma chomp_le raw : length (fst (chomp raw)) <= length raw.
Proof. rewrite <- (chomp_app raw) at 2. rewrite app_length. lia. Qed.
Lemma cut_len u : u <> [] -> 1 <= len1 u /\ len1 u + length (snd (cut_line u)) = length u.
Proof.
  intros H. split; [|rewrite <- app_length, cut_line_app; reflexivity]. pose proof (cut_line_ne u H). destruct (fst (cut_line u)); [congruence|cbn; lia].
Qed.

Lemma read_next_loop_cost : forall f r n, has NextLine r ->
  ob (n_read_next_loop c cap f (r, n))
    (fun b r' n' => direct r' /\ length (unread r') <= length (unread r) /\ n' + 135 * length (unread r') <= n + 135 * length (unread r) + 2 /\
       (if b : bool then r_nlsize r' + length (unread r') <= length (unread r) /\ length (unread r') < length (unread r) else r_nlsize r' = r_nlsize r))
    (fun _ _ => False).
Proof.
  induction f as [|f IH]; intros r n HH; cbn [n_read_next_loop]; [exact Logic.I|].
  apply ob_bind, ob_free; [|discriminate]. intros [] r1 E1. injection E1 as <-.
  apply ob_bind, ob_ask. set (r1 := rset_line (S (r_line r)) r). assert (H1 : has NextLine r1) by exact HH.
  apply ob_bind.
  assert (P : ob ((if 0 <? r_nlsz r1 then n_on_lp NextLine (n_put 0 NUL) else ret tt) (r1, n))
    (fun _ r2 n2 => has NextLine r2 /\ unread r2 = unread r /\ n2 <= n + 1 /\ r_nlsize r2 = r_nlsize r) (fun _ _ => False)).
  { destruct (0 <? r_nlsz r1).
    - apply ob_inside. apply ob_put_ok; [apply H1|]. intros l' L _ _. split; [|split; [reflexivity|split; [lia|reflexivity]]]. destruct H1 as (_ & A & B). split; [|split; [exact A|exact B]]. destruct l'; exact L.
    - apply ob_ret. split; [exact H1|]. split; [reflexivity|split; [lia|reflexivity]]. }
  eapply ob_weaken; [exact P| |auto]. intros [] r2 n2 (H2 & U2 & N2 & Z2).
  apply ob_bind, ob_free; [|discriminate]. intros [] r3 E3. injection E3 as <-. set (r3 := rset_chars (r_curr r2) r2). assert (H3 : has NextLine r3) by exact H2.
  assert (U3 : unread r3 = unread r) by exact U2. apply ob_bind. pose proof (line_cost NextLine r3 n2 H3) as LC. rewrite U3 in LC.
  destruct (unread r) as [|ch u0] eqn:Eu.
  - destruct LC as (l' & z' & n' & E & H4 & U4 & N4). rewrite E. cbn [ob]. apply ob_ret. rewrite U4. split; [apply H4|]. cbn [length]. repeat (apply conj); try lia; exact Z2.
  - destruct LC as (l' & s' & z' & n' & E & H4 & HL & U4 & N4). rewrite E. cbn [ob]. set (u := ch :: u0) in *. assert (Hu : u <> []) by discriminate. clearbody u.
    destruct (cut_len u Hu) as [CL1 CL2]. unfold n_remove_eol. apply ob_bind, ob_bind, ob_spend.
    set (r4 := rset_src s' z' (lp_to NextLine l' r3)) in *. assert (HL4 : holds_line (lp_of NextLine r4) (fst (cut_line u))) by (unfold r4; rewrite lp_of_to; exact HL).
    destruct (remove_eol_spec NextLine r4 (fst (cut_line u)) (proj1 H4) HL4 (cut_line_ne u Hu)) as (b & b' & X & B1 & B2 & B3 & B4 & B5 & B6).
    apply ob_free; [|intros e s0 X0; rewrite B3 in X0; discriminate]. intros k r5 E5. rewrite B3 in E5. injection E5 as <- <-.
    set (r5 := rset_crlf _ _). assert (H5 : has NextLine r5).
    { destruct H4 as (A & B & C). split; [|split; [exact B|exact C]]. unfold lp_ok, bok in *. cbn in B1, B5. cbn. split; [exact B5|]. rewrite B2. cbn in A. rewrite B1 in A. apply A. }
    assert (U5 : unread r5 = snd (cut_line u)) by exact U4. assert (Z5 : r_nlsize r5 = r_nlsize r) by exact Z2. pose proof (chomp_le (fst (cut_line u))) as CH. clearbody r5.
    destruct (c_ignempty c && (length (fst (chomp (fst (cut_line u)))) =? 0)).
    + eapply ob_weaken; [apply IH; exact H5| |auto]. intros b0 r6 n6 (D6 & L6 & N6 & S6). rewrite U5 in *. split; [exact D6|]. split; [lia|]. split; [lia|]. destruct b0; [lia|congruence].
    + apply ob_bind, ob_free; [|discriminate]. intros [] r6 E6. injection E6 as <-. apply ob_ret.
      change (unread (rset_nlsize (length (fst (chomp (fst (cut_line u))))) r5)) with (unread r5). rewrite U5. split; [apply H5|]. split; [lia|]. split; [lia|]. cbn [r_nlsize rset_nlsize]. lia.
Qed.
Lemma read_next_cost r n : has NextLine r ->
  ob (n_read_next c cap (r, n))
    (fun b r' n' => direct r' /\ length (unread r') <= length (unread r) /\ n' + 135 * length (unread r') <= n + 135 * length (unread r) + 2 /\
       (if b : bool then r_nlsize r' + length (unread r') <= length (unread r) /\ length (unread r') < length (unread r) else r_nlsize r' = r_nlsize r))
    (fun _ _ => False).
Proof.
  intros H. unfold n_read_next. apply ob_bind, ob_free; [|unfold on_nconv, cv_clear_error, vupd, modify; discriminate].
  intros [] r1 E1. unfold on_nconv, cv_clear_error, vupd, modify in E1. injection E1 as <-. apply ob_bind, ob_ask.
  apply (read_next_loop_cost _ (rset_nconv (vup_err None (r_nconv r)) r) n). exact H.
Qed.

(** ** Putting lines together *)
Lemma put_fresh i ch l a l' : put i ch l = Ok a l' -> l_fresh l' = l_fresh l.
Proof. unfold put. destruct (l_blk l); [|discriminate]. destruct (wr _ _ _); [|discriminate]. intros E. injection E as _ <-. reflexivity. Qed.
Lemma put_all_fresh : forall s i l a l', put_all i s l = Ok a l' -> l_fresh l' = l_fresh l.
Proof.
  induction s as [|x s IH]; intros i l a l' E; cbn [put_all] in E; [injection E as _ <-; reflexivity|]. unfold bind in E.
  destruct (put i x l) as [u l1| | |] eqn:E1; try discriminate. rewrite (IH _ _ _ _ E). eapply put_fresh. exact E1.
Qed.
Lemma put_quiet i ch l e l' : put i ch l <> Throw e l'.
Proof. unfold put. destruct (l_blk l); [|discriminate]. destruct (wr _ _ _); discriminate. Qed.
Lemma put_all_quiet : forall s i l e l', put_all i s l <> Throw e l'.
Proof.
  induction s as [|x s IH]; intros i l e l'; cbn [put_all]; [discriminate|]. unfold bind.
  destruct (put i x l) as [u l1|e1 l1| |] eqn:E1; try discriminate; [apply IH|]. exfalso. eapply put_quiet. exact E1.
Qed.
(** What does not concern the helper buffer, the source and the splitter. *)
Definition apart (r r' : rdr) : Prop :=
  r_help r' = r_help r /\ r_helpsz r' = r_helpsz r /\ r_fresh r <= r_fresh r' /\ r_src r' = r_src r /\ r_curr r' = r_curr r /\ r_delim r' = r_delim r /\ r_nconv r' = r_nconv r.
Lemma apart_has r r' : apart r r' -> has Helper r -> has Helper r'.
Proof.
  intros (A1 & A2 & A3 & A4 & A5 & _) (L & SO & D). unfold has, lp_ok, src_ok, direct in *. cbn [lp_of l_blk l_n l_fresh] in *. rewrite A1, A2, A4, A5.
  split; [eapply bok_mono; eassumption|]. auto.
Qed.
Lemma apart_unread r r' : apart r r' -> unread r' = unread r.
Proof. intros (_ & _ & _ & A4 & A5 & _). unfold unread. rewrite A4, A5. reflexivity. Qed.
Lemma undo_apart r : match undo_remove_eol r with Ok _ r1 => apart r r1 /\ r_nlsize r1 <= r_nlsize r + 2 | Throw _ _ => False | _ => True end.
Proof.
  unfold undo_remove_eol, bind, get.
  assert (GP : forall (m : M lp unit) k, (forall a l', m (lp_of NextLine r) = Ok a l' -> l_fresh l' = r_fresh r) -> (forall e l', m (lp_of NextLine r) <> Throw e l') -> k <= r_nlsize r + 2 ->
    match (match on_lp NextLine m r with Ok _ s' => rupd (rset_nlsize k) s' | Throw e s' => Throw e s' | UB w => UB w | OutOfFuel => OutOfFuel end) with
    | Ok _ r1 => apart r r1 /\ r_nlsize r1 <= r_nlsize r + 2 | Throw _ _ => False | _ => True end).
  { intros m k F T Hk. unfold on_lp, zoom. destruct (m (lp_of NextLine r)) as [a l'|e l'|w|] eqn:E; auto.
    - unfold rupd, modify. split; [|exact Hk]. specialize (F _ _ eq_refl). unfold apart. cbn. repeat (apply conj); auto. lia.
    - exact (T _ _ eq_refl). }
  cbv zeta. destruct (r_crlf r && (r_nlsize r + 2 <=? r_nlsz r)).
  - apply GP; [intros a l' E; apply put_all_fresh in E; exact E|apply put_all_quiet|lia].
  - destruct (r_nlsize r <? r_nlsz r).
    + apply GP; [intros a l' E; apply put_fresh in E; exact E|apply put_quiet|lia].
    + unfold ret. split; [|lia]. repeat (apply conj); auto.
Qed.
Lemma concat_apart k r : match realloc_concat k r with Ok _ r1 => apart r r1 /\ r_nlsize r1 = r_nlsize r + k /\ length (cells_of (r_nl r1)) = r_nlsize r + k + 3 | Throw _ _ => False | _ => True end.
Proof.
  unfold realloc_concat, bind, get. unfold on_lp, zoom, grow, modify.
  set (r1 := lp_to NextLine _ r).
  assert (L1 : length (cells_of (r_nl r1)) = r_nlsize r + k + 3).
  { unfold r1. cbn [lp_to rset_nl r_nl l_blk cells_of realloc b_cells]. rewrite app_length, firstn_length, repeat_length. lia. }
  assert (A1 : apart r r1) by (unfold apart, r1; cbn; repeat (apply conj); auto).
  assert (N1 : r_nlsize r1 = r_nlsize r) by reflexivity. clearbody r1.
  destruct (r_nl r1) as [b|]; [|exact Logic.I]. destruct (r_help r1) as [h|]; [|exact Logic.I].
  unfold copy_between. destruct (_ && _) eqn:Ec; [|exact Logic.I]. apply andb_prop in Ec as [C1 C2]. apply Nat.leb_le in C1, C2.
  unfold rupd, modify. cbn [rset_nlsize rset_nl r_nlsize r_nl cells_of b_cells]. split; [|split; [lia|]].
  - destruct A1 as (Q1 & Q2 & Q3 & Q4 & Q5 & Q6 & Q7). unfold apart. cbn. auto 10.
  - cbn [cells_of] in L1. rewrite !app_length, !firstn_length, skipn_length. lia.
Qed.

Lemma append_cost r n : has Helper r ->
  ob (n_append_next_line_to_buffer cap (r, n))
    (fun more r' n' => has Helper r' /\ r_delim r' = r_delim r /\ r_nconv r' = r_nconv r /\
       if more : bool then exists k, 1 <= k /\ length (unread r) = k + length (unread r') /\ r_nlsize r' <= r_nlsize r + 2 + k /\
           length (cells_of (r_nl r')) = r_nlsize r' + 3 /\ n' <= n + r_nlsize r' + 4 * k + 137
       else unread r' = unread r /\ n' <= n + 2)
    (fun _ _ => False).
Proof.
  intros HH. unfold n_append_next_line_to_buffer, n_undo_remove_eol. apply ob_bind, ob_bind, ob_spend.
  pose proof (undo_apart r) as UN. apply ob_free; [|intros e s' E; rewrite E in UN; exact UN]. intros [] r1 E1. rewrite E1 in UN. destruct UN as [A1 N1]. clear E1.
  apply ob_bind, ob_free; [|discriminate]. intros [] r2 E2. injection E2 as <-. set (r2 := rset_chars (r_curr r1) r1).
  assert (A2 : apart r r2) by exact A1. assert (N2 : r_nlsize r2 <= r_nlsize r + 2) by exact N1. clearbody r2. clear A1 N1 r1.
  pose proof (apart_has _ _ A2 HH) as H2. pose proof (apart_unread _ _ A2) as U2. apply ob_bind. pose proof (line_cost Helper r2 (n + 2) H2) as LC. rewrite U2 in LC.
  destruct A2 as (_ & _ & _ & _ & _ & D2 & V2).
  destruct (unread r) as [|ch u0] eqn:Eu.
  - destruct LC as (l' & z' & n' & E & H4 & U4 & N4). rewrite E. cbn [ob]. apply ob_ret. rewrite U4. repeat (apply conj); try lia; try apply H4; try reflexivity; [exact D2|exact V2].
  - destruct LC as (l' & s' & z' & n' & E & H4 & HL & U4 & N4). rewrite E. cbn [ob]. set (u := ch :: u0) in *. assert (Hu : u <> []) by discriminate. clearbody u.
    destruct (cut_len u Hu) as [CL1 CL2].
    set (r4 := rset_src s' z' (lp_to Helper l' r2)) in *. assert (HL4 : holds_line (lp_of Helper r4) (fst (cut_line u))) by (unfold r4; rewrite lp_of_to; exact HL).
    assert (D4 : r_delim r4 = r_delim r) by exact D2. assert (V4 : r_nconv r4 = r_nconv r) by exact V2. assert (S4 : r_nlsize r4 = r_nlsize r2) by reflexivity. clearbody r4.
    apply ob_bind, ob_free; [|discriminate]. intros [] r5 E5. injection E5 as <-. set (r5 := rset_line (S (r_line r4)) r4).
    unfold n_remove_eol. apply ob_bind, ob_bind, ob_spend.
    assert (H5 : has Helper r5) by exact H4.
    destruct (remove_eol_spec Helper r5 (fst (cut_line u)) (proj1 H5) HL4 (cut_line_ne u Hu)) as (b & b' & X & B1 & B2 & B3 & B4 & B5 & B6).
    apply ob_free; [|intros e s0 X0; rewrite B3 in X0; discriminate]. intros k r6 E6. rewrite B3 in E6. injection E6 as <- <-.
    set (r6 := rset_crlf _ _). assert (H6 : has Helper r6).
    { destruct H5 as (A & B & C). split; [|split; [exact B|exact C]]. unfold lp_ok, bok in *. cbn in B1, B5. cbn. split; [exact B5|]. rewrite B2. cbn in A. rewrite B1 in A. apply A. }
    assert (U6 : unread r6 = snd (cut_line u)) by exact U4. assert (D6 : r_delim r6 = r_delim r) by exact D4. assert (V6 : r_nconv r6 = r_nconv r) by exact V4. assert (S6 : r_nlsize r6 = r_nlsize r2) by exact S4.
    pose proof (chomp_le (fst (cut_line u))) as CH. set (k := length (fst (chomp (fst (cut_line u))))) in *. clearbody r6.
    unfold n_realloc_concat. apply ob_bind, ob_bind, ob_ask, ob_bind, ob_spend. pose proof (concat_apart k r6) as CA.
    apply ob_free; [|intros e s0 X0; rewrite X0 in CA; exact CA]. intros [] r7 E7. rewrite E7 in CA. destruct CA as (A7 & S7 & L7). apply ob_ret.
    split; [eapply apart_has; eassumption|]. rewrite (apart_unread _ _ A7), U6. destruct A7 as (_ & _ & _ & _ & _ & D7 & V7). split; [congruence|]. split; [congruence|].
    exists (len1 u). repeat (apply conj); try lia.
Qed.
End R.
