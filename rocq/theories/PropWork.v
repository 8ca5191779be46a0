(** C55. Splitting takes time linear in the length of the line.

    The work of a call is the number of accesses to the line: a character looked at or a character moved
    ([n_split], [n_resplit] in SplitCost.v are split and resplit with a counter; [C55_work_is_of_split] says so). *)
From Verif Require Import Base Setup SetupProofs Splitter SplitPure ListFacts SplitSpec SplitRefine SplitSpecProofs SplitKeeps SplitModes RowSpec RowProofs
  SplitApi SplitContinue SplitWhole SplitLocal SplitSafe SplitTheorems SplitCost SplitWork SplitFrame.

(** The accesses of a call that returns or throws; nothing for a crash or a call that does not end. *)
Definition work (o : res ((sp * list (option ascii)) * nat) unit) : option nat :=
  match o with Ok _ (_, n) => Some n | Throw _ (_, n) => Some n | _ => None end.
(** split() on a line with [rest] behind it in memory, by a splitter in state [s]. *)
Definition split_counted c s d line rest := n_split c 0 d ((s, map Some line ++ Some NUL :: rest), 0).
Definition split_work c s d line rest : option nat := work (split_counted c s d line rest).
(** resplit() as in C11: [n] bytes were split, [u] is appended. *)
Definition resplit_counted c d s (m : cells) n u rest :=
  n_resplit c 1 (n - s_esc s + length u) d ((s, firstn (n - s_esc s) m ++ map Some u ++ Some NUL :: rest), 0).
Definition resplit_work c d s m n u rest : option nat := work (resplit_counted c d s m n u rest).

(** The counter only counts. *)
Theorem C55_work_is_of_split : forall c s d line rest,
  forget (split_counted c s d line rest) = split_call c s d line rest.
Proof. intros. apply er_split. Qed.
Print Assumptions C55_work_is_of_split.
Theorem C55_work_is_of_resplit : forall c d s m n u rest,
  forget (resplit_counted c d s m n u rest) = resplit_call c d s m n u rest.
Proof. intros. apply er_resplit. Qed.
Print Assumptions C55_work_is_of_resplit.

Section P.
Context (c : cfg) (Hc : cfg_ok c) (d : str) (Hd : nulfree d).
Notation Kd := (length d + 9).

Lemma select_cost s m : s_resp s = false -> s_begin s = 0 ->
  oc (n_select c d (s, m, 0)) (fun _ _ _ n' => n' <= 1 + Kd * length m) (fun n' => n' <= 1 + Kd * length m).
Proof.
  intros Hr Hb. unfold n_select. apply oc_bind. unfold lift, zoom, sp_clear_error, upd, modify. cbn [fst snd oc].
  set (s1 := up_uq false _). assert (R1 : s_resp s1 = false) by (unfold s1; destruct (c_mode c); exact Hr).
  assert (B1 : s_begin s1 = 0) by (unfold s1; destruct (c_mode c); exact Hb). clearbody s1.
  destruct d as [|x [|y d']]; [apply oc_error; intros; lia| |].
  - eapply oc_weaken; [apply (n_impl_cost c Hc (DChar x) Logic.I s1 m 0 R1); lia|..]; cbn [delimiter_size length]; intros; rewrite B1, Nat.sub_0_r in *; lia.
  - assert (D : dok (DStr (x :: y :: d'))) by (split; [discriminate|exact Hd]).
    eapply oc_weaken; [apply (n_impl_cost c Hc _ D s1 m 0 R1); lia|..]; cbn [delimiter_size]; intros; rewrite B1, Nat.sub_0_r in *; lia.
Qed.
Lemma split_cost s m : s_resp s = false ->
  oc (n_split c 0 d (s, m, 0)) (fun _ _ _ n' => n' <= 1 + Kd * length m) (fun n' => n' <= 1 + Kd * length m).
Proof. intros Hr. unfold n_split. apply oc_bind, oc_upd. apply select_cost; [exact Hr|reflexivity]. Qed.

Lemma select_resplit_cost s m x : d <> [] -> s_resp s = true -> quote_enabled c = true -> c_ml c = true -> s_curr s = s_end s ->
  s_end s <= length m -> rd m (s_begin s) = Some x -> quote_match c x = true ->
  oc (n_select c d (s, m, 0)) (fun _ _ _ n' => n' <= 1 + Kd * (length m - s_end s)) (fun n' => n' <= 1 + Kd * (length m - s_end s)).
Proof.
  intros Hd0 Hr Hq Hml He Hl Hx Qx. unfold n_select. apply oc_bind. unfold lift, zoom, sp_clear_error, upd, modify. cbn [fst snd oc].
  set (s1 := up_uq false _).
  assert (R1 : s_resp s1 = true) by (unfold s1; destruct (c_mode c); exact Hr).
  assert (S1 : settled c s1) by (intros _; repeat (apply conj); auto; unfold s1; destruct (c_mode c); exact He).
  assert (E1 : s_end s1 = s_end s) by (unfold s1; destruct (c_mode c); reflexivity).
  assert (X1 : rd m (s_begin s1) = Some x) by (unfold s1; destruct (c_mode c); exact Hx).
  assert (N1 : ~ In x (c_triml c)) by (intros K; apply (ok_ql c Hc x); [apply quote_in; exact Qx|exact K]).
  clearbody s1.
  destruct d as [|y [|z d']]; [congruence| |].
  - eapply oc_weaken; [apply (n_impl_resplit_cost c Hc (DChar y) Logic.I s1 m 0 x S1 R1); auto; lia|..]; cbn [delimiter_size length]; intros; rewrite E1 in *; lia.
  - assert (D : dok (DStr (y :: z :: d'))) by (split; [discriminate|exact Hd]).
    eapply oc_weaken; [apply (n_impl_resplit_cost c Hc _ D s1 m 0 x S1 R1); auto; lia|..]; cbn [delimiter_size]; intros; rewrite E1 in *; lia.
Qed.

(** From the block that ends with the line to any block. *)
Lemma framed_work (o1 o2 : res ((sp * list (option ascii)) * nat) unit) X n0 :
  (match o1 with
   | Ok a (s', m', n') => o2 = Ok a (s', m' ++ X, n')
   | Throw e (s', m', n') => o2 = Throw e (s', m' ++ X, n')
   | _ => True
   end) ->
  oc o1 (fun _ _ _ n' => n' <= n0) (fun n' => n' <= n0) -> forget o1 <> OutOfFuel -> (forall w, forget o1 <> UB w) ->
  exists w, work o2 = Some w /\ w <= n0.
Proof.
  destruct o1 as [a [[s' m'] n']|e [[s' m'] n']|w|]; cbn; intros F C N1 N2; try congruence; try subst o2.
  - exists n'. split; [reflexivity|exact C].
  - exists n'. split; [reflexivity|exact C].
Qed.

Context (os : list opt) (Hs : setup os = Some c).

Lemma split_work_thm s line rest : nulfree line -> reach c s ->
  exists w, split_work c s d line rest = Some w /\ w <= (length d + 10) * (length line + 1).
Proof.
  intros HR Hr. unfold split_work.
  destruct (framed_work (split_counted c s d line []) (split_counted c s d line rest) rest (1 + Kd * (length line + 1))) as (w & E & L).
  - pose proof (fr_split rest c 0 d s (map Some line ++ [Some NUL]) 0) as F. rewrite <- app_assoc in F. exact F.
  - unfold split_counted. pose proof (split_cost s (map Some line ++ [Some NUL]) (reach_resp _ _ Hr)) as C.
    rewrite app_length, map_length in C. exact C.
  - rewrite C55_work_is_of_split. destruct (safe_thm os c d s line [] Hs Hd HR Hr) as (s' & Z & _ & [[K _]|[e K]]); rewrite K; discriminate.
  - intros w. rewrite C55_work_is_of_split. destruct (safe_thm os c d s line [] Hs Hd HR Hr) as (s' & Z & _ & [[K _]|[e K]]); rewrite K; discriminate.
  - exists w. split; [exact E|]. nia.
Qed.

Lemma resplit_work_thm text s m n u rest : d <> [] -> c_ml c = true -> in_quotes c d text s m n -> continues d u ->
  exists w, resplit_work c d s m n u rest = Some w /\ w <= (length d + 10) * (length u + 1).
Proof.
  intros Hd0 Hml Hq Hu. unfold resplit_work.
  assert (V : view c (resplit_call c d s m n u []) <> VCrash).
  { intros E. pose proof (resplit_thm c Hc d Hd Hd0 text s m n u [] sp_init [] Hml (in_quotes_nulfree c d _ _ _ _ Hq) Hq Hu (reach_init c)) as K.
    rewrite E in K. destruct (view c (split_call c sp_init d (text ++ u) [])); exact K. }
  destruct (framed_work (resplit_counted c d s m n u []) (resplit_counted c d s m n u rest) rest (1 + Kd * (length u + 1))) as (w & E & L).
  - pose proof (fr_resplit rest c 1 (n - s_esc s + length u) d s (firstn (n - s_esc s) m ++ map Some u ++ [Some NUL]) 0) as F.
    rewrite <- !app_assoc in F. exact F.
  - unfold resplit_counted.
    pose proof (in_quotes_whole c Hc d Hd Hd0 _ _ _ _ Hq Hml) as (blk & X & l & p & a & A & [W1 _ W3 (Z & Em & HZ & Hok)]).
    destruct (Hok eq_refl) as (_ & P1 & Z1 & rs & EZ & Esd & _ & HU & _).
    destruct (HU p a eq_refl) as (Ep & q & G & EZ1 & Qq & [l1 l2 l3 l4 _]).
    assert (Hn : n = length P1 + 1 + length a + length G).
    { rewrite <- HZ, EZ, EZ1. rewrite !app_length. cbn [length]. rewrite app_length, map_length. lia. }
    rewrite app_length in *. cbn [length] in *.
    assert (Ek : n - s_esc s = length P1 + 1 + length a) by lia.
    assert (Ef : firstn (n - s_esc s) m = P1 ++ Some q :: map Some a).
    { assert (Em' : m = (P1 ++ Some q :: map Some a) ++ G ++ Some NUL :: X).
      { rewrite Em, EZ, EZ1. rewrite <- !app_assoc. cbn [app]. rewrite <- ?app_assoc. reflexivity. }
      rewrite Ek, Em'.
      rewrite firstn_app. replace (length P1 + 1 + length a - length (P1 ++ Some q :: map Some a)) with 0
        by (rewrite app_length; cbn [length]; rewrite map_length; lia).
      cbn [firstn]. rewrite app_nil_r. apply firstn_all2. rewrite app_length; cbn [length]; rewrite map_length; lia. }
    rewrite Ef. unfold n_resplit. apply oc_bind, oc_get.
    assert (Qe : quote_enabled c = true) by (unfold quote_match, quote_enabled in *; destruct (c_quote c); [reflexivity|discriminate]).
    assert (Sd : s_sd s <> []) by (rewrite Esd; destruct rs; discriminate).
    rewrite Qe, Hml, W3. destruct (s_sd s) as [|sd0 sdr] eqn:Es; [congruence|]. cbn [negb orb]. rewrite <- Es in *.
    rewrite Esd. cbn [junk]. rewrite last_last. cbv zeta.
    destruct (_ <? _) eqn:El; [apply Nat.ltb_lt in El; lia|]. apply oc_bind, oc_upd.
    match goal with |- oc (n_select c d (?s2, ?m2, 0)) _ _ => set (s1 := s2); set (mm := m2) end.
    assert (Lm : length mm = n - s_esc s + length u + 1).
    { unfold mm. rewrite !app_length. cbn [length]. rewrite !map_length. lia. }
    assert (E1 : s_end s1 = n - s_esc s) by (unfold s1; flat; lia).
    assert (B1 : s_begin s1 = length P1) by (unfold s1; flat; lia).
    eapply oc_weaken; [apply (select_resplit_cost s1 mm q)|..]; auto; try lia.
    + rewrite B1. unfold mm, rd. rewrite <- app_assoc, nth_error_app2 by lia. rewrite Nat.sub_diag. reflexivity.
    + intros a0 s0 c0 n' K. cbv beta in K. replace (length mm - s_end s1) with (length u + 1) in K by lia. exact K.
    + intros n' K. replace (length mm - s_end s1) with (length u + 1) in K by lia. exact K.
  - rewrite C55_work_is_of_resplit. intros E. rewrite E in V. apply V. reflexivity.
  - intros w. rewrite C55_work_is_of_resplit. intros E. rewrite E in V. apply V. reflexivity.
  - exists w. split; [exact E|]. nia.
Qed.
End P.

(** Every call of split ends after at most (length of the delimiter + 10) accesses per character and one more. *)
Theorem C55_split_is_linear : forall os c d s line rest,
  setup os = Some c -> nulfree d -> nulfree line -> reach c s ->
  exists w, split_work c s d line rest = Some w /\ w <= (length d + 10) * (length line + 1).
Proof. intros os c d s line rest Hs Hd HR Hr. exact (split_work_thm c (setup_ok os c Hs) d Hd os Hs s line rest HR Hr). Qed.
Print Assumptions C55_split_is_linear.

(** A row read in several pieces because of open quotes: [k] pieces of together [text], split with [w] accesses. *)
Inductive row_work (c : cfg) (d : str) : str -> sp -> cells -> nat -> nat -> nat -> Prop :=
| rw_split s0 line rest s m w :
    reach c s0 -> nulfree line -> split_counted c s0 d line rest = Ok tt ((s, m), w) ->
    s_uq s = true -> sp_valid c s = true -> row_work c d line s m (length line) 1 w
| rw_resplit text s m n k w u rest s' m' w' :
    row_work c d text s m n k w -> continues d u ->
    resplit_counted c d s m n u rest = Ok tt ((s', m'), w') ->
    s_uq s' = true -> sp_valid c s' = true -> row_work c d (text ++ u) s' m' (n - s_esc s + length u) (S k) (w + w').

Lemma row_work_in_quotes c d text s m n k w : row_work c d text s m n k w -> in_quotes c d text s m n.
Proof.
  induction 1 as [s0 line rest s m w H1 H2 H3 H4 H5|text s m n k w u rest s' m' w' H IH H2 H3 H4 H5].
  - eapply iq_split; eauto. rewrite <- C55_work_is_of_split, H3. reflexivity.
  - eapply iq_resplit; eauto. rewrite <- C55_work_is_of_resplit, H3. reflexivity.
Qed.

(** All its calls together are linear in the whole text: nothing is gone through twice. [u] is the last piece. *)
Theorem C55_row_is_linear : forall os c d text s m n k w u rest,
  setup os = Some c -> c_ml c = true -> nulfree d -> d <> [] ->
  row_work c d text s m n k w -> continues d u ->
  exists w', resplit_work c d s m n u rest = Some w' /\ w + w' <= (length d + 10) * (length (text ++ u) + S k).
Proof.
  intros os c d text s m n k w u rest Hs Hml Hd Hd0 H Hu. pose proof (setup_ok os c Hs) as Hc.
  assert (B : w <= (length d + 10) * (length text + k)).
  { clear u rest Hu. induction H as [s0 line rest s m w H1 H2 H3 H4 H5|text s m n k w u rest s' m' w' H IH H2 H3 H4 H5].
    - destruct (C55_split_is_linear os c d s0 line rest Hs Hd H2 H1) as (w1 & E1 & L1).
      unfold split_work in E1. rewrite H3 in E1. injection E1 as <-. exact L1.
    - destruct (resplit_work_thm c Hc d Hd text s m n u rest Hd0 Hml (row_work_in_quotes _ _ _ _ _ _ _ _ H) H2) as (w1 & E1 & L1).
      unfold resplit_work in E1. rewrite H3 in E1. injection E1 as <-. rewrite app_length. nia. }
  destruct (resplit_work_thm c Hc d Hd text s m n u rest Hd0 Hml (row_work_in_quotes _ _ _ _ _ _ _ _ H) Hu) as (w1 & E1 & L1).
  exists w1. split; [exact E1|]. rewrite app_length. nia.
Qed.
Print Assumptions C55_row_is_linear.

(** The count is not an empty one: without quoting, escaping and trimming every character is looked at twice (is it the
    end? is it the delimiter?), and the terminator once; nothing is moved. *)
Section Plain.
Context (c : cfg) (x : ascii) (Hx : x <> NUL).
Context (Hq : c_quote c = None) (He : c_escape c = []) (Hl : c_triml c = []) (Hr : c_trimr c = []).
Context (line : str) (rest : cells) (HN : nulfree line).
Notation mem := (map Some line ++ Some NUL :: rest).

Lemma at_char pre y suf : line = pre ++ y :: suf -> rd mem (length pre) = Some y /\ y <> NUL.
Proof.
  intros E. split.
  - unfold rd. rewrite E, map_app, <- app_assoc, nth_error_app2, map_length, Nat.sub_diag by (rewrite map_length; lia). reflexivity.
  - intros ->. apply HN. rewrite E. apply in_or_app. right; left; reflexivity.
Qed.
Lemma at_end : rd mem (length line) = Some NUL.
Proof. unfold rd. rewrite nth_error_app2, map_length, Nat.sub_diag by (rewrite map_length; lia). reflexivity. Qed.

Lemma plain_const : is_const_line c = true.
Proof. unfold is_const_line, quote_enabled, escape_enabled. rewrite Hq, He. reflexivity. Qed.

Lemma cload_at p a s n : rd mem p = Some a -> cload p (s, mem, n) = Ok a (s, mem, n + 1).
Proof. intros E. unfold cload, bind, tick, modify, lift, zoom, load. cbn [fst snd]. rewrite E. reflexivity. Qed.
Lemma plain_shift s n : n_shift_and_set_current c (s, mem, n) = Ok tt (up_curr (s_end s) s, mem, n).
Proof.
  unfold n_shift_and_set_current, moved, bind, cget, tick, modify, lift, zoom, shift_and_set_current, bind, sget, gets. cbn [fst snd].
  rewrite plain_const. cbn [negb andb]. rewrite Nat.add_0_r. reflexivity.
Qed.
Lemma plain_md s n p y : rd mem p = Some y -> y <> NUL ->
  n_match_delimiter c p (DChar x) (s, mem, n) = Ok (1, Ascii.eqb y x) (s, mem, n + 2).
Proof.
  intros E Hy. unfold n_match_delimiter, n_trim. rewrite Hr, Hl. unfold bind, ret. rewrite (cload_at p y s n E).
  destruct (Ascii.eqb_spec y NUL); [congruence|]. unfold n_match, bind. rewrite (cload_at p y s (n + 1) E). unfold ret.
  replace (n + 1 + 1) with (n + 2) by lia.
  destruct (Ascii.eqb y x); cbn [negb].
  - cbn [delimiter_size]. replace (p + 1 - p) with 1 by lia. reflexivity.
  - unfold n_shift_if_escaped, escape_enabled. rewrite He. unfold ret. replace (1 + p - p) with 1 by lia. reflexivity.
Qed.
Lemma plain_md_end s n : n_match_delimiter c (length line) (DChar x) (s, mem, n) = Ok (0, false) (s, mem, n + 1).
Proof.
  unfold n_match_delimiter, n_trim. rewrite Hr. unfold bind, ret. rewrite (cload_at _ _ s n at_end). reflexivity.
Qed.

(** One column. *)
Lemma plain_column : forall suf pre f s n, line = pre ++ suf -> length suf < f -> s_end s = length pre ->
  (exists s', ~ In x suf /\ n_normal c f (DChar x) (s, mem, n) = Ok tt (s', mem, n + 2 * length suf + 1) /\ s_done s' = true /\ s_resp s' = s_resp s) \/
  (exists s' a b, suf = a ++ x :: b /\ n_normal c f (DChar x) (s, mem, n) = Ok tt (s', mem, n + 2 * S (length a)) /\
     s_begin s' = length pre + S (length a) /\ s_done s' = s_done s /\ s_resp s' = s_resp s).
Proof.
  induction suf as [|y suf IH]; intros pre f s n E Hf Hs; (destruct f as [|f]; [cbn [length] in Hf; lia|]); cbn [n_normal].
  - left. rewrite app_nil_r in E. subst pre.
    assert (EE : forall o, o = (up_sd (s_sd (up_curr (s_end s) s) ++ [(s_begin (up_curr (s_end s) s), s_curr (up_curr (s_end s) s))]) (up_curr (s_end s) s)) ->
      exists s', ~ In x [] /\ Ok (S := sp * list (option ascii) * nat) tt (up_done true o, mem, n + 1) = Ok tt (s', mem, n + 2 * 0 + 1) /\ s_done s' = true /\ s_resp s' = s_resp s).
    { intros o ->. eexists. split; [intros []|]. split; [rewrite Nat.add_0_r; reflexivity|split; reflexivity]. }
    destruct (EE _ eq_refl) as (s' & A & B & C & D). exists s'. split; [exact A|]. split; [|split; assumption].
    unfold bind at 1. unfold cget at 1, lift, zoom, sget, gets. cbn [fst snd]. rewrite Hs.
    unfold bind at 1. rewrite plain_md_end. cbn [negb Nat.eqb]. unfold n_push, bind at 1. unfold bind at 1. rewrite plain_shift. exact B.
  - destruct (at_char pre y suf E) as [Ey Ny].
    assert (STEP : n_normal c (S f) (DChar x) (s, mem, n) =
      if Ascii.eqb y x then n_push_next c 1 (s, mem, n + 2) else n_normal c f (DChar x) (up_end (s_end s + 1) s, mem, n + 2)).
    { cbn [n_normal]. unfold bind at 1. unfold cget at 1, lift, zoom, sget, gets. cbn [fst snd]. rewrite Hs.
      unfold bind at 1. rewrite (plain_md s n _ y Ey Ny). destruct (Ascii.eqb y x); cbn [negb Nat.eqb]; [reflexivity|].
      unfold bind at 1, cupd, lift, zoom, upd, modify. cbn [fst snd]. rewrite <- Hs. reflexivity. }
    cbn [n_normal] in STEP. rewrite STEP. clear STEP. destruct (Ascii.eqb_spec y x) as [->|Nx].
    + right. exists (up_begin (s_end s + 1) (up_sd (s_sd s ++ [(s_begin s, s_end s)]) (up_curr (s_end s) s))), [], suf.
      split; [reflexivity|]. split.
      * unfold n_push_next, n_push, bind. rewrite plain_shift. cbn [length]. reflexivity.
      * flat. cbn [length]. auto.
    + destruct (IH (pre ++ [y]) f (up_end (s_end s + 1) s) (n + 2)) as [(s' & A & B & C & D)|(s' & a & b & A & B & C & D & F)].
      * rewrite <- app_assoc. exact E.
      * cbn [length] in Hf. lia.
      * rewrite app_length. flat. cbn [length]. lia.
      * left. exists s'. split; [intros [K|K]; [congruence|contradiction]|]. split; [|split; assumption].
        rewrite B. f_equal. f_equal. cbn [length]. lia.
      * right. exists s', (y :: a), b. split; [rewrite A; reflexivity|]. split; [|split; [|split; assumption]].
        -- rewrite B. f_equal. f_equal. cbn [length]. lia.
        -- rewrite C, app_length. cbn [length]. lia.
Qed.

Lemma plain_loop : forall k suf pre f s n, length suf <= k -> line = pre ++ suf -> k + 1 < f -> s_begin s = length pre -> s_done s = false ->
  exists s', n_loop c f (DChar x) (s, mem, n) = Ok tt (s', mem, n + 2 * length suf + 1).
Proof.
  induction k as [|k IH]; intros suf pre f s n Hk E Hf Hb Hd; (destruct f as [|f]; [lia|]); cbn [n_loop].
  all: unfold bind at 1; unfold cget at 1, lift, zoom, sget, gets; cbn [fst snd]; rewrite Hd.
  all: unfold bind at 1.
  all: assert (R : exists s0, s_end s0 = length pre /\ s_done s0 = false /\
         n_read c (DChar x) (s, mem, n) = n_normal c (S (length mem)) (DChar x) (s0, mem, n))
    by (eexists; split; [|split]; [| |unfold n_read, quote_enabled; rewrite Hq; unfold bind, n_fuel, cupd, cget, lift, zoom, fuel_of, upd, sget, gets, modify;
          cbn [fst snd]; reflexivity]; flat; [exact Hb|exact Hd]).
  all: destruct R as (s0 & R1 & R2 & ->).
  all: assert (L : length suf < S (length mem)) by (rewrite app_length, map_length, E, app_length; lia).
  all: destruct (plain_column suf pre (S (length mem)) s0 n E L R1) as [(s' & A & -> & C & D)|(s' & a & b & A & -> & C & D & F)].
  1,3: destruct f as [|f]; [lia|]; exists s'; cbn [n_loop]; unfold bind, cget, lift, zoom, sget, gets; cbn [fst snd]; rewrite C; reflexivity.
  - rewrite A in Hk. rewrite app_length in Hk. cbn [length] in Hk. lia.
  - rewrite A, app_length in Hk. cbn [length] in Hk.
    destruct (IH b (pre ++ a ++ [x]) f s' (n + 2 * S (length a))) as (s2 & K).
    + lia.
    + rewrite E, A, <- !app_assoc. reflexivity.
    + lia.
    + rewrite C, !app_length. cbn [length]. lia.
    + congruence.
    + exists s2. rewrite K, A, app_length. cbn [length]. f_equal. f_equal. lia.
Qed.

Theorem plain_work s : split_work c s [x] line rest = Some (2 * length line + 1).
Proof.
  unfold split_work, split_counted, n_split, n_select.
  unfold bind at 1. unfold cupd, lift at 1, zoom, upd, modify. cbn [fst snd].
  unfold bind at 1. unfold lift, zoom, sp_clear_error, upd, modify. cbn [fst snd].
  match goal with |- context [n_impl c (DChar x) (?a, ?b, 0)] => set (s1 := a) end.
  assert (B1 : s_begin s1 = 0) by (unfold s1; destruct (c_mode c); reflexivity). clearbody s1.
  unfold n_impl, n_trim. rewrite Hl.
  unfold bind, cget, n_fuel, cupd, lift, zoom, fuel_of, upd, sget, gets, modify, ret. cbn [fst snd].
  destruct (plain_loop (length line) line [] (S (S (length mem))) (up_done false (up_begin (s_begin s1) s1)) 0) as (s2 & K).
  - lia.
  - reflexivity.
  - rewrite app_length, map_length. cbn [length]. lia.
  - flat. exact B1.
  - reflexivity.
  - rewrite K. reflexivity.
Qed.
End Plain.

Theorem C55_plain_count : forall c x s line rest,
  c_quote c = None -> c_escape c = [] -> c_triml c = [] -> c_trimr c = [] -> x <> NUL -> nulfree line ->
  split_work c s [x] line rest = Some (2 * length line + 1).
Proof. intros. apply plain_work; assumption. Qed.
Print Assumptions C55_plain_count.

(** ** Concrete cases. *)
Definition work_os := [OQuote """"%char; OEscape ["\"%char]; OTrim [" "%char]; OStringError].
Definition work_c := mkCfg (Some """"%char) ["\"%char] [" "%char] [" "%char] false 0 EString false false.
Example C55_example : setup work_os = Some work_c /\
  split_work work_c sp_init (S2 "::") (S2 "  a b ::""x """"::y"" :: c\:d") [] = Some 61 /\ (* 25 characters; the bound is 312 *)
  split_work work_c sp_init [","%char] (S2 "\a\b\c\defgh") [Some "z"%char] = Some 48 /\
  split_work work_c sp_init [","%char] (S2 """a""""b\c""") [] = Some 19 /\
  split_work work_c sp_init [","%char] (S2 "a,""b") [] = Some 13.
Proof. vm_compute. auto 10. Qed.
(** a row continued twice: 6 + 4 + 5 characters in three calls *)
Definition work_ml := mkCfg (Some """"%char) ["\"%char] [] [" "%char] true 0 EString false false.
Example C55_row_example : exists s m n w, row_work work_ml [","%char] (S2 "x,""a\b" ++ LF :: S2 "c\d") s m n 2 w /\ w = 20 /\
  resplit_work work_ml [","%char] s m n (LF :: S2 """ ,e") [] = Some 13.
Proof.
  do 4 eexists. split; [|split].
  - eapply rw_resplit with (rest := []).
    + eapply rw_split with (rest := []); [apply reach_init|intros H; cbn in H; intuition discriminate| | |]; vm_compute; reflexivity.
    + split; [intros H; cbn in H; intuition discriminate|exists LF, (S2 "c\d"); split; [reflexivity|cbn; intuition discriminate]].
    + vm_compute. reflexivity.
    + vm_compute. reflexivity.
    + vm_compute. reflexivity.
  - vm_compute. reflexivity.
  - vm_compute. reflexivity.
Qed.
