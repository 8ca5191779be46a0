(** C45.  Floating point columns: the whole column is the number, in both builds. *)
From Verif Require Import Base Setup Splitter SplitPure ListFacts SplitApi Extract Converter ConvSpec ExtractProofs ConvProofs Strtod.

(** ** Specification *)
(** [number : str -> option (option Z)]: which texts are numbers; [Some None]: too large or too small for the type.
    Both library functions read the longest number a text begins with. *)
Definition longest (number : str -> option (option Z)) (s : str) (k : nat) : Prop :=
  k <= length s /\ number (firstn k s) <> None /\ forall j, k < j <= length s -> number (firstn j s) = None.
(** fast_float::from_chars: an error if there is no number, or if it is out of range. *)
Definition reads_number (number : str -> option (option Z)) (from_chars : str -> option (Z * nat)) : Prop :=
  forall s f k, from_chars s = Some (f, k) <-> longest number s k /\ number (firstn k s) = Some (Some f).
(** std::strtod: consumes nothing if there is no number; no error is reported if it is out of range ([sat] is what it
    returns then). *)
Definition reads_prefix (number : str -> option (option Z)) (sat : str -> Z) (strtod : str -> Z * nat) : Prop :=
  forall s, (exists k, longest number s k /\ snd (strtod s) = k /\ fst (strtod s) = match number (firstn k s) with Some (Some f) => f | _ => sat (firstn k s) end)
            \/ (forall j, j <= length s -> number (firstn j s) = None) /\ strtod s = (0%Z, 0).

(** ** With fast_float *)
(** A column is accepted iff the whole of it is a number in range, and then the value is that number. *)
Theorem C45_the_whole_column_is_the_number : forall number from_chars s v, reads_number number from_chars ->
  (converts (TFloat from_chars) s v <-> exists f, v = VFloat f /\ number s = Some (Some f)).
Proof.
  intros number fc s v R. cbn [converts]. split; intros (f & -> & H); exists f; (split; [reflexivity|]).
  - apply R in H. destruct H as [_ H]. rewrite firstn_all in H. exact H.
  - apply R. rewrite firstn_all. split; [|exact H]. split; [lia|]. rewrite firstn_all. split; [congruence|]. intros j Hj. lia.
Qed.
Print Assumptions C45_the_whole_column_is_the_number.

(** ** With strtod *)
Lemma c_string_nulfree s rest : nulfree s -> c_string (map Some s ++ Some NUL :: rest) = Some s.
Proof.
  induction s as [|x s IH]; intros N; [reflexivity|]. cbn. assert (Ascii.eqb x NUL = false) as ->.
  { apply Ascii.eqb_neq. intros ->. apply N. left. reflexivity. }
  rewrite IH; [reflexivity|]. intros X. apply N. right. exact X.
Qed.
Lemma range_length m b e s : range_str m b e = Some s -> length s = e - b.
Proof.
  unfold range_str. destruct (b <=? e) eqn:E1; [|discriminate]. destruct (e <=? length m) eqn:E2; [|discriminate]. cbn.
  apply Nat.leb_le in E1, E2. assert (G : forall l s, unopt l = Some s -> length s = length l).
  { induction l as [|[x|] l IH]; cbn; intros s0 H; [injection H as <-; reflexivity| |discriminate]. destruct (unopt l) eqn:E; [|discriminate]. injection H as <-. cbn. f_equal. auto. }
  intros H. rewrite (G _ _ H), firstn_length, skipn_length. lia.
Qed.
(** For a column of any length but 64 nothing goes wrong and the outcome is the one of the other build with [strtod] in
    the place of from_chars: accepted iff the whole text was consumed. *)
Theorem C45_strtod_build_partial : forall strtod m b e s, range_str m b e = Some s -> nulfree s -> length s <> buff_max ->
  to_num_strtod strtod m b e = Some (to_num_float (fun t => Some (strtod t)) s).
Proof.
  intros sd m b e s R N H. pose proof (range_length _ _ _ _ R) as L. unfold to_num_strtod, to_num_float. rewrite R, <- L.
  assert (G : forall rest, match c_string (map Some s ++ Some NUL :: rest) with
     | None => None | Some t => let '(ret, parse_end) := sd t in Some (if negb (Nat.eqb parse_end (length s)) then None else Some ret) end =
     Some (let '(f, n) := sd s in if Nat.eqb n (length s) then Some f else None)).
  { intros rest. rewrite c_string_nulfree by exact N. destruct (sd s) as [f n]. destruct (n =? length s); reflexivity. }
  destruct (buff_max <? length s) eqn:E; [apply (G [])|]. apply Nat.ltb_ge in E.
  assert (length s < buff_max) by lia. unfold wr. rewrite repeat_length. assert (length s <? buff_max = true) as -> by (apply Nat.ltb_lt; assumption).
  unfold copy_in. rewrite app_length. cbn [length]. rewrite firstn_length, skipn_length, repeat_length.
  assert (length s <=? Nat.min (length s) buff_max + S (buff_max - S (length s)) = true) as -> by (apply Nat.leb_le; lia).
  rewrite skipn_app, skipn_all2 by (rewrite firstn_length; lia). rewrite firstn_length, repeat_length.
  replace (length s - Nat.min (length s) buff_max) with 0 by lia. cbn [skipn app]. apply G.
Qed.
Print Assumptions C45_strtod_build_partial.
(** A column of exactly 64 characters: the terminator is written behind the buffer, whatever the characters are. *)
Theorem C45_sixty_four_refuted : forall strtod m b e s, range_str m b e = Some s -> length s = buff_max -> to_num_strtod strtod m b e = None.
Proof.
  intros sd m b e s R H. pose proof (range_length _ _ _ _ R) as L. unfold to_num_strtod. rewrite R, <- L, H. reflexivity.
Qed.
Print Assumptions C45_sixty_four_refuted.
(** Accepted are: numbers, out of range or not, and the empty column. *)
Theorem C45_accepted_by_strtod : forall number sat strtod s f, reads_prefix number sat strtod ->
  (to_num_float (fun t => Some (strtod t)) s = Some f <->
   number s = Some (Some f) \/ (number s = Some None /\ f = sat s) \/ (s = [] /\ number [] = None /\ f = 0%Z)).
Proof.
  intros number sat sd s f R. unfold to_num_float. destruct (sd s) as [g n] eqn:E. specialize (R s). rewrite E in R. cbn [fst snd] in R.
  destruct R as [(k & (K1 & K2 & K3) & -> & ->)|[K1 K2]].
  - destruct (Nat.eqb_spec k (length s)) as [->|Hk].
    + rewrite firstn_all in *. destruct (number s) as [[x|]|] eqn:En; [| |congruence].
      * split; [intros H; injection H as ->; auto|]. intros [H|[[H _]|(H & H' & _)]]; try congruence.
      * split; [intros H; injection H as <-; auto|]. intros [H|[[_ H]|(H & H' & _)]]; try congruence.
    + assert (X : number s = None) by (rewrite <- (firstn_all s); apply K3; lia).
      split; [discriminate|]. intros [H|[[H _]|(-> & _)]]; try congruence. cbn in K1, Hk. lia.
  - injection K2 as -> ->. pose proof (K1 (length s) (le_n _)) as X. rewrite firstn_all in X.
    destruct s as [|x s]; cbn [length Nat.eqb].
    + split; [intros H; injection H as <-; auto|]. intros [H|[[H _]|(_ & _ & ->)]]; congruence.
    + split; [discriminate|]. intros [H|[[H _]|(H & _)]]; congruence.
Qed.
Print Assumptions C45_accepted_by_strtod.
(** In particular the empty column is a number for this build, whatever strtod does (it can only consume nothing). *)
Theorem C45_empty_column_refuted : forall strtod m b, b <= length m -> (forall s, snd (strtod s) <= length s) ->
  to_num_strtod strtod m b b = Some (Some (fst (strtod []))).
Proof.
  intros sd m b Hb Hs. rewrite (C45_strtod_build_partial sd m b b []).
  - unfold to_num_float. specialize (Hs []). destruct (sd []) as [f n]. cbn in *. assert (n = 0) as -> by lia. reflexivity.
  - unfold range_str. rewrite Nat.leb_refl. assert (b <=? length m = true) as -> by (apply Nat.leb_le; exact Hb). rewrite Nat.sub_diag. reflexivity.
  - intros [].
  - discriminate.
Qed.
Print Assumptions C45_empty_column_refuted.

(** ** Examples: decimal digits as numbers, at most two of them in range. *)
Definition two_digits (s : str) : option (option Z) :=
  match s with
  | [] => None
  | _ => if forallb (fun x => match digit_of x with Some _ => true | None => false end) s
         then Some (if length s <=? 2 then Some (fold_left (fun a x => a * 10 + match digit_of x with Some k => k | None => 0 end) s 0)%Z else None)
         else None
  end.
Fixpoint digits_in (s : str) : nat := match s with x :: s' => match digit_of x with Some _ => S (digits_in s') | None => 0 end | [] => 0 end.
Definition two_from_chars (s : str) : option (Z * nat) :=
  match two_digits (firstn (digits_in s) s) with Some (Some f) => Some (f, digits_in s) | _ => None end.
Definition two_strtod (s : str) : Z * nat :=
  match two_digits (firstn (digits_in s) s) with Some (Some f) => (f, digits_in s) | Some None => (99%Z, digits_in s) | None => (0%Z, 0) end.
Lemma two_longest s : (longest two_digits s (digits_in s) /\ 0 < digits_in s) \/ (digits_in s = 0 /\ forall j, j <= length s -> two_digits (firstn j s) = None).
Proof.
  assert (A : digits_in s <= length s). { induction s as [|x s IH]; cbn; [lia|]. destruct (digit_of x); lia. }
  assert (B : forallb (fun x => match digit_of x with Some _ => true | None => false end) (firstn (digits_in s) s) = true).
  { clear A. induction s as [|x s IH]; [reflexivity|]. cbn [digits_in]. destruct (digit_of x) eqn:E; [|reflexivity]. cbn. rewrite E. exact IH. }
  assert (D : forall j, digits_in s < j -> j <= length s -> forallb (fun x => match digit_of x with Some _ => true | None => false end) (firstn j s) = false).
  { clear A B. induction s as [|x s IH]; intros j H1 H2; cbn in *; [lia|]. destruct j; [lia|]. cbn. destruct (digit_of x); [|reflexivity]. apply IH; lia. }
  assert (D' : forall j, digits_in s < j <= length s -> two_digits (firstn j s) = None).
  { intros j [H1 H2]. unfold two_digits. rewrite (D j H1 H2). destruct (firstn j s); reflexivity. }
  destruct (digits_in s) as [|n] eqn:E.
  - right. split; [reflexivity|]. intros [|j] Hj; [reflexivity|]. apply D'. lia.
  - left. split; [|lia]. split; [exact A|]. split; [|exact D']. unfold two_digits. rewrite B. destruct s; [discriminate|]. discriminate.
Qed.
Example C45_contract_met : reads_number two_digits two_from_chars /\ reads_prefix two_digits (fun _ => 99%Z) two_strtod.
Proof.
  assert (U : forall s k k', longest two_digits s k -> longest two_digits s k' -> k = k').
  { intros s k k' (A1 & A2 & A3) (B1 & B2 & B3). destruct (lt_eq_lt_dec k k') as [[X|X]|X]; [|exact X|]; exfalso; [apply B2, A3|apply A2, B3]; lia. }
  split.
  - intros s f k. unfold two_from_chars. destruct (two_longest s) as [[L _]|[L0 L]].
    + split.
      * destruct (two_digits (firstn (digits_in s) s)) as [[x|]|] eqn:E; try discriminate. intros H; injection H as <- <-. auto.
      * intros [K1 K2]. rewrite (U _ _ _ L K1), K2. reflexivity.
    + rewrite (L (digits_in s)) by (rewrite L0; lia). split; [discriminate|]. intros [(K1 & K2 & _) _]. exfalso. apply K2, L. exact K1.
  - intros s. unfold two_strtod. destruct (two_longest s) as [[L P]|[L0 L]].
    + left. exists (digits_in s). split; [exact L|]. destruct (two_digits (firstn (digits_in s) s)) as [[x|]|] eqn:E; auto. destruct L as (_ & L & _). congruence.
    + right. split; [exact L|]. rewrite (L (digits_in s)) by (rewrite L0; lia). reflexivity.
Qed.
Definition line_of (s : str) : list (option ascii) := map Some s ++ [Some NUL].
Example C45_example :
  to_num_strtod two_strtod (line_of (S2 "a,42,b")) 2 4 = Some (Some 42%Z) /\ to_num_strtod two_strtod (line_of (S2 "a,42,b")) 2 5 = Some None /\
  to_num_strtod two_strtod (line_of (S2 "a,,b")) 2 2 = Some (Some 0%Z) /\ to_num_strtod two_strtod (line_of (S2 "123")) 0 3 = Some (Some 99%Z) /\
  to_num_strtod two_strtod (line_of (repeat "1"%char 64)) 0 64 = None /\ to_num_strtod two_strtod (line_of (repeat "1"%char 65)) 0 65 = Some (Some 99%Z) /\
  to_num_float two_from_chars (S2 "42") = Some 42%Z /\ to_num_float two_from_chars (S2 "") = None /\ to_num_float two_from_chars (S2 "123") = None.
Proof. vm_compute. repeat split. Qed.
