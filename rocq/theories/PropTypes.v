(** C43: the templates that compute with packs of types (TypeTraits.v models them). *)
From Verif Require Import Base Setup SetupProofs Extract Converter SessionSpec TypeTraits.

Section P.
Context {A : Type}.
Notation typ := (typ A). Notation trait := (trait A).
(** No std::tuple and no std::false_type. *)
Definition simple (t : typ) : Prop := match t with Pl _ => True | _ => False end.

Definition real (t : typ) : bool := match t with FalseT => false | _ => true end.
Lemma cat_simple (t : typ) l : (forall x, t <> Tup x) -> tup_cat t (Tup l) = Some (Tup (t :: l)).
Proof. destruct t; cbn; auto. intros H. exfalso. eapply H. reflexivity. Qed.
Lemma apply_list_map (f : typ -> typ) : forall xs x, Forall (fun t => forall l, f t <> Tup l) (x :: xs) -> apply_list f x xs = Some (Tup (map f (x :: xs))).
Proof.
  induction xs as [|y ys IH]; intros x H; [reflexivity|]. inversion H as [|? ? H1 H2]; subst. cbn [apply_list]. rewrite IH by exact H2. cbn [cat_opt]. rewrite cat_simple by exact H1. reflexivity.
Qed.
Lemma rf_list : forall ts n, ts <> [] -> Forall (fun t => forall l, t <> Tup l) ts -> length ts < n -> remove_false_n n ts = Some (Tup (filter real ts)).
Proof.
  induction ts as [|t ts IH]; intros n Hne F HL; [congruence|]. inversion F as [|? ? F1 F2]; subst. destruct n as [|n]; [cbn in HL; lia|].
  destruct t as [|l|a]; [|exfalso; eapply F1; reflexivity|].
  - cbn [remove_false_n filter real]. destruct ts as [|u ts]; [reflexivity|]. apply IH; [discriminate|exact F2|cbn in *; lia].
  - cbn [remove_false_n filter real]. destruct ts as [|u ts]; [reflexivity|]. rewrite IH; [|discriminate|exact F2|cbn in *; lia]. reflexivity.
Qed.
Lemma rf_tuple x y l : Forall (fun t : typ => forall l, t <> Tup l) (x :: y :: l) -> remove_false [Tup (x :: y :: l)] = Some (Tup (filter real (x :: y :: l))).
Proof.
  intros F. unfold remove_false. set (n := S _). assert (HN : length (y :: l) < pred n).
  { unfold n. cbn -[length]. clear n. assert (G : forall l : list typ, length l <= fold_right (fun t n => weight t + n) 0 l).
    { induction l0 as [|t l0 IH]; cbn; [lia|]. destruct t; cbn; lia. }
    specialize (G l). destruct x, y; cbn; lia. }
  clearbody n. destruct n as [|n]; [cbn in HN; lia|]. cbn [pred] in HN. inversion F as [|? ? F1 F2]; subst.
  pose proof (rf_list (y :: l) n ltac:(discriminate) F2 HN) as R. destruct x as [|xl|a]; [|exfalso; eapply F1; reflexivity|]; cbn [remove_false_n]; rewrite R; reflexivity.
Qed.
Lemma map_real (tr : trait) l : Forall simple l -> filter real (map (fun t => optional_trait (tr t) t) l) = filter tr l.
Proof. induction 1 as [|t l S F IH]; [reflexivity|]. cbn. destruct t; try contradiction. unfold optional_trait at 1. destruct (tr (Pl a)); cbn; rewrite IH; reflexivity. Qed.
Lemma opt_no_tuple (tr : trait) l : Forall simple l -> Forall (fun t => forall x, optional_trait (tr t) t <> Tup x) l.
Proof. apply Forall_impl. intros t S x. unfold optional_trait. destruct t; try contradiction. destruct (tr (Pl a)); discriminate. Qed.

Lemma filter_two (tr : trait) x y l : Forall simple (x :: y :: l) -> filter_if tr (x :: y :: l) = Some (Tup (filter tr (x :: y :: l))).
Proof.
  intros F. unfold filter_if, pack_of. assert (E : match x :: y :: l with [Tup l0] => Tup l0 | _ => Tup (x :: y :: l) end = Tup (x :: y :: l)) by (destruct x; reflexivity). rewrite E.
  unfold apply_optional. cbn [apply_trait]. rewrite apply_list_map by (apply opt_no_tuple; exact F). cbn [map]. rewrite rf_tuple.
  - f_equal. f_equal. exact (map_real tr (x :: y :: l) F).
  - pose proof (opt_no_tuple tr _ F) as N. apply (Forall_map (fun t => optional_trait (tr t) t) (fun t => forall l, t <> Tup l) (x :: y :: l)). exact N.
Qed.

(** C43.  Exactly the elements that satisfy the predicate, in their order; the program does not compile ([None]) exactly if the
    pack is one type that is dropped. *)
Theorem C43_filters : forall (tr : trait) ts, Forall simple ts -> ts <> [] ->
  filter_if tr ts = (if (length ts =? 1) && negb (forallb tr ts) then None else Some (Tup (filter tr ts))) /\
  filter_not tr ts = (if (length ts =? 1) && existsb tr ts then None else Some (Tup (filter (fun t => negb (tr t)) ts))).
Proof.
  intros tr ts F Hne. destruct ts as [|x [|y ts]]; [congruence| |].
  - inversion F as [|? ? S _]; subst. destruct x; try contradiction. split; unfold filter_not, filter_if, pack_of, apply_optional, negate; cbn; unfold optional_trait; destruct (tr (Pl a)); reflexivity.
  - split; [|unfold filter_not]; rewrite filter_two by exact F; reflexivity.
Qed.
(** Counting and the quantifiers work for every pack, also of no or of one type. *)
Theorem C43_counts : forall (tr : trait) ts, Forall simple ts ->
  count_v tr ts = Some (length (filter tr ts)) /\
  count_not_v tr ts = Some (length (filter (fun t => negb (tr t)) ts)) /\
  (forall b, all_of tr ts = Some b <-> b = forallb tr ts) /\
  (forall b, any_of tr ts = Some b <-> ts <> [] /\ b = existsb tr ts) /\
  (forall b, none_of tr ts = Some b <-> b = negb (existsb tr ts)).
Proof.
  intros tr ts F.
  assert (C : forall tr, count_v tr ts = Some (length (filter tr ts))).
  { intros tr'. destruct ts as [|x [|y ts]]; [reflexivity|cbn; destruct (tr' x); reflexivity|]. unfold count_v. rewrite filter_two by exact F. reflexivity. }
  assert (CN : count_not_v tr ts = Some (length (filter (fun t => negb (tr t)) ts))).
  { destruct ts as [|x [|y ts]]; [reflexivity|cbn; destruct (tr x); reflexivity|]. unfold count_not_v, filter_not. rewrite filter_two by exact F. reflexivity. }
  assert (AO : args_of ts = ts) by (destruct ts as [|[|l|a] [|y ts]]; try reflexivity; inversion F; contradiction).
  assert (LE : forall l : list typ, length (filter tr l) <= length l) by (induction l as [|t l IH]; cbn; [lia|destruct (tr t); cbn; lia]).
  assert (AL : (length (filter tr ts) =? length ts) = forallb tr ts).
  { clear - LE. induction ts as [|t ts IH]; [reflexivity|]. cbn. destruct (tr t); cbn; [exact IH|]. apply Nat.eqb_neq. specialize (LE ts). lia. }
  assert (EX : (0 <? length (filter tr ts)) = existsb tr ts).
  { clear. induction ts as [|t ts IH]; [reflexivity|]. cbn. destruct (tr t); [reflexivity|exact IH]. }
  assert (NX : (length (filter tr ts) =? 0) = negb (existsb tr ts)).
  { rewrite <- EX. destruct (length (filter tr ts)); reflexivity. }
  split; [apply C|]. split; [exact CN|]. unfold all_of, any_of, none_of. rewrite AO, C, AL, NX. split; [split; congruence|]. split; [|split; congruence].
  intros b. destruct ts as [|t ts]; [split; [discriminate|intros [X _]; congruence]|]. rewrite C, EX. split; [intros X; injection X as <-; split; [discriminate|reflexivity]|intros [_ ->]; reflexivity].
Qed.
(** The other list-like templates: first, last, head, tail, the n-th argument. *)
Theorem C43_parts : forall (ts : list typ) n, Forall simple ts ->
  (n < 128 -> n < length ts -> left_of n ts = Some (Tup (firstn (S n) ts))) /\
  (n < length ts -> right_of n ts = Some (Tup (skipn n ts))) /\
  arg_n n ts = nth_error ts n.
Proof.
  intros ts n F. split; [|split].
  - revert ts F. induction n as [|n IH]; intros ts F H1 H2; (destruct ts as [|t ts]; [cbn in H2; lia|]); [reflexivity|]. inversion F as [|? ? S1 S2]; subst.
    change (left_of (S n) (t :: ts)) with (if S n <? 128 then cat_opt t (left_of n ts) else None). replace (S n <? 128) with true by (symmetry; apply Nat.ltb_lt; exact H1).
    rewrite IH by (auto; cbn in H2; lia). cbn [cat_opt]. destruct t; try contradiction. reflexivity.
  - clear F. revert ts. induction n as [|n IH]; intros ts H; (destruct ts as [|t ts]; [cbn in H; lia|]); [reflexivity|]. cbn. apply IH. cbn in H. lia.
  - clear F. revert ts. induction n as [|n IH]; intros [|t ts]; cbn; auto.
Qed.
(** head_t, tail_t, first_t (all but the last, for up to 129 types) and last_t: each is a tuple. *)
Theorem C43_ends : forall (t : typ) ts, Forall simple (t :: ts) ->
  head_t (t :: ts) = Some (Tup [t]) /\
  (ts <> [] -> tail_t (t :: ts) = Some (Tup ts)) /\
  (ts <> [] -> length ts <= 128 -> first_t (ts ++ [t]) = Some (Tup ts)) /\
  last_t (ts ++ [t]) = Some (Tup [t]).
Proof.
  intros t ts F. split; [reflexivity|]. split; [intros NE; destruct ts; [congruence|reflexivity]|]. inversion F as [|? ? F1 F2]; subst.
  assert (F3 : Forall simple (ts ++ [t])) by (apply Forall_app; auto). split.
  - intros NE LE. unfold first_t. destruct ts as [|a [|b ts]]; [congruence|reflexivity|]. cbn [app].
    destruct (C43_parts (a :: b :: ts ++ [t]) (S (length ts)) F3) as [P _]. replace (length (a :: b :: ts ++ [t]) - 2) with (S (length ts)) by (cbn [length]; rewrite app_length; cbn; lia).
    rewrite P; [|cbn in LE; lia|cbn [length]; rewrite app_length; cbn; lia]. do 2 f_equal. change (a :: b :: ts ++ [t]) with ((a :: b :: ts) ++ [t]). change (S (S (length ts))) with (length (a :: b :: ts)).
    rewrite firstn_app, firstn_all, Nat.sub_diag. cbn [firstn]. apply app_nil_r.
  - destruct (C43_parts (ts ++ [t]) (length ts) F3) as (_ & P & _). unfold last_t. destruct (ts ++ [t]) as [|x xs] eqn:E; [destruct ts; discriminate|]. rewrite <- E in *.
    replace (length (ts ++ [t]) - 1) with (length ts) by (rewrite app_length; cbn; lia). rewrite P by (rewrite app_length; cbn; lia). rewrite skipn_app, skipn_all, Nat.sub_diag. reflexivity.
Qed.
(** A pack of one type that does not satisfy the predicate: two specialisations of remove_false match, and the program does not
    compile; and elements that are tuples, or std::false_type, are not kept as they are. *)
Theorem C43_one_type_refuted : forall (tr : trait) a, tr (Pl a) = false -> filter_if tr [Pl a] = None.
Proof. intros tr a H. unfold filter_if, pack_of, apply_optional. cbn. unfold optional_trait. rewrite H. reflexivity. Qed.
Theorem C43_tuples_refuted : forall a b : A,
  filter_if (fun _ => true) [Tup [Pl a]; Pl b] = Some (Tup [Pl a; Pl b]) /\
  filter_if (fun _ => true) [FalseT; Pl b] = Some (Tup [Pl b]).
Proof. intros. split; reflexivity. Qed.

(** The type convert returns: voids dropped and validators replaced; a single one is not wrapped in a tuple. *)
Theorem C43_result_type : forall (is_void : trait) (base : typ -> typ) ts, Forall simple ts -> (forall t, simple t -> simple (base t)) ->
  filter (fun t => negb (is_void t)) ts <> [] ->
  no_void_validator_tup is_void base ts =
    Some (match map base (filter (fun t => negb (is_void t)) ts) with [t] => t | l => Tup l end).
Proof.
  intros iv base ts F HB NE. assert (AO : args_of ts = ts) by (destruct ts as [|[|l|a] [|y ts]]; try reflexivity; inversion F; contradiction).
  unfold no_void_validator_tup. rewrite AO. assert (E : filter_not iv ts = Some (Tup (filter (fun t => negb (iv t)) ts))).
  { assert (NE' : ts <> []) by (destruct ts; [cbn in NE; congruence|discriminate]). destruct (C43_filters iv ts F NE') as [_ ->].
    destruct ts as [|t [|u ts]]; [congruence| |reflexivity]. cbn in NE. cbn. destruct (iv t); [cbn in NE; congruence|reflexivity]. }
  rewrite E. assert (FS : Forall simple (filter (fun t => negb (iv t)) ts)) by (apply Forall_forall; intros t Ht; apply filter_In in Ht as [Ht _]; rewrite Forall_forall in F; auto).
  destruct (filter (fun t => negb (iv t)) ts) as [|x [|y l]]; [congruence|reflexivity|]. cbn [no_validator_tup].
  cbn [apply_trait]. rewrite apply_list_map; [reflexivity|].
  apply Forall_forall. intros t Ht z X. rewrite Forall_forall in FS. specialize (HB t (FS t Ht)). rewrite X in HB. exact HB.
Qed.
End P.
Print Assumptions C43_filters.
Print Assumptions C43_counts.
Print Assumptions C43_parts.
Print Assumptions C43_one_type_refuted.
Print Assumptions C43_tuples_refuted.
Print Assumptions C43_result_type.

(** *** Packs of options *)
(** The options as types. *)
Definition option_types (os : list opt) : list (typ opt) := map Pl os.
Definition trait_of (f : opt -> bool) : trait opt := fun t => match t with Pl o => f o | _ => false end.
(** setup<setup<...>> and setup<std::tuple<...>> are setup of what is inside (setup.hpp:293-297): the options of setup<t>,
    [None] if something else is among them. *)
Fixpoint plain_options (ts : list (typ opt)) : option (list opt) :=
  match ts with
  | [] => Some []
  | Pl o :: ts' => match plain_options ts' with Some os => Some (o :: os) | None => None end
  | _ => None
  end.
Fixpoint setup_options (t : typ opt) : option (list opt) :=
  match t with
  | Tup l => match l with [u] => setup_options u | _ => plain_options l end
  | Pl o => Some [o]
  | FalseT => None
  end.
(** header_splitter (parser.hpp:34-35): the setup of filter_not_t<is_instance_of_multiline, Options...>. *)
Definition header_options (os : list opt) : option (list opt) :=
  match filter_not (trait_of is_multiline) (option_types os) with Some t => setup_options t | None => None end.

Lemma options_simple os : Forall simple (option_types os).
Proof. unfold option_types. induction os; cbn; constructor; cbn; auto. Qed.
Lemma filter_options f os : filter (fun t => negb (trait_of f t)) (option_types os) = option_types (filter (fun o => negb (f o)) os).
Proof. unfold option_types. induction os as [|o os IH]; [reflexivity|]. cbn. destruct (f o); cbn; rewrite IH; reflexivity. Qed.
Lemma plain_options_map os : plain_options (option_types os) = Some os.
Proof. unfold option_types. induction os as [|o os IH]; [reflexivity|]. cbn. rewrite IH. reflexivity. Qed.
Lemma setup_options_map os : setup_options (Tup (option_types os)) = Some os.
Proof. destruct os as [|o [|o' os]]; try reflexivity. exact (plain_options_map (o :: o' :: os)). Qed.
(** The options of the header splitter are all options but multiline, also for an empty pack; the one exception is a pack of
    nothing but a (disabled) multiline_restricted, which does not compile. *)
Theorem C43_header_options : forall os, (forall o, os = [o] -> is_multiline o = false) ->
  header_options os = Some (filter (fun o => negb (is_multiline o)) os).
Proof.
  intros os H. unfold header_options. destruct os as [|o os]; [reflexivity|].
  destruct (C43_filters (trait_of is_multiline) (option_types (o :: os)) (options_simple _) ltac:(discriminate)) as [_ E].
  assert (X : (length (option_types (o :: os)) =? 1) && existsb (trait_of is_multiline) (option_types (o :: os)) = false).
  { destruct os; [|reflexivity]. cbn. rewrite (H o eq_refl). reflexivity. }
  rewrite X in E. rewrite E.
  rewrite filter_options. apply setup_options_map.
Qed.
Print Assumptions C43_header_options.

Lemma count_other f os : (forall o, is_multiline o = true -> f o = false) -> count f (filter (fun o => negb (is_multiline o)) os) = count f os.
Proof.
  intros H. unfold count. induction os as [|o os IH]; [reflexivity|]. cbn. destruct (is_multiline o) eqn:E; cbn; [rewrite (H _ E); exact IH|]. destruct (f o); cbn; rewrite IH; reflexivity.
Qed.
Lemma matcher_other sel os : (forall o, is_multiline o = true -> sel o = None) -> get_matcher sel (filter (fun o => negb (is_multiline o)) os) = get_matcher sel os.
Proof.
  intros H. unfold get_matcher. replace (flat_map (fun o => match sel o with Some cs => [cs] | None => [] end) (filter (fun o => negb (is_multiline o)) os))
    with (flat_map (fun o => match sel o with Some cs => [cs] | None => [] end) os); [reflexivity|].
  induction os as [|o os IH]; [reflexivity|]. cbn. destruct (is_multiline o) eqn:E; cbn; [rewrite (H _ E); exact IH|]. rewrite IH. reflexivity.
Qed.
Lemma no_multiline os : filter is_multiline (filter (fun o => negb (is_multiline o)) os) = [].
Proof. induction os as [|o os IH]; [reflexivity|]. cbn. destruct (is_multiline o) eqn:E; cbn; [exact IH|]. rewrite E. exact IH. Qed.
Lemma without_length os : length (filter (fun o => negb (is_multiline o)) os) + count is_multiline os = length os.
Proof. unfold count. induction os as [|o os IH]; [reflexivity|]. cbn. destruct (is_multiline o); cbn; lia. Qed.
(** So the header is split with the parser's setup without multiline. *)
Theorem C43_header_setup : forall os c, setup os = Some c -> (forall o, os = [o] -> is_multiline o = false) ->
  exists hos, header_options os = Some hos /\ setup hos = Some (header_cfg c).
Proof.
  intros os c E H. eexists. split; [apply C43_header_options; exact H|]. revert E. unfold setup.
  rewrite !matcher_other by (intros o; destruct o; cbn; congruence).
  destruct (get_matcher sel_quote os) as [q|]; [|discriminate]. destruct (get_matcher sel_escape os) as [e|]; [|discriminate].
  destruct (get_matcher sel_trim os) as [t|]; [|discriminate]. destruct (get_matcher sel_triml os) as [tl|]; [|discriminate]. destruct (get_matcher sel_trimr os) as [tr|]; [|discriminate].
  rewrite (count_other is_string_error), (count_other is_ignore_header), (count_other is_ignore_empty), (count_other is_throw), (count_other is_matcher) by (intros o; destruct o; cbn; congruence).
  assert (G : get_multiline (filter (fun o => negb (is_multiline o)) os) = (0, false)) by (unfold get_multiline; rewrite find_filter, no_multiline; reflexivity). rewrite G.
  assert (C0 : count is_multiline (filter (fun o => negb (is_multiline o)) os) = 0) by (unfold count; rewrite no_multiline; reflexivity). rewrite C0.
  destruct (get_multiline os) as [mls mlb]. cbv zeta. pose proof (without_length os) as WL.
  match goal with |- (if ?b then _ else _) = _ -> (if ?b' then _ else _) = _ => destruct b eqn:B; [|discriminate]; assert (B' : b' = true) end.
  { repeat (apply andb_prop in B as [B ?]). repeat (apply andb_true_intro; split); auto. apply Nat.eqb_eq. apply Nat.eqb_eq in H0. lia. }
  rewrite B'. intros X. injection X as <-. reflexivity.
Qed.
Print Assumptions C43_header_setup.

(** get_matcher (setup.hpp:102-124) as the template computes it: [None]: the static_assert fires; [Some None]: Matcher<'\0'>. *)
Fixpoint get_matcher_t (sel : opt -> option (list ascii)) (os : list opt) : option (option (list ascii)) :=
  match os with
  | [] => Some None
  | o :: os' =>
      match count_v (trait_of (fun o => match sel o with Some _ => true | None => false end)) (option_types os) with
      | Some n => if n <=? 1 then
                    match get_matcher_t sel os' with
                    | Some t => Some (match sel o with Some cs => Some cs | None => t end)
                    | None => None
                    end
                  else None
      | None => None
      end
  end.
Lemma picked_length sel os : length (filter (trait_of (fun o => match sel o with Some _ => true | None => false end)) (option_types os)) =
  length (flat_map (fun o => match sel o with Some cs => [cs] | None => [] end) os : list (list ascii)).
Proof. unfold option_types. induction os as [|o os IH]; [reflexivity|]. cbn. destruct (sel o); cbn; rewrite IH; reflexivity. Qed.
Theorem C43_get_matcher : forall sel os,
  get_matcher sel os = match get_matcher_t sel os with Some (Some cs) => norm_pack cs | Some None => Some [] | None => None end.
Proof.
  intros sel os. unfold get_matcher.
  assert (G : get_matcher_t sel os = match flat_map (fun o => match sel o with Some cs => [cs] | None => [] end) os with [] => Some None | [cs] => Some (Some cs) | _ => None end).
  { induction os as [|o os IH]; [reflexivity|]. cbn [get_matcher_t]. destruct (C43_counts (trait_of (fun o => match sel o with Some _ => true | None => false end)) (option_types (o :: os)) (options_simple _)) as [C _].
    rewrite C. rewrite picked_length. rewrite IH. cbn [flat_map]. destruct (sel o) as [cs|]; cbn [app length].
    - destruct (flat_map _ os) as [|x [|y l]]; reflexivity.
    - destruct (flat_map _ os) as [|x [|y l]]; reflexivity. }
  rewrite G. destruct (flat_map _ os) as [|x [|y l]]; reflexivity.
Qed.
Print Assumptions C43_get_matcher.

Example C43_example :
  let q := OQuote """"%char in let m := OMultiline 0 true in
  count_v (trait_of is_multiline) (option_types [q; m; OStringError]) = Some 1 /\
  filter_if (trait_of is_multiline) (option_types [q; m; OStringError]) = Some (Tup [Pl m]) /\
  header_options [q; m; OStringError] = Some [q; OStringError] /\ header_options [] = Some [] /\
  exists c, setup [q; m; OStringError] = Some c /\ c_ml c = true.
Proof. cbv zeta. repeat (split; [reflexivity|]). eexists. split; reflexivity. Qed.
Print Assumptions C43_example.
