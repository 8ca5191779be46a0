(** C56.  Callbacks of try_next, try_object, or_else and or_object: how they are invoked, what they may write, what happens if they
    use the parser; and composites that are kept. *)
From Verif Require Import Base Setup Splitter SplitApi Extract Converter ConvSpec Reader LineSpec LineProofs Parser ParserSpec ParserApi ConvProofs SessionApi SessionSpec PropSession Callbacks.

(** ** Which arguments *)
(** A callable with [n] parameters, all of which have to be given. *)
Definition fixed {P} (ps : list P) : signature := mkSig ps 0 None.

Lemma all_bind_spec {A P} (binds : A -> P -> bool) args : forall ps, all_bind binds args ps None = true -> length ps <= length args -> Forall2 (fun a p => binds a p = true) args ps.
Proof.
  induction args as [|a args IH]; intros [|p ps] H L; cbn in *; try constructor; try discriminate; try lia.
  - apply andb_prop in H. apply H.
  - apply IH; [apply andb_prop in H; apply H|lia].
Qed.
Lemma all_bind_complete {A P} (binds : A -> P -> bool) args ps : Forall2 (fun a p => binds a p = true) args ps -> all_bind binds args ps None = true.
Proof. induction 1 as [|a p args ps H K IH]; [reflexivity|]. cbn. rewrite H. exact IH. Qed.
Lemma fixed_invocable {A P} (binds : A -> P -> bool) args ps : is_invocable binds (fixed ps) args = true <-> Forall2 (fun a p => binds a p = true) args ps.
Proof.
  unfold is_invocable, fixed. cbn [sg_params sg_defaults sg_pack]. rewrite Nat.sub_0_r, andb_true_iff, Nat.leb_le. split.
  - intros [H K]. apply all_bind_spec; assumption.
  - intros H. split; [rewrite (Forall2_length H); lia|apply all_bind_complete; exact H].
Qed.

(** A callable with fixed parameters: none: it is called with nothing; one that takes the value as it is: it gets the value; as
    many as the value has elements, which they take: it gets the elements in their order.  In every other case the program does
    not compile. *)
Theorem C56_fixed_parameters : forall A P (binds : A -> P -> bool) whole els (ps : list P),
  let takes_whole := exists p, ps = [p] /\ binds whole p = true in
  let takes_each := exists ts, els = Some ts /\ Forall2 (fun a p => binds a p = true) ts ps in
  (invoke_form binds whole els (fixed ps) = Some Nothing <-> ps = []) /\
  (invoke_form binds whole els (fixed ps) = Some Whole <-> takes_whole) /\
  (invoke_form binds whole els (fixed ps) = Some LaidOut <-> ps <> [] /\ ~ takes_whole /\ takes_each) /\
  (invoke_form binds whole els (fixed ps) = None <-> ps <> [] /\ ~ takes_whole /\ ~ takes_each).
Proof.
  intros A P binds whole els ps takes_whole takes_each. unfold invoke_form.
  assert (N : is_invocable binds (fixed ps) [] = true <-> ps = []).
  { rewrite fixed_invocable. split; [intros H; inversion H; reflexivity|intros ->; constructor]. }
  assert (W : is_invocable binds (fixed ps) [whole] = true <-> takes_whole).
  { rewrite fixed_invocable. split.
    - intros H. inversion H as [|a p l l' H1 H2]; subst. inversion H2; subst. exists p. auto.
    - intros (p & -> & H). repeat constructor. exact H. }
  assert (NW : takes_whole -> ps <> []) by (intros (p & -> & _); discriminate).
  assert (E : match els with Some ts => is_invocable binds (fixed ps) ts | None => false end = true <-> takes_each).
  { unfold takes_each. destruct els as [ts|]; [rewrite fixed_invocable|].
    - split; [intros H; exists ts; auto|intros (ts' & H & K); injection H as ->; exact K].
    - split; [discriminate|intros (ts & H & _); discriminate]. }
  clearbody takes_whole takes_each.
  destruct (is_invocable binds (fixed ps) []) eqn:E0; [|destruct (is_invocable binds (fixed ps) [whole]) eqn:E1].
  - assert (ps = []) by (apply N; reflexivity). assert (~ takes_whole) by (intros X; apply (NW X); assumption).
    repeat (apply conj); try discriminate; intuition (try discriminate; auto).
  - assert (takes_whole) by (apply W; reflexivity). assert (ps <> []) by (apply NW; assumption).
    repeat (apply conj); try discriminate; intuition (try discriminate; auto).
  - assert (~ takes_whole) by (intros X; apply W in X; discriminate). assert (ps <> []) by (intros X; apply N in X; discriminate).
    destruct els as [ts|]; [destruct (is_invocable binds (fixed ps) ts) eqn:E2|].
    + assert takes_each by (apply E; reflexivity). repeat (apply conj); try discriminate; intuition (try discriminate; auto).
    + assert (~ takes_each) by (intros X; apply E in X; discriminate). repeat (apply conj); try discriminate; intuition (try discriminate; auto).
    + assert (~ takes_each) by (intros X; apply E in X; discriminate). repeat (apply conj); try discriminate; intuition (try discriminate; auto).
Qed.
Print Assumptions C56_fixed_parameters.

(** The call f(args...) is well formed: the first arguments are taken by the parameters, one each, a pack takes those that are left
    over, and no more parameters than those with a default argument stay without one. *)
Definition well_formed {A P} (binds : A -> P -> bool) (sg : @signature P) (args : list A) : Prop :=
  exists one_each rest, args = one_each ++ rest /\
    (exists taken spare, sg_params sg = taken ++ spare /\ Forall2 (fun a p => binds a p = true) one_each taken /\
       length spare <= sg_defaults sg /\ (rest <> [] -> spare = [])) /\
    (rest <> [] -> exists p, sg_pack sg = Some p /\ Forall (fun a => binds a p = true) rest).

Lemma pack_bind {A P} (binds : A -> P -> bool) args pack : all_bind binds args [] pack = true <-> (args <> [] -> exists p, pack = Some p /\ Forall (fun a => binds a p = true) args).
Proof.
  induction args as [|a args IH]; cbn [all_bind].
  - split; [intros _ H; contradiction|reflexivity].
  - destruct pack as [p|].
    + rewrite andb_true_iff, IH. split.
      * intros [H K] _. exists p. split; [reflexivity|]. constructor; [exact H|]. destruct args as [|b args]; [constructor|].
        destruct (K ltac:(discriminate)) as (p' & E & F). injection E as ->. exact F.
      * intros H. destruct (H ltac:(discriminate)) as (p' & E & F). injection E as <-. inversion F; subst. split; [assumption|]. intros _. exists p. auto.
    + split; [discriminate|]. intros H. destruct (H ltac:(discriminate)) as (p & E & _). discriminate.
Qed.
Lemma invocable_spec {A P} (binds : A -> P -> bool) (sg : signature) args : is_invocable binds sg args = true <-> well_formed binds sg args.
Proof.
  unfold is_invocable. rewrite andb_true_iff, Nat.leb_le. destruct sg as [ps d pack]. unfold well_formed. cbn [sg_params sg_defaults sg_pack]. split.
  - intros [L H].
    revert ps L H. induction args as [|a args IH]; intros ps L H.
    + exists [], []. split; [reflexivity|]. split; [|intros X; contradiction]. exists [], ps. split; [reflexivity|]. split; [constructor|]. split; [cbn in L; lia|intros X; contradiction].
    + destruct ps as [|p ps].
      * exists [], (a :: args). split; [reflexivity|]. split; [exists [], []; repeat (apply conj); auto; cbn; lia|]. apply pack_bind. exact H.
      * cbn [all_bind] in H. apply andb_prop in H. destruct H as [H K].
        destruct (IH ps ltac:(cbn [length] in L; lia) K) as (o & r & -> & (t & s & -> & F & D & S1) & R).
        exists (a :: o), r. split; [reflexivity|]. split; [|exact R]. exists (p :: t), s. split; [reflexivity|]. split; [constructor; assumption|]. auto.
  - intros (o & r & -> & (t & s & -> & F & D & S1) & R). split.
    + rewrite !app_length. pose proof (Forall2_length F). lia.
    + induction F as [|a p o t H F IH].
      * cbn [app]. destruct r as [|a r]; [destruct s; reflexivity|]. rewrite S1 by discriminate. apply pack_bind. exact R.
      * cbn [app all_bind]. rewrite H. exact IH.
Qed.

(** Any callable, with default arguments or a pack as well: it is called with nothing if it can be; else with the value, if it
    can be; else with the value's elements. *)
Theorem C56_any_parameters : forall A P (binds : A -> P -> bool) whole els (sg : signature),
  let can_each := exists ts, els = Some ts /\ well_formed binds sg ts in
  (invoke_form binds whole els sg = Some Nothing <-> well_formed binds sg []) /\
  (invoke_form binds whole els sg = Some Whole <-> ~ well_formed binds sg [] /\ well_formed binds sg [whole]) /\
  (invoke_form binds whole els sg = Some LaidOut <-> ~ well_formed binds sg [] /\ ~ well_formed binds sg [whole] /\ can_each) /\
  (invoke_form binds whole els sg = None <-> ~ well_formed binds sg [] /\ ~ well_formed binds sg [whole] /\ ~ can_each).
Proof.
  intros A P binds whole els sg can_each. unfold invoke_form.
  pose proof (invocable_spec binds sg []) as N. pose proof (invocable_spec binds sg [whole]) as W.
  assert (E : match els with Some ts => is_invocable binds sg ts | None => false end = true <-> can_each).
  { unfold can_each. destruct els as [ts|]; [rewrite invocable_spec|].
    - split; [intros H; exists ts; auto|intros (ts' & H & K); injection H as ->; exact K].
    - split; [discriminate|intros (ts & H & _); discriminate]. }
  clearbody can_each.
  destruct (is_invocable binds sg []) eqn:E0.
  { assert (well_formed binds sg []) by (apply N; reflexivity). repeat (apply conj); try discriminate; intuition (try discriminate; auto). }
  assert (~ well_formed binds sg []) by (intros X; apply N in X; discriminate).
  destruct (is_invocable binds sg [whole]) eqn:E1.
  { assert (well_formed binds sg [whole]) by (apply W; reflexivity). repeat (apply conj); try discriminate; intuition (try discriminate; auto). }
  assert (~ well_formed binds sg [whole]) by (intros X; apply W in X; discriminate).
  destruct els as [ts|]; [destruct (is_invocable binds sg ts) eqn:E2|].
  - assert can_each by (apply E; reflexivity). repeat (apply conj); try discriminate; intuition (try discriminate; auto).
  - assert (~ can_each) by (intros X; apply E in X; discriminate). repeat (apply conj); try discriminate; intuition (try discriminate; auto).
  - assert (~ can_each) by (intros X; apply E in X; discriminate). repeat (apply conj); try discriminate; intuition (try discriminate; auto).
Qed.
Print Assumptions C56_any_parameters.
(** [](auto const& first, auto const&... others) takes the whole tuple; [](int first, auto const&... others) takes its elements;
    numbers for types, a parameter 0 takes all. *)
Example C56_any_parameters_example :
  let binds := fun a p => (p =? 0) || (a =? p) in
  invoke_form binds 9 (Some [1; 2; 3]) (mkSig [0] 0 (Some 0)) = Some Whole /\
  invoke_form binds 9 (Some [1; 2; 3]) (mkSig [1] 0 (Some 0)) = Some LaidOut /\
  invoke_form binds 9 (Some [1; 2; 3]) (mkSig [1; 2; 3; 4] 1 None) = Some LaidOut /\
  invoke_form binds 9 (Some [1; 2; 3]) (mkSig [1] 0 (Some 2)) = None.
Proof. repeat split. Qed.

(** The README: a callback need not have arguments, but if it does, it gets the value.  Not if all its parameters have default
    arguments, or if it takes a pack of arguments: such a callable is always called with nothing. *)
Theorem C56_default_arguments_refuted : forall A P (binds : A -> P -> bool) whole els (sg : signature),
  invoke_form binds whole els sg = Some Nothing <-> length (sg_params sg) <= sg_defaults sg.
Proof.
  intros A P binds whole els sg. unfold invoke_form. unfold is_invocable at 1. cbn [length all_bind].
  rewrite andb_true_r. destruct (length (sg_params sg) - sg_defaults sg <=? 0) eqn:E.
  - split; [intros _; apply Nat.leb_le in E; lia|reflexivity].
  - apply Nat.leb_gt in E. split; [|lia].
    destruct (is_invocable binds sg [whole]); [discriminate|]. destruct els; [|discriminate]. destruct (is_invocable binds sg l); discriminate.
Qed.
Print Assumptions C56_default_arguments_refuted.

(** ** Callbacks that only look *)
Definition flat (v : result) : list slot := match v with RTuple l | RObject l => l | ROne x => [x] end.
Definition values_in (a : argument) : list slot := match a with GivenNothing => [] | GivenWhole v => flat v | GivenEach l => l end.
(** [f] decides by [g] on what it is given and changes nothing; Parser.v's [cb] is the same callback, the [i]th of its chain.  One
    without parameters decides the same way whatever the values are. *)
Inductive looks (i : nat) : option callable -> callback -> Prop :=
| lo_none : looks i None CbNone
| lo_void f g : cl_returns f = false -> (forall a, cl_body f a = SDone (a, g (values_in a))) -> looks i (Some f) (CbVoid i)
| lo_check f g : cl_returns f = true -> (forall a, cl_body f a = SDone (a, g (values_in a))) ->
    looks i (Some f) (CbCheck i (match cl_form f with Nothing => fun _ => g [] | _ => g end)).
Inductive link_looks (i : nat) : glink -> link -> Prop :=
| ll_else object es f cb : looks i f cb -> link_looks i (GElse object es f) (LElse es cb)
| ll_error : link_looks i GOnError (LOnError i).
(** LaidOut is compiled for tuples only. *)
Definition lays_out (object : bool) (es : list elem) (f : option callable) : Prop :=
  forall g, f = Some g -> cl_form g = LaidOut -> object = false /\ arity es <> 1.
Definition link_compiles (l : glink) : Prop := match l with GElse object es f => lays_out object es f | GOnError => True end.
Inductive links_look : nat -> list glink -> list link -> Prop :=
| lks_nil i : links_look i [] []
| lks_cons i g l gs ls : link_looks i g l -> link_compiles g -> links_look (S i) gs ls -> links_look i (g :: gs) (l :: ls).
(** What is told is what is logged. *)
Inductive told : happening -> event -> Prop :=
| to_nothing i xs : told (HInvoked i GivenNothing) (EvCall i xs)
| to_values i a : told (HInvoked i a) (EvCall i (values_in a))
| to_error i m : told (HError i m) (EvError i m).
(** Two outcomes that differ in how the values are packed only. *)
Inductive alike_outcome : res story (list (option result)) -> res chain (list (option (list slot))) -> Prop :=
| ao_ok vs q hs evs : Forall2 told hs evs -> alike_outcome (Ok vs (q, hs)) (Ok (map (option_map flat) vs) (q, evs))
| ao_throw m q hs evs : Forall2 told hs evs -> alike_outcome (Throw m (q, hs)) (Throw m (q, evs))
| ao_ub w : alike_outcome (UB w) (UB w)
| ao_fuel : alike_outcome OutOfFuel OutOfFuel.

Lemma flat_packed o es xs : flat (packed o es xs) = xs.
Proof.
  unfold packed, shape. destruct o; destruct xs as [|x [|y xs]]; try reflexivity; destruct (arity es =? 1); reflexivity.
Qed.
Lemma packed_tuple es xs : arity es <> 1 -> packed false es xs = RTuple xs.
Proof. intros H. unfold packed, shape. destruct xs as [|x [|y xs]]; try reflexivity. destruct (arity es =? 1) eqn:E; [apply Nat.eqb_eq in E; contradiction|reflexivity]. Qed.
Lemma pass_values f o es xs : (f = LaidOut -> o = false /\ arity es <> 1) -> f <> Nothing -> values_in (pass f (packed o es xs)) = xs.
Proof.
  intros H N. destruct f; [contradiction| |]; cbn [pass].
  - cbn [values_in]. apply flat_packed.
  - destruct (H eq_refl) as [-> A]. rewrite packed_tuple by exact A. reflexivity.
Qed.
Lemma told_invoked i f o es xs : (f = LaidOut -> o = false /\ arity es <> 1) -> told (HInvoked i (pass f (packed o es xs))) (EvCall i xs).
Proof.
  intros H. destruct f; [apply to_nothing| |].
  - pose proof (to_values i (pass Whole (packed o es xs))) as T. rewrite pass_values in T by (assumption || discriminate). exact T.
  - pose proof (to_values i (pass LaidOut (packed o es xs))) as T. rewrite pass_values in T by (assumption || discriminate). exact T.
Qed.
Lemma pass_written f v : written f v (pass f v) = v.
Proof. destruct f, v; reflexivity. Qed.

Section Look.
Context (c hc : cfg) (cap : nat -> nat -> nat) (moved : result -> result).
(** The state of both chains. *)
Definition twin (t : story) (u : chain) : Prop := fst t = fst u /\ Forall2 told (snd t) (snd u).
Inductive twins {A B} (R : A -> B -> Prop) : res story A -> res chain B -> Prop :=
| tw_ok a b t u : R a b -> twin t u -> twins R (Ok a t) (Ok b u)
| tw_throw m t u : twin t u -> twins R (Throw m t) (Throw m u)
| tw_ub w : twins R (UB w) (UB w)
| tw_fuel : twins R OutOfFuel OutOfFuel.
Lemma twins_bind {A B A' B'} (R : A -> B -> Prop) (R' : A' -> B' -> Prop) m n k l t u : twins R (m t) (n u) ->
  (forall a b t u, R a b -> twin t u -> twins R' (k a t) (l b u)) -> twins R' (bind m k t) (bind n l u).
Proof. intros H K. unfold bind. destruct H; try (constructor; assumption). apply K; assumption. Qed.
Lemma twins_prs {A} (m : M prs A) t u : twin t u -> twins eq (on_prs m t) (on_p m u).
Proof. intros [E F]. unfold on_prs, on_p, zoom. rewrite E. destruct (m (fst u)); constructor; try reflexivity; split; try reflexivity; exact F. Qed.
Lemma twins_told h e t u : told h e -> twin t u -> twins eq (tell h t) (log e u).
Proof. intros T [E F]. unfold tell, log, modify. constructor; [reflexivity|]. split; [exact E|]. apply Forall2_app; [exact F|]. constructor; [exact T|constructor]. Qed.
Lemma twins_get t u : twin t u -> twins twin (get t) (get u).
Proof. intros H. constructor; exact H. Qed.

Lemma twins_invoke i o es xs f cb t u : looks i f cb -> lays_out o es f -> twin t u ->
  twins (fun v _ => v = packed o es xs) (invoke_callback c hc cap i (packed o es xs) f t) (try_invoke c xs cb u).
Proof.
  intros L Y T. destruct L as [|f g Hr Hb|f g Hr Hb].
  - constructor; [reflexivity|exact T].
  - unfold invoke_callback, try_invoke, try_invoke_impl. unfold bind at 1 2, tell, modify. rewrite Hb. cbn [play]. unfold ret, bind. rewrite Hr. cbn [andb].
    constructor; [apply pass_written|].
    destruct T as [E F]. split; [exact E|]. apply Forall2_app; [exact F|]. constructor; [|constructor].
    apply told_invoked. intros X. exact (Y f eq_refl X).
  - unfold invoke_callback, try_invoke, try_invoke_impl. unfold bind at 1 2, tell, modify. rewrite Hb. cbn [play]. unfold ret at 1 2, bind at 1 2 3. rewrite Hr. cbn [andb].
    assert (EG : (match cl_form f with Nothing => fun _ => g [] | _ => g end) xs = g (values_in (pass (cl_form f) (packed o es xs)))).
    { destruct (cl_form f) eqn:Ef; [reflexivity| |]; rewrite pass_values; try reflexivity; try discriminate; intros X; try discriminate; exact (Y f eq_refl Ef). }
    assert (T' : twin (fst t, snd t ++ [HInvoked i (pass (cl_form f) (packed o es xs))]) (fst u, snd u ++ [EvCall i xs])).
    { destruct T as [E F]. split; [exact E|]. apply Forall2_app; [exact F|]. constructor; [|constructor].
      apply told_invoked. intros X. exact (Y f eq_refl X). }
    unfold bind, log, modify. cbn [fst snd]. rewrite EG. destruct (g (values_in (pass (cl_form f) (packed o es xs)))); cbn [negb].
    + unfold ret. constructor; [apply pass_written|exact T'].
    + destruct (twins_prs (p_error c msg_failed_check) _ _ T') as [a b t1 u1 _ T1|m t1 u1 T1|w|]; try (constructor; assumption).
      unfold ret. constructor; [apply pass_written|exact T1].
Qed.
Definition vals_alike (vs : list (option result)) (ws : list (option (list slot))) : Prop := ws = map (option_map flat) vs.
Lemma twins_try i o es f cb t u : looks i f cb -> lays_out o es f -> twin t u -> twins vals_alike (try_call c hc cap i o es f t) (try_next c cap es cb u).
Proof.
  intros L Y T. unfold try_call, try_next.
  eapply twins_bind; [apply twins_prs; exact T|]. intros xs ? t1 u1 <- T1.
  eapply twins_bind; [apply twins_get; exact T1|]. intros t2 u2 t3 u3 T2 T3.
  eapply (twins_bind (fun v _ => v = packed o es xs)).
  - destruct T2 as [-> _]. destruct (p_valid c (fst u2)); [apply twins_invoke; assumption|constructor; [reflexivity|exact T3]].
  - intros v ? t4 u4 -> T4. eapply twins_bind; [apply twins_get; exact T4|]. intros t5 u5 t6 u6 [E5 _] T6. unfold ret. constructor; [|exact T6].
    unfold vals_alike. rewrite E5. destruct (p_valid c (fst u5)); cbn; [rewrite flat_packed|]; reflexivity.
Qed.
Lemma twins_else i o vs ws es f cb t u : looks i f cb -> lays_out o es f -> twin t u -> vals_alike vs ws ->
  twins (fun a b => vals_alike (fst a) b) (else_call c hc cap moved i o vs es f t) (or_else c ws es cb u).
Proof.
  intros L Y T V. unfold else_call, or_else. eapply twins_bind; [apply twins_get; exact T|]. intros t1 u1 t2 u2 T1 T2.
  eapply (twins_bind (fun a b => b = option_map flat a)).
  - destruct T1 as [-> _]. destruct (p_valid c (fst u1)); [constructor; [reflexivity|exact T2]|].
    eapply twins_bind; [apply twins_prs; exact T2|]. intros xs ? t3 u3 <- T3. eapply twins_bind; [apply twins_get; exact T3|]. intros t4 u4 t5 u5 [-> _] T5.
    destruct (negb (p_valid c (fst u4))); [constructor; [reflexivity|exact T5]|].
    eapply twins_bind; [apply (twins_invoke i o es xs); eassumption|]. intros v ? t6 u6 -> T6. constructor; [cbn; rewrite flat_packed; reflexivity|exact T6].
  - intros a b t3 u3 -> T3. eapply twins_bind; [apply twins_get; exact T3|]. intros t4 u4 t5 u5 [-> _] T5. unfold ret. constructor; [|exact T5].
    unfold vals_alike in *. cbn [fst]. rewrite map_app, V. cbn [map]. destruct (p_valid c (fst u4)); reflexivity.
Qed.
Lemma twins_links : forall gs ls i vs ws t u, links_look i gs ls -> twin t u -> vals_alike vs ws -> twins vals_alike (links_call c hc cap moved i vs gs t) (follow_links c ws ls u).
Proof.
  intros gs ls i vs ws t u L. revert vs ws t u. induction L as [i|i g l gs ls LK LC L IH]; intros vs ws t u T V.
  - constructor; assumption.
  - destruct LK as [object es f cb LK|]; cbn [links_call follow_links].
    + eapply twins_bind; [apply twins_else; eassumption|]. intros [a b] ws' t1 u1 H T1. apply IH; [exact T1|exact H].
    + eapply (twins_bind (fun (a : list (option result)) (_ : unit) => a = vs)).
      * unfold error_call, on_error, bind, get. pose proof T as [E F]. rewrite E. destruct (p_valid c (fst u)) eqn:Ev; [unfold ret; constructor; [reflexivity|exact T]|].
        unfold tell, log, modify, ret. rewrite E. constructor; [reflexivity|]. split; [reflexivity|]. apply Forall2_app; [exact F|]. constructor; constructor.
      * intros a [] t1 u1 -> T1. apply IH; assumption.
Qed.
End Look.

(** A chain whose callbacks only look (whatever their parameters) is the chain of Parser.v: the same values, up to how they are
    packed, the same calls in the same order on the same values, and the same parser afterwards.  So all that is proved about
    chains (C37, C38, C41, C44, ...) holds of it.  What moved-from values are like plays no part. *)
Theorem C56_callbacks_that_look : forall c hc cap moved p object es f cb gs ls,
  looks 0 f cb -> lays_out object es f -> links_look 1 gs ls ->
  alike_outcome (chain_of c hc cap moved object es f gs (p, [])) (chain_call c cap es cb ls (p, [])).
Proof.
  intros c hc cap moved p object es f cb gs ls L Y LS.
  assert (H : twins vals_alike (chain_of c hc cap moved object es f gs (p, [])) (chain_call c cap es cb ls (p, []))).
  { unfold chain_of, chain_call. eapply twins_bind; [apply twins_try; [exact L|exact Y|split; [reflexivity|constructor]]|].
    intros vs ws t u V T. apply twins_links; assumption. }
  destruct H as [vs ws [q hs] [q' evs] V [E F]|m [q hs] [q' evs] [E F]|w|]; try constructor; cbn in E; subst q'.
  - rewrite V. constructor. exact F.
  - constructor. exact F.
Qed.
Print Assumptions C56_callbacks_that_look.

(** ** Callbacks that write, and callbacks that use the parser *)
(** A script, given the replies [ys] to its calls [ks], comes to [b]; all its calls compile. *)
Inductive runs {B} : script B -> list call -> list reply -> B -> Prop :=
| ru_done b : runs (SDone b) [] [] b
| ru_call k next y ks ys b : runs (next y) ks ys b -> runs (SCall k next) (k :: ks) (y :: ys) b.
Inductive script_ok {B} : script B -> Prop :=
| so_done b : script_ok (SDone b)
| so_call k next : call_ok k -> (forall y, script_ok (next y)) -> script_ok (SCall k next).
Definition exchanges (ks : list call) (ys : list reply) : list happening := map (fun ky => HCall (fst ky) (snd ky)) (combine ks ys).
(** The value once the callback has run: as it left it, if it was given it. *)
Definition left_as (f : form) (v : result) (a : argument) : result :=
  match f with Nothing => v | Whole => match a with GivenWhole v' => v' | _ => v end | LaidOut => match a with GivenEach l => RTuple l | _ => v end end.

Section Use.
Context (c hc : cfg) (cap : nat -> nat -> nat).
Lemma play_spec {B} (s : script B) : script_ok s -> forall p l, exists ks b,
  runs s ks (replies c hc cap p ks) b /\ Forall call_ok ks /\ play c hc cap s (p, l) = Ok b (later c hc cap p ks, l ++ exchanges ks (replies c hc cap p ks)).
Proof.
  induction 1 as [b|k next Hk _ IH]; intros p l.
  - exists [], b. split; [constructor|]. split; [constructor|]. cbn. rewrite app_nil_r. reflexivity.
  - destruct (do_call c hc cap p k) as [y q] eqn:E. destruct (IH y q (l ++ [HCall k y])) as (ks & b & R & W & P).
    exists (k :: ks), b. cbn [replies later]. rewrite E. cbn [fst snd]. split; [constructor; exact R|]. split; [constructor; assumption|].
    cbn [play fst snd]. rewrite E, P. unfold exchanges. cbn [combine map fst snd]. rewrite <- app_assoc. reflexivity.
Qed.
Lemma later_app p ks ks' : later c hc cap p (ks ++ ks') = later c hc cap (later c hc cap p ks) ks'.
Proof. revert p. induction ks as [|k ks IH]; intros p; [reflexivity|]. cbn. apply IH. Qed.
Lemma given_slots xs : forall vs, given xs = Some vs -> xs = map Some vs.
Proof.
  induction xs as [|[x|] xs IH]; intros vs H; cbn in H; try discriminate; [injection H as <-; reflexivity|].
  destruct (given xs) as [l|]; [|discriminate]. injection H as <-. cbn. rewrite (IH l eq_refl). reflexivity.
Qed.
End Use.

(** A row that get_next<Ts...> would deliver, with try_next<Ts...>(f) (try_object if [object]) in its place: [f] is called once,
    with the values as C56_fixed_parameters says.  The calls it makes on the parser are answered as the same calls after that
    get_next: by the rows that follow, each once and in order (C44).  Afterwards the parser is where those calls have left it;
    the composite holds the values as [f] left them, provided [f] does not refuse them and its own last call was successful. *)
Theorem C56_using_the_parser : forall c hc cap d data name h p v ks, fit c d -> enough cap -> header_setup c hc -> c_mode c <> EThrow ->
  session c cap d data name h p v -> Forall call_ok ks ->
  forall object es f vs, types es -> lays_out object es (Some f) -> (forall a, script_ok (cl_body f a)) ->
  fst (do_call c hc cap (later c hc cap p ks) (CGet es)) = YGet (GValues vs) ->
  let value := packed object es (map Some vs) in
  let row_read := later c hc cap p (ks ++ [CGet es]) in
  exists calls a b q,
    let answers := replies c hc cap row_read calls in
    runs (cl_body f (pass (cl_form f) value)) calls answers (a, b) /\
    conforms c hc d name h v (ks ++ CGet es :: calls) (replies c hc cap p (ks ++ CGet es :: calls)) /\
    try_call c hc cap 0 object es (Some f) (later c hc cap p ks, []) =
      Ok [if p_valid c q then Some (left_as (cl_form f) value a) else None]
         (q, HInvoked 0 (pass (cl_form f) value) :: exchanges calls answers) /\
    let q0 := later c hc cap p (ks ++ CGet es :: calls) in
    if cl_returns f && negb b then p_valid c q = false /\ exists e, q = pset_err e q0 else q = q0.
Proof.
  intros c hc cap d data name h p v ks F Hcap HS Hm SE W object es f vs Wt Y SO G value row_read.
  cbn [do_call fst] in G. set (q := later c hc cap p ks) in *.
  destruct (get_next c cap es q) as [xs q1|m q1|w|] eqn:EG; cbn [get_obs] in G; try discriminate.
  destruct (p_valid c q1) eqn:Ev; [|discriminate]. destruct (given xs) as [l|] eqn:El; [|discriminate]. injection G as ->. apply given_slots in El. subst xs.
  assert (ER : row_read = q1).
  { unfold row_read. rewrite later_app. cbn [later]. fold q. cbn [do_call snd]. rewrite EG. reflexivity. }
  destruct (play_spec c hc cap (cl_body f (pass (cl_form f) value)) (SO _) q1 [HInvoked 0 (pass (cl_form f) value)]) as (calls & [a b] & R & WC & P).
  exists calls, a, b. rewrite ER.
  assert (E0 : later c hc cap p (ks ++ CGet es :: calls) = later c hc cap q1 calls).
  { rewrite later_app. fold q. cbn [later]. cbn [do_call snd]. rewrite EG. reflexivity. }
  assert (CF : conforms c hc d name h v (ks ++ CGet es :: calls) (replies c hc cap p (ks ++ CGet es :: calls))).
  { apply C44_sessions_conform with (data := data); try assumption. apply Forall_app. split; [exact W|]. constructor; [exact Wt|exact WC]. }
  rewrite E0. set (q2 := later c hc cap q1 calls) in *.
  assert (ET : exists val, try_call c hc cap 0 object es (Some f) (q, []) =
     (t <- (fun s : story => (if cl_returns f && negb b then on_prs (p_error c msg_failed_check) else ret tt) s) ;; t0 <- get ;; ret [if p_valid c (fst t0) then Some val else None])%monad
       (q2, [HInvoked 0 (pass (cl_form f) value)] ++ exchanges calls (replies c hc cap q1 calls)) /\
     val = written (cl_form f) value a).
  { eexists. split; [|reflexivity]. unfold try_call, bind at 1, on_prs at 1, zoom. cbn [fst snd]. rewrite EG. unfold bind at 1, get at 1. cbn [fst]. rewrite Ev.
    fold value. unfold invoke_callback, try_invoke_impl, tell, modify. unfold bind. cbn [fst snd app]. rewrite P. unfold ret at 1.
    cbn [app]. destruct (cl_returns f && negb b).
    - destruct (on_prs (p_error c msg_failed_check) (q2, HInvoked 0 (pass (cl_form f) value) :: exchanges calls (replies c hc cap q1 calls))); reflexivity.
    - reflexivity. }
  destruct ET as (val & ET & EV).
  assert (EL : val = left_as (cl_form f) value a).
  { rewrite EV. destruct (cl_form f) eqn:Ef; [reflexivity| |]; cbn [left_as written]; [reflexivity|].
    destruct (Y f eq_refl Ef) as [-> A]. unfold value. rewrite packed_tuple by exact A. destruct a; reflexivity. }
  rewrite EL in ET. clear EL EV val. unfold bind at 1 in ET. destruct (cl_returns f && negb b).
  - unfold on_prs, zoom, p_error, bind, get in ET. cbn [fst snd] in ET.
    assert (PE : exists e, (match c_mode c with EString => pupd (pset_err (match msg_failed_check q2 with [] => None | m => Some m end)) | EThrow => throw (msg_failed_check q2) | EBool => pupd (pset_err (Some [])) end) q2 = Ok tt (pset_err (Some e) q2)).
    { unfold pupd, modify. destruct (c_mode c); [eexists; reflexivity| |contradiction].
      assert (N : msg_failed_check q2 <> []) by (unfold msg_failed_check; destruct (p_name q2); discriminate).
      destruct (msg_failed_check q2) as [|x y]; [contradiction|]. eexists. reflexivity. }
    destruct PE as (e & PE). rewrite PE in ET. cbn [fst snd] in ET. exists (pset_err (Some e) q2).
    assert (V : p_valid c (pset_err (Some e) q2) = false) by (unfold p_valid, err_valid; cbn; destruct (c_mode c); try reflexivity; contradiction).
    split; [exact R|]. split; [exact CF|]. split; [exact ET|]. split; [exact V|]. exists (Some e). reflexivity.
  - exists q2. split; [exact R|]. split; [exact CF|]. split; [exact ET|reflexivity].
Qed.
Print Assumptions C56_using_the_parser.

(** A row that get_next<Ts...> reports as an error: the callback is not called. *)
Theorem C56_not_called : forall c hc cap p object es f msg i l, c_mode c <> EThrow ->
  fst (do_call c hc cap p (CGet es)) = YGet (GError msg) ->
  try_call c hc cap i object es f (p, l) = Ok [None] (snd (do_call c hc cap p (CGet es)), l) /\
  p_valid c (snd (do_call c hc cap p (CGet es))) = false.
Proof.
  intros c hc cap p object es f msg i l Hm G. cbn [do_call fst snd] in *. unfold try_call, bind, on_prs, zoom, get. cbn [fst snd].
  destruct (get_next c cap es p) as [xs q|m q|w|]; cbn [get_obs after] in *; try discriminate.
  destruct (p_valid c q) eqn:V; [destruct (given xs); discriminate|]. cbn [fst]. unfold ret. cbn [fst]. rewrite V. cbn. rewrite V. auto.
Qed.
Print Assumptions C56_not_called.

(** or_else, from any state: nothing is done if the parser is valid; otherwise the row is converted again, and the callback is
    called once, and only if that was successful, with the values it was converted to. *)
Theorem C56_or_else : forall c hc cap moved i object values es f p l, (forall a, script_ok (cl_body f a)) -> lays_out object es (Some f) -> c_mode c <> EThrow ->
  let call := else_call c hc cap moved i object values es (Some f) (p, l) in
  let kept := map (option_map moved) values in
  (p_valid c p = true -> call = Ok (values ++ [None], kept) (p, l)) /\
  (p_valid c p = false -> forall xs q, try_same c es p = Ok xs q ->
    (p_valid c q = false -> call = Ok (values ++ [None], kept) (q, l)) /\
    (p_valid c q = true ->
      let value := packed object es xs in
      exists calls a b q',
        let answers := replies c hc cap q calls in
        runs (cl_body f (pass (cl_form f) value)) calls answers (a, b) /\
        call = Ok (values ++ [if p_valid c q' then Some (left_as (cl_form f) value a) else None], kept)
                  (q', l ++ HInvoked i (pass (cl_form f) value) :: exchanges calls answers) /\
        let q0 := later c hc cap q calls in
        if cl_returns f && negb b then p_valid c q' = false /\ exists e, q' = pset_err e q0 else q' = q0)).
Proof.
  intros c hc cap moved i object values es f p l SO Y Hm call kept. split.
  - intros V. unfold call, else_call, bind, get, ret. cbn [fst]. rewrite V. cbn [fst]. rewrite V. reflexivity.
  - intros V xs q ES.
    assert (EC : call = (value <- (t <- get ;; if negb (p_valid c (fst t)) then ret None else v <- invoke_callback c hc cap i (packed object es xs) (Some f) ;; ret (Some v)) ;;
                          t <- get ;; ret (values ++ [if p_valid c (fst t) then value else None], kept))%monad (q, l)).
    { unfold call, else_call. unfold bind at 1, get at 1. cbn [fst]. rewrite V. unfold bind at 1 2. unfold on_prs at 1, zoom. cbn [fst snd]. rewrite ES. reflexivity. }
    rewrite EC. clear EC call. split.
    + intros V2. unfold bind, get, ret. cbn [fst]. rewrite V2. cbn [negb fst]. rewrite V2. reflexivity.
    + intros V2 value.
      destruct (play_spec c hc cap (cl_body f (pass (cl_form f) value)) (SO _) q (l ++ [HInvoked i (pass (cl_form f) value)])) as (calls & [a b] & R & WC & P).
      exists calls, a, b.
      assert (EL : written (cl_form f) value a = left_as (cl_form f) value a).
      { destruct (cl_form f) eqn:Ef; [reflexivity| |]; cbn [left_as written]; [reflexivity|].
        destruct (Y f eq_refl Ef) as [-> A]. unfold value. rewrite packed_tuple by exact A. destruct a; reflexivity. }
      set (q2 := later c hc cap q calls) in *. set (ans := replies c hc cap q calls) in *.
      match goal with |- exists q' : prs, let answers := _ in runs _ _ _ _ /\ ?lhs = _ /\ _ =>
        assert (EC : lhs = (_ <- (if cl_returns f && negb b then on_prs (p_error c msg_failed_check) else ret tt) ;; t <- get ;;
           ret (values ++ [if p_valid c (fst t) then Some (left_as (cl_form f) value a) else None], kept))%monad (q2, l ++ HInvoked i (pass (cl_form f) value) :: exchanges calls ans)) end.
      { unfold bind at 1 2, get at 1. cbn [fst]. rewrite V2. cbn [negb]. fold value.
        unfold invoke_callback, try_invoke_impl, tell, modify. unfold bind. cbn [fst snd]. rewrite P. unfold ret at 1. rewrite EL.
        rewrite <- app_assoc. cbn [app]. destruct (cl_returns f && negb b).
        - destruct (on_prs (p_error c msg_failed_check) (q2, l ++ HInvoked i (pass (cl_form f) value) :: exchanges calls ans)); reflexivity.
        - reflexivity. }
      rewrite EC. clear EC. destruct (cl_returns f && negb b).
      * unfold on_prs, zoom, p_error. unfold bind, get. cbn [fst snd].
        assert (PE : exists e, (match c_mode c with EString => pupd (pset_err (match msg_failed_check q2 with [] => None | m => Some m end)) | EThrow => throw (msg_failed_check q2) | EBool => pupd (pset_err (Some [])) end) q2 = Ok tt (pset_err (Some e) q2)).
        { unfold pupd, modify. destruct (c_mode c); [eexists; reflexivity| |contradiction].
          assert (N : msg_failed_check q2 <> []) by (unfold msg_failed_check; destruct (p_name q2); discriminate).
          destruct (msg_failed_check q2) as [|x y]; [contradiction|]. eexists. reflexivity. }
        destruct PE as (e & PE). exists (pset_err (Some e) q2). rewrite PE. cbn [fst snd].
        assert (VF : p_valid c (pset_err (Some e) q2) = false) by (unfold p_valid, err_valid; cbn; destruct (c_mode c); try reflexivity; contradiction).
        split; [exact R|]. split; [unfold ret; cbn [fst]; reflexivity|]. split; [exact VF|]. exists (Some e). reflexivity.
      * exists q2. split; [exact R|]. split; [unfold bind, get, ret; cbn [fst]; reflexivity|]. reflexivity.
Qed.
Print Assumptions C56_or_else.

(** Chaining never shows a moved-from value, whatever the callbacks do. *)
Theorem C56_chained_values : forall c hc cap moved moved' object es f gs t,
  chain_of c hc cap moved object es f gs t = chain_of c hc cap moved' object es f gs t.
Proof.
  intros c hc cap moved moved' object es f gs t. unfold chain_of, bind. destruct (try_call c hc cap 0 object es f t) as [vs u|m u|w|]; try reflexivity.
  generalize 1. revert vs u. induction gs as [|[o es' f'|] gs IH]; intros vs u i; [reflexivity| |]; cbn [links_call].
  - unfold else_call. unfold bind, get, ret. cbn [fst].
    destruct (p_valid c (fst u)); [|destruct (on_prs (try_same c es') u) as [xs u1|m u1|w|]; try reflexivity; destruct (negb (p_valid c (fst u1))); [|destruct (invoke_callback c hc cap i (packed o es' xs) f' u1) as [x u2|m u2|w|]; try reflexivity]]; apply IH.
  - unfold bind. destruct (error_call c i vs u) as [x u2|m u2|w|]; try reflexivity. apply IH.
Qed.
Print Assumptions C56_chained_values.


(** ** Examples *)
Definition cb_cfg : cfg := mkCfg None [] [] [] false 0 EString false false.
Definition cb_cap (_ need : nat) : nat := need.
Definition int_t : elem := EVal (TInt (mkIty true 32)).
Definition cb_data : str := S2 "1,2" ++ [LF] ++ S2 "3,4" ++ [LF] ++ S2 "x,y".
Definition chain_shown (o : res story (list (option result))) : option (list (option result) * list happening * bool * bool) :=
  match o with Ok vs (p, l) => Some (vs, l, p_valid cb_cfg p, p_eof p) | _ => None end.
Definition num (z : Z) : slot := Some (VInt z).
(** [](int& a, int& b) { a += 10; }: the value is written through the reference. *)
Definition adds : callable := mkCallable LaidOut false (fun a => SDone (match a with GivenEach (Some (VInt z) :: l) => (GivenEach (num (z + 10) :: l), true) | _ => (a, true) end)).
(** [&](const auto& row) { return p.get_next<int, int>() == ...; }: reads the next row, and says whether it begins with 3. *)
Definition reads_on : callable := mkCallable Whole true (fun a => SCall (CGet [int_t; int_t]) (fun y => SDone (a, match y with YGet (GValues (VInt z :: _)) => Z.eqb z 3 | _ => false end))).
Theorem C56_example : exists p, opened cb_cfg cb_cap (S2 ",") cb_data (S2 "f") p /\ session cb_cfg cb_cap (S2 ",") cb_data (S2 "f") (S2 "1,2") p (mkView 0 [(S2 "1,2", [LF]); (S2 "3,4", [LF]); (S2 "x,y", [])] false [] 0 []) /\
  lays_out false [int_t; int_t] (Some adds) /\ (forall a, script_ok (cl_body reads_on a)) /\
  chain_shown (chain_of cb_cfg cb_cfg cb_cap (fun v => v) false [int_t; int_t] (Some adds) [] (p, [])) =
    Some ([Some (RTuple [num 11; num 2])], [HInvoked 0 (GivenEach [num 1; num 2])], true, false) /\
  chain_shown (chain_of cb_cfg cb_cfg cb_cap (fun v => v) true [int_t; int_t] (Some reads_on) [] (p, [])) =
    Some ([Some (RObject [num 1; num 2])], [HInvoked 0 (GivenWhole (RObject [num 1; num 2])); HCall (CGet [int_t; int_t]) (YGet (GValues [VInt 3; VInt 4]))], true, false).
Proof.
  eexists. split; [apply op_file; vm_compute; reflexivity|]. split; [|split; [|split; [|split; vm_compute; reflexivity]]].
  - assert (B : forall ls, blanks cb_cfg ls 0 ls) by (intros ls; apply bl_none; discriminate).
    assert (E : lines cb_data = [(S2 "1,2", [LF]); (S2 "3,4", [LF]); (S2 "x,y", [])]) by (vm_compute; reflexivity). rewrite <- E.
    apply (se cb_cfg cb_cap (S2 ",") cb_data (S2 "f") (S2 "1,2") _ 0 (lines cb_data)); [apply op_file; vm_compute; reflexivity|vm_compute; intuition discriminate| |discriminate|].
    + eapply st_all; [reflexivity|apply lines_physical|apply B].
    + eapply hl_line; [apply lines_physical|]. rewrite E. apply B.
  - intros g E _. split; [reflexivity|discriminate].
  - intros a. constructor; [|intros y; constructor]. cbn [call_ok]. unfold types. repeat (split || constructor || discriminate).
Qed.
Print Assumptions C56_example.

(** If the callback reads on, and the last row it reads is an error, the composite has no value although the conversion was
    successful and the callback did not refuse it; or_else then converts the row the callback read. *)
Definition reads_two : callable := mkCallable Nothing false (fun a => SCall (CGet [int_t; int_t]) (fun _ => SCall (CGet [int_t; int_t]) (fun _ => SDone (a, true)))).
Theorem C56_reading_on_refuted : exists p, opened cb_cfg cb_cap (S2 ",") cb_data (S2 "f") p /\
  let text := EVal TString in
  chain_shown (chain_of cb_cfg cb_cfg cb_cap (fun v => v) false [int_t; int_t] (Some reads_two) [GElse false [text; text] None] (p, [])) =
    Some ([None; Some (RTuple [Some (VStr (S2 "x")); Some (VStr (S2 "y"))])],
          [HInvoked 0 GivenNothing; HCall (CGet [int_t; int_t]) (YGet (GValues [VInt 3; VInt 4]));
           HCall (CGet [int_t; int_t]) (YGet (GError (S2 "f 3: invalid conversion for parameter at column 1: 'x'")))], true, true).
Proof. eexists. split; [apply op_file; vm_compute; reflexivity|]. vm_compute. reflexivity. Qed.
Print Assumptions C56_reading_on_refuted.

(** A composite that is kept while or_else is called on it has lost its values if they can be moved from (strings); on_error
    does not do that. *)
Theorem C56_kept_composite_refuted : forall c hc cap moved i object values es f t vs old t',
  else_call c hc cap moved i object values es f t = Ok (vs, old) t' -> firstn (length values) vs = values /\ old = map (option_map moved) values.
Proof.
  intros c hc cap moved i object values es f t vs old t' H. unfold else_call in H. unfold bind at 1, get at 1 in H. cbn in H.
  unfold bind at 1 in H.
  match type of H with match ?o with _ => _ end = _ => destruct o as [value u|m u|w|] end; try discriminate.
  unfold bind, get, ret in H. injection H as <- <- _. split; [|reflexivity]. rewrite firstn_app, Nat.sub_diag, firstn_all. apply app_nil_r.
Qed.
Print Assumptions C56_kept_composite_refuted.
