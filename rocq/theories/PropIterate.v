(** C39: iterate<Ts...>() and iterate_object<T, Ts...>(). *)
From Verif Require Import Base Setup SetupProofs Splitter SplitPure ListFacts Extract Converter ConvProofs ConvTheorems Reader LineSpec Parser ParserSpec ParserApi ParserInv ParserRows ParserOpen ParserSession ParserFacts PropParser SessionApi SessionSpec SafeProofs PropSafe.
Local Open Scope monad_scope.

(** Specification:  while (!p.eof()) { auto v = p.get_next<Ts...>(); body(v) }, where [body] may use the parser and any
    other state ([W]), and says false to break out of the loop; an exception from either ends it. *)
Fixpoint while_not_eof {A W} (next : M prs A) (body : A -> M (prs * W) bool) (fuel : nat) : M (prs * W) unit :=
  match fuel with
  | 0 => fun _ => OutOfFuel
  | S f =>
      t <- get ;;
      if p_eof (fst t) then ret tt
      else v <- zoom fst (fun p t => (p, snd t)) next ;;
           go_on <- body v ;;
           if go_on : bool then while_not_eof next body f else ret tt
  end.

Section L.
Context {A W : Type} (next : M prs A) (zero : A) (body : A -> M (prs * W) bool).
Lemma iter_one f v0 s :
  bind (on_parser (iter_next next (mkI true v0))) (iter_loop next zero body (S f)) s =
  (if p_eof (fst s) then Ok tt s
   else match next (fst s) with
        | Ok v p => match body v (p, snd s) with
                    | Ok true s' => bind (on_parser (iter_next next (mkI true v))) (iter_loop next zero body f) s'
                    | Ok false s' => Ok tt s'
                    | Throw e s' => Throw e s' | UB w => UB w | OutOfFuel => OutOfFuel
                    end
        | Throw e p => Throw e (p, snd s) | UB w => UB w | OutOfFuel => OutOfFuel
        end).
Proof.
  destruct s as [p w]. cbn [fst snd]. unfold bind at 1, on_parser at 1, zoom at 1. cbn [fst snd]. unfold iter_next at 1. cbn [i_live i_value negb orb]. unfold bind at 1, get at 1.
  destruct (p_eof p); [cbn; reflexivity|]. unfold bind at 1, ret at 1. destruct (next p) as [v p'| | |]; try reflexivity.
  cbn [iter_loop]. unfold iter_equal, iter_end. cbn [i_live negb andb i_value]. unfold bind at 1. destruct (body v (p', w)) as [[|] s'| | |]; reflexivity.
Qed.
Lemma while_one f s : while_not_eof next body (S f) s =
  (if p_eof (fst s) then Ok tt s
   else match next (fst s) with
        | Ok v p => match body v (p, snd s) with
                    | Ok true s' => while_not_eof next body f s'
                    | Ok false s' => Ok tt s'
                    | Throw e s' => Throw e s' | UB w => UB w | OutOfFuel => OutOfFuel
                    end
        | Throw e p => Throw e (p, snd s) | UB w => UB w | OutOfFuel => OutOfFuel
        end).
Proof.
  destruct s as [p w]. cbn [fst snd while_not_eof]. unfold bind at 1, get at 1. cbn [fst]. destruct (p_eof p); [reflexivity|].
  unfold bind at 1, zoom at 1. cbn [fst snd]. destruct (next p) as [v p'| | |]; try reflexivity. unfold bind. destruct (body v (p', w)) as [[|] s'| | |]; reflexivity.
Qed.
Lemma loop_eq : forall f v0 s, while_not_eof next body f s <> OutOfFuel ->
  bind (on_parser (iter_next next (mkI true v0))) (iter_loop next zero body f) s = while_not_eof next body f s.
Proof.
  induction f as [|f IH]; intros v0 s H; [cbn in H; congruence|]. rewrite iter_one. rewrite while_one in H |- *. destruct (p_eof (fst s)); [reflexivity|].
  destruct (next (fst s)) as [v p| | |]; try reflexivity. destruct (body v (p, snd s)) as [[|] s'| | |]; try reflexivity. apply IH. exact H.
Qed.
Lemma loop_back : forall f v0 s, bind (on_parser (iter_next next (mkI true v0))) (iter_loop next zero body f) s <> OutOfFuel ->
  while_not_eof next body (S f) s = bind (on_parser (iter_next next (mkI true v0))) (iter_loop next zero body f) s.
Proof.
  induction f as [|f IH]; intros v0 s H.
  - destruct s as [p w].
    assert (EQ : bind (on_parser (iter_next next (mkI true v0))) (iter_loop next zero body 0) (p, w) =
      if p_eof p then OutOfFuel else match next p with Ok _ _ => OutOfFuel | Throw e p' => Throw e (p', w) | UB x => UB x | OutOfFuel => OutOfFuel end).
    { unfold bind at 1, on_parser at 1, zoom at 1. cbn [fst snd]. unfold iter_next at 1. cbn [i_live i_value negb orb]. unfold bind at 1, get at 1.
      destruct (p_eof p); [reflexivity|]. unfold bind at 1, ret at 1. destruct (next p); reflexivity. }
    rewrite EQ in H |- *. rewrite while_one. cbn [fst snd]. destruct (p_eof p); [congruence|]. destruct (next p); congruence.
  - rewrite while_one. rewrite iter_one in H |- *. destruct (p_eof (fst s)); [reflexivity|].
    destruct (next (fst s)) as [v p| | |]; try reflexivity. destruct (body v (p, snd s)) as [[|] s'| | |]; try reflexivity. apply IH. exact H.
Qed.
Lemma range_eq fuel s :
  (while_not_eof next body fuel s <> OutOfFuel -> range_for next zero body fuel s = while_not_eof next body fuel s) /\
  (range_for next zero body fuel s <> OutOfFuel -> while_not_eof next body (S fuel) s = range_for next zero body fuel s).
Proof. split; [apply loop_eq|apply loop_back]. Qed.
End L.

(** C39.  For every parser state, types, body and loop bound: whenever one of the two loops has ended within the bound, so
    has the other (within the same bound, or one more), with the same effects and the same exception. *)
Theorem C39_iterate_is_the_get_next_loop : forall c cap W ts (body : result -> M (prs * W) bool) fuel s,
  (while_not_eof (get_next_as c cap ts) body fuel s <> OutOfFuel ->
   iterate c cap ts body fuel s = while_not_eof (get_next_as c cap ts) body fuel s) /\
  (iterate c cap ts body fuel s <> OutOfFuel ->
   while_not_eof (get_next_as c cap ts) body (S fuel) s = iterate c cap ts body fuel s).
Proof. intros. apply range_eq. Qed.
Print Assumptions C39_iterate_is_the_get_next_loop.
Theorem C39_iterate_object_is_the_get_object_loop : forall c cap W ts (body : result -> M (prs * W) bool) fuel s,
  (while_not_eof (get_object c cap ts) body fuel s <> OutOfFuel ->
   iterate_object c cap ts body fuel s = while_not_eof (get_object c cap ts) body fuel s) /\
  (iterate_object c cap ts body fuel s <> OutOfFuel ->
   while_not_eof (get_object c cap ts) body (S fuel) s = iterate_object c cap ts body fuel s).
Proof. intros. apply range_eq. Qed.
Print Assumptions C39_iterate_object_is_the_get_object_loop.

(** A body that uses the parser only through its public calls (which ones may depend on everything). *)
Definition through_calls {A W} (c hc : cfg) (cap : nat -> nat -> nat) (body : A -> M (prs * W) bool) : Prop :=
  forall v p w, exists ks w', Forall call_ok ks /\ all_covered c hc cap p ks /\
    ((exists go_on, body v (p, w) = Ok go_on (later c hc cap p ks, w')) \/ (exists e, body v (p, w) = Throw e (later c hc cap p ks, w'))).
Definition finished {S A} (o : res S A) : Prop := match o with Ok _ _ | Throw _ _ => True | _ => False end.

Section T.
Context (c hc : cfg) (d : str) (cap : nat -> nat -> nat).
Context (Hc : cfg_ok c) (Hd : nulfree d) (Hcap : enough cap) (HS : header_setup c hc).
Lemma sinv_tight n p : sinv c d n p -> sinv c d (left_over p) p.
Proof. intros (A & B & _). split; [exact A|]. split; [exact B|]. apply le_n. Qed.
Lemma later_safe n : forall ks p, Forall call_ok ks -> all_covered c hc cap p ks -> sinv c d n p -> sinv c d n (later c hc cap p ks).
Proof.
  induction ks as [|k ks IH]; intros p KO KP SI; [exact SI|]. inversion KO; subst. destruct KP as [KP1 KP2]. cbn [later].
  apply IH; [assumption|assumption|]. apply (call_safe c hc d cap n Hc Hd Hcap HS k p); [apply now_permitted|..]; assumption.
Qed.
Lemma while_ends {A W} (next : M prs A) (body : A -> M (prs * W) bool) :
  (forall n p, sinv c d n p -> p_eof p = false -> finished (next p) /\ sinv c d n (after p (next p)) /\ left_over (after p (next p)) < left_over p) ->
  through_calls c hc cap body -> forall fuel p w, sinv c d (left_over p) p -> left_over p < fuel -> finished (while_not_eof next body fuel (p, w)).
Proof.
  intros HN HB. induction fuel as [|f IH]; intros p w SI HL; [lia|]. rewrite while_one. cbn [fst snd]. destruct (p_eof p) eqn:He; [exact Logic.I|].
  destruct (HN _ p SI He) as (F & SA & LS). destruct (next p) as [v p'|e p'| |]; cbn in F, SA, LS |- *; try contradiction; [|exact Logic.I].
  apply sinv_tight in SA. destruct (HB v p' w) as (ks & w' & KO & KC & [(go & E)|(e & E)]); rewrite E; [|exact Logic.I]. destruct go; [|exact Logic.I].
  pose proof (later_safe _ ks p' KO KC SA) as SL. apply IH; [eapply sinv_tight; exact SL|]. destruct SL as (_ & _ & SL). lia.
Qed.
Lemma next_as_ends ts es n p : elems_of ts = Some es -> types es -> sinv c d n p -> p_eof p = false ->
  finished (get_next_as c cap ts p) /\ sinv c d n (after p (get_next_as c cap ts p)) /\ left_over (after p (get_next_as c cap ts p)) < left_over p.
Proof.
  intros E W SI He. destruct (next_safe c d cap n Hc Hd Hcap p es SI W) as [N S1]. pose proof (live_uses c d cap n Hc Hd Hcap p es SI He W) as L.
  unfold get_next_as. rewrite E. unfold bind, ret. destruct (get_next c cap es p) as [xs p'|e p'| |]; cbn in *; auto; congruence.
Qed.
Lemma object_ends ts es n p : elems_of ts = Some es -> types es -> sinv c d n p -> p_eof p = false ->
  finished (get_object c cap ts p) /\ sinv c d n (after p (get_object c cap ts p)) /\ left_over (after p (get_object c cap ts p)) < left_over p.
Proof.
  intros E W SI He. destruct (next_as_ends ts es n p E W SI He) as (A & B & C). unfold get_object, bind, ret. destruct (get_next_as c cap ts p); cbn in *; auto.
Qed.
End T.

(** Both loops end, without undefined behaviour, for any data, after any calls, and whatever calls the body makes.
    [all_covered], [header_ok]: as in C41 (not or_else on rows that are given up, and the like). *)
Theorem C39_iterating_ends : forall c hc cap d data p ks ts es W (body : result -> M (prs * W) bool) fuel w,
  cfg_ok c -> header_setup c hc -> ~ In NUL d -> enough cap -> header_ok c data ->
  opened_any c cap d data p -> Forall call_ok ks -> all_covered c hc cap p ks ->
  elems_of ts = Some es -> types es -> through_calls c hc cap body -> length data + 1 < fuel ->
  finished (iterate c cap ts body fuel (later c hc cap p ks, w)) /\
  finished (iterate_object c cap ts body fuel (later c hc cap p ks, w)).
Proof.
  intros c hc cap d data p ks ts es W body fuel w Hc HS Hd Hcap Hh O KO KC E TY HB HF.
  assert (Hd' : nulfree d) by (intros X; apply Hd; exact X).
  pose proof (later_safe c hc d cap Hc Hd' Hcap HS _ ks p KO KC (opened_any_safe c cap d data p Hc Hd Hcap Hh O)) as SI.
  assert (LO : left_over (later c hc cap p ks) < fuel) by (destruct SI as (_ & _ & SI); lia). pose proof (sinv_tight _ _ _ _ SI) as ST.
  assert (G : forall next zero, finished (while_not_eof next body fuel (later c hc cap p ks, w)) -> finished (range_for next zero body fuel (later c hc cap p ks, w))).
  { intros next zero F. destruct (range_eq next zero body fuel (later c hc cap p ks, w)) as [R _]. rewrite R; [exact F|]. intros X. rewrite X in F. exact F. }
  split; apply G; apply (while_ends c hc d cap Hc Hd' Hcap HS); auto; intros n q SQ He; [eapply next_as_ends|eapply object_ends]; eauto.
Qed.
Print Assumptions C39_iterating_ends.

(** What is visited.  [note] writes down, for each visited value, what the user sees of it: the values and valid(). *)
Definition note (c : cfg) (r : result) : M (prs * list gobs) bool :=
  fun s => Ok true (fst s, snd s ++ [get_obs c (Ok (members r) (fst s))]).

Section D.
Context (c : cfg) (d : str) (F : fit c d) (cap : nat -> nat -> nat) (Hcap : enough cap).
Context (next : M prs result) (es : list elem) (TY : types es).
Context (HN : forall p, match get_next c cap es p with
  | Ok xs p' => exists r, next p = Ok r p' /\ members r = xs
  | Throw e p' => next p = Throw e p' | UB w => next p = UB w | OutOfFuel => next p = OutOfFuel end).
Lemma while_rows : forall its mp nc total p L k l fuel, pstate c d mp nc total p L k -> document c d k L its -> length its < fuel ->
  exists gs p' last, length gs <= length its /\
   (forall i g, nth_error gs i = Some g -> exists it o, nth_error its i = Some it /\ row_reading c d mp nc es (it_out it) o /\
      shown c (p_name p) (it_line it) (it_next it) o g) /\
   match last with
   | None => length gs = length its /\ p_eof p' = true /\ while_not_eof next (note c) fuel (p, l) = Ok tt (p', l ++ gs)
   | Some (it, m, e) => nth_error its (length gs) = Some it /\ c_mode c = EThrow /\ row_reading c d mp nc es (it_out it) (inr m) /\
       shown c (p_name p) (it_line it) (it_next it) (inr m) (GThrown e) /\
       while_not_eof next (note c) fuel (p, l) = Throw e (p', l ++ gs)
   end.
Proof.
  induction its as [|it its IH]; intros mp nc total p L k l fuel PS D HF; (destruct fuel as [|f]; [cbn in HF; lia|]); rewrite while_one; cbn [fst snd].
  - assert (L = []) as -> by (apply (document_nil _ _ _ _ _ D); reflexivity). assert (He : p_eof p = true) by (apply (pstate_eof _ _ _ _ _ _ _ _ PS); reflexivity).
    rewrite He. exists [], p, None. split; [cbn; lia|]. split; [intros [|i] g X; discriminate X|]. rewrite app_nil_r. auto.
  - assert (He : p_eof p = false). { destruct (p_eof p) eqn:He; [|reflexivity]. apply (pstate_eof _ _ _ _ _ _ _ _ PS) in He. apply (document_nil _ _ _ _ _ D) in He. discriminate He. }
    rewrite He. destruct (step_doc c d F cap Hcap _ _ _ _ _ _ _ _ _ PS D TY) as (o & p' & A1 & A2 & A3 & A4 & A5 & _).
    pose proof (HN p) as H. destruct (get_next c cap es p) as [xs q|e q| |] eqn:EG.
    + destruct H as (r & -> & EM). destruct (told_obs _ _ _ _ _ _ p _ A2) as [B1 B2]. cbn in B2. subst q.
      change (note c r (p', l)) with (Ok true (p', l ++ [get_obs c (Ok (members r) p')])). rewrite EM.
      destruct (IH _ _ _ p' _ _ (l ++ [get_obs c (Ok xs p')]) f A3 A4 ltac:(cbn in HF; lia)) as (gs & p2 & last & C1 & C2 & C3).
      exists (get_obs c (Ok xs p') :: gs), p2, last. split; [cbn; lia|]. split.
      * intros [|i] g X; [|rewrite <- A5; apply (C2 i g); exact X]. injection X as <-. exists it, o. cbn [nth_error]. auto.
      * rewrite <- app_assoc in C3. destruct last as [[[it' m] e]|]; cbn [length nth_error app] in *; [rewrite <- A5; exact C3|].
        destruct C3 as (C4 & C5 & C6). split; [lia|auto].
    + rewrite H. unfold told in A2. destruct o as [vs|m]; [destruct A2; discriminate|]. destruct (c_mode c) eqn:Em; [destruct A2 as (? & ? & _); discriminate..|]. injection A2 as -> ->.
      exists [], p', (Some (it, m, p_name p ++ S2 " " ++ dec (it_next it) ++ S2 ": " ++ m)). split; [cbn; lia|]. split; [intros [|i] g X; discriminate X|]. rewrite app_nil_r.
      split; [reflexivity|]. split; [reflexivity|]. split; [exact A1|]. split; [unfold shown; rewrite Em; reflexivity|reflexivity].
    + unfold told in A2. destruct o; [destruct A2; discriminate|]. destruct (c_mode c); [destruct A2 as (? & ? & _); discriminate..|discriminate].
    + unfold told in A2. destruct o; [destruct A2; discriminate|]. destruct (c_mode c); [destruct A2 as (? & ? & _); discriminate..|discriminate].
Qed.
End D.

(** The ways of asking for values whose members are the columns. *)
Inductive asks (c : cfg) (cap : nat -> nat -> nat) (es : list elem) : (nat -> M (prs * list gobs) unit) -> Prop :=
| ask_pack : asks c cap es (iterate c cap (map AElem es) (note c))
| ask_tuple : asks c cap es (iterate c cap [ATuple es] (note c))
| ask_tied : asks c cap es (iterate c cap [ATied es] (note c))
| ask_object : asks c cap es (iterate_object c cap (map AElem es) (note c))
| ask_object_tuple : asks c cap es (iterate_object c cap [ATuple es] (note c)).
Lemma all_elems_map es : all_elems (map AElem es) = Some es.
Proof. induction es as [|e es IH]; [reflexivity|]. cbn. rewrite IH. reflexivity. Qed.
Lemma elems_of_map es : elems_of (map AElem es) = Some es.
Proof. destruct es as [|e [|e' es]]; try reflexivity. exact (all_elems_map (e :: e' :: es)). Qed.
Lemma form_map {B} es (x y : B) : (match map AElem es with [ATied _] => x | _ => y end) = y.
Proof. destruct es as [|e [|e' es]]; reflexivity. Qed.
Lemma members_to es xs : members (to_object (shape es xs)) = xs.
Proof. rewrite members_object; [apply members_shape|]. intros l X. exact (shape_no_object _ _ _ X). Qed.

(** C39 on documents: the i-th value visited is the i-th row's; errors are visited too, except that with throw_on_error the
    first erroneous row ends the loop with its exception. *)
Theorem C39_every_row_is_visited : forall c cap d data name p its es loop fuel,
  fit c d -> enough cap -> nuls_ok c data -> opened c cap d data name p -> rows_of c d data its -> (c_ignhdr c = true -> its <> []) ->
  types es -> asks c cap es loop -> length its < fuel ->
  exists gs p' last, length gs <= length its /\
   (forall i g, nth_error gs i = Some g -> exists it o, nth_error its i = Some it /\ row_reading c d [] 0 es (it_out it) o /\
      shown c name (it_line it) (it_next it) o g) /\
   match last with
   | None => length gs = length its /\ p_eof p' = true /\ loop fuel (p, []) = Ok tt (p', gs)
   | Some (it, m, e) => nth_error its (length gs) = Some it /\ c_mode c = EThrow /\ row_reading c d [] 0 es (it_out it) (inr m) /\
       shown c name (it_line it) (it_next it) (inr m) (GThrown e) /\
       loop fuel (p, []) = Throw e (p', gs)
   end.
Proof.
  intros c cap d data name p its es loop fuel F Hcap N O R Hh TY AS HF. destruct (open_rows c cap d Hcap data name p its O N R Hh) as (E & L & k & PS & D & _).
  assert (G : forall next zero, loop = range_for next zero (note c) -> (forall p, match get_next c cap es p with
     | Ok xs p' => exists r, next p = Ok r p' /\ members r = xs
     | Throw e p' => next p = Throw e p' | UB w => next p = UB w | OutOfFuel => next p = OutOfFuel end) ->
     exists gs p' last, length gs <= length its /\
   (forall i g, nth_error gs i = Some g -> exists it o, nth_error its i = Some it /\ row_reading c d [] 0 es (it_out it) o /\
      shown c name (it_line it) (it_next it) o g) /\
   match last with
   | None => length gs = length its /\ p_eof p' = true /\ loop fuel (p, []) = Ok tt (p', gs)
   | Some (it, m, e) => nth_error its (length gs) = Some it /\ c_mode c = EThrow /\ row_reading c d [] 0 es (it_out it) (inr m) /\
       shown c name (it_line it) (it_next it) (inr m) (GThrown e) /\
       loop fuel (p, []) = Throw e (p', gs)
   end).
  { intros next zero -> HN. destruct (while_rows c d F cap Hcap next es TY HN its _ _ _ p L k [] fuel PS D HF) as (gs & p' & last & C1 & C2 & C3). rewrite E in *.
    destruct (range_eq next zero (note c) fuel (p, [])) as [RE _]. exists gs, p', last. split; [exact C1|]. split; [exact C2|].
    destruct last as [[[it m] e]|]; cbn [app] in C3.
    - destruct C3 as (D1 & D2 & D3 & D4 & D5). rewrite RE; [auto|]. rewrite D5. discriminate.
    - destruct C3 as (D1 & D2 & D3). rewrite RE; [auto|]. rewrite D3. discriminate. }
  destruct AS.
  - eapply G; [reflexivity|]. intros q. unfold get_next_as. rewrite elems_of_map. unfold bind, ret. destruct (get_next c cap es q); try reflexivity.
    eexists. split; [reflexivity|]. rewrite form_map. apply members_shape.
  - eapply G; [reflexivity|]. intros q. unfold get_next_as. cbn [elems_of]. unfold bind, ret. destruct (get_next c cap es q); try reflexivity.
    eexists. split; [reflexivity|]. apply members_shape.
  - eapply G; [reflexivity|]. intros q. unfold get_next_as. cbn [elems_of]. unfold bind, ret. destruct (get_next c cap es q); try reflexivity.
    eexists. split; [reflexivity|]. apply members_to.
  - eapply G; [reflexivity|]. intros q. unfold get_object, get_next_as. rewrite elems_of_map. unfold bind, ret. destruct (get_next c cap es q); try reflexivity.
    eexists. split; [reflexivity|]. rewrite form_map. apply members_to.
  - eapply G; [reflexivity|]. intros q. unfold get_object, get_next_as. cbn [elems_of]. unfold bind, ret. destruct (get_next c cap es q); try reflexivity.
    eexists. split; [reflexivity|]. apply members_to.
Qed.
Print Assumptions C39_every_row_is_visited.

(** A loop over three rows, the second of which is bad, with and without exceptions. *)
Definition iter_cfg (m : emode) : cfg := mkCfg None [] [] [] false 0 m false false.
Definition int32 : elem := EVal (TInt (mkIty true 32)).
Example C39_example : exists p1 p1' p2 p2',
  parser_buffer (iter_cfg EString) tight (S2 ",") (Some (S2 "1,a" ++ [LF] ++ S2 "x,b" ++ [LF] ++ S2 "3,c")) 11 = Ok tt p1 /\
  iterate (iter_cfg EString) tight [AElem int32; AElem (EVal TString)] (note (iter_cfg EString)) 4 (p1, []) =
    Ok tt (p1', [GValues [VInt 1; VStr (S2 "a")]; GError (S2 "CSV data buffer 2: invalid conversion for parameter at column 1: 'x'"); GValues [VInt 3; VStr (S2 "c")]]) /\
  parser_buffer (iter_cfg EThrow) tight (S2 ",") (Some (S2 "1,a" ++ [LF] ++ S2 "x,b" ++ [LF] ++ S2 "3,c")) 11 = Ok tt p2 /\
  iterate_object (iter_cfg EThrow) tight [ATuple [int32; EVal TString]] (note (iter_cfg EThrow)) 4 (p2, []) =
    Throw (S2 "CSV data buffer 2: invalid conversion for parameter at column 1: 'x'") (p2', [GValues [VInt 1; VStr (S2 "a")]]).
Proof. do 4 eexists. split; [vm_compute; reflexivity|]. split; [vm_compute; reflexivity|]. split; [vm_compute; reflexivity|]. vm_compute. reflexivity. Qed.
Print Assumptions C39_example.
(** A body that reads on by itself meets [through_calls]. *)
Example C39_body : forall c hc cap, enough cap -> through_calls c hc cap (fun (_ : result) s => Ok true (later c hc cap (fst s) [CGet [int32]], snd s : list gobs)).
Proof.
  intros c hc cap _ v p w. exists [CGet [int32]], w. split; [repeat constructor; cbn; try lia; discriminate|]. split; [repeat constructor|]. left. exists true. reflexivity.
Qed.
Print Assumptions C39_body.
