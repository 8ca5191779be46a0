(** C66: iterators in the program's hands.  The range for loop (C39) keeps one iterator; here a program holds any number of
    them, made by begin(), end(), copying and it++, and uses them in any order, along with eof() and get_next itself.
    All of them share the parser's one pass over the rows; each keeps the value it has read until it is advanced itself.
    Vocabulary: ParserSpec.v, ParserApi.v; [asks_with] lists the ways of asking, as C39's [asks]. *)
From Verif Require Import Base Setup SetupProofs Splitter SplitPure ListFacts Extract Converter ConvProofs ConvTheorems Reader LineSpec Parser ParserSpec ParserApi ParserInv ParserRows ParserOpen ParserSession ParserFacts PropParser SessionApi SessionSpec PropSafe PropIterate.
Local Open Scope monad_scope.

(** ** The operations: iterators are numbered in the order in which they are made *)
Inductive iop :=
| IBegin                (* auto it = range.begin() *)
| IEnd                  (* auto it = range.end() *)
| ICopy (i : nat)       (* auto it = i *)
| INext (i : nat)       (* ++i *)
| IPost (i : nat)       (* auto it = i++ *)
| IGet (i : nat)        (* *i *)
| IEqual (i j : nat)    (* i == j *)
| IRead                 (* if (!p.eof()) p.get_next<Ts...>() *)
| IEof.                 (* p.eof() *)
(** What a program sees: [ORow g]: a row was read ([g]: its values, or valid() is false and the error); [OPast]: the iterator
    is now past the end; [OHeld xs]: the members of the object, [None] for one without a value; [ONone]: there is no such iterator. *)
Inductive iobs := ODone | ORow (g : gobs) | OPast | OThrown (e : str) | OHeld (xs : list slot) | OBool (b : bool) | ONone | OCrash.

(** ** Specification *)
Fixpoint update {A} (l : list A) (i : nat) (x : A) : list A :=
  match l, i with [], _ => [] | _ :: l', 0 => x :: l' | y :: l', S i' => y :: update l' i' x end.
(** [rows]: the rows still to be read, how each answers and the object it gives; [its]: for each iterator, whether it is past
    the end and the object it holds; [zero]: the object without values. *)
Section Walk.
Context (zero : list slot).
Notation place := (bool * list slot)%type (only parsing).
(** ++ on an iterator past the end does nothing; if there is no row left, it goes past the end and keeps its object; else it
    gets the next row's object, unless that row throws: then it stays as it was. *)
Definition advance (rows : list (gobs * list slot)) (it : place) : iobs * option place * list (gobs * list slot) :=
  if fst it then (OPast, Some it, rows)
  else match rows with
       | [] => (OPast, Some (true, snd it), [])
       | (GThrown e, _) :: rows' => (OThrown e, None, rows')
       | (g, xs) :: rows' => (ORow g, Some (false, xs), rows')
       end.
Fixpoint walk (rows : list (gobs * list slot)) (its : list place) (ops : list iop) : list iobs :=
  match ops with
  | [] => []
  | IBegin :: ops' =>
      let '(o, it, rows') := advance rows (false, zero) in
      o :: walk rows' (its ++ match it with Some it => [it] | None => [] end) ops'
  | IEnd :: ops' => ODone :: walk rows (its ++ [(true, zero)]) ops'
  | ICopy i :: ops' => match nth_error its i with Some it => ODone :: walk rows (its ++ [it]) ops' | None => ONone :: walk rows its ops' end
  | INext i :: ops' =>
      match nth_error its i with
      | Some it => let '(o, it', rows') := advance rows it in o :: walk rows' (match it' with Some it' => update its i it' | None => its end) ops'
      | None => ONone :: walk rows its ops'
      end
  | IPost i :: ops' =>
      match nth_error its i with
      | Some it => let '(o, it', rows') := advance rows it in o :: walk rows' (match it' with Some it' => update its i it' ++ [it] | None => its end) ops'
      | None => ONone :: walk rows its ops'
      end
  | IGet i :: ops' => match nth_error its i with Some it => OHeld (snd it) | None => ONone end :: walk rows its ops'
  | IEqual i j :: ops' =>
      match nth_error its i, nth_error its j with Some a, Some b => OBool ((i =? j) || fst a && fst b) | _, _ => ONone end :: walk rows its ops'
  | IRead :: ops' => let '(o, _, rows') := advance rows (false, zero) in o :: walk rows' its ops'
  | IEof :: ops' => OBool (match rows with [] => true | _ => false end) :: walk rows its ops'
  end.
End Walk.

(** ** The programs on the model *)
Section Run.
Context (c : cfg) (next : M prs result) (zero : result).
(** After ++, the program compares with end(), then looks at valid(), error_msg() and the object. *)
Definition stepped (it : iter (A := result)) (p : prs) : iobs := if i_live it then ORow (get_obs c (Ok (members (i_value it)) p)) else OPast.
Definition run1 (op : iop) (p : prs) (its : list (iter (A := result))) : iobs * prs * list (iter (A := result)) :=
  match op with
  | IBegin => match iter_begin next zero p with Ok it p' => (stepped it p', p', its ++ [it]) | Throw e p' => (OThrown e, p', its) | _ => (OCrash, p, its) end
  | IEnd => (ODone, p, its ++ [iter_end zero])
  | ICopy i => match nth_error its i with Some it => (ODone, p, its ++ [it]) | None => (ONone, p, its) end
  | INext i =>
      match nth_error its i with
      | Some it => match iter_next next it p with Ok it' p' => (stepped it' p', p', update its i it') | Throw e p' => (OThrown e, p', its) | _ => (OCrash, p, its) end
      | None => (ONone, p, its)
      end
  | IPost i =>
      match nth_error its i with
      | Some it => match iter_next_copy next it p with Ok (old, it') p' => (stepped it' p', p', update its i it' ++ [old]) | Throw e p' => (OThrown e, p', its) | _ => (OCrash, p, its) end
      | None => (ONone, p, its)
      end
  | IGet i => (match nth_error its i with Some it => OHeld (members (i_value it)) | None => ONone end, p, its)
  (* parser.hpp:302-307: both past the end, or the same object *)
  | IEqual i j => (match nth_error its i, nth_error its j with Some a, Some b => OBool ((i =? j) || iter_equal a b) | _, _ => ONone end, p, its)
  | IRead => if p_eof p then (OPast, p, its)
             else match next p with Ok r p' => (ORow (get_obs c (Ok (members r) p')), p', its) | Throw e p' => (OThrown e, p', its) | _ => (OCrash, p, its) end
  | IEof => (OBool (p_eof p), p, its)
  end.
Fixpoint run (ops : list iop) (p : prs) (its : list (iter (A := result))) : list iobs :=
  match ops with [] => [] | op :: ops' => let '(o, p', its') := run1 op p its in o :: run ops' p' its' end.
End Run.

(** The ways of asking: iterate<Ts...>, iterate<std::tuple<Ts...>> (or a tied object), iterate_object<T, Ts...>. *)
Inductive asks_with (c : cfg) (cap : nat -> nat -> nat) (es : list elem) : M prs result -> result -> Prop :=
| aw_pack : asks_with c cap es (get_next_as c cap (map AElem es)) (default_as (map AElem es))
| aw_tuple : asks_with c cap es (get_next_as c cap [ATuple es]) (default_as [ATuple es])
| aw_tied : asks_with c cap es (get_next_as c cap [ATied es]) (default_as [ATied es])
| aw_object : asks_with c cap es (get_object c cap (map AElem es)) (to_object (default_as (map AElem es)))
| aw_object_tuple : asks_with c cap es (get_object c cap [ATuple es]) (to_object (default_as [ATuple es])).

(** ** Proofs *)
Lemma asks_with_next c cap es next zero : asks_with c cap es next zero -> members zero = defaults es /\
  forall p, match get_next c cap es p with
     | Ok xs p' => exists r, next p = Ok r p' /\ members r = xs
     | Throw e p' => next p = Throw e p' | UB w => next p = UB w | OutOfFuel => next p = OutOfFuel end.
Proof.
  intros AS. destruct AS.
  - split; [unfold default_as; rewrite elems_of_map, form_map; apply members_shape|].
    intros q. unfold get_next_as. rewrite elems_of_map. unfold bind, ret. destruct (get_next c cap es q); try reflexivity.
    eexists. split; [reflexivity|]. rewrite form_map. apply members_shape.
  - split; [apply members_shape|].
    intros q. unfold get_next_as. cbn [elems_of]. unfold bind, ret. destruct (get_next c cap es q); try reflexivity.
    eexists. split; [reflexivity|]. apply members_shape.
  - split; [apply members_to|].
    intros q. unfold get_next_as. cbn [elems_of]. unfold bind, ret. destruct (get_next c cap es q); try reflexivity.
    eexists. split; [reflexivity|]. apply members_to.
  - split; [unfold default_as; rewrite elems_of_map, form_map; apply members_to|].
    intros q. unfold get_object, get_next_as. rewrite elems_of_map. unfold bind, ret. destruct (get_next c cap es q); try reflexivity.
    eexists. split; [reflexivity|]. rewrite form_map. apply members_to.
  - split; [apply members_to|].
    intros q. unfold get_object, get_next_as. cbn [elems_of]. unfold bind, ret. destruct (get_next c cap es q); try reflexivity.
    eexists. split; [reflexivity|]. apply members_to.
Qed.

Section D.
Context (c : cfg) (d : str) (F : fit c d) (cap : nat -> nat -> nat) (Hcap : enough cap).
Context (next : M prs result) (zero : result) (es : list elem) (TY : types es).
Context (HN : forall p, match get_next c cap es p with
     | Ok xs p' => exists r, next p = Ok r p' /\ members r = xs
     | Throw e p' => next p = Throw e p' | UB w => next p = UB w | OutOfFuel => next p = OutOfFuel end).

(** What the remaining rows answer, read from [p] on. *)
Inductive feeds : prs -> list (gobs * list slot) -> Prop :=
| fe_end p : p_eof p = true -> feeds p []
| fe_row p r p' rows : p_eof p = false -> next p = Ok r p' -> feeds p' rows ->
    (forall e, get_obs c (Ok (members r) p') <> GThrown e) -> feeds p ((get_obs c (Ok (members r) p'), members r) :: rows)
| fe_throw p e p' xs rows : p_eof p = false -> next p = Throw e p' -> feeds p' rows -> feeds p ((GThrown e, xs) :: rows).

Definition row_gives (name : str) (it : item) (row : gobs * list slot) : Prop :=
  exists o, row_reading c d [] 0 es (it_out it) o /\ shown c name (it_line it) (it_next it) o (fst row) /\ forall vs, o = inl vs -> snd row = map Some vs.
Lemma feeds_doc : forall its total p L k, pstate c d [] 0 total p L k -> document c d k L its ->
  exists rows, feeds p rows /\ Forall2 (row_gives (p_name p)) its rows.
Proof.
  induction its as [|it its IH]; intros total p L k PS D.
  - assert (L = []) as -> by (apply (document_nil _ _ _ _ _ D); reflexivity). assert (He : p_eof p = true) by (apply (pstate_eof _ _ _ _ _ _ _ _ PS); reflexivity).
    exists []. split; constructor. exact He.
  - assert (He : p_eof p = false). { destruct (p_eof p) eqn:He; [|reflexivity]. apply (pstate_eof _ _ _ _ _ _ _ _ PS) in He. apply (document_nil _ _ _ _ _ D) in He. discriminate He. }
    destruct (step_doc c d F cap Hcap _ _ _ _ _ _ _ _ _ PS D TY) as (o & p' & A1 & A2 & A3 & A4 & A5 & _).
    destruct (IH _ p' _ _ A3 A4) as (rows & B1 & B2). rewrite A5 in B2.
    pose proof (HN p) as H. destruct (told_obs _ _ _ _ _ _ p _ A2) as [S1 S2]. destruct (get_next c cap es p) as [xs q|e q|w|] eqn:EG.
    + destruct H as (r & EN & EM). cbn in S2. subst q xs. exists ((get_obs c (Ok (members r) p'), members r) :: rows). split.
      * apply fe_row; auto. intros e. cbn. destruct (p_valid c p'); [destruct (given (members r))|]; discriminate.
      * constructor; [|exact B2]. exists o. split; [exact A1|]. split; [exact S1|]. cbn. intros vs ->. destruct A2 as [X _]. injection X as X. exact X.
    + cbn in S2. subst q. exists ((GThrown e, []) :: rows). split; [eapply fe_throw; eauto|]. constructor; [|exact B2]. exists o. split; [exact A1|]. split; [exact S1|].
      intros vs ->. destruct A2 as [X _]. discriminate X.
    + unfold told in A2. destruct o; [destruct A2; discriminate|]. destruct (c_mode c); [destruct A2 as (? & ? & _); discriminate..|discriminate].
    + unfold told in A2. destruct o; [destruct A2; discriminate|]. destruct (c_mode c); [destruct A2 as (? & ? & _); discriminate..|discriminate].
Qed.

Definition same_it (it : iter (A := result)) (pl : bool * list slot) : Prop := fst pl = negb (i_live it) /\ snd pl = members (i_value it).
Lemma update_same (P : iter (A := result) -> bool * list slot -> Prop) : forall its pls i it pl, Forall2 P its pls -> P it pl -> Forall2 P (update its i it) (update pls i pl).
Proof. intros its pls i it pl H K. revert i. induction H as [|x y its pls H1 H2 IH]; intros [|i]; cbn; constructor; auto. Qed.
Lemma same_nth its pls i : Forall2 same_it its pls -> match nth_error its i with Some it => exists pl, nth_error pls i = Some pl /\ same_it it pl | None => nth_error pls i = None end.
Proof. intros H. revert i. induction H as [|x y its pls H1 H2 IH]; intros [|i]; cbn; try reflexivity; [exists y; auto|apply IH]. Qed.
Lemma end_same : same_it (iter_end zero) (true, members zero).
Proof. split; reflexivity. Qed.

(** One ++ on the model is one [advance]. *)
Lemma advance_sim p rows it pl : feeds p rows -> same_it it pl ->
  let '(o, pl', rows') := advance rows pl in
  match iter_next next it p with
  | Ok it' p' => o = stepped c it' p' /\ feeds p' rows' /\ exists q, pl' = Some q /\ same_it it' q
  | Throw e p' => o = OThrown e /\ feeds p' rows' /\ pl' = None
  | _ => False
  end.
Proof.
  intros FE [S1 S2]. destruct pl as [b xs]. cbn in S1, S2. subst b xs. unfold advance. cbn [fst snd]. unfold iter_next, bind at 1, get at 1, ret.
  destruct (i_live it) eqn:EL; cbn [negb orb].
  - inversion FE as [p0 E|p0 r p1 rows1 E EN FE' NT|p0 e p1 xs rows1 E EN FE']; subst.
    + rewrite E. split; [reflexivity|]. split; [exact FE|]. eexists. split; [reflexivity|]. split; reflexivity.
    + rewrite E. unfold bind. rewrite EN. destruct (get_obs c (Ok (members r) p1)) as [vs|msg|e|] eqn:EG; try (exfalso; eapply NT; reflexivity); (split; [unfold stepped; cbn [i_live i_value]; rewrite EG; reflexivity|]; split; [exact FE'|]; eexists; split; [reflexivity|split; reflexivity]).
    + rewrite E. unfold bind. rewrite EN. auto.
  - split; [reflexivity|]. split; [exact FE|]. eexists. split; [reflexivity|]. split; reflexivity.
Qed.

Lemma run_walk : forall ops p its rows pls, feeds p rows -> Forall2 same_it its pls -> run c next zero ops p its = walk (members zero) rows pls ops.
Proof.
  induction ops as [|op ops IH]; intros p its rows pls FE SI; [reflexivity|]. cbn [run]. unfold run1. destruct op as [| |i|i|i|i|i j| |]; cbn [walk].
  - pose proof (advance_sim p rows (mkI true zero) (false, members zero) FE ltac:(split; reflexivity)) as H. unfold iter_begin.
    destruct (advance rows (false, members zero)) as [[o pl'] rows']. destruct (iter_next next (mkI true zero) p) as [it' p'|e p'| |]; [| |contradiction..].
    + destruct H as (-> & FE' & q & -> & SQ). f_equal. apply IH; [exact FE'|]. apply Forall2_app; auto.
    + destruct H as (-> & FE' & ->). f_equal. rewrite app_nil_r. apply IH; auto.
  - f_equal. apply IH; [exact FE|]. apply Forall2_app; [exact SI|]. repeat constructor.
  - pose proof (same_nth its pls i SI) as N. destruct (nth_error its i) as [it|]; [destruct N as (pl & -> & S)|rewrite N]; f_equal; apply IH; auto. apply Forall2_app; auto.
  - pose proof (same_nth its pls i SI) as N. destruct (nth_error its i) as [it|]; [destruct N as (pl & -> & S)|rewrite N; f_equal; apply IH; auto].
    pose proof (advance_sim p rows it pl FE S) as H. destruct (advance rows pl) as [[o pl'] rows']. destruct (iter_next next it p) as [it' p'|e p'| |]; [| |contradiction..].
    + destruct H as (-> & FE' & q & -> & SQ). f_equal. apply IH; [exact FE'|]. apply update_same; auto.
    + destruct H as (-> & FE' & ->). f_equal. apply IH; auto.
  - pose proof (same_nth its pls i SI) as N. destruct (nth_error its i) as [it|]; [destruct N as (pl & -> & S)|rewrite N; f_equal; apply IH; auto].
    pose proof (advance_sim p rows it pl FE S) as H. unfold iter_next_copy, bind at 1, ret. destruct (advance rows pl) as [[o pl'] rows']. destruct (iter_next next it p) as [it' p'|e p'| |]; [| |contradiction..].
    + destruct H as (-> & FE' & q & -> & SQ). f_equal. apply IH; [exact FE'|]. apply Forall2_app; [apply update_same; auto|]. auto.
    + destruct H as (-> & FE' & ->). f_equal. apply IH; auto.
  - pose proof (same_nth its pls i SI) as N. destruct (nth_error its i) as [it|]; [destruct N as (pl & -> & _ & ->)|rewrite N]; f_equal; apply IH; auto.
  - pose proof (same_nth its pls i SI) as N. pose proof (same_nth its pls j SI) as N'.
    destruct (nth_error its i) as [it|]; [destruct N as (pl & -> & S & _)|rewrite N; f_equal; apply IH; auto].
    destruct (nth_error its j) as [it'|]; [destruct N' as (pl' & -> & S' & _)|rewrite N'; f_equal; apply IH; auto]. rewrite S, S'. unfold iter_equal. f_equal. apply IH; auto.
  - unfold advance. cbn [fst snd]. inversion FE as [p0 E|p0 r p1 rows1 E EN FE' NT|p0 e p1 xs rows1 E EN FE']; subst; rewrite E.
    + f_equal. apply IH; auto.
    + rewrite EN. destruct (get_obs c (Ok (members r) p1)) as [vs|msg|e|] eqn:EG; try (exfalso; eapply NT; reflexivity); f_equal; apply IH; auto.
    + rewrite EN. f_equal. apply IH; auto.
  - inversion FE as [p0 E|p0 r p1 rows1 E EN FE' NT|p0 e p1 xs rows1 E EN FE']; subst; rewrite E; f_equal; apply IH; auto.
Qed.
End D.

(** C66.  For every document, way of asking and program of iterator operations: the program sees what [walk] says, where the
    [n]-th row read, by whichever iterator, is the document's [n]-th row. *)
Theorem C66_iterators_share_one_pass : forall c cap d data name p its es next zero,
  fit c d -> enough cap -> nuls_ok c data -> opened c cap d data name p -> rows_of c d data its -> (c_ignhdr c = true -> its <> []) ->
  types es -> asks_with c cap es next zero ->
  exists rows,
    Forall2 (fun it row => exists o, row_reading c d [] 0 es (it_out it) o /\ shown c name (it_line it) (it_next it) o (fst row) /\
      forall vs, o = inl vs -> snd row = map Some vs) its rows /\
    forall ops, run c next zero ops p [] = walk (repeat None (arity es)) rows [] ops.
Proof.
  intros c cap d data name p its es next zero F Hcap N O R Hh TY AS. destruct (open_rows c cap d Hcap data name p its O N R Hh) as (E & L & k & PS & D & _).
  destruct (asks_with_next _ _ _ _ _ AS) as [Z HN]. destruct (feeds_doc c d F cap Hcap next es TY HN its _ p L k PS D) as (rows & FE & RG). rewrite E in RG.
  exists rows. split; [exact RG|]. intros ops. change (repeat None (arity es)) with (defaults es). rewrite <- Z. apply run_walk; [exact FE|constructor].
Qed.
Print Assumptions C66_iterators_share_one_pass.

(** The object of an iterator that has read nothing, begin() at eof or end(), has the form of those that are read (one value, a
    tuple, the tied object, ...), without values. *)
Theorem C66_default_object : forall c cap ts es, elems_of ts = Some es ->
  exists form, default_as ts = form (repeat None (arity es)) /\
    forall p, (forall xs p', get_next c cap es p = Ok xs p' -> get_next_as c cap ts p = Ok (form xs) p' /\ get_object c cap ts p = Ok (to_object (form xs)) p').
Proof.
  intros c cap ts es E. exists (fun xs => match ts with [ATied _] => to_object (shape es xs) | _ => shape es xs end). split.
  - unfold default_as. rewrite E. reflexivity.
  - intros p xs p' G. unfold get_object, get_next_as. rewrite E. unfold bind, ret. rewrite G. auto.
Qed.
Print Assumptions C66_default_object.

(** Two rows and one that is refused: begin, a copy of it, a post-increment, the refusal, the end, and what they hold. *)
Definition two_int : list elem := [int32; EVal TString].
Definition three : str := S2 "1,a" ++ [LF] ++ S2 "x,b" ++ [LF] ++ S2 "3,c".
Definition prog : list iop := [IBegin; ICopy 0; IPost 0; IGet 0; IGet 1; IGet 2; IEqual 0 1; IEqual 0 0; IEof; INext 1; IEof; INext 0; IEnd; IEqual 0 3; IGet 1; IGet 3; INext 0; IRead].
Definition x1 : list slot := [Some (VInt 1); Some (VStr (S2 "a"))].
Definition x3 : list slot := [Some (VInt 3); Some (VStr (S2 "c"))].
Definition refused : str := S2 "CSV data buffer 2: invalid conversion for parameter at column 1: 'x'".
Example C66_example : exists p1 p2,
  parser_buffer (iter_cfg EString) tight (S2 ",") (Some three) 11 = Ok tt p1 /\
  run (iter_cfg EString) (get_next_as (iter_cfg EString) tight (map AElem two_int)) (default_as (map AElem two_int)) prog p1 [] =
    [ORow (GValues [VInt 1; VStr (S2 "a")]); ODone; ORow (GError refused); OHeld [None; None]; OHeld x1; OHeld x1; OBool false; OBool true; OBool false;
     ORow (GValues [VInt 3; VStr (S2 "c")]); OBool true; OPast; ODone; OBool true; OHeld x3; OHeld [None; None]; OPast; OPast] /\
  parser_buffer (iter_cfg EThrow) tight (S2 ",") (Some three) 11 = Ok tt p2 /\
  run (iter_cfg EThrow) (get_object (iter_cfg EThrow) tight [ATuple two_int]) (to_object (default_as [ATuple two_int])) prog p2 [] =
    [ORow (GValues [VInt 1; VStr (S2 "a")]); ODone; OThrown refused; OHeld x1; OHeld x1; ONone; OBool false; OBool true; OBool false;
     ORow (GValues [VInt 3; VStr (S2 "c")]); OBool true; OPast; ODone; ONone; OHeld x3; ONone; OPast; OPast].
Proof. do 2 eexists. split; [vm_compute; reflexivity|]. split; [vm_compute; reflexivity|]. split; [vm_compute; reflexivity|]. vm_compute. reflexivity. Qed.
Print Assumptions C66_example.
