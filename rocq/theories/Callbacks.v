(** parser.hpp:345-525 once more: callbacks as C++ callables (how they are invoked, what they may write, what they may do to the
    parser), and composites as objects that are moved from.  Parser.v has the chains with callbacks that only look. *)
From Verif Require Import Base Setup Splitter Extract Converter Reader Parser SessionApi.

(** ** Signatures *)
Section Signature.
(** [A]: types of arguments; [P]: types of parameters; [binds a p]: an argument of type [a] can be given for a parameter of
    type [p]. *)
Context {A P : Type} (binds : A -> P -> bool).
(** A callable that is not overloaded: its parameters, how many of the last ones have a default argument, and the type of a pack
    behind them ([](auto&&... xs)). *)
Record signature := mkSig { sg_params : list P; sg_defaults : nat; sg_pack : option P }.
Fixpoint all_bind (args : list A) (ps : list P) (pack : option P) : bool :=
  match args, ps with
  | [], _ => true
  | a :: args', p :: ps' => binds a p && all_bind args' ps' pack
  | a :: args', [] => match pack with Some p => binds a p && all_bind args' [] pack | None => false end
  end.
(** std::is_invocable_v<Fun, Args...> *)
Definition is_invocable (sg : signature) (args : list A) : bool :=
  (length (sg_params sg) - sg_defaults sg <=? length args) && all_bind args (sg_params sg) (sg_pack sg).
Inductive form := Nothing | Whole | LaidOut.
(** try_invoke_impl (parser.hpp:493-512): the branch that is compiled for a value of type [whole]; [els]: the types of its elements,
    if it is a tuple (std::apply).  [None]: does not compile. *)
Definition invoke_form (whole : A) (els : option (list A)) (sg : signature) : option form :=
  if is_invocable sg [] then Some Nothing
  else if is_invocable sg [whole] then Some Whole
  else match els with Some ts => if is_invocable sg ts then Some LaidOut else None | None => None end.
End Signature.

(** ** Running them *)
(** What a callback is given. *)
Inductive argument := GivenNothing | GivenWhole (v : result) | GivenEach (l : list slot).
(** What user code does with a parser: calls, the next one depending on what the ones before replied.  (Chains called from inside
    a callback have callbacks that only look.) *)
Inductive script (B : Type) := SDone (b : B) | SCall (k : call) (next : reply -> script B).
Arguments SDone {B} b.
Arguments SCall {B} k next.
(** A callback: how it is invoked (from its signature), whether it returns something, and its body.  The body leaves the
    arguments as it has written them through references, and a value to be taken for true or false. *)
Record callable := mkCallable { cl_form : form; cl_returns : bool; cl_body : argument -> script (argument * bool) }.
(** What happens, in order. *)
Inductive happening := HInvoked (i : nat) (a : argument) | HCall (k : call) (y : reply) | HError (i : nat) (msg : str).
Definition story := (prs * list happening)%type.

Section Run.
Context (c hc : cfg) (cap : nat -> nat -> nat).
Definition on_prs {B} (m : M prs B) : M story B := zoom fst (fun p t => (p, snd t)) m.
Definition tell (h : happening) : M story unit := modify (fun t => (fst t, snd t ++ [h])).
Fixpoint play {B} (s : script B) : M story B :=
  match s with
  | SDone b => ret b
  | SCall k next =>
      fun t => let '(y, q) := do_call c hc cap (fst t) k in play (next y) (q, snd t ++ [HCall k y])
  end.
(** The value behind the reference that was passed. *)
Definition written (f : form) (v : result) (a : argument) : result :=
  match f, a, v with
  | Whole, GivenWhole v', _ => v'
  | LaidOut, GivenEach l, RTuple _ => RTuple l
  | _, _, _ => v
  end.
(** parser.hpp:498-512; std::apply on something that is not a tuple does not compile. *)
Definition pass (f : form) (v : result) : argument :=
  match f, v with
  | Nothing, _ => GivenNothing
  | Whole, _ => GivenWhole v
  | LaidOut, RTuple l => GivenEach l
  | LaidOut, _ => GivenNothing
  end.
Definition try_invoke_impl (i : nat) (v : result) (f : callable) : M story (result * bool) :=
  tell (HInvoked i (pass (cl_form f) v)) ;;
  ' (a, b) <- play (cl_body f (pass (cl_form f) v)) ;;
  ret (written (cl_form f) v a, b).
(** parser.hpp:470-491 *)
Definition invoke_callback (i : nat) (v : result) (f : option callable) : M story result :=
  match f with
  | None => ret v
  | Some f =>
      ' (v', b) <- try_invoke_impl i v f ;;
      (if cl_returns f && negb b then on_prs (p_error c msg_failed_check) else ret tt) ;;
      ret v'
  end.
(** get_next / get_object: the values as they are handed out. *)
Definition packed (object : bool) (es : list elem) (xs : list slot) : result := if object then to_object (shape es xs) else shape es xs.
(** parser.hpp:450-468 and 514-521 *)
Definition try_call (i : nat) (object : bool) (es : list elem) (f : option callable) : M story (list (option result)) :=
  xs <- on_prs (get_next c cap es) ;;
  t <- get ;;
  v <- (if p_valid c (fst t) then invoke_callback i (packed object es xs) f else ret (packed object es xs)) ;;
  t <- get ;;
  ret [if p_valid c (fst t) then Some v else None].
(** What a moved-from value is like is left open. *)
Context (moved : result -> result).
(** parser.hpp:361-377 with 411-430 and 401-409: the new composite's values, and those of the composite it was called on, whose
    values_ are moved from. *)
Definition else_call (i : nat) (object : bool) (values : list (option result)) (es : list elem) (f : option callable) :
  M story (list (option result) * list (option result)) :=
  t <- get ;;
  value <- (if p_valid c (fst t) then ret None
            else
              xs <- on_prs (try_same c es) ;;
              t <- get ;;
              if negb (p_valid c (fst t)) then ret None
              else v <- invoke_callback i (packed object es xs) f ;; ret (Some v)) ;;
  t <- get ;;
  ret (values ++ [if p_valid c (fst t) then value else None], map (option_map moved) values).
(** parser.hpp:383-398 returns a copy of the composite. *)
Definition error_call (i : nat) (values : list (option result)) : M story (list (option result)) :=
  t <- get ;;
  (if p_valid c (fst t) then ret tt else tell (HError i (match p_err (fst t) with Some m => m | None => [] end))) ;;
  ret values.

(** A chain, each link called on the composite the one before returned; the callbacks are numbered from [i]. *)
Inductive glink := GElse (object : bool) (es : list elem) (f : option callable) | GOnError.
Fixpoint links_call (i : nat) (values : list (option result)) (ls : list glink) : M story (list (option result)) :=
  match ls with
  | [] => ret values
  | GElse object es f :: ls' => ' (vs, _) <- else_call i object values es f ;; links_call (S i) vs ls'
  | GOnError :: ls' => vs <- error_call i values ;; links_call (S i) vs ls'
  end.
Definition chain_of (object : bool) (es : list elem) (f : option callable) (ls : list glink) : M story (list (option result)) :=
  vs <- try_call 0 object es f ;; links_call 1 vs ls.
End Run.
