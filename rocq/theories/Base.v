(** Basic vocabulary shared by the whole model: bytes, strings, memory cells,
    and the outcome monad (result / C++ exception / undefined behaviour /
    exhausted loop bound). *)
From Coq Require Export Ascii String ZArith Arith Bool Lia List.
From Coq Require Import Decimal DecimalString DecimalNat.
Export ListNotations.
Open Scope nat_scope.
Open Scope list_scope.

(** A C++ [char]; a string is the list of its bytes (std::string may contain NUL). *)
Notation byte := ascii (only parsing).
Notation str := (list ascii) (only parsing).

Definition NUL : ascii := "000"%char.
Definition LF : ascii := "010"%char.
Definition CR : ascii := "013"%char.

(** Literal strings. *)
Definition S2 (s : string) : str := list_ascii_of_string s.

(** std::to_string(size_t). *)
Definition dec (n : nat) : str := S2 (NilZero.string_of_uint (Nat.to_uint n)).

(** Membership test for a character pack (setup.hpp:14-20, matcher::match_impl). *)
Definition mem (c : ascii) (l : list ascii) : bool := existsb (Ascii.eqb c) l.

Fixpoint str_eqb (a b : str) : bool :=
  match a, b with
  | [], [] => true
  | x :: a', y :: b' => Ascii.eqb x y && str_eqb a' b'
  | _, _ => false
  end.

(** A memory block: [None] is an allocated but uninitialised cell. *)
Notation cells := (list (option ascii)) (only parsing).

Definition rd (m : cells) (i : nat) : option ascii :=
  match nth_error m i with Some (Some c) => Some c | _ => None end.

(** Store one byte; [None] when the address is outside the block. *)
Definition wr (m : cells) (i : nat) (c : ascii) : option cells :=
  if i <? length m then Some (firstn i m ++ Some c :: skipn (S i) m) else None.

(** std::copy_n of [n] bytes from [src] to [dst] inside one block
    (forward copy, used with dst <= src only). *)
Definition copyn (m : cells) (src n dst : nat) : option cells :=
  if (src + n <=? length m) && (dst + n <=? length m) then
    Some (firstn dst m ++ firstn n (skipn src m) ++ skipn (dst + n) m)
  else None.

(** Contents of a half-open range. *)
Fixpoint unopt (l : list (option ascii)) : option str :=
  match l with
  | [] => Some []
  | Some c :: l' => match unopt l' with Some r => Some (c :: r) | None => None end
  | None :: _ => None
  end.

Definition range_str (m : cells) (b e : nat) : option str :=
  if (b <=? e) && (e <=? length m) then unopt (firstn (e - b) (skipn b m)) else None.

(** Outcomes. *)
Inductive res (S A : Type) : Type :=
| Ok (a : A) (s : S)
| Throw (e : str) (s : S)     (* ss::exception with its text *)
| UB (why : string)           (* undefined behaviour *)
| OutOfFuel.                  (* modelling artefact: loop bound exhausted *)
Arguments Ok {S A} a s.
Arguments Throw {S A} e s.
Arguments UB {S A} why.
Arguments OutOfFuel {S A}.

Definition M (S A : Type) := S -> res S A.

Definition ret {S A} (a : A) : M S A := fun s => Ok a s.
Definition bind {S A B} (m : M S A) (k : A -> M S B) : M S B :=
  fun s => match m s with
           | Ok a s' => k a s'
           | Throw e s' => Throw e s'
           | UB w => UB w
           | OutOfFuel => OutOfFuel
           end.
Definition throw {S A} (e : str) : M S A := fun s => Throw e s.
Definition ub {S A} (w : string) : M S A := fun _ => UB w.
Definition get {S} : M S S := fun s => Ok s s.
Definition modify {S} (f : S -> S) : M S unit := fun s => Ok tt (f s).
Definition gets {S A} (f : S -> A) : M S A := fun s => Ok (f s) s.
(** try m catch (const ss::exception& e) { h e } *)
Definition catch {S A} (m : M S A) (h : str -> M S A) : M S A :=
  fun s => match m s with Throw e s' => h e s' | r => r end.
(** Run a computation on a component of a larger state. *)
Definition zoom {T S A} (g : T -> S) (p : S -> T -> T) (m : M S A) : M T A :=
  fun t => match m (g t) with
           | Ok a s => Ok a (p s t)
           | Throw e s => Throw e (p s t)
           | UB w => UB w
           | OutOfFuel => OutOfFuel
           end.

Declare Scope monad_scope.
Delimit Scope monad_scope with monad.
Notation "x <- m ;; k" := (bind m (fun x => k))
  (at level 61, m at next level, right associativity) : monad_scope.
Notation "' p <- m ;; k" := (bind m (fun p => k))
  (at level 61, p pattern, m at next level, right associativity) : monad_scope.
Notation "m ;; k" := (bind m (fun _ => k))
  (at level 61, right associativity) : monad_scope.
Open Scope monad_scope.

Definition when {S} (b : bool) (m : M S unit) : M S unit := if b then m else ret tt.

(** How errors are reported (setup.hpp:250,253): default bool, string_error, throw_on_error. *)
Inductive emode := EBool | EString | EThrow.

(** Error member of splitter/converter/parser: [std::conditional_t<string_error,
    std::string, bool>].  [None] = no error (false / empty string). In bool mode
    [Some []]. *)
Notation err := (option (list ascii)) (only parsing).

Definition set_error (m : emode) (msg : str) : option err :=
  match m with
  | EBool => Some (Some [])
  | EString => Some (match msg with [] => None | _ => Some msg end)
  | EThrow => None
  end.

(** valid(): splitter.hpp:31-39, converter.hpp:170-178, parser.hpp:78-86 (same text). *)
Definition err_valid (m : emode) (e : err) : bool :=
  match m with
  | EThrow => true
  | _ => match e with None => true | Some _ => false end
  end.
