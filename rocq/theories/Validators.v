(** function_traits.hpp and no_validator (converter.hpp:27-41): which classes are validators, and of what type of column. *)
From Verif Require Import Base TypeTraits.

Inductive refq := NoRef | LRef | RRef.
(** C++ types, as far as these templates look into them.  [Obj n]: any type without qualifiers that is none of the others.
    [Fn r args dots c v q ne]: r(args..., ...) with the qualifiers a member function can have and noexcept, which is part of the
    type since C++17. *)
Inductive cty :=
| Obj (n : nat)
| Qual (c v : bool) (t : cty)
| Ref (q : refq) (t : cty)
| Arr (t : cty)
| Fn (r : cty) (args : list cty) (dots c v : bool) (q : refq) (ne : bool)
| Ptr (t : cty)
| MemPtr (t : cty) (cls : nat).

(** std::decay_t: references are removed; arrays and functions become pointers; otherwise the outermost qualifiers go. *)
Definition unref (t : cty) : cty := match t with Ref _ t => t | t => t end.
Definition decay (t : cty) : cty :=
  match unref t with
  | Arr t => Ptr t
  | Fn r a d c v q ne => Ptr (Fn r a d c v q ne)
  | Qual _ _ (Arr t) => Ptr t
  | Qual _ _ t => t
  | t => t
  end.

(** function_traits<F>::arg0 (function_traits.hpp:29-48): one specialisation without qualifiers and five that inherit from it,
    const, &, const&, && and const&&; none for volatile, noexcept or a C variadic.  [None]: does not compile.
    decayed_arg_n<0, Ts...> (12-21) does not exist for an empty pack.  function_traits<std::function<...>> (26-29) has no arg0. *)
Definition function_traits (f : cty) : option cty :=
  match f with
  | Fn _ (a :: _) false _ false _ false => Some (decay a)
  | _ => None
  end.
(** member_wrapper (function_traits.hpp:50-56) *)
Definition member_wrapper (p : cty) : option cty := match p with MemPtr f _ => function_traits f | _ => None end.

(** What a class has under a name, as seen from the library: *)
Inductive member :=
| MNothing                             (* no such member, or not accessible *)
| MMany                                (* overloaded, or a template: its address alone is ambiguous *)
| MFun (f : cty) (cls : nat)           (* one member function of the class or of a base class [cls] *)
| MField (t : cty) (cls : nat)         (* a data member *)
| MStatic (t : cty).                   (* a static member function or variable *)
(** decltype(&C::name) *)
Definition address (m : member) : option cty :=
  match m with
  | MNothing | MMany => None
  | MFun f cls => Some (MemPtr f cls)
  | MField t cls => Some (MemPtr t cls)
  | MStatic t => Some (Ptr t)
  end.
(** has_m_<name> (function_traits.hpp:62-77): overload resolution between test(decltype(&C::name)) and test(...) for the argument 0,
    which every pointer and pointer to member can be initialised from. *)
Definition has_m (m : member) : bool := match address m with Some _ => true | None => false end.

Section V.
(** ss_valid of a type ([MNothing] for types that are not classes). *)
Context (ss_valid : cty -> member).
(** no_validator (converter.hpp:27-38) *)
Definition no_validator (t : cty) : option cty :=
  match address (ss_valid t) with
  | Some p => member_wrapper p
  | None => Some t
  end.
End V.
