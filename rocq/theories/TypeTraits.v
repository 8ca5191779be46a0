(** type_traits.hpp: the templates on types, as partial functions ([None]: does not compile: no specialisation, an ambiguous
    one, or a failing static_assert). *)
From Verif Require Import Base.

Section T.
Context {A : Type}.
(** A type: std::false_type, std::tuple<...>, or any other ([A]). *)
Inductive typ := FalseT | Tup (l : list typ) | Pl (a : A).
(** A trait: Trait<T>::value; Trait<T>::type is the matching std::true_type or std::false_type. *)
Definition trait := typ -> bool.

(** tup_cat (type_traits.hpp:12-26); two tuples match both specialisations, the first is the more specialised. *)
Definition tup_cat (t u : typ) : option typ :=
  match t, u with
  | Tup x, Tup y => Some (Tup (x ++ y))
  | t, Tup y => Some (Tup (t :: y))
  | _, _ => None
  end.
Definition cat_opt (t : typ) (u : option typ) : option typ := match u with Some u => tup_cat t u | None => None end.
(** left_of_impl (type_traits.hpp:32-60): N < 128 and N <> 0 are asserted in the primary template. *)
Fixpoint left_of (n : nat) (ts : list typ) : option typ :=
  match n, ts with
  | _, [] => None
  | 0, t :: _ => Some (Tup [t])
  | S m, t :: ts' => if n <? 128 then cat_opt t (left_of m ts') else None
  end.
(** sizeof...(Ts) - 2 wraps around for fewer than two types, and then exceeds the limit. *)
Definition first_t (ts : list typ) : option typ := match ts with _ :: _ :: _ => left_of (length ts - 2) ts | _ => None end.
Definition head_t (ts : list typ) : option typ := left_of 0 ts.
(** right_of_impl (type_traits.hpp:66-87) *)
Fixpoint right_of (n : nat) (ts : list typ) : option typ :=
  match n, ts with
  | _, [] => None
  | 0, t :: ts' => Some (Tup (t :: ts'))
  | S m, _ :: ts' => right_of m ts'
  end.
Definition tail_t (ts : list typ) : option typ := right_of 1 ts.
Definition last_t (ts : list typ) : option typ := match ts with [] => None | _ => right_of (length ts - 1) ts end.

(** apply_trait (type_traits.hpp:93-114) for a trait with a type [f]; tuple<T> has its own specialisation, tuple<> falls to the
    primary template. *)
Fixpoint apply_list (f : typ -> typ) (x : typ) (xs : list typ) : option typ :=
  match xs with
  | [] => Some (Tup [f x])
  | y :: ys => cat_opt (f x) (apply_list f y ys)
  end.
Definition apply_trait (f : typ -> typ) (t : typ) : option typ :=
  match t with Tup (x :: xs) => apply_list f x xs | t => Some (Tup [f t]) end.
(** optional_trait (type_traits.hpp:120-132) *)
Definition optional_trait (b : bool) (u : typ) : typ := if b then u else FalseT.
(** apply_optional_trait (type_traits.hpp:134-157) *)
Definition apply_optional (tr : trait) (t : typ) : option typ := apply_trait (fun t => optional_trait (tr t) t) t.

(** remove_false (type_traits.hpp:163-196).  remove_false<tuple<false_type>> matches the specialisations <tuple<T>> and
    <tuple<false_type, Ts...>>, neither of which is more specialised.  The recursion follows the template's; [n] bounds it. *)
Fixpoint remove_false_n (n : nat) (ts : list typ) : option typ :=
  match n with
  | 0 => None
  | S m =>
      match ts with
      | [] => None                                                           (* at least one argument is needed *)
      | [FalseT] => Some (Tup [])                                            (* :193-196 *)
      | FalseT :: ts' => remove_false_n m ts'                                (* :168-171 *)
      | [Tup [FalseT]] => None                                               (* ambiguous *)
      | [Tup [t]] => Some (Tup [t])                                          (* :188-191 *)
      | [Tup (FalseT :: l)] => remove_false_n m l                            (* :178-181 *)
      | [Tup (t :: l)] => cat_opt t (remove_false_n m l)                     (* :173-176 *)
      | [t] => Some (Tup [t])                                                (* :183-186 *)
      | t :: ts' => cat_opt t (remove_false_n m ts')                         (* :163-166 *)
      end
  end.
Fixpoint weight (t : typ) : nat := match t with Tup l => S (fold_right (fun t n => weight t + n) 0 l) | _ => 1 end.
Definition remove_false (ts : list typ) : option typ := remove_false_n (S (fold_right (fun t n => weight t + n) 0 ts)) ts.

(** negate_impl (type_traits.hpp:202-206) *)
Definition negate (tr : trait) : trait := fun t => negb (tr t).
(** filter_if (type_traits.hpp:215-228): a single tuple argument is the pack itself. *)
Definition pack_of (ts : list typ) : typ := match ts with [Tup l] => Tup l | _ => Tup ts end.
Definition filter_if (tr : trait) (ts : list typ) : option typ :=
  match apply_optional tr (pack_of ts) with Some t => remove_false [t] | None => None end.
(** filter_not (type_traits.hpp:230-243) *)
Definition filter_not (tr : trait) (ts : list typ) : option typ := filter_if (negate tr) ts.
Definition tuple_size (t : option typ) : option nat := match t with Some (Tup l) => Some (length l) | _ => None end.
(** count (type_traits.hpp:249-269), count_not (275-295) *)
Definition count_v (tr : trait) (ts : list typ) : option nat :=
  match ts with [] => Some 0 | [t] => Some (if tr t then 1 else 0) | _ => tuple_size (filter_if tr ts) end.
Definition count_not_v (tr : trait) (ts : list typ) : option nat :=
  match ts with [] => Some 0 | [t] => Some (if tr t then 0 else 1) | _ => tuple_size (filter_not tr ts) end.
(** all_of, any_of, none_of (type_traits.hpp:301-346); in both forms the pack is what a single tuple contains. *)
Definition args_of (ts : list typ) : list typ := match ts with [Tup l] => l | _ => ts end.
Definition all_of (tr : trait) (ts : list typ) : option bool :=
  match count_v tr (args_of ts) with Some n => Some (n =? length (args_of ts)) | None => None end.
Definition any_of (tr : trait) (ts : list typ) : option bool :=
  match args_of ts with [] => None | ts => match count_v tr ts with Some n => Some (0 <? n) | None => None end end.
Definition none_of (tr : trait) (ts : list typ) : option bool :=
  match count_v tr (args_of ts) with Some n => Some (n =? 0) | None => None end.
(** decayed_arg_n (function_traits.hpp:12-21), without the decay *)
Fixpoint arg_n (n : nat) (ts : list typ) : option typ :=
  match n, ts with 0, t :: _ => Some t | S m, _ :: ts' => arg_n m ts' | _, [] => None end.

(** no_validator_tup and no_void_validator_tup (converter.hpp:31-74).  [base]: no_validator<T>::type, the type a validator
    operates on, or T itself; [is_void]: std::is_void. *)
Definition no_validator_tup (base : typ -> typ) (ts : list typ) : option typ :=
  match ts with
  | [Tup [t]] => Some (base t)                                  (* :49-50 *)
  | [Tup l] => apply_trait base (Tup l)                         (* :46-47, then 43-44 *)
  | _ => apply_trait base (Tup ts)
  end.
Definition no_void_validator_tup (is_void : trait) (base : typ -> typ) (ts : list typ) : option typ :=
  match filter_not is_void (args_of ts) with Some t => no_validator_tup base [t] | None => None end.
End T.
Arguments typ : clear implicits.
Arguments trait : clear implicits.
