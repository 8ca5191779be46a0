(** extract.hpp and restrictions.hpp. *)
From Verif Require Import Base.
Local Open Scope Z_scope.

(** ** Types and values *)

(** Integral types by signedness and width.  On the platforms of the library: 8, 16, 32, 64 bits
    (signed char/int8_t, short, int, long, long long, int64_t, size_t, ...).  [char] and [bool] have their own
    specialisations (extract.hpp:215-248). *)
Record ity := mkIty { i_signed : bool; i_bits : nat }.

(** Values of converted columns. [VInt] also stands for the contents of a numeric_wrapper; a floating point value is
    represented by its bit pattern. [VView] shows the text of a std::string_view (the view itself is a range into
    the line; its lifetime is the user's business). *)
Inductive val :=
| VInt (z : Z)
| VFloat (bits : Z)
| VBool (b : bool)
| VChar (c : ascii)
| VStr (s : str)
| VView (s : str)
| VOpt (v : option val)
| VVar (index : nat) (v : val)
| VUser (v : Z).

(** Target types: extract.hpp:145-262.  [TFloat from_chars]: a floating point type together with the result
    of its (external) fast_float::from_chars on a text: the value and the number of characters consumed, or
    [None] for an error code.  [TUser f]: a type with a user-written extract, here any function of the text. *)
Inductive ty :=
| TInt (t : ity)
| TWrap (t : ity)                        (* numeric_wrapper<T>, ss::int8, ss::uint8 *)
| TFloat (from_chars : str -> option (Z * nat))
| TBool
| TChar
| TString
| TView
| TOpt (t : ty)
| TVar (ts : list ty)
| TUser (f : str -> option Z).

(** ** std::from_chars for integers, base 10 (external; as in libstdc++'s <charconv>). *)
Definition digit_of (x : ascii) : option Z :=
  let n := Z.of_N (N_of_ascii x) in
  if (48 <=? n) && (n <=? 57) then Some (n - 48) else None.

(** __from_chars_digit / __raise_and_add: accumulate in the unsigned type of maximum [mx]; after an
    overflow the remaining digits are only skipped. Returns (no overflow, value, rest). *)
Fixpoint from_chars_digits (mx acc : Z) (ok : bool) (s : str) : bool * Z * str :=
  match s with
  | x :: s' =>
      match digit_of x with
      | Some k =>
          if ok then
            let v := acc * 10 + k in
            if v <=? mx then from_chars_digits mx v true s' else from_chars_digits mx acc false s'
          else from_chars_digits mx acc false s'
      | None => (ok, acc, s)
      end
  | [] => (ok, acc, [])
  end.

Definition umax (t : ity) : Z := 2 ^ Z.of_nat (i_bits t) - 1.
Definition tmin (t : ity) : Z := if i_signed t then - 2 ^ (Z.of_nat (i_bits t) - 1) else 0.
Definition tmax (t : ity) : Z := if i_signed t then 2 ^ (Z.of_nat (i_bits t) - 1) - 1 else umax t.

(** Returns the value and the unconsumed rest, or [None] for ec != errc{}. *)
Definition from_chars_int (t : ity) (s : str) : option (Z * str) :=
  let '(sign, s1) :=
    if i_signed t then match s with x :: s' => if Ascii.eqb x "-" then (-1, s') else (1, s) | [] => (1, s) end
    else (1, s) in
  let '(ok, v, rest) := from_chars_digits (umax t) 0 true s1 in
  if Nat.eqb (length rest) (length s1) then None              (* no digit: errc::invalid_argument *)
  else if ok then
    let z := sign * v in
    if (tmin t <=? z) && (z <=? tmax t) then Some (z, rest) else None   (* __builtin_mul_overflow *)
  else None.                                                  (* errc::result_out_of_range *)

(** to_num for integral types and numeric_wrapper: extract.hpp:116-139 (same text). *)
Definition to_num_int (t : ity) (s : str) : option Z :=
  match from_chars_int t s with
  | Some (z, []) => Some z
  | _ => None
  end.

(** to_num for floating point types with fast_float: extract.hpp:28-38. *)
Definition to_num_float (fc : str -> option (Z * nat)) (s : str) : option Z :=
  match fc s with
  | Some (f, n) => if Nat.eqb n (length s) then Some f else None
  | None => None
  end.

(** ** extract *)

(** The outcome of [extract(begin, end, value)]: the returned flag, and what was stored to [value]
    ([None]: nothing).  [None] overall: undefined behaviour.  Reading the range requires all of it to
    be readable, which is stronger than what the code needs. *)
Definition xres := option (bool * option val).

Definition of_num (o : option val) : xres :=
  match o with Some v => Some (true, Some v) | None => Some (false, None) end.

(** extract.hpp:215-241.  std::strncmp on ranges of equal size without NUL in the literal is list equality. *)
Definition extract_bool (s : str) : option bool :=
  if Nat.eqb (length s) 1 then
    match s with
    | x :: _ => if Ascii.eqb x "1" then Some true else if Ascii.eqb x "0" then Some false else None
    | [] => None
    end
  else if Nat.eqb (length s) 4 && str_eqb s (S2 "true") then Some true
  else if Nat.eqb (length s) 5 && str_eqb s (S2 "false") then Some false
  else None.

Fixpoint extract (m : cells) (r : nat * nat) (t : ty) {struct t} : xres :=
  let '(b, e) := r in
  match range_str m b e with
  | None => None
  | Some s =>
      match t with
      | TInt i | TWrap i => of_num (option_map VInt (to_num_int i s))        (* :165-177 *)
      | TFloat fc => of_num (option_map VFloat (to_num_float fc s))          (* :165-177 *)
      | TBool => of_num (option_map VBool (extract_bool s))                  (* :214-241 *)
      | TChar =>                                                             (* :243-248 *)
          match rd m b with                                                  (* value = *begin *)
          | Some x => Some (Nat.eqb e (b + 1), Some (VChar x))
          | None => None
          end
      | TString => Some (true, Some (VStr s))                                (* :250-255 *)
      | TView => Some (true, Some (VView s))                                 (* :257-262 *)
      | TOpt t' =>                                                           (* :179-189 *)
          match extract m r t' with
          | Some (true, Some v) => Some (true, Some (VOpt (Some v)))
          | Some (true, None) => None          (* would copy an uninitialised raw_value; does not occur *)
          | Some (false, _) => Some (true, Some (VOpt None))
          | None => None
          end
      | TVar ts =>                                                           (* :191-209 *)
          (fix variant (i : nat) (ts : list ty) : xres :=
             match ts with
             | [] => Some (false, None)
             | t' :: ts' =>
                 match extract m r t' with
                 | Some (true, Some v) => Some (true, Some (VVar i v))
                 | Some (true, None) => None
                 | Some (false, _) => variant (S i) ts'
                 | None => None
                 end
             end) 0%nat ts
      | TUser f => of_num (option_map VUser (f s))
      end
  end.

(** ** Restrictions (restrictions.hpp) *)

(** Comparison of a value of integral type [t] with a constant of integral type [u] follows the usual
    arithmetic conversions: integral promotion to int, then the common type; both operands are
    converted (modulo 2^bits) to it. *)
Definition promote (t : ity) : ity := if Nat.ltb (i_bits t) 32 then mkIty true 32 else t.
Definition common (t u : ity) : ity :=
  let a := promote t in let b := promote u in
  if Bool.eqb (i_signed a) (i_signed b) then mkIty (i_signed a) (Nat.max (i_bits a) (i_bits b))
  else
    let '(s, w) := if i_signed a then (a, b) else (b, a) in      (* signed, unsigned *)
    if Nat.leb (i_bits s) (i_bits w) then w else s.
Definition convert_to (t : ity) (z : Z) : Z :=
  let m := z mod 2 ^ Z.of_nat (i_bits t) in
  if i_signed t && (2 ^ (Z.of_nat (i_bits t) - 1) <=? m) then m - 2 ^ Z.of_nat (i_bits t) else m.
(** A constant template argument ([auto N]): its type and value. *)
Record cst := mkCst { k_ty : ity; k_val : Z }.
Definition icmp (t : ity) (x : Z) (k : cst) : comparison :=
  let ct := common t (k_ty k) in Z.compare (convert_to ct x) (convert_to ct (k_val k)).

(** The numeric content of a value and its type: integers, numeric wrappers (by their conversion operator),
    characters (char is signed, 8 bits) and bool. *)
Definition char_ty := mkIty true 8.
Definition char_val (x : ascii) : Z := convert_to char_ty (Z.of_N (N_of_ascii x)).
Definition num_of (v : val) : Z :=
  match v with VInt z => z | VChar x => char_val x | VBool b => if b then 1 else 0 | _ => 0 end.
(** value == N, value < N, ... as one three-way comparison.  A std::optional is compared by its own operators
    (external): no value is less than every value, otherwise the contents are compared. *)
Fixpoint vcmp (t : ity) (v : val) (k : cst) : comparison :=
  match v with
  | VOpt None => Lt
  | VOpt (Some w) => vcmp t w k
  | _ => icmp t (num_of v) k
  end.

Inductive restriction :=
| RAx (ks : list cst)          (* restrictions.hpp:9-28 *)
| RNx (ks : list cst)          (* :34-53 *)
| RGt (k : cst) | RGte (k : cst) | RLt (k : cst) | RLte (k : cst)   (* :62-88 *)
| RIr (lo hi : cst)            (* :94-99 *)
| ROor (lo hi : cst)           (* :105-110 *)
| RNe                          (* :116-125 *)
| RUser (ok : val -> bool) (msg : option str).   (* any class with ss_valid and possibly error *)

(** ax / nx, ss_valid_impl: the recursion over the pack; an empty pack does not instantiate (here: the last test
    is the one-element case). *)
Fixpoint ax_impl (t : ity) (x : val) (ks : list cst) : bool :=
  match ks with
  | [] => true
  | k :: ks' => (match vcmp t x k with Eq => false | _ => true end) && ax_impl t x ks'
  end.
Fixpoint nx_impl (t : ity) (x : val) (ks : list cst) : bool :=
  match ks with
  | [] => false
  | k :: ks' => (match vcmp t x k with Eq => true | _ => false end) || nx_impl t x ks'
  end.

Definition is_gt (c : comparison) := match c with Gt => true | _ => false end.
Definition is_ge (c : comparison) := match c with Lt => false | _ => true end.
Definition is_lt (c : comparison) := match c with Lt => true | _ => false end.
Definition is_le (c : comparison) := match c with Gt => false | _ => true end.

(** [t]: the integral type the restriction operates on. *)
Definition ss_valid (t : ity) (r : restriction) (v : val) : bool :=
  match r with
  | RAx ks => ax_impl t v ks
  | RNx ks => nx_impl t v ks
  | RGt k => is_gt (vcmp t v k)
  | RGte k => is_ge (vcmp t v k)
  | RLt k => is_lt (vcmp t v k)
  | RLte k => is_le (vcmp t v k)
  | RIr lo hi => is_ge (vcmp t v lo) && is_le (vcmp t v hi)
  | ROor lo hi => is_lt (vcmp t v lo) || is_gt (vcmp t v hi)
  | RNe => match v with VStr [] | VView [] => false | _ => true end
  | RUser ok _ => ok v
  end.

(** error(), if the class has it; converter.hpp:443-448 uses "validation error" otherwise. *)
Definition ss_error (r : restriction) : str :=
  match r with
  | RAx _ | RNx _ => S2 "value excluded"
  | RNe => S2 "empty field"
  | RUser _ (Some msg) => msg
  | _ => S2 "validation error"
  end.

(** The type a restriction compares in: the integral type behind [T]. Restrictions on floating point and user types
    are not modelled (other than as [RUser]); those on a variant do not compile. *)
Fixpoint ity_of (t : ty) : ity :=
  match t with
  | TInt i | TWrap i => i
  | TChar => char_ty
  | TBool => mkIty false 1
  | TOpt t' => ity_of t'
  | _ => mkIty true 32
  end.
