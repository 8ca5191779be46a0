(** Specification (not a model): which texts denote which values. *)
From Coq Require Import Ascii String ZArith List.
From Verif Require Import Base Extract Converter.
Import ListNotations.
Local Open Scope Z_scope.

Definition digit_chars : list ascii := list_ascii_of_string "0123456789".
Definition digit_value (x : ascii) : Z := Z.of_nat (nat_of_ascii x) - 48.
Definition digits (s : str) : Prop := s <> [] /\ Forall (fun x => In x digit_chars) s.
(** Positional value of a digit string. *)
Fixpoint value (s : str) : Z :=
  match s with
  | [] => 0
  | x :: s' => digit_value x * 10 ^ Z.of_nat (List.length s') + value s'
  end.
Inductive denotes (signed : bool) : str -> Z -> Prop :=
| dn_plain s : digits s -> denotes signed s (value s)
| dn_minus s : signed = true -> digits s -> denotes signed ("-"%char :: s) (- value s).
(** Two's complement range of [bits] bits. *)
Definition in_range (signed : bool) (bits : nat) (z : Z) : Prop :=
  if signed then - 2 ^ (Z.of_nat bits - 1) <= z <= 2 ^ (Z.of_nat bits - 1) - 1
  else 0 <= z <= 2 ^ Z.of_nat bits - 1.

(** The decimal text of a number, by Coq's own printer. *)
Definition decimal (z : Z) : str :=
  list_ascii_of_string (DecimalString.NilZero.string_of_int (Z.to_int z)).

(** [converts t s v]: the text [s] denotes the value [v] of type [t]. *)
Fixpoint converts (t : ty) (s : str) (v : val) {struct t} : Prop :=
  match t with
  | TInt i | TWrap i => exists z, v = VInt z /\ denotes (i_signed i) s z /\ in_range (i_signed i) (i_bits i) z
  | TFloat fc => exists f, v = VFloat f /\ fc s = Some (f, List.length s)
  | TBool => (v = VBool true /\ (s = S2 "1" \/ s = S2 "true")) \/ (v = VBool false /\ (s = S2 "0" \/ s = S2 "false"))
  | TChar => exists x, v = VChar x /\ s = [x]
  | TString => v = VStr s
  | TView => v = VView s
  | TOpt t' => match v with
               | VOpt (Some w) => converts t' s w
               | VOpt None => forall w, ~ converts t' s w
               | _ => False
               end
  | TVar ts => (fix first (i : nat) (ts : list ty) : Prop :=
                  match ts with
                  | [] => False
                  | t' :: ts' => (exists w, v = VVar i w /\ converts t' s w)
                                 \/ ((forall w, ~ converts t' s w) /\ first (S i) ts')
                  end) O ts
  | TUser f => exists z, v = VUser z /\ f s = Some z
  end.

(** [number t v i o]: the value [v] of the type [t] is compared as the number [o] of the integral type [i]; [None]:
    an optional without value. *)
Inductive number : ty -> val -> ity -> option Z -> Prop :=
| nu_int i z : number (TInt i) (VInt z) i (Some z)
| nu_wrap i z : number (TWrap i) (VInt z) i (Some z)
| nu_ascii x : (nat_of_ascii x < 128)%nat -> number TChar (VChar x) (mkIty true 8) (Some (Z.of_nat (nat_of_ascii x)))
| nu_high x : (128 <= nat_of_ascii x)%nat -> number TChar (VChar x) (mkIty true 8) (Some (Z.of_nat (nat_of_ascii x) - 256))
| nu_true : number TBool (VBool true) (mkIty false 1) (Some 1)
| nu_false : number TBool (VBool false) (mkIty false 1) (Some 0)
| nu_some t v i o : number t v i o -> number (TOpt t) (VOpt (Some v)) i o
| nu_none t w i o : number t w i o -> number (TOpt t) (VOpt None) i None.
(** How C++ compares a number of the type [t] with one of the type [u]. Both are widened to at least 32 bits, in which every
    narrower number keeps its value; if the wider of the two types is then unsigned, so is the comparison ([Some n]: in an
    unsigned type of [n] bits); *)
Definition width (t : ity) : nat := Nat.max 32 (i_bits t).
Definition stays_unsigned (t : ity) : Prop := i_signed t = false /\ (32 <= i_bits t)%nat.
Inductive compared_in (t u : ity) : option nat -> Prop :=
| ci_left : stays_unsigned t -> (width u <= width t)%nat -> compared_in t u (Some (width t))
| ci_right : stays_unsigned u -> (width t <= width u)%nat -> compared_in t u (Some (width u))
| ci_signed : (stays_unsigned t -> (width t < width u)%nat) -> (stays_unsigned u -> (width u < width t)%nat) -> compared_in t u None.
(** there a negative number counts as itself plus 2^n. *)
Inductive counts_as : option nat -> Z -> Z -> Prop :=
| ca_signed x : counts_as None x x
| ca_plain n x : 0 <= x -> counts_as (Some n) x x
| ca_negative n x : x < 0 -> counts_as (Some n) x (x + 2 ^ Z.of_nat n).
(** [relation R t x k]: [R] holds between what the number [x] of the type [t] and the constant [k] count as. *)
Definition relation (R : Z -> Z -> Prop) (t : ity) (x : Z) (k : cst) : Prop :=
  exists m x' k', compared_in t (k_ty k) m /\ counts_as m x x' /\ counts_as m (k_val k) k' /\ R x' k'.
(** What the built-in restrictions mean for a number [x] of the type [t]; *)
Definition meaning (r : restriction) (t : ity) (x : Z) : Prop :=
  match r with
  | RAx ks => Forall (relation (fun a b => a <> b) t x) ks          (* all except *)
  | RNx ks => Exists (relation (fun a b => a = b) t x) ks           (* none except *)
  | RGt k => relation Z.gt t x k
  | RGte k => relation Z.ge t x k
  | RLt k => relation Z.lt t x k
  | RLte k => relation Z.le t x k
  | RIr lo hi => relation Z.ge t x lo /\ relation Z.le t x hi
  | ROor lo hi => relation Z.lt t x lo \/ relation Z.gt t x hi
  | _ => True
  end.
(** As numbers, when no negative number is compared in an unsigned type. *)
Definition plain_meaning (r : restriction) (x : Z) : Prop :=
  match r with
  | RAx ks => Forall (fun k => x <> k_val k) ks
  | RNx ks => Exists (fun k => x = k_val k) ks
  | RGt k => x > k_val k
  | RGte k => x >= k_val k
  | RLt k => x < k_val k
  | RLte k => x <= k_val k
  | RIr lo hi => k_val lo <= x <= k_val hi
  | ROor lo hi => x < k_val lo \/ x > k_val hi
  | _ => True
  end.
(** no value is below every number. *)
Definition absent_ok (r : restriction) : Prop :=
  match r with RAx _ | RLt _ | RLte _ | ROor _ _ => True | _ => False end.
Definition satisfies (r : restriction) (t : ity) (o : option Z) : Prop :=
  match o with Some x => meaning r t x | None => absent_ok r end.
(** The complaint about a value. *)
Definition complaint (r : restriction) : str :=
  match r with
  | RAx _ | RNx _ => S2 "value excluded"
  | RGt _ | RGte _ | RLt _ | RLte _ | RIr _ _ | ROor _ _ => S2 "validation error"
  | RNe => S2 "empty field"
  | RUser _ (Some msg) => msg
  | RUser _ None => S2 "validation error"
  end.
Definition constants (r : restriction) : list cst :=
  match r with
  | RAx ks | RNx ks => ks
  | RGt k | RGte k | RLt k | RLte k => [k]
  | RIr lo hi | ROor lo hi => [lo; hi]
  | _ => []
  end.
Definition numeric (r : restriction) : Prop := match r with RNe | RUser _ _ => False | _ => True end.
(** A constant as the language has it: a value of its type. *)
Definition proper (k : cst) : Prop := (0 < i_bits (k_ty k))%nat /\ in_range (i_signed (k_ty k)) (i_bits (k_ty k)) (k_val k).
(** Comparing a number [x] of the type [t] with [k] mixes no negative number with an unsigned type. *)
Definition same_signs (t : ity) (x : Z) (k : cst) : Prop :=
  compared_in t (k_ty k) None \/ (0 <= x /\ 0 <= k_val k).

(** Integers, characters, booleans and optionals of one of these are compared as numbers. *)
Fixpoint comparable (t : ty) : Prop := match t with TInt _ | TWrap _ | TChar | TBool => True | TOpt t' => comparable t' | _ => False end.
(** The restriction [r] can be put on the type [t]: a comparison on a comparable type, with constants of the language;
    ne on strings. *)
Definition restricts (t : ty) (r : restriction) : Prop :=
  match r with
  | RUser _ _ => True
  | RNe => t = TString \/ t = TView
  | _ => comparable t /\ Forall proper (constants r)
  end.
(** The value [v] of the type [t] passes the restriction [r]. *)
Definition passes (t : ty) (r : restriction) (v : val) : Prop :=
  match r with
  | RUser ok _ => ok v = true
  | RNe => v <> VStr [] /\ v <> VView []
  | _ => exists i o, number t v i o /\ satisfies r i o
  end.

(** ** Rows *)

(** [col_ok e s o]: the text [s] is acceptable for the element [e] and gives the value [o] (none for void). *)
Inductive col_ok : elem -> str -> option val -> Prop :=
| co_void s : col_ok EVoid s None
| co_val t s v : converts t s v -> col_ok (EVal t) s (Some v)
| co_res t r s v : converts t s v -> passes t r v -> col_ok (ERes t r) s (Some v).

(** [col_bad n e s msg]: the text [s] in the [n]-th place (from 1) is not acceptable; [msg] says so. *)
Definition where_ (n : nat) (s : str) : str := S2 "at column " ++ dec n ++ S2 ": '" ++ s ++ S2 "'".
Inductive col_bad (n : nat) : elem -> str -> str -> Prop :=
| cb_val t s : (forall v, ~ converts t s v) -> col_bad n (EVal t) s (S2 "invalid conversion for parameter " ++ where_ n s)
| cb_res_type t r s : (forall v, ~ converts t s v) -> col_bad n (ERes t r) s (S2 "invalid conversion for parameter " ++ where_ n s)
| cb_res_val t r s v : converts t s v -> ~ passes t r v ->
    col_bad n (ERes t r) s (complaint r ++ S2 " " ++ where_ n s).

(** A whole row: the values, one per element that is not void, in order. *)
Inductive row_ok : list elem -> list str -> list val -> Prop :=
| ro_nil : row_ok [] [] []
| ro_skip e s es ss vs : col_ok e s None -> row_ok es ss vs -> row_ok (e :: es) (s :: ss) vs
| ro_cons e s v es ss vs : col_ok e s (Some v) -> row_ok es ss vs -> row_ok (e :: es) (s :: ss) (v :: vs).

(** The first unacceptable column, with its message. *)
Inductive row_bad : list elem -> list str -> str -> Prop :=
| rb es1 ss1 vs e s msg es2 ss2 : row_ok es1 ss1 vs -> col_bad (S (List.length es1)) e s msg -> List.length es2 = List.length ss2 ->
    row_bad (es1 ++ e :: es2) (ss1 ++ s :: ss2) msg.

(** ** convert on the columns [cols]

    [mp], [ncols]: the selection made with use_fields: the column of each argument and the number of header columns
    ([mp = []]: none, argument i takes column i). *)
Definition taken (mp : list nat) (ncols : nat) (cols ps : list str) : Prop :=
  match mp with
  | [] => ps = cols
  | _ => ncols = List.length cols /\ Forall2 (fun p s => nth_error cols p = Some s) mp ps
  end.
Definition wrong_count (expected got : nat) : str :=
  S2 "invalid number of columns, expected: " ++ dec expected ++ S2 ", got: " ++ dec got.
Definition wrong_arguments (expected got : nat) : str :=
  S2 "number of arguments does not match mapping, expected: " ++ dec expected ++ S2 ", got: " ++ dec got.

(** [inl vs]: the values of all non-void elements; [inr msg]: an error and its message. *)
Inductive converted (mp : list nat) (ncols : nat) (es : list elem) (cols : list str) : list val + str -> Prop :=
| cd_values ps vs : taken mp ncols cols ps -> List.length es = List.length ps -> row_ok es ps vs -> converted mp ncols es cols (inl vs)
| cd_column ps msg : taken mp ncols cols ps -> List.length es = List.length ps -> row_bad es ps msg -> converted mp ncols es cols (inr msg)
| cd_count : mp = [] -> List.length es <> List.length cols ->
    converted mp ncols es cols (inr (wrong_count (List.length es) (List.length cols)))
| cd_mapping : mp <> [] -> List.length es <> List.length mp ->
    converted mp ncols es cols (inr (wrong_arguments (List.length mp) (List.length es)))
| cd_mapped_count : mp <> [] -> List.length es = List.length mp -> List.length cols <> ncols ->
    converted mp ncols es cols (inr (wrong_count ncols (List.length cols))).
