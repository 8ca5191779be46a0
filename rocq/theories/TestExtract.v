(** test_extractions.cpp, replayed on the model (the integer, bool, char, optional and variant cases; a floating point type is
    given by what from_chars makes of the texts of the test).  Tests, not proofs. *)
From Verif Require Import Base Splitter Extract ExtractProofs.
Local Open Scope Z_scope.

(** extract(s.c_str(), s.c_str() + s.size(), value) *)
Definition ex (s : str) (t : ty) : xres := extract (map Some s ++ [Some NUL]) (0%nat, length s) t.
Definition i8 := TWrap (mkIty true 8). Definition u8 := TWrap (mkIty false 8).
Definition i16 := TInt (mkIty true 16). Definition u16 := TInt (mkIty false 16).
Definition i32 := TInt (mkIty true 32). Definition u32 := TInt (mkIty false 32).
Definition i64 := TInt (mkIty true 64). Definition u64 := TInt (mkIty false 64).
Definition ok_int (s : str) (z : Z) (t : ty) : Prop := ex s t = Some (true, Some (VInt z)).
Definition bad (s : str) (t : ty) : Prop := exists o, ex s t = Some (false, o).
Ltac go := repeat (first [split | (eexists; reflexivity) | reflexivity]).

(** test_extractions.cpp:71-82, with the negative texts for the signed types (59-65) *)
Example decimal_values :
  ok_int (S2 "12") 12 i8 /\ ok_int (S2 "-12") (-12) i8 /\ ok_int (S2 "12") 12 u8 /\
  ok_int (S2 "1234") 1234 i16 /\ ok_int (S2 "-1234") (-1234) i16 /\ ok_int (S2 "1234") 1234 u16 /\
  ok_int (S2 "1234") 1234 i32 /\ ok_int (S2 "-1234") (-1234) i32 /\ ok_int (S2 "1234") 1234 u32 /\
  ok_int (S2 "1234") 1234 i64 /\ ok_int (S2 "-1234") (-1234) i64 /\ ok_int (S2 "1234") 1234 u64 /\
  ok_int (S2 "1234567891011") 1234567891011 u64.
Proof. vm_compute. go. Qed.

(** A stand-in for double: digits with at most one point are read, and the number of characters. *)
Fixpoint dbl (dot : bool) (n : nat) (s : str) : nat :=
  match s with
  | x :: s' => match digit_of x with Some _ => dbl dot (S n) s' | None => if andb (negb dot) (Ascii.eqb x ".") then dbl true (S n) s' else n end
  | [] => n
  end.
Definition f64 := TFloat (fun s => match dbl false 0 s with O => None | n => Some (0, n) end).

(** 84-102 *)
Example invalid_numbers : bad (S2 "-12") u8 /\ bad (S2 "-1234") u64 /\ bad (S2 "123.4") i32 /\ bad (S2 "xxx1") f64 /\ bad (S2 "xxx1") i32 /\ bad [] i32.
Proof. vm_compute. go. Qed.

(** 104-138: the limits, and with the first digit that is not 9 replaced by 9; -1 for the unsigned types. *)
Example out_of_range :
  ok_int (S2 "32767") 32767 i16 /\ bad (S2 "92767") i16 /\ ok_int (S2 "-32768") (-32768) i16 /\ bad (S2 "-92768") i16 /\ bad (S2 "932768") i16 /\
  ok_int (S2 "65535") 65535 u16 /\ bad (S2 "95535") u16 /\ ok_int (S2 "0") 0 u16 /\ bad (S2 "-1") u16 /\
  ok_int (S2 "2147483647") 2147483647 i32 /\ bad (S2 "9147483647") i32 /\ ok_int (S2 "-2147483648") (-2147483648) i32 /\ bad (S2 "-9147483648") i32 /\
  ok_int (S2 "4294967295") 4294967295 u32 /\ bad (S2 "9294967295") u32 /\ bad (S2 "-1") u32 /\
  ok_int (S2 "9223372036854775807") 9223372036854775807 i64 /\ bad (S2 "9923372036854775807") i64 /\
  ok_int (S2 "-9223372036854775808") (-9223372036854775808) i64 /\ bad (S2 "-9923372036854775808") i64 /\
  ok_int (S2 "18446744073709551615") 18446744073709551615 u64 /\ bad (S2 "98446744073709551615") u64 /\ bad (S2 "-1") u64 /\
  ok_int (S2 "255") 255 u8 /\ bad (S2 "955") u8 /\ ok_int (S2 "0") 0 u8 /\ bad (S2 "-1") u8.
Proof. vm_compute. go. Qed.

(** 140-155 *)
Example booleans :
  map (fun s => ex s TBool) [S2 "1"; S2 "0"; S2 "true"; S2 "false"] = map (fun b => Some (true, Some (VBool b))) [true; false; true; false] /\
  bad (S2 "2") TBool /\ bad (S2 "tru") TBool /\ bad (S2 "truee") TBool /\ bad (S2 "xxx") TBool /\ bad [] TBool.
Proof. vm_compute. go. Qed.

(** 157-169 *)
Example chars :
  map (fun s => ex s TChar) [S2 "a"; S2 "x"; S2 " "] = map (fun c => Some (true, Some (VChar c))) ["a"; "x"; " "]%char /\
  bad (S2 "aa") TChar /\ bad (S2 "xxx") TChar /\ bad [] TChar.
Proof. vm_compute. go. Qed.

(** 171-204 *)
Example optionals :
  Forall (fun t => map (fun s => ex s (TOpt t)) [S2 "1"; S2 "69"; S2 "-4"; S2 "aa"; S2 "xxx"; []] =
    map (fun o => Some (true, Some (VOpt (option_map VInt o)))) [Some 1; Some 69; Some (-4); None; None; None]) [i32; i8] /\
  map (fun s => ex s (TOpt TChar)) [S2 "a"; S2 "x"; S2 " "; S2 "aa"; S2 "xxx"; []] =
    map (fun o => Some (true, Some (VOpt (option_map VChar o)))) [Some "a"; Some "x"; Some " "; None; None; None]%char.
Proof. split; [repeat constructor|reflexivity]. Qed.

(** 206-301, for int and ss::uint8 *)
Definition one_of (t : ty) (s : str) (ts : list ty) (i : nat) (v : val) : Prop := ex s (TVar ts) = Some (true, Some (VVar i v)).
Definition none_of_them (s : str) (ts : list ty) : Prop := ex s (TVar ts) = Some (false, None).
Definition variants_of (t : ty) : Prop :=
  one_of t (S2 "22") [t; f64; TString] 0 (VInt 22) /\ one_of t (S2 "22") [f64; t; TString] 0 (VFloat 0) /\
  one_of t (S2 "22") [TString; f64; t] 0 (VStr (S2 "22")) /\ one_of t (S2 "22") [t] 0 (VInt 22) /\
  one_of t (S2 "22.2") [t; f64; TString] 1 (VFloat 0) /\ one_of t (S2 "22.2") [f64; t; TString] 0 (VFloat 0) /\
  one_of t (S2 "22.2") [TString; f64; t] 0 (VStr (S2 "22.2")) /\
  one_of t (S2 "2.2.2") [t; f64; TString] 2 (VStr (S2 "2.2.2")) /\ one_of t (S2 "2.2.2") [f64; TString; t] 1 (VStr (S2 "2.2.2")) /\
  one_of t (S2 "2.2.2") [TString; f64; t] 0 (VStr (S2 "2.2.2")) /\
  none_of_them (S2 "2.2.2") [t; f64] /\ none_of_them (S2 "2.2.2") [f64; t] /\ none_of_them (S2 "2.2.2") [t].
Example variants : variants_of i32 /\ variants_of u8.
Proof. vm_compute. go. Qed.
