(** The library's own unit tests of the converter and the parser (test/*.cpp), replayed on the model.  Tests, not proofs. *)
From Verif Require Import Base Setup Splitter Extract Converter Reader Parser SplitApi ConvProofs ParserApi SessionApi.

(** ** A concrete floating point type: decimal numbers with an optional point, in millionths. *)
Fixpoint take_digits (s : str) : str * str :=
  match s with
  | x :: s' => match digit_of x with Some _ => let '(a, b) := take_digits s' in (x :: a, b) | None => ([], s) end
  | [] => ([], [])
  end.
Definition number (s : str) : Z := fold_left (fun a x => match digit_of x with Some k => a * 10 + k | None => a end)%Z s 0%Z.
Definition decimals (s : str) : option (Z * nat) :=
  let '(neg, s1) := match s with x :: s' => if Ascii.eqb x "-"%char then ((-1)%Z, s') else (1%Z, s) | [] => (1%Z, s) end in
  let '(a, r) := take_digits s1 in
  let '(b, r') := match r with x :: r1 => if Ascii.eqb x "."%char then take_digits r1 else ([], r) | [] => ([], r) end in
  match a ++ b with
  | [] => None
  | _ => Some ((neg * (number a * 1000000 + number (firstn 6 (b ++ S2 "000000"))))%Z, length s - length r')
  end.
Definition Int := TInt (mkIty true 32).
Definition U8 := TWrap (mkIty false 8).
Definition Dbl := TFloat decimals.
Definition i32 (z : Z) := mkCst (mkIty true 32) z.

(** Decidable equality of what is observed. *)
Fixpoint val_eqb (a b : val) {struct a} : bool :=
  match a, b with
  | VInt x, VInt y | VFloat x, VFloat y | VUser x, VUser y => Z.eqb x y
  | VBool x, VBool y => Bool.eqb x y
  | VChar x, VChar y => Ascii.eqb x y
  | VStr x, VStr y | VView x, VView y => str_eqb x y
  | VOpt None, VOpt None => true
  | VOpt (Some x), VOpt (Some y) => val_eqb x y
  | VVar i x, VVar j y => Nat.eqb i j && val_eqb x y
  | _, _ => false
  end.
Fixpoint list_eqb {A} (f : A -> A -> bool) (a b : list A) : bool :=
  match a, b with
  | [], [] => true
  | x :: a', y :: b' => f x y && list_eqb f a' b'
  | _, _ => false
  end.
Definition opt_eqb {A} (f : A -> A -> bool) (a b : option A) : bool :=
  match a, b with None, None => true | Some x, Some y => f x y | _, _ => false end.
Definition str_list_eqb := list_eqb str_eqb.

(** ** test_converter.cpp *)
Definition conv (os : list opt) (d line : str) (es : list elem) : cobs :=
  match setup os with
  | Some c => convert_obs c d conv_init line [] es
  | None => CCrash
  end.
Definition values (vs : list val) (o : cobs) : bool := match o with CValues xs => list_eqb (opt_eqb val_eqb) (map Some vs) xs | _ => false end.
(** Valid with these values, also with throw_on_error. *)
Definition ok os d line es vs : bool := values vs (conv os d line es) && values vs (conv (OThrowOnError :: os) d line es).
(** Not valid; a message with string_error; an exception with throw_on_error. *)
Definition bad os d line es : bool :=
  match conv os d line es with CErr _ => true | _ => false end &&
  match conv (OStringError :: os) d line es with CErr (_ :: _) => true | _ => false end &&
  match conv (OThrowOnError :: os) d line es with CThrown (_ :: _) => true | _ => false end.

(** test_converter.cpp:49-273 *)
Example valid_1 : 
  (ok [] (S2 ",") (S2 "5") [EVal Int] [(VInt 5)%Z] &&
   ok [] (S2 ",") (S2 "5,junk") [EVal Int; EVoid] [(VInt 5)%Z] &&
   ok [] (S2 ",") (S2 "junk,5") [EVoid; EVal Int] [(VInt 5)%Z] &&
   ok [] (S2 "
") (S2 "5
junk
junk") [EVal Int; EVoid; EVoid] [(VInt 5)%Z] &&
   ok [] (S2 " ") (S2 "junk 5 junk") [EVoid; EVal Int; EVoid] [(VInt 5)%Z] &&
   ok [] (S2 "	") (S2 "junk	junk	5") [EVoid; EVoid; EVal Int] [(VInt 5)%Z] &&
   ok [] (S2 "	") (S2 "junk	junk	5") [EVoid; EVoid; EVal (TOpt Int)] [(VOpt (Some (VInt 5)))%Z] &&
   ok [] (S2 ",") (S2 "5,6.6,junk") [EVal Int; EVal Dbl; EVoid] [(VInt 5)%Z; (VFloat 6600000)%Z] &&
   ok [] (S2 ",") (S2 "5,junk,6.6") [EVal Int; EVoid; EVal Dbl] [(VInt 5)%Z; (VFloat 6600000)%Z] &&
   ok [] (S2 ";") (S2 "junk;5;6.6") [EVoid; EVal Int; EVal Dbl] [(VInt 5)%Z; (VFloat 6600000)%Z] &&
   ok [] (S2 ";") (S2 "junk;5;6.6") [EVoid; EVal (TOpt Int); EVal Dbl] [(VOpt (Some (VInt 5)))%Z; (VFloat 6600000)%Z] &&
   ok [] (S2 ";") (S2 "junk;5.4;6.6") [EVoid; EVal (TOpt Int); EVal Dbl] [(VOpt None)%Z; (VFloat 6600000)%Z] &&
   ok [] (S2 ";") (S2 "junk;5;6.6") [EVoid; EVal (TVar [Int; Dbl]); EVal Dbl] [(VVar 0 (VInt 5))%Z; (VFloat 6600000)%Z] &&
   ok [] (S2 ";") (S2 "junk;5.5;6.6") [EVoid; EVal (TVar [Int; Dbl]); EVal Dbl] [(VVar 1 (VFloat 5500000))%Z; (VFloat 6600000)%Z] &&
   ok [] (S2 ";") (S2 "junk;s1;6.6;s2") [EVoid; EVal TView; EVal Dbl; EVal TView] [(VView (S2 "s1"))%Z; (VFloat 6600000)%Z; (VView (S2 "s2"))%Z]) = true.
Proof. vm_cast_no_check (eq_refl true). Qed.
(** test_converter.cpp:275-332 *)
Example invalid_2 : 
  (bad [] (S2 ",") (S2 "") [EVal Int] &&
   bad [] (S2 "") (S2 "1") [EVal Int] &&
   bad [] (S2 "") (S2 "10") [EVal Int] &&
   bad [] (S2 ",") (S2 "") [EVal Int; EVoid] &&
   bad [] (S2 ",") (S2 ",junk") [EVal Int; EVoid] &&
   bad [] (S2 ",") (S2 "junk,") [EVoid; EVal Int] &&
   bad [] (S2 ",") (S2 "x") [EVal Int] &&
   bad [] (S2 ",") (S2 "x") [EVal Int; EVoid] &&
   bad [] (S2 ",") (S2 "x,junk") [EVal Int; EVoid] &&
   bad [] (S2 ",") (S2 "junk,x") [EVoid; EVal Int] &&
   bad [] (S2 ";") (S2 "junk;.5.5;6") [EVoid; EVal (TVar [Int; Dbl]); EVal Dbl]) = true.
Proof. vm_cast_no_check (eq_refl true). Qed.
(** test_converter.cpp:334-583, 653-763 *)
Example restr_3 : 
  (bad [] (S2 ",") (S2 "0") [ERes Int (RAx [i32 0])] &&
   bad [] (S2 ",") (S2 "1") [ERes Int (RAx [i32 0; i32 1; i32 2])] &&
   bad [] (S2 ",") (S2 "junk,c,1") [EVoid; EVal TChar; ERes Int (RAx [i32 0; i32 1; i32 2])] &&
   bad [] (S2 ",") (S2 "1,c") [ERes Int (RAx [i32 1]); EVal TChar] &&
   ok [] (S2 ",") (S2 "3") [ERes Int (RAx [i32 1])] [(VInt 3)%Z] &&
   ok [] (S2 ",") (S2 "c,3") [EVal TChar; ERes Int (RAx [i32 1])] [(VChar "c"%char)%Z; (VInt 3)%Z] &&
   ok [] (S2 ",") (S2 "3,c") [ERes Int (RAx [i32 1]); EVal TChar] [(VInt 3)%Z; (VChar "c"%char)%Z] &&
   bad [] (S2 ",") (S2 "3") [ERes Int (RNx [i32 1])] &&
   bad [] (S2 ",") (S2 "c,3") [EVal TChar; ERes Int (RNx [i32 1; i32 2; i32 69])] &&
   bad [] (S2 ",") (S2 "3,c") [ERes Int (RNx [i32 1]); EVal TChar] &&
   ok [] (S2 ",") (S2 "3") [ERes Int (RNx [i32 3])] [(VInt 3)%Z] &&
   ok [] (S2 ",") (S2 "2") [ERes Int (RNx [i32 0; i32 1; i32 2])] [(VInt 2)%Z] &&
   ok [] (S2 ",") (S2 "c,junk,1") [EVal TChar; EVoid; ERes Int (RNx [i32 0; i32 1; i32 2])] [(VChar "c"%char)%Z; (VInt 1)%Z] &&
   ok [] (S2 ",") (S2 "1,c") [ERes Int (RNx [i32 1]); EVal TChar] [(VInt 1)%Z; (VChar "c"%char)%Z] &&
   bad [] (S2 ",") (S2 "3") [ERes Int (RIr (i32 0) (i32 2))] &&
   bad [] (S2 ",") (S2 "c,3") [EVal TChar; ERes Int (RIr (i32 4) (i32 69))] &&
   bad [] (S2 ",") (S2 "3,c") [ERes Int (RIr (i32 1) (i32 2)); EVal TChar] &&
   ok [] (S2 ",") (S2 "3") [ERes Int (RIr (i32 1) (i32 5))] [(VInt 3)%Z] &&
   ok [] (S2 ",") (S2 "2") [ERes Int (RIr (i32 0) (i32 2))] [(VInt 2)%Z] &&
   ok [] (S2 ",") (S2 "c,junk,1") [EVal TChar; EVoid; ERes Int (RIr (i32 0) (i32 1))] [(VChar "c"%char)%Z; (VInt 1)%Z] &&
   ok [] (S2 ",") (S2 "1,c") [ERes Int (RIr (i32 1) (i32 20)); EVal TChar] [(VInt 1)%Z; (VChar "c"%char)%Z] &&
   bad [] (S2 ",") (S2 "3") [ERes Int (ROor (i32 1) (i32 5))] &&
   bad [] (S2 ",") (S2 "2") [ERes Int (ROor (i32 0) (i32 2))] &&
   bad [] (S2 ",") (S2 "c,1,junk") [EVal TChar; ERes Int (ROor (i32 0) (i32 1)); EVoid] &&
   bad [] (S2 ",") (S2 "1,c") [ERes Int (ROor (i32 1) (i32 20)); EVal TChar] &&
   ok [] (S2 ",") (S2 "3") [ERes Int (ROor (i32 0) (i32 2))] [(VInt 3)%Z] &&
   ok [] (S2 ",") (S2 "c,junk,3") [EVal TChar; EVoid; ERes Int (ROor (i32 4) (i32 69))] [(VChar "c"%char)%Z; (VInt 3)%Z] &&
   ok [] (S2 ",") (S2 "3,c") [ERes Int (ROor (i32 1) (i32 2)); EVal TChar] [(VInt 3)%Z; (VChar "c"%char)%Z] &&
   bad [] (S2 ",") (S2 "3") [ERes Int (RLt (i32 3))] &&
   bad [] (S2 ",") (S2 "3") [ERes Int (RLt (i32 2))] &&
   bad [] (S2 ",") (S2 "3") [ERes Int (RGt (i32 3))] &&
   bad [] (S2 ",") (S2 "3") [ERes Int (RGt (i32 4))] &&
   bad [] (S2 ",") (S2 "3") [ERes Int (RLte (i32 2))] &&
   bad [] (S2 ",") (S2 "3") [ERes Int (RGte (i32 4))] &&
   ok [] (S2 ",") (S2 "3") [ERes Int (RLt (i32 4))] [(VInt 3)%Z] &&
   ok [] (S2 ",") (S2 "3") [ERes Int (RGt (i32 2))] [(VInt 3)%Z] &&
   ok [] (S2 ",") (S2 "3") [ERes Int (RLte (i32 4))] [(VInt 3)%Z] &&
   ok [] (S2 ",") (S2 "3") [ERes Int (RLte (i32 3))] [(VInt 3)%Z] &&
   ok [] (S2 ",") (S2 "3") [ERes Int (RGte (i32 2))] [(VInt 3)%Z] &&
   ok [] (S2 ",") (S2 "3") [ERes Int (RGte (i32 3))] [(VInt 3)%Z]) = true.
Proof. vm_cast_no_check (eq_refl true). Qed.
(** test_converter.cpp:49-273 *)
Example valid_4 : 
  (ok [] (S2 ",") (S2 "5") [EVal U8] [(VInt 5)%Z] &&
   ok [] (S2 ",") (S2 "5,junk") [EVal U8; EVoid] [(VInt 5)%Z] &&
   ok [] (S2 ",") (S2 "junk,5") [EVoid; EVal U8] [(VInt 5)%Z] &&
   ok [] (S2 "
") (S2 "5
junk
junk") [EVal U8; EVoid; EVoid] [(VInt 5)%Z] &&
   ok [] (S2 " ") (S2 "junk 5 junk") [EVoid; EVal U8; EVoid] [(VInt 5)%Z] &&
   ok [] (S2 "	") (S2 "junk	junk	5") [EVoid; EVoid; EVal U8] [(VInt 5)%Z] &&
   ok [] (S2 "	") (S2 "junk	junk	5") [EVoid; EVoid; EVal (TOpt U8)] [(VOpt (Some (VInt 5)))%Z] &&
   ok [] (S2 ",") (S2 "5,6.6,junk") [EVal U8; EVal Dbl; EVoid] [(VInt 5)%Z; (VFloat 6600000)%Z] &&
   ok [] (S2 ",") (S2 "5,junk,6.6") [EVal U8; EVoid; EVal Dbl] [(VInt 5)%Z; (VFloat 6600000)%Z] &&
   ok [] (S2 ";") (S2 "junk;5;6.6") [EVoid; EVal U8; EVal Dbl] [(VInt 5)%Z; (VFloat 6600000)%Z] &&
   ok [] (S2 ";") (S2 "junk;5;6.6") [EVoid; EVal (TOpt U8); EVal Dbl] [(VOpt (Some (VInt 5)))%Z; (VFloat 6600000)%Z] &&
   ok [] (S2 ";") (S2 "junk;5.4;6.6") [EVoid; EVal (TOpt U8); EVal Dbl] [(VOpt None)%Z; (VFloat 6600000)%Z] &&
   ok [] (S2 ";") (S2 "junk;5;6.6") [EVoid; EVal (TVar [U8; Dbl]); EVal Dbl] [(VVar 0 (VInt 5))%Z; (VFloat 6600000)%Z] &&
   ok [] (S2 ";") (S2 "junk;5.5;6.6") [EVoid; EVal (TVar [U8; Dbl]); EVal Dbl] [(VVar 1 (VFloat 5500000))%Z; (VFloat 6600000)%Z] &&
   ok [] (S2 ";") (S2 "junk;s1;6.6;s2") [EVoid; EVal TView; EVal Dbl; EVal TView] [(VView (S2 "s1"))%Z; (VFloat 6600000)%Z; (VView (S2 "s2"))%Z]) = true.
Proof. vm_cast_no_check (eq_refl true). Qed.
(** test_converter.cpp:275-332 *)
Example invalid_5 : 
  (bad [] (S2 ",") (S2 "") [EVal U8] &&
   bad [] (S2 "") (S2 "1") [EVal U8] &&
   bad [] (S2 "") (S2 "10") [EVal U8] &&
   bad [] (S2 ",") (S2 "") [EVal U8; EVoid] &&
   bad [] (S2 ",") (S2 ",junk") [EVal U8; EVoid] &&
   bad [] (S2 ",") (S2 "junk,") [EVoid; EVal U8] &&
   bad [] (S2 ",") (S2 "x") [EVal U8] &&
   bad [] (S2 ",") (S2 "x") [EVal U8; EVoid] &&
   bad [] (S2 ",") (S2 "x,junk") [EVal U8; EVoid] &&
   bad [] (S2 ",") (S2 "junk,x") [EVoid; EVal U8] &&
   bad [] (S2 ";") (S2 "junk;.5.5;6") [EVoid; EVal (TVar [U8; Dbl]); EVal Dbl]) = true.
Proof. vm_cast_no_check (eq_refl true). Qed.
(** test_converter.cpp:334-583, 653-763 *)
Example restr_6 : 
  (bad [] (S2 ",") (S2 "0") [ERes U8 (RAx [i32 0])] &&
   bad [] (S2 ",") (S2 "1") [ERes U8 (RAx [i32 0; i32 1; i32 2])] &&
   bad [] (S2 ",") (S2 "junk,c,1") [EVoid; EVal TChar; ERes U8 (RAx [i32 0; i32 1; i32 2])] &&
   bad [] (S2 ",") (S2 "1,c") [ERes U8 (RAx [i32 1]); EVal TChar] &&
   ok [] (S2 ",") (S2 "3") [ERes U8 (RAx [i32 1])] [(VInt 3)%Z] &&
   ok [] (S2 ",") (S2 "c,3") [EVal TChar; ERes U8 (RAx [i32 1])] [(VChar "c"%char)%Z; (VInt 3)%Z] &&
   ok [] (S2 ",") (S2 "3,c") [ERes U8 (RAx [i32 1]); EVal TChar] [(VInt 3)%Z; (VChar "c"%char)%Z] &&
   bad [] (S2 ",") (S2 "3") [ERes U8 (RNx [i32 1])] &&
   bad [] (S2 ",") (S2 "c,3") [EVal TChar; ERes U8 (RNx [i32 1; i32 2; i32 69])] &&
   bad [] (S2 ",") (S2 "3,c") [ERes U8 (RNx [i32 1]); EVal TChar] &&
   ok [] (S2 ",") (S2 "3") [ERes U8 (RNx [i32 3])] [(VInt 3)%Z] &&
   ok [] (S2 ",") (S2 "2") [ERes U8 (RNx [i32 0; i32 1; i32 2])] [(VInt 2)%Z] &&
   ok [] (S2 ",") (S2 "c,junk,1") [EVal TChar; EVoid; ERes U8 (RNx [i32 0; i32 1; i32 2])] [(VChar "c"%char)%Z; (VInt 1)%Z] &&
   ok [] (S2 ",") (S2 "1,c") [ERes U8 (RNx [i32 1]); EVal TChar] [(VInt 1)%Z; (VChar "c"%char)%Z] &&
   bad [] (S2 ",") (S2 "3") [ERes U8 (RIr (i32 0) (i32 2))] &&
   bad [] (S2 ",") (S2 "c,3") [EVal TChar; ERes U8 (RIr (i32 4) (i32 69))] &&
   bad [] (S2 ",") (S2 "3,c") [ERes U8 (RIr (i32 1) (i32 2)); EVal TChar] &&
   ok [] (S2 ",") (S2 "3") [ERes U8 (RIr (i32 1) (i32 5))] [(VInt 3)%Z] &&
   ok [] (S2 ",") (S2 "2") [ERes U8 (RIr (i32 0) (i32 2))] [(VInt 2)%Z] &&
   ok [] (S2 ",") (S2 "c,junk,1") [EVal TChar; EVoid; ERes U8 (RIr (i32 0) (i32 1))] [(VChar "c"%char)%Z; (VInt 1)%Z] &&
   ok [] (S2 ",") (S2 "1,c") [ERes U8 (RIr (i32 1) (i32 20)); EVal TChar] [(VInt 1)%Z; (VChar "c"%char)%Z] &&
   bad [] (S2 ",") (S2 "3") [ERes U8 (ROor (i32 1) (i32 5))] &&
   bad [] (S2 ",") (S2 "2") [ERes U8 (ROor (i32 0) (i32 2))] &&
   bad [] (S2 ",") (S2 "c,1,junk") [EVal TChar; ERes U8 (ROor (i32 0) (i32 1)); EVoid] &&
   bad [] (S2 ",") (S2 "1,c") [ERes U8 (ROor (i32 1) (i32 20)); EVal TChar] &&
   ok [] (S2 ",") (S2 "3") [ERes U8 (ROor (i32 0) (i32 2))] [(VInt 3)%Z] &&
   ok [] (S2 ",") (S2 "c,junk,3") [EVal TChar; EVoid; ERes U8 (ROor (i32 4) (i32 69))] [(VChar "c"%char)%Z; (VInt 3)%Z] &&
   ok [] (S2 ",") (S2 "3,c") [ERes U8 (ROor (i32 1) (i32 2)); EVal TChar] [(VInt 3)%Z; (VChar "c"%char)%Z] &&
   bad [] (S2 ",") (S2 "3") [ERes U8 (RLt (i32 3))] &&
   bad [] (S2 ",") (S2 "3") [ERes U8 (RLt (i32 2))] &&
   bad [] (S2 ",") (S2 "3") [ERes U8 (RGt (i32 3))] &&
   bad [] (S2 ",") (S2 "3") [ERes U8 (RGt (i32 4))] &&
   bad [] (S2 ",") (S2 "3") [ERes U8 (RLte (i32 2))] &&
   bad [] (S2 ",") (S2 "3") [ERes U8 (RGte (i32 4))] &&
   ok [] (S2 ",") (S2 "3") [ERes U8 (RLt (i32 4))] [(VInt 3)%Z] &&
   ok [] (S2 ",") (S2 "3") [ERes U8 (RGt (i32 2))] [(VInt 3)%Z] &&
   ok [] (S2 ",") (S2 "3") [ERes U8 (RLte (i32 4))] [(VInt 3)%Z] &&
   ok [] (S2 ",") (S2 "3") [ERes U8 (RLte (i32 3))] [(VInt 3)%Z] &&
   ok [] (S2 ",") (S2 "3") [ERes U8 (RGte (i32 2))] [(VInt 3)%Z] &&
   ok [] (S2 ",") (S2 "3") [ERes U8 (RGte (i32 3))] [(VInt 3)%Z]) = true.
Proof. vm_cast_no_check (eq_refl true). Qed.
(** test_converter.cpp:599-651 *)
Example ne_7 : 
  (bad [] (S2 ",") (S2 "") [ERes TString RNe] &&
   bad [] (S2 ",") (S2 "3,") [EVal Int; ERes TString RNe] &&
   bad [] (S2 ",") (S2 ",3") [ERes TString RNe; EVal Int] &&
   bad [] (S2 ",") (S2 "junk,,3") [EVoid; ERes TString RNe; EVal Int] &&
   ok [] (S2 ",") (S2 "s") [ERes TString RNe] [(VStr (S2 "s"))%Z] &&
   ok [] (S2 ",") (S2 "1,s") [EVal (TOpt Int); ERes TString RNe] [(VOpt (Some (VInt 1)))%Z; (VStr (S2 "s"))%Z]) = true.
Proof. vm_cast_no_check (eq_refl true). Qed.
(** test_converter.cpp:778-879 *)
Example spacing_8 : 
  (ok [] (S2 ",") (S2 """just"",""some"",""strings""") [EVal TString; EVal TString; EVal TString] [(VStr (S2 """just"""))%Z; (VStr (S2 """some"""))%Z; (VStr (S2 """strings"""))%Z] &&
   ok [OQuote """"%char] (S2 ",") (S2 """just"",some,""12.3"",""a""") [EVal TString; EVal TString; EVal Dbl; EVal TChar] [(VStr (S2 "just"))%Z; (VStr (S2 "some"))%Z; (VFloat 12300000)%Z; (VChar "a"%char)%Z] &&
   ok [OTrim [" "%char]] (S2 ",") (S2 "    just  ,  some   ,  12.3 ,a     ") [EVal TString; EVal TString; EVal Dbl; EVal TChar] [(VStr (S2 "just"))%Z; (VStr (S2 "some"))%Z; (VFloat 12300000)%Z; (VChar "a"%char)%Z] &&
   ok [OEscape ["\"%char]] (S2 ",") (S2 "ju\,st,strings") [EVal TString; EVal TString] [(VStr (S2 "ju,st"))%Z; (VStr (S2 "strings"))%Z] &&
   ok [OEscape ["\"%char]; OTrim [" "%char]; OQuote """"%char] (S2 ",") (S2 "  ju\,st  ,  ""so,me""  ,   12.34     ,   ""str""""ings""") [EVal TString; EVal TString; EVal Dbl; EVal TString] [(VStr (S2 "ju,st"))%Z; (VStr (S2 "so,me"))%Z; (VFloat 12340000)%Z; (VStr (S2 "str""ings"))%Z]) = true.
Proof. vm_cast_no_check (eq_refl true). Qed.
(** test_converter.cpp:881-997 *)
Example split_errors_9 : 
  (bad [OEscape ["\"%char]; OTrim [" "%char]; OQuote """"%char] (S2 ",") (S2 "  ""just  , some ,   ""12.3"",""a""  ") [EVal TString; EVal TString; EVal Dbl; EVal TChar] &&
   bad [OEscape ["\"%char]; OTrim [" "%char]; OQuote """"%char] (S2 ",") (S2 "  ju\,st  ,  ""so,me""  ,   12.34     ,   ""str""""ings") [EVal TString; EVal TString; EVal Dbl; EVal TString] &&
   bad [OEscape ["\"%char]; OTrim [" "%char]; OQuote """"%char] (S2 ",") (S2 "just,some,2,strings\") [EVal TString; EVal TString; EVal Dbl; EVal TString] &&
   bad [OEscape ["\"%char]; OTrim [" "%char]; OQuote """"%char] (S2 ",") (S2 "just,some,2,""strings\") [EVal TString; EVal TString; EVal Dbl; EVal TString] &&
   bad [OEscape ["\"%char]; OTrim [" "%char]; OQuote """"%char] (S2 ",") (S2 "just,some,2,""strings\""") [EVal TString; EVal TString; EVal Dbl; EVal TString]) = true.
Proof. vm_cast_no_check (eq_refl true). Qed.

(** ** test_parser1_*.cpp *)

(** Every source (file, file through the portable line reader, memory) in every error mode. *)
Definition cap2 (n need : nat) : nat := Nat.max need 120.
Definition open (c : cfg) (kind : nat) (d data : str) : option prs :=
  match (match kind with
         | 0 => parser_file c cap2 (S2 "f.csv") d false (Some data)
         | 1 => parser_file c cap2 (S2 "f.csv") d true (Some data)
         | _ => parser_buffer c cap2 d (Some data) (length data)
         end) with
  | Ok _ p => Some p
  | _ => None
  end.
(** The options of the header splitter: without multiline (parser.hpp:35-36). *)
Definition no_multiline (os : list opt) : list opt := filter (fun o => match o with OMultiline _ _ => false | _ => true end) os.
Definition everywhere (os : list opt) (d data : str) (f : cfg -> cfg -> prs -> bool) : bool :=
  forallb (fun m =>
    match setup (m ++ os), setup (no_multiline (m ++ os)) with
    | Some c, Some hc => forallb (fun kind => match open c kind d data with Some p => f c hc p | None => false end) [0; 1; 2]
    | _, _ => false
    end) [[]; [OStringError]; [OThrowOnError]].
(** while (!p.eof()) get_next<es...>(): values, or none for an error or an exception. *)
Fixpoint drain (fuel : nat) (c : cfg) (es : list elem) (p : prs) : option (list (option (list val))) :=
  match fuel with
  | 0 => None
  | S f =>
      if p_eof p then Some []
      else
        let o := get_next c cap2 es p in
        match get_obs c o with
        | GCrash => None
        | GValues vs => option_map (cons (Some vs)) (drain f c es (after p o))
        | _ => option_map (cons None) (drain f c es (after p o))
        end
  end.
Definition row_eqb := opt_eqb (list_eqb val_eqb).
Definition drains (os : list opt) (data : str) (es : list elem) (rows : list (option (list val))) : bool :=
  everywhere os (S2 ",") data (fun c _ p => opt_eqb (list_eqb row_eqb) (drain 100 c es p) (Some rows)).
(** The values of the valid rows, and how many were not. *)
Definition drains_to (os : list opt) (data : str) (es : list elem) (rows : list (list val)) (errors : nat) : bool :=
  everywhere os (S2 ",") data (fun c _ p =>
    match drain 100 c es p with
    | Some l => list_eqb (list_eqb val_eqb) (flat_map (fun o => match o with Some r => [r] | None => [] end) l) rows
                && Nat.eqb (length (filter (fun o => match o with None => true | _ => false end) l)) errors
    | None => false
    end).
Definition isd := [EVal Int; EVal Dbl; EVal TString].
(** Calls and a check of each reply (errors are not distinguished from exceptions). *)
Inductive want := WValues (vs : list val) | WBad | WBool (b : bool) | WText (s : str) | WNames (l : list str) | WDone
  | WTry (vs : list (option (list val))) (valid : bool) | WAny.
Definition meets (wt : want) (y : reply) : bool :=
  match wt, y with
  | WValues vs, YGet (GValues vs') => list_eqb val_eqb vs vs'
  | WBad, YGet (GError _) | WBad, YGet (GThrown _) | WBad, YError _ | WBad, YThrown _ => true
  | WBool b, YBool b' => Bool.eqb b b'
  | WText s, YText s' => str_eqb s s'
  | WNames l, YNames l' => str_list_eqb l l'
  | WDone, YDone => true
  | WTry vs v, YTry vs' _ v' => list_eqb row_eqb vs vs' && Bool.eqb v v'
  | WAny, YCrash => false
  | WAny, _ => true
  | _, _ => false
  end.
Definition session (os : list opt) (data : str) (s : list (call * want)) : bool :=
  everywhere os (S2 ",") data (fun c hc p => 
    forallb (fun x => meets (fst x) (snd x)) (combine (map snd s) (replies c hc cap2 p (map fst s))) && Nat.eqb (length s) (length (replies c hc cap2 p (map fst s)))).

(** test_parser1_1.cpp:121-235 *)
Example various_10 : drains [] (S2 "1,2.000000,x
3,4.000000,y
5,6.000000,z
7,8.000000,u
9,10.000000,v
11,12.000000,w
") isd [Some [(VInt 1)%Z; (VFloat 2000000)%Z; (VStr (S2 "x"))%Z]; Some [(VInt 3)%Z; (VFloat 4000000)%Z; (VStr (S2 "y"))%Z]; Some [(VInt 5)%Z; (VFloat 6000000)%Z; (VStr (S2 "z"))%Z]; Some [(VInt 7)%Z; (VFloat 8000000)%Z; (VStr (S2 "u"))%Z]; Some [(VInt 9)%Z; (VFloat 10000000)%Z; (VStr (S2 "v"))%Z]; Some [(VInt 11)%Z; (VFloat 12000000)%Z; (VStr (S2 "w"))%Z]] = true.
Proof. vm_cast_no_check (eq_refl true). Qed.
(** test_parser1_1.cpp:283-327 *)
Example various_11 : drains_to [] (S2 "1,2.000000,x
3,4.000000,y
5,6.000000,z
7,8.000000,u
9,10.000000,v
11,12.000000,w
") [ERes Int (RAx [i32 3]); EVal Dbl; EVal TString] [[(VInt 1)%Z; (VFloat 2000000)%Z; (VStr (S2 "x"))%Z]; [(VInt 5)%Z; (VFloat 6000000)%Z; (VStr (S2 "z"))%Z]; [(VInt 7)%Z; (VFloat 8000000)%Z; (VStr (S2 "u"))%Z]; [(VInt 9)%Z; (VFloat 10000000)%Z; (VStr (S2 "v"))%Z]; [(VInt 11)%Z; (VFloat 12000000)%Z; (VStr (S2 "w"))%Z]] 1 = true.
Proof. vm_cast_no_check (eq_refl true). Qed.
(** test_parser1_1.cpp:329-368 *)
Example various_12 : drains_to [] (S2 "1,2.000000,x
3,4.000000,y
5,6.000000,z
7,8.000000,u
9,10.000000,v
11,12.000000,w
") [ERes Int (RNx [i32 3]); EVal Dbl; EVal TString] [[(VInt 3)%Z; (VFloat 4000000)%Z; (VStr (S2 "y"))%Z]] 5 = true.
Proof. vm_cast_no_check (eq_refl true). Qed.
(** test_parser1_1.cpp:370-392 *)
Example various_13 : drains [] [] isd [] = true.
Proof. vm_cast_no_check (eq_refl true). Qed.
(** test_parser1_1.cpp:162-195 *)
Example various_14 : session [] (S2 "1,2.000000,x
3,4.000000,y
5,6.000000,z
7,8.000000,u
9,10.000000,v
11,12.000000,w
") [(CIgnore, WBool true); (CGet isd, WValues [(VInt 3)%Z; (VFloat 4000000)%Z; (VStr (S2 "y"))%Z]); (CGet isd, WValues [(VInt 5)%Z; (VFloat 6000000)%Z; (VStr (S2 "z"))%Z]); (CGet isd, WValues [(VInt 7)%Z; (VFloat 8000000)%Z; (VStr (S2 "u"))%Z]); (CGet isd, WValues [(VInt 9)%Z; (VFloat 10000000)%Z; (VStr (S2 "v"))%Z]); (CGet isd, WValues [(VInt 11)%Z; (VFloat 12000000)%Z; (VStr (S2 "w"))%Z])] = true.
Proof. vm_cast_no_check (eq_refl true). Qed.
Fixpoint lines_positions (n : nat) (c : cfg) (p : prs) : list (nat * Z * bool) :=
  (p_line p, p_position p, p_eof p) ::
  match n with 0 => [] | S n' => lines_positions n' c (after p (get_next c cap2 [EVal TString; EVal TString; EVal TString] p)) end.
(** test_parser1_1.cpp:64-119; the position after the last row is not checked there *)
Example position_15 : everywhere [] (S2 ",") (S2 "1,21,x
321,4,y
54,6,zz
7,876,uuuu
910,10,v
10,321,ww
") (fun c _ p =>
  list_eqb (fun a b => Nat.eqb (fst (fst a)) (fst (fst b)) && (Z.eqb (snd (fst a)) (snd (fst b)) || snd a) && Bool.eqb (snd a) (snd b)) (lines_positions 6 c p) [(0, 0%Z, false); (1, 7%Z, false); (2, 16%Z, false); (3, 24%Z, false); (4, 36%Z, false); (5, 45%Z, false); (6, 56%Z, true)]) = true.
Proof. vm_cast_no_check (eq_refl true). Qed.
Definition session_string (os : list opt) (data : str) (s : list (call * want)) : bool :=
  match setup (OStringError :: os), setup (OStringError :: no_multiline os) with
  | Some c, Some hc => forallb (fun kind => match open c kind (S2 ",") data with
      | Some p => forallb (fun x => meets (fst x) (snd x)) (combine (map snd s) (replies c hc cap2 p (map fst s)))
                  && p_eof (later c hc cap2 p (map fst s))
      | None => false end) [0; 1; 2]
  | _, _ => false
  end.
(** test_parser1_1.cpp:412-652 *)
Example composite_16 : session_string [] (S2 "10,a,11.1
10,20,11.1
junk
10,11.1
1,11.1,a
junk
10,junk
11,junk
10,11.1,c
10,20
10,22.2,f
")
  [(CTry [EVal Int; EVal Int; EVal Dbl] (CbVoid 1) [LElse [EVal Int; EVal Dbl; EVal TChar] (CbVoid 1); LElse [EVal Int; EVal TChar; EVal Dbl] (CbNone); LOnError 1; LElse [EVal Dbl; EVal TChar; EVal Dbl] (CbVoid 1)], WTry [None; None; Some [(VInt 10)%Z; (VChar "a"%char)%Z; (VFloat 11100000)%Z]; None] true);
   (CTry [EVal Int; EVal Int; EVal Dbl] (CbVoid 1) [LOnError 1; LElse [EVal Int; EVal Dbl; EVal TChar] (CbVoid 1); LOnError 1; LElse [EVal Dbl; EVal TChar; EVal Dbl] (CbVoid 1); LOnError 1; LElse [EVal Int; EVal TChar; EVal Dbl] (CbNone)], WTry [Some [(VInt 10)%Z; (VInt 20)%Z; (VFloat 11100000)%Z]; None; None; None] true);
   (CTry [EVal Int; EVal Dbl; EVal TChar] (CbVoid 1) [LOnError 1; LElse [EVal Int; EVal TChar; EVal TChar] (CbNone); LElse [EVal Int; EVal Dbl; EVal TChar] (CbNone); LElse [EVal Dbl; EVal TChar; EVal Dbl] (CbNone); LElse [EVal Int; EVal TChar; EVal Dbl] (CbNone)], WTry [None; None; None; None; None] false);
   (CTry [EVal Int; EVal Dbl] (CbVoid 1) [LElse [EVal Int; EVal Dbl] (CbVoid 1)], WTry [Some [(VInt 10)%Z; (VFloat 11100000)%Z]; None] true);
   (CTry [EVal Int; EVal Dbl] (CbVoid 1) [LElse [EVal Int; EVal Dbl; EVal TChar] (CbVoid 1)], WTry [None; Some [(VInt 1)%Z; (VFloat 11100000)%Z; (VChar "a"%char)%Z]] true);
   (CTry [EVal Int; EVal Int; EVal Dbl] (CbVoid 1) [LElse [EVal Int; EVal Dbl; EVal TChar] (CbNone); LElse [EVal Int; EVal Dbl; EVal TChar] (CbNone); LElse [EVal Dbl; EVal TChar; EVal Dbl] (CbNone); LElse [EVal Int; EVal Dbl] (CbNone); LOnError 1; LOnError 2], WTry [None; None; None; None; None] false);
   (CTry [EVal Int; EVal (TOpt Int)] (CbNone) [LOnError 1; LOnError 2; LElse [EVal Int; EVal TString] (CbNone); LOnError 1], WTry [Some [(VInt 10)%Z; (VOpt None)%Z]; None] true);
   (CTry [EVal Int; EVal (TVar [Int; TString])] (CbNone) [LOnError 1; LElse [EVal Int; EVal TString] (CbNone); LOnError 1], WTry [Some [(VInt 11)%Z; (VVar 1 (VStr (S2 "junk")))%Z]; None] true);
   (CTry [EVal Int; EVal Dbl; EVal TChar] (CbNone) [LElse [EVal Int] (CbNone)], WTry [Some [(VInt 10)%Z; (VFloat 11100000)%Z; (VChar "c"%char)%Z]; None] true);
   (CTry [EVal Int; EVal Int] (CbCheck 9 (fun _ => false)) [LElse [EVal Int; EVal Dbl] (CbCheck 9 (fun _ => false)); LElse [EVal Int; EVal Int] (CbNone); LElse [EVal Int; EVal Int] (CbNone)], WTry [None; None; Some [(VInt 10)%Z; (VInt 20)%Z]; None] true);
   (CTry [EVal Int; EVal Dbl; EVal TChar] (CbCheck 9 (fun _ => false)) [LElse [EVal Int; EVal Dbl] (CbCheck 9 (fun _ => false)); LElse [EVal Int; EVal Dbl; EVal TChar] (CbNone); LElse [EVal Int; EVal Int] (CbNone)], WTry [None; None; Some [(VInt 10)%Z; (VFloat 22200000)%Z; (VChar "f"%char)%Z]; None] true)] = true.
Proof. vm_cast_no_check (eq_refl true). Qed.
(** test_parser1_1.cpp:654-703 *)
Example no_newline_17 : drains [] (S2 "1,2,
3,4,") isd [Some [(VInt 1)%Z; (VFloat 2000000)%Z; (VStr (S2 ""))%Z]; Some [(VInt 3)%Z; (VFloat 4000000)%Z; (VStr (S2 ""))%Z]] = true.
Proof. vm_cast_no_check (eq_refl true). Qed.
(** test_parser1_1.cpp:654-703 *)
Example no_newline_18 : drains [] (S2 "1,2,X
3,4,YYYYYYY") isd [Some [(VInt 1)%Z; (VFloat 2000000)%Z; (VStr (S2 "X"))%Z]; Some [(VInt 3)%Z; (VFloat 4000000)%Z; (VStr (S2 "YYYYYYY"))%Z]] = true.
Proof. vm_cast_no_check (eq_refl true). Qed.
(** test_parser1_1.cpp:654-703 *)
Example no_newline_19 : drains [] (S2 "1,2,XX
3,4,YYYYYYYYYYYYYY") isd [Some [(VInt 1)%Z; (VFloat 2000000)%Z; (VStr (S2 "XX"))%Z]; Some [(VInt 3)%Z; (VFloat 4000000)%Z; (VStr (S2 "YYYYYYYYYYYYYY"))%Z]] = true.
Proof. vm_cast_no_check (eq_refl true). Qed.
(** test_parser1_1.cpp:654-703 *)
Example no_newline_20 : drains [] (S2 "1,2,XXXXXXXXXXXXXXXXXXXXXXXXXXXXXXXXXXXXXXXXXXXXXXXXXXXXXXXXXXXXXXXXXXXXXXXXXXXXXXXXXXXXXXXXXXXXXXXXXXXX
3,4,YYYYYYYYYYYYYYYYYYYYYYYYYYYYYYYYYYYYYYYYYYYYYYYYYYYYYYYYYYYYYYYYYYYYYYYYYYYYYYYYYYYYYYYYYYYYYYYYYYYY") isd [Some [(VInt 1)%Z; (VFloat 2000000)%Z; (VStr (S2 "XXXXXXXXXXXXXXXXXXXXXXXXXXXXXXXXXXXXXXXXXXXXXXXXXXXXXXXXXXXXXXXXXXXXXXXXXXXXXXXXXXXXXXXXXXXXXXXXXXXX"))%Z]; Some [(VInt 3)%Z; (VFloat 4000000)%Z; (VStr (S2 "YYYYYYYYYYYYYYYYYYYYYYYYYYYYYYYYYYYYYYYYYYYYYYYYYYYYYYYYYYYYYYYYYYYYYYYYYYYYYYYYYYYYYYYYYYYYYYYYYYYY"))%Z]] = true.
Proof. vm_cast_no_check (eq_refl true). Qed.
(** test_parser1_1.cpp:654-703 *)
Example no_newline_21 : drains [] (S2 "1,2,XXXXXXXXXXXXXXXXXXXXXXXXXXXXXXXXXXXXXXXXXXXXXXXXXXXXXXXXXXXXXXXXXXXXXXXXXXXXXXXXXXXXXXXXXXXXXXXXXXXXXXXXXXXXXXXXX
3,4,YYYYYYYYYYYYYYYYYYYYYYYYYYYYYYYYYYYYYYYYYYYYYYYYYYYYYYYYYYYYYYYYYYYYYYYYYYYYYYYYYYYYYYYYYYYYYYYYYYYYYYYYYYYYYYYYYYYYYYYYYYYYYYYYYYYYYYYYYYYYYYYYYYYYYYYYYYYYYYYYYYYYYYYYYYYYYYYYYYYYYYYYYYYYYYY") isd [Some [(VInt 1)%Z; (VFloat 2000000)%Z; (VStr (S2 "XXXXXXXXXXXXXXXXXXXXXXXXXXXXXXXXXXXXXXXXXXXXXXXXXXXXXXXXXXXXXXXXXXXXXXXXXXXXXXXXXXXXXXXXXXXXXXXXXXXXXXXXXXXXXXXXX"))%Z]; Some [(VInt 3)%Z; (VFloat 4000000)%Z; (VStr (S2 "YYYYYYYYYYYYYYYYYYYYYYYYYYYYYYYYYYYYYYYYYYYYYYYYYYYYYYYYYYYYYYYYYYYYYYYYYYYYYYYYYYYYYYYYYYYYYYYYYYYYYYYYYYYYYYYYYYYYYYYYYYYYYYYYYYYYYYYYYYYYYYYYYYYYYYYYYYYYYYYYYYYYYYYYYYYYYYYYYYYYYYYYYYYYYYY"))%Z]] = true.
Proof. vm_cast_no_check (eq_refl true). Qed.
(** test_parser1_1.cpp:654-703 *)
Example no_newline_22 : drains [] (S2 "1,2,XXXXXXXXXXXXXXXXXXXXXXXXXXXXXXXXXXXXXXXXXXXXXXXXXXXXXXXXXXXXXXXXXXXXXXXXXXXXXXXXXXXXXXXXXXXXXXXXXXXXXXXXXXXXXXXXXX
3,4,YYYYYYYYYYYYYYYYYYYYYYYYYYYYYYYYYYYYYYYYYYYYYYYYYYYYYYYYYYYYYYYYYYYYYYYYYYYYYYYYYYYYYYYYYYYYYYYYYYYYYYYYYYYYYYYYYYYYYYYYYYYYYYYYYYYYYYYYYYYYYYYYYYYYYYYYYYYYYYYYYYYYYYYYYYYYYYYYYYYYYYYYYYYYYYYYYYYYYY") isd [Some [(VInt 1)%Z; (VFloat 2000000)%Z; (VStr (S2 "XXXXXXXXXXXXXXXXXXXXXXXXXXXXXXXXXXXXXXXXXXXXXXXXXXXXXXXXXXXXXXXXXXXXXXXXXXXXXXXXXXXXXXXXXXXXXXXXXXXXXXXXXXXXXXXXXX"))%Z]; Some [(VInt 3)%Z; (VFloat 4000000)%Z; (VStr (S2 "YYYYYYYYYYYYYYYYYYYYYYYYYYYYYYYYYYYYYYYYYYYYYYYYYYYYYYYYYYYYYYYYYYYYYYYYYYYYYYYYYYYYYYYYYYYYYYYYYYYYYYYYYYYYYYYYYYYYYYYYYYYYYYYYYYYYYYYYYYYYYYYYYYYYYYYYYYYYYYYYYYYYYYYYYYYYYYYYYYYYYYYYYYYYYYYYYYYYYY"))%Z]] = true.
Proof. vm_cast_no_check (eq_refl true). Qed.
(** test_parser1_1.cpp:654-703 *)
Example no_newline_23 : drains [] (S2 "1,2,XXXXXXXXXXXXXXXXXXXXXXXXXXXXXXXXXXXXXXXXXXXXXXXXXXXXXXXXXXXXXXXXXXXXXXXXXXXXXXXXXXXXXXXXXXXXXXXXXXXXXXXXXXXXXXXXXXX
3,4,YYYYY") isd [Some [(VInt 1)%Z; (VFloat 2000000)%Z; (VStr (S2 "XXXXXXXXXXXXXXXXXXXXXXXXXXXXXXXXXXXXXXXXXXXXXXXXXXXXXXXXXXXXXXXXXXXXXXXXXXXXXXXXXXXXXXXXXXXXXXXXXXXXXXXXXXXXXXXXXXX"))%Z]; Some [(VInt 3)%Z; (VFloat 4000000)%Z; (VStr (S2 "YYYYY"))%Z]] = true.
Proof. vm_cast_no_check (eq_refl true). Qed.
(** test_parser1_1.cpp:654-703 *)
Example no_newline_24 : drains [] (S2 "1,2,XXXXXXXXXXXXXXXXXXXXXXXXXXXXXXXXXXXXXXXXXXXXXXXXXXXXXXXXXXXXXXXXXXXXXXXXXXXXXXXXXXXXXXXXXXXXXXXXXXXXXXXXXXXXXXXXXXXX
3,4,YYYYYYYYYYYY") isd [Some [(VInt 1)%Z; (VFloat 2000000)%Z; (VStr (S2 "XXXXXXXXXXXXXXXXXXXXXXXXXXXXXXXXXXXXXXXXXXXXXXXXXXXXXXXXXXXXXXXXXXXXXXXXXXXXXXXXXXXXXXXXXXXXXXXXXXXXXXXXXXXXXXXXXXXX"))%Z]; Some [(VInt 3)%Z; (VFloat 4000000)%Z; (VStr (S2 "YYYYYYYYYYYY"))%Z]] = true.
Proof. vm_cast_no_check (eq_refl true). Qed.
(** test_parser1_1.cpp:654-703 *)
Example no_newline_25 : drains [] (S2 "1,2,XXXXXXXXXXXXXXXXXXXXXXXXXXXXXXXXXXXXXXXXXXXXXXXXXXXXXXXXXXXXXXXXXXXXXXXXXXXXXXXXXXXXXXXXXXXXXXXXXXXXXXXXXXXXXXXXXXXXX
3,4,YYYYYYYYYYYYYYYYYYY") isd [Some [(VInt 1)%Z; (VFloat 2000000)%Z; (VStr (S2 "XXXXXXXXXXXXXXXXXXXXXXXXXXXXXXXXXXXXXXXXXXXXXXXXXXXXXXXXXXXXXXXXXXXXXXXXXXXXXXXXXXXXXXXXXXXXXXXXXXXXXXXXXXXXXXXXXXXXX"))%Z]; Some [(VInt 3)%Z; (VFloat 4000000)%Z; (VStr (S2 "YYYYYYYYYYYYYYYYYYY"))%Z]] = true.
Proof. vm_cast_no_check (eq_refl true). Qed.
(** test_parser1_1.cpp:654-703 *)
Example no_newline_26 : drains [] (S2 "1,2,XXXXXXXXXXXXXXXXXXXXXXXXXXXXXXXXXXXXXXXXXXXXXXXXXXXXXXXXXXXXXXXXXXXXXXXXXXXXXXXXXXXXXXXXXXXXXXXXXXXXXXXXXXXXXXXXXXXXXX
3,4,YYYYYYYYYYYYYYYYYYYYYYYYYY") isd [Some [(VInt 1)%Z; (VFloat 2000000)%Z; (VStr (S2 "XXXXXXXXXXXXXXXXXXXXXXXXXXXXXXXXXXXXXXXXXXXXXXXXXXXXXXXXXXXXXXXXXXXXXXXXXXXXXXXXXXXXXXXXXXXXXXXXXXXXXXXXXXXXXXXXXXXXXX"))%Z]; Some [(VInt 3)%Z; (VFloat 4000000)%Z; (VStr (S2 "YYYYYYYYYYYYYYYYYYYYYYYYYY"))%Z]] = true.
Proof. vm_cast_no_check (eq_refl true). Qed.
(** test_parser1_1.cpp:654-703 *)
Example no_newline_27 : drains [] (S2 "1,2,XXXXXXXXXXXXXXXXXXXXXXXXXXXXXXXXXXXXXXXXXXXXXXXXXXXXXXXXXXXXXXXXXXXXXXXXXXXXXXXXXXXXXXXXXXXXXXXXXXXXXXXXXXXXXXXXXXXXXXXXXXXXXX
3,4,YYYYYYYYYYYYYYYYYYYYYYYYYYYYYYYYYYYYYYYYYYYYYYYYYYYYYYYYYYYYYYYYYYYYYYYYYYYYYYYYYY") isd [Some [(VInt 1)%Z; (VFloat 2000000)%Z; (VStr (S2 "XXXXXXXXXXXXXXXXXXXXXXXXXXXXXXXXXXXXXXXXXXXXXXXXXXXXXXXXXXXXXXXXXXXXXXXXXXXXXXXXXXXXXXXXXXXXXXXXXXXXXXXXXXXXXXXXXXXXXXXXXXXXXX"))%Z]; Some [(VInt 3)%Z; (VFloat 4000000)%Z; (VStr (S2 "YYYYYYYYYYYYYYYYYYYYYYYYYYYYYYYYYYYYYYYYYYYYYYYYYYYYYYYYYYYYYYYYYYYYYYYYYYYYYYYYYY"))%Z]] = true.
Proof. vm_cast_no_check (eq_refl true). Qed.
(** test_parser1_1.cpp:654-703 *)
Example no_newline_28 : drains [] (S2 "1,2,XXXXXXXXXXXXXXXXXXXXXXXXXXXXXXXXXXXXXXXXXXXXXXXXXXXXXXXXXXXXXXXXXXXXXXXXXXXXXXXXXXXXXXXXXXXXXXXXXXXXXXXXXXXXXXXXXXXXXXXXXXXXXXX
3,4,YYYYYYYYYYYYYYYYYYYYYYYYYYYYYYYYYYYYYYYYYYYYYYYYYYYYYYYYYYYYYYYYYYYYYYYYYYYYYYYYYYYYYYYYY") isd [Some [(VInt 1)%Z; (VFloat 2000000)%Z; (VStr (S2 "XXXXXXXXXXXXXXXXXXXXXXXXXXXXXXXXXXXXXXXXXXXXXXXXXXXXXXXXXXXXXXXXXXXXXXXXXXXXXXXXXXXXXXXXXXXXXXXXXXXXXXXXXXXXXXXXXXXXXXXXXXXXXXX"))%Z]; Some [(VInt 3)%Z; (VFloat 4000000)%Z; (VStr (S2 "YYYYYYYYYYYYYYYYYYYYYYYYYYYYYYYYYYYYYYYYYYYYYYYYYYYYYYYYYYYYYYYYYYYYYYYYYYYYYYYYYYYYYYYYY"))%Z]] = true.
Proof. vm_cast_no_check (eq_refl true). Qed.
(** test_parser1_1.cpp:654-703 *)
Example no_newline_29 : drains [] (S2 "1,2,XXXXXXXXXXXXXXXXXXXXXXXXXXXXXXXXXXXXXXXXXXXXXXXXXXXXXXXXXXXXXXXXXXXXXXXXXXXXXXXXXXXXXXXXXXXXXXXXXXXXXXXXXXXXXXXXXXXXXXXXXXXXXXXX
3,4,YYYYYYYYYYYYYYYYYYYYYYYYYYYYYYYYYYYYYYYYYYYYYYYYYYYYYYYYYYYYYYYYYYYYYYYYYYYYYYYYYYYYYYYYYYYYYYYY") isd [Some [(VInt 1)%Z; (VFloat 2000000)%Z; (VStr (S2 "XXXXXXXXXXXXXXXXXXXXXXXXXXXXXXXXXXXXXXXXXXXXXXXXXXXXXXXXXXXXXXXXXXXXXXXXXXXXXXXXXXXXXXXXXXXXXXXXXXXXXXXXXXXXXXXXXXXXXXXXXXXXXXXX"))%Z]; Some [(VInt 3)%Z; (VFloat 4000000)%Z; (VStr (S2 "YYYYYYYYYYYYYYYYYYYYYYYYYYYYYYYYYYYYYYYYYYYYYYYYYYYYYYYYYYYYYYYYYYYYYYYYYYYYYYYYYYYYYYYYYYYYYYYY"))%Z]] = true.
Proof. vm_cast_no_check (eq_refl true). Qed.
(** test_parser1_1.cpp:654-703 *)
Example no_newline_30 : drains [] (S2 "1,2,XXXXXXXXXXXXXXXXXXXXXXXXXXXXXXXXXXXXXXXXXXXXXXXXXXXXXXXXXXXXXXXXXXXXXXXXXXXXXXXXXXXXXXXXXXXXXXXXXXXXXXXXXXXXXXXXXXXXXXXXXXXXXXXXX
3,4,YYYYYYYYYYYYYYYYYYYYYYYYYYYYYYYYYYYYYYYYYYYYYYYYYYYYYYYYYYYYYYYYYYYYYYYYYYYYYYYYYYYYYYYYYYYYYYYYYYYYYYY") isd [Some [(VInt 1)%Z; (VFloat 2000000)%Z; (VStr (S2 "XXXXXXXXXXXXXXXXXXXXXXXXXXXXXXXXXXXXXXXXXXXXXXXXXXXXXXXXXXXXXXXXXXXXXXXXXXXXXXXXXXXXXXXXXXXXXXXXXXXXXXXXXXXXXXXXXXXXXXXXXXXXXXXXX"))%Z]; Some [(VInt 3)%Z; (VFloat 4000000)%Z; (VStr (S2 "YYYYYYYYYYYYYYYYYYYYYYYYYYYYYYYYYYYYYYYYYYYYYYYYYYYYYYYYYYYYYYYYYYYYYYYYYYYYYYYYYYYYYYYYYYYYYYYYYYYYYYY"))%Z]] = true.
Proof. vm_cast_no_check (eq_refl true). Qed.
(** test_parser1_1.cpp:654-703 *)
Example no_newline_31 : drains [] (S2 "1,2,XXXXXXXXXXXXXXXXXXXXXXXXXXXXXXXXXXXXXXXXXXXXXXXXXXXXXXXXXXXXXXXXXXXXXXXXXXXXXXXXXXXXXXXXXXXXXXXXXXXXXXXXXXXXXXXXXXXXXXXXXXXXXXXXXXXXXXXXXXXXXXXXXXXXXXXXXXXXXXXXXXXXXXXXXXXXXXXXXXXXXXXXXXXXXXXXXXXXXXXXXXXXXXXXXXXXXXXXXXXXXXXXXXXXXX
3,4,YYYYYYYYYY") isd [Some [(VInt 1)%Z; (VFloat 2000000)%Z; (VStr (S2 "XXXXXXXXXXXXXXXXXXXXXXXXXXXXXXXXXXXXXXXXXXXXXXXXXXXXXXXXXXXXXXXXXXXXXXXXXXXXXXXXXXXXXXXXXXXXXXXXXXXXXXXXXXXXXXXXXXXXXXXXXXXXXXXXXXXXXXXXXXXXXXXXXXXXXXXXXXXXXXXXXXXXXXXXXXXXXXXXXXXXXXXXXXXXXXXXXXXXXXXXXXXXXXXXXXXXXXXXXXXXXXXXXXXXXX"))%Z]; Some [(VInt 3)%Z; (VFloat 4000000)%Z; (VStr (S2 "YYYYYYYYYY"))%Z]] = true.
Proof. vm_cast_no_check (eq_refl true). Qed.
(** test_parser1_2.cpp:111-156 *)
Example quote_multiline_32 : drains [OMultiline 0 true; OQuote """"%char] (S2 "1,2.000000,""x
x
x""
3,4.000000,""y
y
y""
5,6.000000,""z
z""
7,8.000000,""u""""""
9,10.000000,v
11,12.000000,""w
""
") isd [Some [(VInt 1)%Z; (VFloat 2000000)%Z; (VStr (S2 "x
x
x"))%Z]; Some [(VInt 3)%Z; (VFloat 4000000)%Z; (VStr (S2 "y
y
y"))%Z]; Some [(VInt 5)%Z; (VFloat 6000000)%Z; (VStr (S2 "z
z"))%Z]; Some [(VInt 7)%Z; (VFloat 8000000)%Z; (VStr (S2 "u"""))%Z]; Some [(VInt 9)%Z; (VFloat 10000000)%Z; (VStr (S2 "v"))%Z]; Some [(VInt 11)%Z; (VFloat 12000000)%Z; (VStr (S2 "w
"))%Z]] = true.
Proof. vm_cast_no_check (eq_refl true). Qed.
(** test_parser1_2.cpp:163-206 *)
Example escape_multiline_33 : drains [OMultiline 0 true; OEscape ["\"%char]] (S2 "1,2.000000,x\
x\
x
5,6.000000,z\
z\
z
7,8.000000,u
3,4.000000,y\
y\
y
9,10.000000,v\\
11,12.000000,w\

") isd [Some [(VInt 1)%Z; (VFloat 2000000)%Z; (VStr (S2 "x
x
x"))%Z]; Some [(VInt 5)%Z; (VFloat 6000000)%Z; (VStr (S2 "z
z
z"))%Z]; Some [(VInt 7)%Z; (VFloat 8000000)%Z; (VStr (S2 "u"))%Z]; Some [(VInt 3)%Z; (VFloat 4000000)%Z; (VStr (S2 "y
y
y"))%Z]; Some [(VInt 9)%Z; (VFloat 10000000)%Z; (VStr (S2 "v\"))%Z]; Some [(VInt 11)%Z; (VFloat 12000000)%Z; (VStr (S2 "w
"))%Z]] = true.
Proof. vm_cast_no_check (eq_refl true). Qed.
(** test_parser1_2.cpp:208-265 *)
Example quote_escape_multiline_34 : drains_to [OMultiline 0 true; OEscape ["\"%char]; OQuote """"%char] (S2 "1,2,""just\

strings""
3,4,""just
some\

\
strings""
5,6,""just\
\


strings
7,8,""just strings""
9,10,just strings
") isd [[(VInt 1)%Z; (VFloat 2000000)%Z; (VStr (S2 "just

strings"))%Z]; [(VInt 3)%Z; (VFloat 4000000)%Z; (VStr (S2 "just
some


strings"))%Z]; [(VInt 9)%Z; (VFloat 10000000)%Z; (VStr (S2 "just strings"))%Z]] 1 = true.
Proof. vm_cast_no_check (eq_refl true). Qed.
(** test_parser1_3.cpp:3-67 *)
Example multiline_restricted_35 : drains_to [OMultiline 2 true; OQuote """"%char; OEscape ["\"%char]] (S2 "1,2,""just

strings""
3,4,""ju


nk""
5,6,just\
\
strings
7,8,ju\
\
\
nk
99,100,""




9,10,""just\

strings""
11,12,""ju\
|




k""
13,14,""ju\
\
15,16""\
\\

nk""
17,18,""ju\
\
\
\\

nk""
19,20,just strings
") isd [[(VInt 1)%Z; (VFloat 2000000)%Z; (VStr (S2 "just

strings"))%Z]; [(VInt 5)%Z; (VFloat 6000000)%Z; (VStr (S2 "just

strings"))%Z]; [(VInt 9)%Z; (VFloat 10000000)%Z; (VStr (S2 "just

strings"))%Z]; [(VInt 19)%Z; (VFloat 20000000)%Z; (VStr (S2 "just strings"))%Z]] 20 = true.
Proof. vm_cast_no_check (eq_refl true). Qed.
(** The first [bad_line] rows are fine, the next one is an error. *)
Definition unterminated (oss : list (list opt)) (lines : list str) (bad_line : nat) : bool :=
  forallb (fun os => everywhere os (S2 ",") (flat_map (fun l => l ++ [LF]) lines) (fun c _ p =>
    match drain 100 c isd p with
    | Some l => match skipn bad_line l with None :: _ => forallb (fun o => match o with Some _ => true | None => false end) (firstn bad_line l) | _ => false end
    | None => false
    end)) oss.
Definition ml3 := OMultiline 3 true.
Definition esc := OEscape ["\"%char].
Definition quo := OQuote """"%char.
(** test_parser1_3.cpp:69-314 *)
Example unterminated_36 : 
  (unterminated [[ml3; esc]; [ml3; esc; quo]] [S2 "1,2,just\"] 0 &&
   unterminated [[ml3; esc]; [ml3; esc; quo]] [S2 "1,2,just\"; S2 "9,8,second"] 0 &&
   unterminated [[ml3; esc]; [ml3; esc; quo]] [S2 "9,8,first"; S2 "1,2,just\"] 1 &&
   unterminated [[ml3; esc]; [ml3; esc; quo]] [S2 "9,8,first"; S2 "1,2,just\"; S2 "3,4,third"] 1 &&
   unterminated [[ml3; esc]; [ml3; esc; quo]] [S2 "9,8,first"; S2 "1,2,just\
strings\"; S2 "3,4,th\
ird"] 1 &&
   unterminated [[ml3; esc]; [ml3; esc; quo]] [S2 "9,8,first"; S2 "3,4,second"; S2 "1,2,just\"] 2 &&
   unterminated [[ml3; esc]; [ml3; esc; quo]] [S2 "9,8,\first"; S2 "3,4,second"; S2 "1,2,jus\t\"] 2 &&
   unterminated [[ml3; esc]; [ml3; esc; quo]] [S2 "1,2,\
\
\
\
just"] 0 &&
   unterminated [[ml3; esc]; [ml3; esc; quo]] [S2 "9,8,first"; S2 "1,2,\
\
\
\
just"] 1 &&
   unterminated [[ml3; esc]; [ml3; esc; quo]] [S2 "9,8,fi\
rs\
t"; S2 "1,2,\
\
\
\
just"] 1 &&
   unterminated [[ml3; esc]; [ml3; esc; quo]] [S2 "9,8,first"; S2 "1,2,\
\
\
\
just"; S2 "4,3,third"] 1 &&
   unterminated [[ml3; esc; quo]; [ml3; quo]] [S2 "1,2,""just"] 0 &&
   unterminated [[ml3; esc; quo]; [ml3; quo]] [S2 "1,2,""just"; S2 "9,8,second"] 0 &&
   unterminated [[ml3; esc; quo]; [ml3; quo]] [S2 "9,8,first"; S2 "1,2,""just"] 1 &&
   unterminated [[ml3; esc; quo]; [ml3; quo]] [S2 "9,8,first"; S2 "1,2,""just"; S2 "3,4,th\,ird"] 1 &&
   unterminated [[ml3; esc; quo]; [ml3; quo]] [S2 "9,8,first"; S2 "3,4,second"; S2 "1,2,""just"] 2 &&
   unterminated [[ml3; esc; quo]; [ml3; quo]] [S2 "9,8,""first"""; S2 """3"",4,""sec,ond"""; S2 "1,2,""ju""""st"] 2 &&
   unterminated [[ml3; esc; quo]; [ml3; quo]] [S2 "1,2,""




just"""] 0 &&
   unterminated [[ml3; esc; quo]; [ml3; quo]] [S2 "9,8,first"; S2 "1,2,""




just"""] 1 &&
   unterminated [[ml3; esc; quo]; [ml3; quo]] [S2 "9,8,""fir
st"""; S2 "1,2,""




just"""] 1 &&
   unterminated [[ml3; esc; quo]] [S2 "1,2,""just\"] 0 &&
   unterminated [[ml3; esc; quo]] [S2 "1,2,""just\
\"] 0 &&
   unterminated [[ml3; esc; quo]] [S2 "1,2,""just
\"] 0 &&
   unterminated [[ml3; esc; quo]] [S2 "9,8,first"; S2 "1,2,""just
\"] 1 &&
   unterminated [[ml3; esc; quo]] [S2 "9,8,first"; S2 "1,2,""just
\"; S2 "4,3,thrid"] 1 &&
   unterminated [[ml3; esc; quo]] [S2 "9,8,f\
irst"; S2 "1,2,""just
\"; S2 "4,3,thrid"] 1 &&
   unterminated [[ml3; esc; quo]] [S2 "9,8,""f
i
rst"""; S2 "1,2,""just
\"; S2 "4,3,thrid"] 1 &&
   unterminated [[ml3; esc; quo]] [S2 "1,2,""\

\
\
\
just"] 0 &&
   unterminated [[ml3; esc; quo]] [S2 "9,8,first"; S2 "1,2,""\

\
\
\
just"] 1 &&
   unterminated [[ml3; esc; quo]] [S2 "9,8,fi\
rst"; S2 "1,2,""\

\
\
\
just"] 1 &&
   unterminated [[ml3; esc; quo]] [S2 "9,8,""fi
rst"""; S2 "1,2,""\

\
\
\
just"] 1 &&
   unterminated [[ml3; esc; quo]] [S2 "9,8,""fi
r\
st"""; S2 "1,2,""\

\
\
\
just"] 1) = true.
Proof. vm_cast_no_check (eq_refl true). Qed.
(** test_parser1_4.cpp:85-128 *)
Example header_37 : session [] (S2 "Int,Double,String
1,2.000000,x
3,4.000000,y
5,6.000000,z
7,8.000000,u
9,10.000000,v
11,12.000000,w
") [(CHeader, WNames [S2 "Int"; S2 "Double"; S2 "String"]); (CRaw, WText (S2 "Int,Double,String")); (CUse [S2 "Int"; S2 "Double"], WDone); (CHeader, WNames [S2 "Int"; S2 "Double"; S2 "String"]); (CGet [EVal Int; EVal Dbl], WValues [(VInt 1)%Z; (VFloat 2000000)%Z]); (CUse [S2 "Double"; S2 "Int"], WDone); (CGet [EVal Dbl; EVal Int], WValues [(VFloat 4000000)%Z; (VInt 3)%Z]); (CUse [S2 "String"], WDone); (CGet [EVal TString], WValues [(VStr (S2 "z"))%Z]); (CUse [S2 "String"; S2 "Int"; S2 "Double"], WDone); (CGet [EVal TString; EVal Int; EVal Dbl], WValues [(VStr (S2 "u"))%Z; (VInt 7)%Z; (VFloat 8000000)%Z])] = true.
Proof. vm_cast_no_check (eq_refl true). Qed.
(** test_parser1_4.cpp:10-44, 152-167 *)
Example fields_38 : 
  (session [] (S2 "Int,Double,String
1,2.000000,x
3,4.000000,y
5,6.000000,z
7,8.000000,u
9,10.000000,v
11,12.000000,w
") [(CField (S2 "Unknown"), WBool false); (CUse [S2 "String"], WDone); (CHeader, WNames [S2 "Int"; S2 "Double"; S2 "String"]); (CGet [EVal TString], WValues [(VStr (S2 "x"))%Z]); (CGet [EVal TString], WValues [(VStr (S2 "y"))%Z]); (CGet [EVal TString], WValues [(VStr (S2 "z"))%Z]); (CGet [EVal TString], WValues [(VStr (S2 "u"))%Z]); (CGet [EVal TString], WValues [(VStr (S2 "v"))%Z]); (CGet [EVal TString], WValues [(VStr (S2 "w"))%Z])] &&
   session [] (S2 "Int,Double,String
1,2.000000,x
3,4.000000,y
5,6.000000,z
7,8.000000,u
9,10.000000,v
11,12.000000,w
") [(CField (S2 "Unknown"), WBool false); (CUse [S2 "Int"], WDone); (CHeader, WNames [S2 "Int"; S2 "Double"; S2 "String"]); (CGet [EVal Int], WValues [(VInt 1)%Z]); (CGet [EVal Int], WValues [(VInt 3)%Z]); (CGet [EVal Int], WValues [(VInt 5)%Z]); (CGet [EVal Int], WValues [(VInt 7)%Z]); (CGet [EVal Int], WValues [(VInt 9)%Z]); (CGet [EVal Int], WValues [(VInt 11)%Z])] &&
   session [] (S2 "Int,Double,String
1,2.000000,x
3,4.000000,y
5,6.000000,z
7,8.000000,u
9,10.000000,v
11,12.000000,w
") [(CField (S2 "Unknown"), WBool false); (CUse [S2 "Double"], WDone); (CHeader, WNames [S2 "Int"; S2 "Double"; S2 "String"]); (CGet [EVal Dbl], WValues [(VFloat 2000000)%Z]); (CGet [EVal Dbl], WValues [(VFloat 4000000)%Z]); (CGet [EVal Dbl], WValues [(VFloat 6000000)%Z]); (CGet [EVal Dbl], WValues [(VFloat 8000000)%Z]); (CGet [EVal Dbl], WValues [(VFloat 10000000)%Z]); (CGet [EVal Dbl], WValues [(VFloat 12000000)%Z])]) = true.
Proof. vm_cast_no_check (eq_refl true). Qed.
(** test_parser1_4.cpp:10-44, 152-167 *)
Example fields_39 : 
  (session [] (S2 "Int,Double,String
1,2.000000,x
3,4.000000,y
5,6.000000,z
7,8.000000,u
9,10.000000,v
11,12.000000,w
") [(CField (S2 "Unknown"), WBool false); (CUse [S2 "String"; S2 "Int"], WDone); (CHeader, WNames [S2 "Int"; S2 "Double"; S2 "String"]); (CGet [EVal TString; EVal Int], WValues [(VStr (S2 "x"))%Z; (VInt 1)%Z]); (CGet [EVal TString; EVal Int], WValues [(VStr (S2 "y"))%Z; (VInt 3)%Z]); (CGet [EVal TString; EVal Int], WValues [(VStr (S2 "z"))%Z; (VInt 5)%Z]); (CGet [EVal TString; EVal Int], WValues [(VStr (S2 "u"))%Z; (VInt 7)%Z]); (CGet [EVal TString; EVal Int], WValues [(VStr (S2 "v"))%Z; (VInt 9)%Z]); (CGet [EVal TString; EVal Int], WValues [(VStr (S2 "w"))%Z; (VInt 11)%Z])] &&
   session [] (S2 "Int,Double,String
1,2.000000,x
3,4.000000,y
5,6.000000,z
7,8.000000,u
9,10.000000,v
11,12.000000,w
") [(CField (S2 "Unknown"), WBool false); (CUse [S2 "String"; S2 "Double"], WDone); (CHeader, WNames [S2 "Int"; S2 "Double"; S2 "String"]); (CGet [EVal TString; EVal Dbl], WValues [(VStr (S2 "x"))%Z; (VFloat 2000000)%Z]); (CGet [EVal TString; EVal Dbl], WValues [(VStr (S2 "y"))%Z; (VFloat 4000000)%Z]); (CGet [EVal TString; EVal Dbl], WValues [(VStr (S2 "z"))%Z; (VFloat 6000000)%Z]); (CGet [EVal TString; EVal Dbl], WValues [(VStr (S2 "u"))%Z; (VFloat 8000000)%Z]); (CGet [EVal TString; EVal Dbl], WValues [(VStr (S2 "v"))%Z; (VFloat 10000000)%Z]); (CGet [EVal TString; EVal Dbl], WValues [(VStr (S2 "w"))%Z; (VFloat 12000000)%Z])] &&
   session [] (S2 "Int,Double,String
1,2.000000,x
3,4.000000,y
5,6.000000,z
7,8.000000,u
9,10.000000,v
11,12.000000,w
") [(CField (S2 "Unknown"), WBool false); (CUse [S2 "Int"; S2 "String"], WDone); (CHeader, WNames [S2 "Int"; S2 "Double"; S2 "String"]); (CGet [EVal Int; EVal TString], WValues [(VInt 1)%Z; (VStr (S2 "x"))%Z]); (CGet [EVal Int; EVal TString], WValues [(VInt 3)%Z; (VStr (S2 "y"))%Z]); (CGet [EVal Int; EVal TString], WValues [(VInt 5)%Z; (VStr (S2 "z"))%Z]); (CGet [EVal Int; EVal TString], WValues [(VInt 7)%Z; (VStr (S2 "u"))%Z]); (CGet [EVal Int; EVal TString], WValues [(VInt 9)%Z; (VStr (S2 "v"))%Z]); (CGet [EVal Int; EVal TString], WValues [(VInt 11)%Z; (VStr (S2 "w"))%Z])] &&
   session [] (S2 "Int,Double,String
1,2.000000,x
3,4.000000,y
5,6.000000,z
7,8.000000,u
9,10.000000,v
11,12.000000,w
") [(CField (S2 "Unknown"), WBool false); (CUse [S2 "Int"; S2 "Double"], WDone); (CHeader, WNames [S2 "Int"; S2 "Double"; S2 "String"]); (CGet [EVal Int; EVal Dbl], WValues [(VInt 1)%Z; (VFloat 2000000)%Z]); (CGet [EVal Int; EVal Dbl], WValues [(VInt 3)%Z; (VFloat 4000000)%Z]); (CGet [EVal Int; EVal Dbl], WValues [(VInt 5)%Z; (VFloat 6000000)%Z]); (CGet [EVal Int; EVal Dbl], WValues [(VInt 7)%Z; (VFloat 8000000)%Z]); (CGet [EVal Int; EVal Dbl], WValues [(VInt 9)%Z; (VFloat 10000000)%Z]); (CGet [EVal Int; EVal Dbl], WValues [(VInt 11)%Z; (VFloat 12000000)%Z])] &&
   session [] (S2 "Int,Double,String
1,2.000000,x
3,4.000000,y
5,6.000000,z
7,8.000000,u
9,10.000000,v
11,12.000000,w
") [(CField (S2 "Unknown"), WBool false); (CUse [S2 "Double"; S2 "String"], WDone); (CHeader, WNames [S2 "Int"; S2 "Double"; S2 "String"]); (CGet [EVal Dbl; EVal TString], WValues [(VFloat 2000000)%Z; (VStr (S2 "x"))%Z]); (CGet [EVal Dbl; EVal TString], WValues [(VFloat 4000000)%Z; (VStr (S2 "y"))%Z]); (CGet [EVal Dbl; EVal TString], WValues [(VFloat 6000000)%Z; (VStr (S2 "z"))%Z]); (CGet [EVal Dbl; EVal TString], WValues [(VFloat 8000000)%Z; (VStr (S2 "u"))%Z]); (CGet [EVal Dbl; EVal TString], WValues [(VFloat 10000000)%Z; (VStr (S2 "v"))%Z]); (CGet [EVal Dbl; EVal TString], WValues [(VFloat 12000000)%Z; (VStr (S2 "w"))%Z])] &&
   session [] (S2 "Int,Double,String
1,2.000000,x
3,4.000000,y
5,6.000000,z
7,8.000000,u
9,10.000000,v
11,12.000000,w
") [(CField (S2 "Unknown"), WBool false); (CUse [S2 "Double"; S2 "Int"], WDone); (CHeader, WNames [S2 "Int"; S2 "Double"; S2 "String"]); (CGet [EVal Dbl; EVal Int], WValues [(VFloat 2000000)%Z; (VInt 1)%Z]); (CGet [EVal Dbl; EVal Int], WValues [(VFloat 4000000)%Z; (VInt 3)%Z]); (CGet [EVal Dbl; EVal Int], WValues [(VFloat 6000000)%Z; (VInt 5)%Z]); (CGet [EVal Dbl; EVal Int], WValues [(VFloat 8000000)%Z; (VInt 7)%Z]); (CGet [EVal Dbl; EVal Int], WValues [(VFloat 10000000)%Z; (VInt 9)%Z]); (CGet [EVal Dbl; EVal Int], WValues [(VFloat 12000000)%Z; (VInt 11)%Z])]) = true.
Proof. vm_cast_no_check (eq_refl true). Qed.
(** test_parser1_4.cpp:10-44, 152-167 *)
Example fields_40 : 
  (session [] (S2 "Int,Double,String
1,2.000000,x
3,4.000000,y
5,6.000000,z
7,8.000000,u
9,10.000000,v
11,12.000000,w
") [(CField (S2 "Unknown"), WBool false); (CUse [S2 "String"; S2 "Int"; S2 "Double"], WDone); (CHeader, WNames [S2 "Int"; S2 "Double"; S2 "String"]); (CGet [EVal TString; EVal Int; EVal Dbl], WValues [(VStr (S2 "x"))%Z; (VInt 1)%Z; (VFloat 2000000)%Z]); (CGet [EVal TString; EVal Int; EVal Dbl], WValues [(VStr (S2 "y"))%Z; (VInt 3)%Z; (VFloat 4000000)%Z]); (CGet [EVal TString; EVal Int; EVal Dbl], WValues [(VStr (S2 "z"))%Z; (VInt 5)%Z; (VFloat 6000000)%Z]); (CGet [EVal TString; EVal Int; EVal Dbl], WValues [(VStr (S2 "u"))%Z; (VInt 7)%Z; (VFloat 8000000)%Z]); (CGet [EVal TString; EVal Int; EVal Dbl], WValues [(VStr (S2 "v"))%Z; (VInt 9)%Z; (VFloat 10000000)%Z]); (CGet [EVal TString; EVal Int; EVal Dbl], WValues [(VStr (S2 "w"))%Z; (VInt 11)%Z; (VFloat 12000000)%Z])] &&
   session [] (S2 "Int,Double,String
1,2.000000,x
3,4.000000,y
5,6.000000,z
7,8.000000,u
9,10.000000,v
11,12.000000,w
") [(CField (S2 "Unknown"), WBool false); (CUse [S2 "String"; S2 "Double"; S2 "Int"], WDone); (CHeader, WNames [S2 "Int"; S2 "Double"; S2 "String"]); (CGet [EVal TString; EVal Dbl; EVal Int], WValues [(VStr (S2 "x"))%Z; (VFloat 2000000)%Z; (VInt 1)%Z]); (CGet [EVal TString; EVal Dbl; EVal Int], WValues [(VStr (S2 "y"))%Z; (VFloat 4000000)%Z; (VInt 3)%Z]); (CGet [EVal TString; EVal Dbl; EVal Int], WValues [(VStr (S2 "z"))%Z; (VFloat 6000000)%Z; (VInt 5)%Z]); (CGet [EVal TString; EVal Dbl; EVal Int], WValues [(VStr (S2 "u"))%Z; (VFloat 8000000)%Z; (VInt 7)%Z]); (CGet [EVal TString; EVal Dbl; EVal Int], WValues [(VStr (S2 "v"))%Z; (VFloat 10000000)%Z; (VInt 9)%Z]); (CGet [EVal TString; EVal Dbl; EVal Int], WValues [(VStr (S2 "w"))%Z; (VFloat 12000000)%Z; (VInt 11)%Z])] &&
   session [] (S2 "Int,Double,String
1,2.000000,x
3,4.000000,y
5,6.000000,z
7,8.000000,u
9,10.000000,v
11,12.000000,w
") [(CField (S2 "Unknown"), WBool false); (CUse [S2 "Int"; S2 "String"; S2 "Double"], WDone); (CHeader, WNames [S2 "Int"; S2 "Double"; S2 "String"]); (CGet [EVal Int; EVal TString; EVal Dbl], WValues [(VInt 1)%Z; (VStr (S2 "x"))%Z; (VFloat 2000000)%Z]); (CGet [EVal Int; EVal TString; EVal Dbl], WValues [(VInt 3)%Z; (VStr (S2 "y"))%Z; (VFloat 4000000)%Z]); (CGet [EVal Int; EVal TString; EVal Dbl], WValues [(VInt 5)%Z; (VStr (S2 "z"))%Z; (VFloat 6000000)%Z]); (CGet [EVal Int; EVal TString; EVal Dbl], WValues [(VInt 7)%Z; (VStr (S2 "u"))%Z; (VFloat 8000000)%Z]); (CGet [EVal Int; EVal TString; EVal Dbl], WValues [(VInt 9)%Z; (VStr (S2 "v"))%Z; (VFloat 10000000)%Z]); (CGet [EVal Int; EVal TString; EVal Dbl], WValues [(VInt 11)%Z; (VStr (S2 "w"))%Z; (VFloat 12000000)%Z])] &&
   session [] (S2 "Int,Double,String
1,2.000000,x
3,4.000000,y
5,6.000000,z
7,8.000000,u
9,10.000000,v
11,12.000000,w
") [(CField (S2 "Unknown"), WBool false); (CUse [S2 "Int"; S2 "Double"; S2 "String"], WDone); (CHeader, WNames [S2 "Int"; S2 "Double"; S2 "String"]); (CGet [EVal Int; EVal Dbl; EVal TString], WValues [(VInt 1)%Z; (VFloat 2000000)%Z; (VStr (S2 "x"))%Z]); (CGet [EVal Int; EVal Dbl; EVal TString], WValues [(VInt 3)%Z; (VFloat 4000000)%Z; (VStr (S2 "y"))%Z]); (CGet [EVal Int; EVal Dbl; EVal TString], WValues [(VInt 5)%Z; (VFloat 6000000)%Z; (VStr (S2 "z"))%Z]); (CGet [EVal Int; EVal Dbl; EVal TString], WValues [(VInt 7)%Z; (VFloat 8000000)%Z; (VStr (S2 "u"))%Z]); (CGet [EVal Int; EVal Dbl; EVal TString], WValues [(VInt 9)%Z; (VFloat 10000000)%Z; (VStr (S2 "v"))%Z]); (CGet [EVal Int; EVal Dbl; EVal TString], WValues [(VInt 11)%Z; (VFloat 12000000)%Z; (VStr (S2 "w"))%Z])] &&
   session [] (S2 "Int,Double,String
1,2.000000,x
3,4.000000,y
5,6.000000,z
7,8.000000,u
9,10.000000,v
11,12.000000,w
") [(CField (S2 "Unknown"), WBool false); (CUse [S2 "Double"; S2 "String"; S2 "Int"], WDone); (CHeader, WNames [S2 "Int"; S2 "Double"; S2 "String"]); (CGet [EVal Dbl; EVal TString; EVal Int], WValues [(VFloat 2000000)%Z; (VStr (S2 "x"))%Z; (VInt 1)%Z]); (CGet [EVal Dbl; EVal TString; EVal Int], WValues [(VFloat 4000000)%Z; (VStr (S2 "y"))%Z; (VInt 3)%Z]); (CGet [EVal Dbl; EVal TString; EVal Int], WValues [(VFloat 6000000)%Z; (VStr (S2 "z"))%Z; (VInt 5)%Z]); (CGet [EVal Dbl; EVal TString; EVal Int], WValues [(VFloat 8000000)%Z; (VStr (S2 "u"))%Z; (VInt 7)%Z]); (CGet [EVal Dbl; EVal TString; EVal Int], WValues [(VFloat 10000000)%Z; (VStr (S2 "v"))%Z; (VInt 9)%Z]); (CGet [EVal Dbl; EVal TString; EVal Int], WValues [(VFloat 12000000)%Z; (VStr (S2 "w"))%Z; (VInt 11)%Z])] &&
   session [] (S2 "Int,Double,String
1,2.000000,x
3,4.000000,y
5,6.000000,z
7,8.000000,u
9,10.000000,v
11,12.000000,w
") [(CField (S2 "Unknown"), WBool false); (CUse [S2 "Double"; S2 "Int"; S2 "String"], WDone); (CHeader, WNames [S2 "Int"; S2 "Double"; S2 "String"]); (CGet [EVal Dbl; EVal Int; EVal TString], WValues [(VFloat 2000000)%Z; (VInt 1)%Z; (VStr (S2 "x"))%Z]); (CGet [EVal Dbl; EVal Int; EVal TString], WValues [(VFloat 4000000)%Z; (VInt 3)%Z; (VStr (S2 "y"))%Z]); (CGet [EVal Dbl; EVal Int; EVal TString], WValues [(VFloat 6000000)%Z; (VInt 5)%Z; (VStr (S2 "z"))%Z]); (CGet [EVal Dbl; EVal Int; EVal TString], WValues [(VFloat 8000000)%Z; (VInt 7)%Z; (VStr (S2 "u"))%Z]); (CGet [EVal Dbl; EVal Int; EVal TString], WValues [(VFloat 10000000)%Z; (VInt 9)%Z; (VStr (S2 "v"))%Z]); (CGet [EVal Dbl; EVal Int; EVal TString], WValues [(VFloat 12000000)%Z; (VInt 11)%Z; (VStr (S2 "w"))%Z])]) = true.
Proof. vm_cast_no_check (eq_refl true). Qed.
(** test_parser1_4.cpp:170-281 *)
Example invalid_fields_41 : 
  (session [] (S2 "") [(CUse [], WBad); (CHeader, WNames [S2 ""])] &&
   session [] (S2 "") [(CUse [S2 "Unknown"], WBad); (CHeader, WNames [S2 ""])] &&
   session [] (S2 "Int
") [(CUse [], WBad); (CHeader, WNames [S2 "Int"])] &&
   session [] (S2 "Int
") [(CUse [S2 "Unknown"], WBad); (CHeader, WNames [S2 "Int"])] &&
   session [] (S2 "Int
") [(CUse [S2 "Int"; S2 "Int"], WBad); (CHeader, WNames [S2 "Int"])] &&
   session [] (S2 "Int
") [(CHeader, WNames [S2 "Int"]); (CUse [S2 "Int"], WDone); (CGet [EVal TString; EVal TString], WBad); (CHeader, WNames [S2 "Int"])] &&
   session [] (S2 "Int
") [(CHeader, WNames [S2 "Int"]); (CUse [S2 "Int"], WDone); (CHeader, WNames [S2 "Int"])] &&
   session [] (S2 "Int
1
") [(CUse [], WBad); (CHeader, WNames [S2 "Int"])] &&
   session [] (S2 "Int
1
") [(CUse [S2 "Unknown"], WBad); (CHeader, WNames [S2 "Int"])] &&
   session [] (S2 "Int
1
") [(CUse [S2 "Int"; S2 "Int"], WBad); (CHeader, WNames [S2 "Int"])] &&
   session [] (S2 "Int
1
") [(CHeader, WNames [S2 "Int"]); (CUse [S2 "Int"], WDone); (CGet [EVal TString; EVal TString], WBad); (CHeader, WNames [S2 "Int"])] &&
   session [] (S2 "Int
1
") [(CHeader, WNames [S2 "Int"]); (CUse [S2 "Int"], WDone); (CHeader, WNames [S2 "Int"])] &&
   session [] (S2 "Int
1
2
") [(CUse [], WBad); (CHeader, WNames [S2 "Int"])] &&
   session [] (S2 "Int
1
2
") [(CUse [S2 "Unknown"], WBad); (CHeader, WNames [S2 "Int"])] &&
   session [] (S2 "Int
1
2
") [(CUse [S2 "Int"; S2 "Int"], WBad); (CHeader, WNames [S2 "Int"])] &&
   session [] (S2 "Int
1
2
") [(CHeader, WNames [S2 "Int"]); (CUse [S2 "Int"], WDone); (CGet [EVal TString; EVal TString], WBad); (CHeader, WNames [S2 "Int"])] &&
   session [] (S2 "Int
1
2
") [(CHeader, WNames [S2 "Int"]); (CUse [S2 "Int"], WDone); (CHeader, WNames [S2 "Int"])] &&
   session [] (S2 "Int,String
") [(CUse [], WBad); (CHeader, WNames [S2 "Int"; S2 "String"])] &&
   session [] (S2 "Int,String
") [(CUse [S2 "Unknown"], WBad); (CHeader, WNames [S2 "Int"; S2 "String"])] &&
   session [] (S2 "Int,String
") [(CUse [S2 "Int"; S2 "Int"], WBad); (CHeader, WNames [S2 "Int"; S2 "String"])] &&
   session [] (S2 "Int,String
") [(CHeader, WNames [S2 "Int"; S2 "String"]); (CUse [S2 "Int"], WDone); (CGet [EVal TString; EVal TString], WBad); (CHeader, WNames [S2 "Int"; S2 "String"])] &&
   session [] (S2 "Int,String
") [(CHeader, WNames [S2 "Int"; S2 "String"]); (CUse [S2 "Int"; S2 "String"], WDone); (CHeader, WNames [S2 "Int"; S2 "String"])] &&
   session [] (S2 "Int,String
1,hi
") [(CUse [], WBad); (CHeader, WNames [S2 "Int"; S2 "String"])] &&
   session [] (S2 "Int,String
1,hi
") [(CUse [S2 "Unknown"], WBad); (CHeader, WNames [S2 "Int"; S2 "String"])] &&
   session [] (S2 "Int,String
1,hi
") [(CUse [S2 "Int"; S2 "Int"], WBad); (CHeader, WNames [S2 "Int"; S2 "String"])] &&
   session [] (S2 "Int,String
1,hi
") [(CHeader, WNames [S2 "Int"; S2 "String"]); (CUse [S2 "Int"], WDone); (CGet [EVal TString; EVal TString], WBad); (CHeader, WNames [S2 "Int"; S2 "String"])] &&
   session [] (S2 "Int,String
1,hi
") [(CHeader, WNames [S2 "Int"; S2 "String"]); (CUse [S2 "Int"; S2 "String"], WDone); (CHeader, WNames [S2 "Int"; S2 "String"])] &&
   session [] (S2 "Int,String,Double
1,hi,2.34
2,hello,3.45
") [(CUse [], WBad); (CHeader, WNames [S2 "Int"; S2 "String"; S2 "Double"])] &&
   session [] (S2 "Int,String,Double
1,hi,2.34
2,hello,3.45
") [(CUse [S2 "Unknown"], WBad); (CHeader, WNames [S2 "Int"; S2 "String"; S2 "Double"])] &&
   session [] (S2 "Int,String,Double
1,hi,2.34
2,hello,3.45
") [(CUse [S2 "Int"; S2 "Int"], WBad); (CHeader, WNames [S2 "Int"; S2 "String"; S2 "Double"])] &&
   session [] (S2 "Int,String,Double
1,hi,2.34
2,hello,3.45
") [(CHeader, WNames [S2 "Int"; S2 "String"; S2 "Double"]); (CUse [S2 "Int"], WDone); (CGet [EVal TString; EVal TString], WBad); (CHeader, WNames [S2 "Int"; S2 "String"; S2 "Double"])] &&
   session [] (S2 "Int,String,Double
1,hi,2.34
2,hello,3.45
") [(CHeader, WNames [S2 "Int"; S2 "String"; S2 "Double"]); (CUse [S2 "Int"; S2 "String"; S2 "Double"], WDone); (CHeader, WNames [S2 "Int"; S2 "String"; S2 "Double"])] &&
   session [] (S2 "Int,Int,Int
") [(CUse [], WBad); (CHeader, WNames [S2 "Int"; S2 "Int"; S2 "Int"])] &&
   session [] (S2 "Int,Int,Int
") [(CUse [S2 "Unknown"], WBad); (CHeader, WNames [S2 "Int"; S2 "Int"; S2 "Int"])] &&
   session [] (S2 "Int,Int,Int
") [(CUse [S2 "Int"; S2 "Int"], WBad); (CHeader, WNames [S2 "Int"; S2 "Int"; S2 "Int"])] &&
   session [] (S2 "Int,Int,Int
") [(CHeader, WNames [S2 "Int"; S2 "Int"; S2 "Int"]); (CUse [S2 "Int"], WAny); (CHeader, WNames [S2 "Int"; S2 "Int"; S2 "Int"]); (CHeader, WNames [S2 "Int"; S2 "Int"; S2 "Int"])] &&
   session [] (S2 "Int,Int,Int
") [(CHeader, WNames [S2 "Int"; S2 "Int"; S2 "Int"]); (CUse [S2 "Int"; S2 "Int"; S2 "Int"], WBad); (CHeader, WNames [S2 "Int"; S2 "Int"; S2 "Int"])] &&
   session [] (S2 "Int,Int,Int
1,2,3
") [(CUse [], WBad); (CHeader, WNames [S2 "Int"; S2 "Int"; S2 "Int"])] &&
   session [] (S2 "Int,Int,Int
1,2,3
") [(CUse [S2 "Unknown"], WBad); (CHeader, WNames [S2 "Int"; S2 "Int"; S2 "Int"])] &&
   session [] (S2 "Int,Int,Int
1,2,3
") [(CUse [S2 "Int"; S2 "Int"], WBad); (CHeader, WNames [S2 "Int"; S2 "Int"; S2 "Int"])] &&
   session [] (S2 "Int,Int,Int
1,2,3
") [(CHeader, WNames [S2 "Int"; S2 "Int"; S2 "Int"]); (CUse [S2 "Int"], WAny); (CHeader, WNames [S2 "Int"; S2 "Int"; S2 "Int"]); (CHeader, WNames [S2 "Int"; S2 "Int"; S2 "Int"])] &&
   session [] (S2 "Int,Int,Int
1,2,3
") [(CHeader, WNames [S2 "Int"; S2 "Int"; S2 "Int"]); (CUse [S2 "Int"; S2 "Int"; S2 "Int"], WBad); (CHeader, WNames [S2 "Int"; S2 "Int"; S2 "Int"])] &&
   session [] (S2 "Int,String,Int
1,hi,3
") [(CUse [], WBad); (CHeader, WNames [S2 "Int"; S2 "String"; S2 "Int"])] &&
   session [] (S2 "Int,String,Int
1,hi,3
") [(CUse [S2 "Unknown"], WBad); (CHeader, WNames [S2 "Int"; S2 "String"; S2 "Int"])] &&
   session [] (S2 "Int,String,Int
1,hi,3
") [(CUse [S2 "Int"; S2 "Int"], WBad); (CHeader, WNames [S2 "Int"; S2 "String"; S2 "Int"])] &&
   session [] (S2 "Int,String,Int
1,hi,3
") [(CHeader, WNames [S2 "Int"; S2 "String"; S2 "Int"]); (CUse [S2 "Int"], WAny); (CHeader, WNames [S2 "Int"; S2 "String"; S2 "Int"]); (CHeader, WNames [S2 "Int"; S2 "String"; S2 "Int"])] &&
   session [] (S2 "Int,String,Int
1,hi,3
") [(CHeader, WNames [S2 "Int"; S2 "String"; S2 "Int"]); (CUse [S2 "Int"; S2 "String"; S2 "Int"], WBad); (CHeader, WNames [S2 "Int"; S2 "String"; S2 "Int"])]) = true.
Proof. vm_cast_no_check (eq_refl true). Qed.
(** test_parser1_4.cpp:283-400 *)
Example rows_with_header_42 : 
  (session [] (S2 "Int,String,Double
1,line1,2.34
2,line2
3,line3,67.8
4,line4,67.8,9
5,line5,9.10
six,line6,10.11
") [(CUse [S2 "Int"; S2 "String"; S2 "Double"], WDone); (CGet [EVal Int; EVal TString; EVal Dbl], WValues [(VInt 1)%Z; (VStr (S2 "line1"))%Z; (VFloat 2340000)%Z]); (CGet [EVal Int; EVal TString; EVal Dbl], WBad); (CGet [EVal Int; EVal TString; EVal Dbl], WValues [(VInt 3)%Z; (VStr (S2 "line3"))%Z; (VFloat 67800000)%Z]); (CGet [EVal Int; EVal TString; EVal Dbl], WBad); (CGet [EVal Int; EVal TString; EVal Dbl], WValues [(VInt 5)%Z; (VStr (S2 "line5"))%Z; (VFloat 9100000)%Z]); (CGet [EVal Int; EVal TString; EVal Dbl], WBad); (CHeader, WNames [S2 "Int"; S2 "String"; S2 "Double"])] &&
   session [] (S2 "Int,String,Double
1,line1,2.34
2,line2
3,line3,67.8
4,line4,67.8,9
5,line5,9.10
six,line6,10.11
") [(CUse [S2 "Double"; S2 "Int"], WDone); (CGet [EVal Dbl; EVal Int], WValues [(VFloat 2340000)%Z; (VInt 1)%Z]); (CGet [EVal Dbl; EVal Int], WBad); (CGet [EVal Dbl; EVal Int], WValues [(VFloat 67800000)%Z; (VInt 3)%Z]); (CGet [EVal Dbl; EVal Int], WBad); (CGet [EVal Dbl; EVal Int], WValues [(VFloat 9100000)%Z; (VInt 5)%Z]); (CGet [EVal Dbl; EVal Int], WBad); (CHeader, WNames [S2 "Int"; S2 "String"; S2 "Double"])] &&
   session [] (S2 "Int,String,Double
1,line1,2.34
2,line2
3,line3,67.8
4,line4,67.8,9
5,line5,9.10
six,line6,10.11
") [(CUse [S2 "String"; S2 "Double"], WDone); (CGet [EVal TString; EVal Dbl], WValues [(VStr (S2 "line1"))%Z; (VFloat 2340000)%Z]); (CGet [EVal TString; EVal Dbl], WBad); (CGet [EVal TString; EVal Dbl], WValues [(VStr (S2 "line3"))%Z; (VFloat 67800000)%Z]); (CGet [EVal TString; EVal Dbl], WBad); (CGet [EVal TString; EVal Dbl], WValues [(VStr (S2 "line5"))%Z; (VFloat 9100000)%Z]); (CGet [EVal TString; EVal Dbl], WValues [(VStr (S2 "line6"))%Z; (VFloat 10110000)%Z]); (CHeader, WNames [S2 "Int"; S2 "String"; S2 "Double"])]) = true.
Proof. vm_cast_no_check (eq_refl true). Qed.
(** test_parser1_5.cpp:3-132 *)
Example empty_fields_43 : 
  (session [] (S2 "
1
") [(CHeader, WNames [[]]); (CRaw, WText [])] &&
   session [] (S2 ",,
1,2,3
") [(CHeader, WNames [[]; []; []]); (CRaw, WText (S2 ",,")); (CField (S2 "Int"), WBad); (CUse [S2 "Int"], WBad)] &&
   session [] (S2 "Int0,Int1,
1,2,3
") [(CHeader, WNames [S2 "Int0"; S2 "Int1"; S2 ""]); (CRaw, WText (S2 "Int0,Int1,")); (CField (S2 "Int0"), WBool true); (CField (S2 "Int1"), WBool true); (CField (S2 ""), WBool true); (CUse [S2 "Int0"], WDone); (CUse [S2 "Int1"], WDone); (CUse [S2 ""], WDone); (CUse [S2 ""; S2 "Int0"], WDone); (CUse [S2 "Int0"; S2 "Int1"], WDone); (CUse [S2 "Int1"; S2 ""], WDone); (CUse [S2 "Int0"; S2 ""; S2 "Int1"], WDone); (CUse [S2 ""; S2 "Int1"; S2 "Int0"], WDone)] &&
   session [] (S2 ",Int0,Int1
1,2,3
") [(CHeader, WNames [S2 ""; S2 "Int0"; S2 "Int1"]); (CRaw, WText (S2 ",Int0,Int1")); (CField (S2 "Int0"), WBool true); (CField (S2 "Int1"), WBool true); (CField (S2 ""), WBool true); (CUse [S2 "Int0"], WDone); (CUse [S2 "Int1"], WDone); (CUse [S2 ""], WDone); (CUse [S2 ""; S2 "Int0"], WDone); (CUse [S2 "Int0"; S2 "Int1"], WDone); (CUse [S2 "Int1"; S2 ""], WDone); (CUse [S2 "Int0"; S2 ""; S2 "Int1"], WDone); (CUse [S2 ""; S2 "Int1"; S2 "Int0"], WDone)] &&
   session [] (S2 "Int0,,Int1
1,2,3
") [(CHeader, WNames [S2 "Int0"; S2 ""; S2 "Int1"]); (CRaw, WText (S2 "Int0,,Int1")); (CField (S2 "Int0"), WBool true); (CField (S2 "Int1"), WBool true); (CField (S2 ""), WBool true); (CUse [S2 "Int0"], WDone); (CUse [S2 "Int1"], WDone); (CUse [S2 ""], WDone); (CUse [S2 ""; S2 "Int0"], WDone); (CUse [S2 "Int0"; S2 "Int1"], WDone); (CUse [S2 "Int1"; S2 ""], WDone); (CUse [S2 "Int0"; S2 ""; S2 "Int1"], WDone); (CUse [S2 ""; S2 "Int1"; S2 "Int0"], WDone)]) = true.
Proof. vm_cast_no_check (eq_refl true). Qed.
(** test_parser1_5.cpp:134-215 *)
Example unterminated_header_44 : 
  (session [quo] (S2 """Int
1
") [(CHeader, WBad); (CRaw, WText (S2 """Int")); (CField (S2 "Int"), WBad); (CUse [S2 "Int"], WBad)] &&
   session [quo; OMultiline 0 true] (S2 """Int
1
") [(CHeader, WBad); (CRaw, WText (S2 """Int")); (CField (S2 "Int"), WBad); (CUse [S2 "Int"], WBad)] &&
   session [quo; esc] (S2 """Int
1
") [(CHeader, WBad); (CRaw, WText (S2 """Int")); (CField (S2 "Int"), WBad); (CUse [S2 "Int"], WBad)] &&
   session [quo; esc; OMultiline 0 true] (S2 """Int
1
") [(CHeader, WBad); (CRaw, WText (S2 """Int")); (CField (S2 "Int"), WBad); (CUse [S2 "Int"], WBad)] &&
   session [esc] (S2 "Int\
1
") [(CHeader, WBad); (CRaw, WText (S2 "Int\")); (CField (S2 "Int"), WBad); (CUse [S2 "Int"], WBad)] &&
   session [esc; OMultiline 0 true] (S2 "Int\
1
") [(CHeader, WBad); (CRaw, WText (S2 "Int\")); (CField (S2 "Int"), WBad); (CUse [S2 "Int"], WBad)] &&
   session [esc; quo] (S2 "Int\
1
") [(CHeader, WBad); (CRaw, WText (S2 "Int\")); (CField (S2 "Int"), WBad); (CUse [S2 "Int"], WBad)] &&
   session [esc; quo; OMultiline 0 true] (S2 "Int\
1
") [(CHeader, WBad); (CRaw, WText (S2 "Int\")); (CField (S2 "Int"), WBad); (CUse [S2 "Int"], WBad)]) = true.
Proof. vm_cast_no_check (eq_refl true). Qed.
(** test_parser1_5.cpp:217-301 *)
Example ignore_empty_45 : 
  (drains [OIgnoreEmpty] (S2 "1,2.000000,x
3,4.000000,y
9,10.000000,v
11,12.000000,w
") isd [Some [(VInt 1)%Z; (VFloat 2000000)%Z; (VStr (S2 "x"))%Z]; Some [(VInt 3)%Z; (VFloat 4000000)%Z; (VStr (S2 "y"))%Z]; Some [(VInt 9)%Z; (VFloat 10000000)%Z; (VStr (S2 "v"))%Z]; Some [(VInt 11)%Z; (VFloat 12000000)%Z; (VStr (S2 "w"))%Z]] &&
   drains [] (S2 "1,2.000000,x
3,4.000000,y
9,10.000000,v
11,12.000000,w
") isd [Some [(VInt 1)%Z; (VFloat 2000000)%Z; (VStr (S2 "x"))%Z]; Some [(VInt 3)%Z; (VFloat 4000000)%Z; (VStr (S2 "y"))%Z]; Some [(VInt 9)%Z; (VFloat 10000000)%Z; (VStr (S2 "v"))%Z]; Some [(VInt 11)%Z; (VFloat 12000000)%Z; (VStr (S2 "w"))%Z]] &&
   drains [OIgnoreEmpty] (S2 "
3,4.000000,y
9,10.000000,v
11,12.000000,w
") isd [Some [(VInt 3)%Z; (VFloat 4000000)%Z; (VStr (S2 "y"))%Z]; Some [(VInt 9)%Z; (VFloat 10000000)%Z; (VStr (S2 "v"))%Z]; Some [(VInt 11)%Z; (VFloat 12000000)%Z; (VStr (S2 "w"))%Z]] &&
   drains [] (S2 "
3,4.000000,y
9,10.000000,v
11,12.000000,w
") isd [None; Some [(VInt 3)%Z; (VFloat 4000000)%Z; (VStr (S2 "y"))%Z]; Some [(VInt 9)%Z; (VFloat 10000000)%Z; (VStr (S2 "v"))%Z]; Some [(VInt 11)%Z; (VFloat 12000000)%Z; (VStr (S2 "w"))%Z]] &&
   drains [OIgnoreEmpty] (S2 "1,2.000000,x
3,4.000000,y
9,10.000000,v

") isd [Some [(VInt 1)%Z; (VFloat 2000000)%Z; (VStr (S2 "x"))%Z]; Some [(VInt 3)%Z; (VFloat 4000000)%Z; (VStr (S2 "y"))%Z]; Some [(VInt 9)%Z; (VFloat 10000000)%Z; (VStr (S2 "v"))%Z]] &&
   drains [] (S2 "1,2.000000,x
3,4.000000,y
9,10.000000,v

") isd [Some [(VInt 1)%Z; (VFloat 2000000)%Z; (VStr (S2 "x"))%Z]; Some [(VInt 3)%Z; (VFloat 4000000)%Z; (VStr (S2 "y"))%Z]; Some [(VInt 9)%Z; (VFloat 10000000)%Z; (VStr (S2 "v"))%Z]; None] &&
   drains [OIgnoreEmpty] (S2 "1,2.000000,x

9,10.000000,v
11,12.000000,w
") isd [Some [(VInt 1)%Z; (VFloat 2000000)%Z; (VStr (S2 "x"))%Z]; Some [(VInt 9)%Z; (VFloat 10000000)%Z; (VStr (S2 "v"))%Z]; Some [(VInt 11)%Z; (VFloat 12000000)%Z; (VStr (S2 "w"))%Z]] &&
   drains [] (S2 "1,2.000000,x

9,10.000000,v
11,12.000000,w
") isd [Some [(VInt 1)%Z; (VFloat 2000000)%Z; (VStr (S2 "x"))%Z]; None; Some [(VInt 9)%Z; (VFloat 10000000)%Z; (VStr (S2 "v"))%Z]; Some [(VInt 11)%Z; (VFloat 12000000)%Z; (VStr (S2 "w"))%Z]] &&
   drains [OIgnoreEmpty] (S2 "

9,10.000000,v
11,12.000000,w
") isd [Some [(VInt 9)%Z; (VFloat 10000000)%Z; (VStr (S2 "v"))%Z]; Some [(VInt 11)%Z; (VFloat 12000000)%Z; (VStr (S2 "w"))%Z]] &&
   drains [] (S2 "

9,10.000000,v
11,12.000000,w
") isd [None; None; Some [(VInt 9)%Z; (VFloat 10000000)%Z; (VStr (S2 "v"))%Z]; Some [(VInt 11)%Z; (VFloat 12000000)%Z; (VStr (S2 "w"))%Z]] &&
   drains [OIgnoreEmpty] (S2 "
3,4.000000,y
9,10.000000,v

") isd [Some [(VInt 3)%Z; (VFloat 4000000)%Z; (VStr (S2 "y"))%Z]; Some [(VInt 9)%Z; (VFloat 10000000)%Z; (VStr (S2 "v"))%Z]] &&
   drains [] (S2 "
3,4.000000,y
9,10.000000,v

") isd [None; Some [(VInt 3)%Z; (VFloat 4000000)%Z; (VStr (S2 "y"))%Z]; Some [(VInt 9)%Z; (VFloat 10000000)%Z; (VStr (S2 "v"))%Z]; None] &&
   drains [OIgnoreEmpty] (S2 "1,2.000000,x
3,4.000000,y


") isd [Some [(VInt 1)%Z; (VFloat 2000000)%Z; (VStr (S2 "x"))%Z]; Some [(VInt 3)%Z; (VFloat 4000000)%Z; (VStr (S2 "y"))%Z]] &&
   drains [] (S2 "1,2.000000,x
3,4.000000,y


") isd [Some [(VInt 1)%Z; (VFloat 2000000)%Z; (VStr (S2 "x"))%Z]; Some [(VInt 3)%Z; (VFloat 4000000)%Z; (VStr (S2 "y"))%Z]; None; None] &&
   drains [OIgnoreEmpty] (S2 "
3,4.000000,y


") isd [Some [(VInt 3)%Z; (VFloat 4000000)%Z; (VStr (S2 "y"))%Z]] &&
   drains [] (S2 "
3,4.000000,y


") isd [None; Some [(VInt 3)%Z; (VFloat 4000000)%Z; (VStr (S2 "y"))%Z]; None; None] &&
   drains [OIgnoreEmpty] (S2 "



") isd [] &&
   drains [] (S2 "



") isd [None; None; None; None] &&
   drains [OIgnoreEmpty] (S2 "1,2.000000,x



") isd [Some [(VInt 1)%Z; (VFloat 2000000)%Z; (VStr (S2 "x"))%Z]] &&
   drains [] (S2 "1,2.000000,x



") isd [Some [(VInt 1)%Z; (VFloat 2000000)%Z; (VStr (S2 "x"))%Z]; None; None; None] &&
   drains [OIgnoreEmpty] (S2 "


11,12.000000,w
") isd [Some [(VInt 11)%Z; (VFloat 12000000)%Z; (VStr (S2 "w"))%Z]] &&
   drains [] (S2 "


11,12.000000,w
") isd [None; None; None; Some [(VInt 11)%Z; (VFloat 12000000)%Z; (VStr (S2 "w"))%Z]] &&
   drains [OIgnoreEmpty] (S2 "
") isd [] &&
   drains [] (S2 "
") isd [None] &&
   drains [OIgnoreEmpty] (S2 "") isd [] &&
   drains [] (S2 "") isd []) = true.
Proof. vm_cast_no_check (eq_refl true). Qed.
