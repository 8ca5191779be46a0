(** C54.  Which classes are validators, and what type of column they check (Validators.v models the deduction). *)
From Verif Require Import Base TypeTraits PropTypes Validators.

(** ** Specification *)
(** A type of values: no reference, no qualifiers, no array, no function. *)
Definition value_type (x : cty) : Prop := match x with Obj _ | Ptr _ | MemPtr _ _ => True | _ => False end.
(** The ways to declare a parameter for values of type [x]: x, const x, x&, const x&, x&&, ... *)
Inductive param_of (x : cty) : cty -> Prop :=
| pa_value : param_of x x
| pa_qual c v : param_of x (Qual c v x)
| pa_ref q : param_of x (Ref q x)
| pa_qual_ref c v q : param_of x (Ref q (Qual c v x)).
(** bool ss_valid(parameter [, more]) with an optional const and an optional & or &&; declared once, neither static nor a template. *)
Inductive checks (x : cty) : member -> Prop :=
| ck_fun r a more c q cls : param_of x a -> checks x (MFun (Fn r (a :: more) false c false q false) cls).

(** ** Theorems *)
Theorem C54_validated_type : forall ss_valid t x, value_type x -> checks x (ss_valid t) -> no_validator ss_valid t = Some x.
Proof.
  intros sv t x V H. unfold no_validator. destruct H as [r a more c q cls P]. cbn. f_equal. destruct x; try contradiction; destruct P; reflexivity.
Qed.
(** Anything without an ss_valid whose address can be taken is a column type itself; so is a class whose ss_valid is overloaded, a
    template or private: it is not checked. *)
Theorem C54_other_types : forall ss_valid t, ss_valid t = MNothing \/ ss_valid t = MMany -> no_validator ss_valid t = Some t /\ has_m (ss_valid t) = false.
Proof. intros sv t [H|H]; unfold no_validator; rewrite H; split; reflexivity. Qed.
(** No type of values is taken for a validator of another one: what is deduced is what ss_valid takes. *)
Theorem C54_deduced : forall ss_valid t x, value_type x -> has_m (ss_valid t) = true ->
  (forall f cls, ss_valid t = MFun f cls -> exists r args d c v q ne, f = Fn r args d c v q ne /\
     Forall (fun a => exists y, param_of y a /\ value_type y) args) ->             (* functions take values *)
  (forall u cls, ss_valid t = MField u cls -> forall r args d c v q ne, u <> Fn r args d c v q ne) ->      (* fields are not functions *)
  no_validator ss_valid t = Some x -> checks x (ss_valid t).
Proof.
  intros sv t x V H F D E. unfold no_validator in E. destruct (sv t) as [| |f cls|u cls|u]; try discriminate H; cbn in E.
  - destruct (F f cls eq_refl) as (r & args & d & c & v & q & ne & -> & FA). cbn in E. destruct args as [|a more]; [discriminate|]. destruct d, v, ne; try discriminate. injection E as E.
    constructor. inversion FA as [|? ? (y & P & Vy) _]; subst. destruct y; try contradiction; destruct P; cbn; constructor.
  - specialize (D u cls eq_refl). destruct u; cbn in E; try discriminate. exfalso. eapply D. reflexivity.
  - discriminate.
Qed.
(** The type of a converted row: void elements dropped, every validator replaced by what it checks, a single one not wrapped. *)
Definition column_type (ss_valid : cty -> member) (t : typ cty) : typ cty :=
  match t with Pl t => match no_validator ss_valid t with Some x => Pl x | None => Pl t end | t => t end.
Theorem C54_row_type : forall ss_valid (is_void : trait cty) ts xs,
  Forall2 (fun t x => value_type x /\ (checks x (ss_valid t) \/ (ss_valid t = MNothing \/ ss_valid t = MMany) /\ x = t)) (filter (fun t => negb (is_void (Pl t))) ts) xs -> xs <> [] ->
  no_void_validator_tup is_void (column_type ss_valid) (map Pl ts) = Some (match xs with [x] => Pl x | _ => Tup (map Pl xs) end).
Proof.
  intros sv iv ts xs F NE.
  assert (E : filter (fun t => negb (iv t)) (map Pl ts) = map (@Pl cty) (filter (fun t => negb (iv (Pl t))) ts)).
  { clear. induction ts as [|t ts IH]; [reflexivity|]. cbn. destruct (iv (Pl t)); cbn; rewrite IH; reflexivity. }
  assert (M : map (column_type sv) (map (@Pl cty) (filter (fun t => negb (iv (Pl t))) ts)) = map (@Pl cty) xs).
  { clear E NE. induction F as [|t x l xs [V H] F IH]; [reflexivity|]. cbn [map]. rewrite IH. f_equal. cbn.
    destruct H as [H|[H ->]]; [rewrite (C54_validated_type sv t x V H); reflexivity|]. destruct (C54_other_types sv t H) as [-> _]. reflexivity. }
  rewrite C43_result_type.
  - rewrite E, M. destruct xs as [|x [|y xs]]; [congruence|reflexivity|reflexivity].
  - apply Forall_forall. intros t Ht. apply in_map_iff in Ht as (a & <- & _). exact Logic.I.
  - intros [|l|t] S; try contradiction. cbn. destruct (no_validator sv t); exact Logic.I.
  - rewrite E. intros X. rewrite X in M. cbn in M. destruct xs; [congruence|discriminate].
Qed.
Print Assumptions C54_validated_type.
Print Assumptions C54_other_types.
Print Assumptions C54_deduced.
Print Assumptions C54_row_type.

(** Not every class with an ss_valid that can be called is a validator: declared noexcept or static, the program does not compile. *)
Theorem C54_noexcept_refuted : exists ss_valid t x r a cls,
  value_type x /\ param_of x a /\ ss_valid t = MFun (Fn r [a] false true false NoRef true) cls /\ no_validator ss_valid t = None.
Proof.
  exists (fun _ => MFun (Fn (Obj 0) [Ref LRef (Qual true false (Obj 1))] false true false NoRef true) 7), (Obj 7), (Obj 1), (Obj 0), (Ref LRef (Qual true false (Obj 1))), 7.
  split; [exact Logic.I|]. split; [constructor|]. split; reflexivity.
Qed.
Theorem C54_static_refuted : forall ss_valid t f, ss_valid t = MStatic f -> has_m (ss_valid t) = true /\ no_validator ss_valid t = None.
Proof. intros sv t f H. unfold no_validator. rewrite H. split; reflexivity. Qed.

(** ** Examples *)
(** Types by number: 0 bool, 1 int, 2 std::string, 3 double, 4 void; 5 ss::gt<int, 0>, 6 ss::ne<std::string>, 7 a class derived from
    6, 8 a class with bool ss_valid(double), 9 a class with two ss_valid. *)
Definition m_of (n : nat) : member :=
  let by_ref x := Ref LRef (Qual true false (Obj x)) in
  match n with
  | 5 => MFun (Fn (Obj 0) [by_ref 1] false true false NoRef false) 5
  | 6 | 7 => MFun (Fn (Obj 0) [by_ref 2] false true false NoRef false) 6
  | 8 => MFun (Fn (Obj 0) [Obj 3] false false false NoRef false) 8
  | 9 => MMany
  | _ => MNothing
  end.
Definition ex_valid (t : cty) : member := match t with Obj n => m_of n | _ => MNothing end.
Definition ex_void (t : typ cty) : bool := match t with Pl (Obj 4) => true | _ => false end.
Example C54_example :
  map (no_validator ex_valid) (map Obj [1; 2; 5; 6; 7; 8; 9]) = map (fun n => Some (Obj n)) [1; 2; 1; 2; 2; 3; 9] /\
  (* convert<int, void, gt<int, 0>, ne<std::string>> returns std::tuple<int, int, std::string>; convert<void, gt<int, 0>> returns int *)
  no_void_validator_tup ex_void (column_type ex_valid) (map Pl [Obj 1; Obj 4; Obj 5; Obj 6]) = Some (Tup [Pl (Obj 1); Pl (Obj 1); Pl (Obj 2)]) /\
  no_void_validator_tup ex_void (column_type ex_valid) (map Pl [Obj 4; Obj 5]) = Some (Pl (Obj 1)) /\
  Forall2 (fun t x => value_type x /\ (checks x (ex_valid t) \/ (ex_valid t = MNothing \/ ex_valid t = MMany) /\ x = t))
    (filter (fun t => negb (ex_void (Pl t))) [Obj 1; Obj 4; Obj 5; Obj 6]) [Obj 1; Obj 1; Obj 2].
Proof.
  split; [reflexivity|]. split; [reflexivity|]. split; [reflexivity|]. cbn [filter ex_void negb].
  constructor; [split; [exact Logic.I|right; split; [left; reflexivity|reflexivity]]|].
  constructor; [split; [exact Logic.I|left; constructor; apply pa_qual_ref]|].
  constructor; [split; [exact Logic.I|left; constructor; apply pa_qual_ref]|constructor].
Qed.
