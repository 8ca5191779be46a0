(** setup.hpp: options and their validation. *)
From Verif Require Import Base.

(** One option of the pack [Options...] (setup.hpp:77-90, 130-136, 168-186).
    [OOther] stands for any type that is not a recognised option.
    [OQuote] has one character, the other matchers a non-empty pack
    (an empty pack does not instantiate [match]). *)
Inductive opt :=
| OQuote (c : ascii)
| OTrim (cs : list ascii)
| OTrimLeft (cs : list ascii)
| OTrimRight (cs : list ascii)
| OEscape (cs : list ascii)
| OMultiline (size : nat) (enabled : bool)
| OStringError
| OIgnoreHeader
| OIgnoreEmpty
| OThrowOnError
| OOther.

(** The members of [setup<Options...>] used by the rest of the code
    (setup.hpp:241-253). A disabled matcher ([matcher<'\0'>], setup.hpp:61-67)
    is [None] / the empty list. *)
Record cfg := mkCfg {
  c_quote : option ascii;
  c_escape : list ascii;
  c_triml : list ascii;
  c_trimr : list ascii;
  c_ml : bool;         (* multiline::enabled *)
  c_mlsize : nat;      (* multiline::size *)
  c_mode : emode;
  c_ignhdr : bool;
  c_ignempty : bool;
}.

(** get_matcher (setup.hpp:102-124): [None] = static_assert fires (two of the kind);
    [Some []] = not given, i.e. Matcher<'\0'>.  The conditional picks the first
    element of the pack that is an instance of the matcher; every suffix of the pack is
    also checked, which adds nothing. A pack consisting of exactly '\0' selects the
    disabled specialisation (setup.hpp:61-67); any other pack containing '\0' trips the
    static_assert of setup.hpp:38. *)
Definition norm_pack (cs : list ascii) : option (list ascii) :=
  match cs with
  | [] => None                                     (* match_impl<> does not instantiate *)
  | _ => if mem NUL cs
         then match cs with [_] => Some [] | _ => None end
         else Some cs
  end.

Definition get_matcher (sel : opt -> option (list ascii)) (os : list opt) : option (list ascii) :=
  match flat_map (fun o => match sel o with Some cs => [cs] | None => [] end) os with
  | [] => Some []
  | [cs] => norm_pack cs
  | _ => None
  end.

Definition sel_quote o := match o with OQuote c => Some [c] | _ => None end.
Definition sel_escape o := match o with OEscape cs => Some cs | _ => None end.
Definition sel_trim o := match o with OTrim cs => Some cs | _ => None end.
Definition sel_triml o := match o with OTrimLeft cs => Some cs | _ => None end.
Definition sel_trimr o := match o with OTrimRight cs => Some cs | _ => None end.

(** count_v (type_traits.hpp:246-292) for a predicate on options. *)
Definition count (f : opt -> bool) (os : list opt) : nat := length (filter f os).

Definition is_multiline o := match o with OMultiline _ _ => true | _ => false end.
Definition is_string_error o := match o with OStringError => true | _ => false end.
Definition is_ignore_header o := match o with OIgnoreHeader => true | _ => false end.
Definition is_ignore_empty o := match o with OIgnoreEmpty => true | _ => false end.
Definition is_throw o := match o with OThrowOnError => true | _ => false end.
Definition is_matcher o :=
  match o with
  | OQuote _ | OTrim _ | OTrimLeft _ | OTrimRight _ | OEscape _ => true
  | _ => false
  end.

(** get_multiline (setup.hpp:147-162): the first multiline option. *)
Definition get_multiline (os : list opt) : nat * bool :=
  match find is_multiline os with
  | Some (OMultiline s b) => (s, b)
  | _ => (0, false)
  end.

(** matches_intersect (setup.hpp:42-52); a disabled matcher contributes nothing because
    of the test against '\0'. *)
Definition intersect (a b : list ascii) : bool := existsb (fun c => mem c b) a.

(** setup<Options...> (setup.hpp:192-291): [None] when one of the static_asserts
    (or one inside the matchers) fires. *)
Definition setup (os : list opt) : option cfg :=
  match get_matcher sel_quote os, get_matcher sel_escape os, get_matcher sel_trim os,
        get_matcher sel_triml os, get_matcher sel_trimr os with
  | Some q, Some e, Some t, Some tlo, Some tro =>
      let en l := match l with [] => false | _ :: _ => true end in
      let tl := if en t then t else tlo in               (* setup.hpp:244-245 *)
      let tr := if en t then t else tro in               (* setup.hpp:246-247 *)
      let '(mls, mlb) := get_multiline os in             (* setup.hpp:249 *)
      let n_ml := count is_multiline os in
      let n_se := count is_string_error os in
      let n_ih := count is_ignore_header os in
      let n_ie := count is_ignore_empty os in
      let n_th := count is_throw os in
      let n_ma := count is_matcher os in
      if negb (intersect e q)                                  (* :257 *)
         && negb (intersect q tl || intersect q tr)            (* :259-261 *)
         && negb (intersect e tl || intersect e tr)            (* :263-265 *)
         && (negb mlb || (en q || en e))                       (* :269-272 *)
         && negb (en t && en tlo) && negb (en t && en tro)     (* :274-276 *)
         && (n_ml <=? 1)                                       (* :278 *)
         && (n_se <=? 1)                                       (* :280 *)
         && (n_th <=? 1)                                       (* :283 *)
         && (n_th + n_se <=? 1)                                (* :286 *)
         && (n_ma + n_ml + n_se + n_ih + n_ie + n_th =? length os)   (* :289 *)
      then Some {| c_quote := hd_error q; c_escape := e; c_triml := tl; c_trimr := tr;
                   c_ml := mlb; c_mlsize := mls;
                   c_mode := if n_se =? 1 then EString
                             else if n_th =? 1 then EThrow else EBool;
                   c_ignhdr := n_ih =? 1;                      (* :251 *)
                   c_ignempty := n_ie =? 1 |}                  (* :252 *)
      else None
  | _, _, _, _, _ => None
  end.

(** What a setup that compiled guarantees; used as hypothesis elsewhere and
    proved of [setup] in SetupProofs.v. *)
Definition quote_list (c : cfg) : list ascii :=
  match c_quote c with Some q => [q] | None => [] end.

Definition disjoint (a b : list ascii) : Prop := forall x, In x a -> In x b -> False.

Record cfg_ok (c : cfg) : Prop := {
  ok_nul_q : c_quote c <> Some NUL;
  ok_nul_e : ~ In NUL (c_escape c);
  ok_nul_l : ~ In NUL (c_triml c);
  ok_nul_r : ~ In NUL (c_trimr c);
  ok_qe : disjoint (c_escape c) (quote_list c);
  ok_ql : disjoint (quote_list c) (c_triml c);
  ok_qr : disjoint (quote_list c) (c_trimr c);
  ok_el : disjoint (c_escape c) (c_triml c);
  ok_er : disjoint (c_escape c) (c_trimr c);
  ok_ml : c_ml c = true -> c_quote c <> None \/ c_escape c <> [];
}.

(** The multiline-free setup used for headers: parser.hpp:34-35 *)
Definition header_cfg (c : cfg) : cfg :=
  {| c_quote := c_quote c; c_escape := c_escape c; c_triml := c_triml c;
     c_trimr := c_trimr c; c_ml := false; c_mlsize := 0; c_mode := c_mode c;
     c_ignhdr := c_ignhdr c; c_ignempty := c_ignempty c |}.
