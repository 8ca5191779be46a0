(** Specification (not a model): which options fit together. *)
From Coq Require Import Ascii List.
From Verif Require Import Base Setup.
Import ListNotations.

(** The options that carry characters. *)
Inductive kind := KQuote | KEscape | KTrim | KTrimLeft | KTrimRight.
Inductive option_of : kind -> list ascii -> opt -> Prop :=
| of_quote x : option_of KQuote [x] (OQuote x)
| of_escape cs : option_of KEscape cs (OEscape cs)
| of_trim cs : option_of KTrim cs (OTrim cs)
| of_trim_left cs : option_of KTrimLeft cs (OTrimLeft cs)
| of_trim_right cs : option_of KTrimRight cs (OTrimRight cs).
(** The character [x] is given for the purpose [k]; '\0' stands for none. *)
Definition has (os : list opt) (k : kind) (x : ascii) : Prop := exists o cs, In o os /\ option_of k cs o /\ In x cs /\ x <> NUL.
Definition trims (os : list opt) (x : ascii) : Prop := has os KTrim x \/ has os KTrimLeft x \/ has os KTrimRight x.
(** At most one of the options satisfies [P]. *)
Definition once (P : opt -> Prop) (os : list opt) : Prop := ForallOrdPairs (fun a b => ~ (P a /\ P b)) os.

Record acceptable (os : list opt) : Prop := {
  a_once : forall k, once (fun o => exists cs, option_of k cs o) os;
  a_packs : forall k cs o, In o os -> option_of k cs o -> cs <> [] /\ (In NUL cs -> cs = [NUL]);
  a_multiline : once (fun o => exists n b, o = OMultiline n b) os;
  a_error : once (fun o => o = OStringError \/ o = OThrowOnError) os;
  a_known : ~ In OOther os;
  a_quote_escape : forall x, has os KQuote x -> ~ has os KEscape x;
  a_quote_trim : forall x, has os KQuote x -> ~ trims os x;
  a_escape_trim : forall x, has os KEscape x -> ~ trims os x;
  a_trims : forall x y, has os KTrim x -> ~ (has os KTrimLeft y \/ has os KTrimRight y);
  a_spanning : forall n, In (OMultiline n true) os -> exists x, has os KQuote x \/ has os KEscape x;
}.
(** The option is given exactly once. *)
Definition exactly_once (o : opt) (os : list opt) : Prop := exists a b, os = a ++ o :: b /\ ~ In o (a ++ b).
