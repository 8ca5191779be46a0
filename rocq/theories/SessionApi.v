(** Using a parser: a list of calls and the reply to each. *)
From Verif Require Import Base Setup Splitter Extract Converter Reader Parser ConvProofs ParserApi.

(** What may follow try_next in a chain. *)
Inductive link := LElse (es : list elem) (cb : callback) | LOnError (k : nat).
Inductive call :=
| CGet (es : list elem)                                       (* get_next<Ts...>() *)
| CTry (es : list elem) (cb : callback) (ls : list link)      (* try_next<Ts...>(cb).or_else<Us...>(cb).on_error(h)... *)
| CIgnore                                                     (* ignore_next() *)
| CRaw | CHeader                                              (* raw_header(), header() *)
| CField (f : str)                                            (* field_exists(f) *)
| CUse (fs : list str).                                       (* use_fields(fs...) *)

(** What a call shows.  Error texts are empty unless string_error is set. *)
Inductive reply :=
| YGet (g : gobs)
| YTry (values : list (option (list val))) (log : list event) (valid : bool)
| YBool (b : bool) | YText (t : str) | YNames (l : list str) | YDone
| YError (msg : str)                                          (* returned, and valid() is false *)
| YThrown (msg : str)
| YCrash.                                                     (* undefined behaviour, or a value that was never set *)

Section S.
Context (c hc : cfg) (cap : nat -> nat -> nat).

(** The chain as one call: its values and the callbacks that ran. *)
Fixpoint follow_links (values : list (option (list slot))) (ls : list link) : M chain (list (option (list slot))) :=
  match ls with
  | [] => ret values
  | LElse es cb :: ls' => vs <- or_else c values es cb ;; follow_links vs ls'
  | LOnError k :: ls' => on_error c k ;; follow_links values ls'
  end.
Definition chain_call (es : list elem) (cb : callback) (ls : list link) : M chain (list (option (list slot))) :=
  vs <- try_next c cap es cb ;; follow_links vs ls.

Fixpoint all_given (l : list (option (list slot))) : option (list (option (list val))) :=
  match l with
  | [] => Some []
  | None :: l' => match all_given l' with Some r => Some (None :: r) | None => None end
  | Some xs :: l' => match given xs, all_given l' with Some vs, Some r => Some (Some vs :: r) | _, _ => None end
  end.
Definition answer {A} (f : A -> reply) (o : res prs A) : reply :=
  match o with
  | Ok a p => if p_valid c p then f a else YError (message (p_err p))
  | Throw m _ => YThrown m
  | _ => YCrash
  end.
(** For the calls that leave the error as it is. *)
Definition plain_answer {A} (f : A -> reply) (o : res prs A) : reply :=
  match o with Ok a _ => f a | Throw m _ => YThrown m | _ => YCrash end.

Definition do_call (p : prs) (k : call) : reply * prs :=
  match k with
  | CGet es => let o := get_next c cap es p in (YGet (get_obs c o), after p o)
  | CTry es cb ls =>
      match chain_call es cb ls (p, []) with
      | Ok vs (p', l) => (match all_given vs with Some r => YTry r l (p_valid c p') | None => YCrash end, p')
      | Throw m (p', _) => (YThrown m, p')
      | _ => (YCrash, p)
      end
  | CIgnore => let o := ignore_next c cap p in (plain_answer YBool o, after p o)
  | CRaw => let o := raw_header p in (plain_answer YText o, after p o)
  | CHeader => let o := header c hc p in (answer YNames o, after p o)
  | CField f => let o := field_exists c hc f p in (answer YBool o, after p o)
  | CUse fs => let o := use_fields c hc cap fs p in (answer (fun _ => YDone) o, after p o)
  end.
Fixpoint replies (p : prs) (ks : list call) : list reply :=
  match ks with
  | [] => []
  | k :: ks' => fst (do_call p k) :: replies (snd (do_call p k)) ks'
  end.
(** The parser after the calls. *)
Fixpoint later (p : prs) (ks : list call) : prs :=
  match ks with [] => p | k :: ks' => later (snd (do_call p k)) ks' end.
End S.

(** Template arguments that compile. *)
Definition call_ok (k : call) : Prop :=
  match k with
  | CGet es => types es
  | CTry es _ ls => types es /\ Forall (fun l => match l with LElse es' _ => types es' | LOnError _ => True end) ls
  | _ => True
  end.
