(** The parser as its user sees it. *)
From Verif Require Import Base Setup Splitter Extract Converter Reader Parser ListFacts ConvProofs LineSpec ParserSpec.

(** Setups and delimiters the properties below are about: a setup that compiles, a delimiter that is not empty and has no
    NUL, and, if rows may span lines, no line feed or carriage return as delimiter or escape character. *)
Record fit (c : cfg) (d : str) : Prop := {
  fit_cfg : cfg_ok c;
  fit_nul : ~ In NUL d;
  fit_delim : d <> [];
  fit_clean : c_ml c = true -> forall x, x = LF \/ x = CR -> ~ In x d /\ ~ In x (c_escape c);
}.
(** POSIX getline allocates enough. *)
Definition enough (cap : nat -> nat -> nat) : Prop := forall n need, need <= cap n need.
(** Template arguments that compile: integers of at least one bit; at least one argument. *)
Definition types (es : list elem) : Prop := Forall wfelem es /\ es <> [].

(** Data the properties are about: any bytes if a row is a line, no NUL if rows may span lines. *)
Definition nuls_ok (c : cfg) (data : str) : Prop := c_ml c = true -> ~ In NUL data.

(** A parser that was constructed on [data], with the name it uses in its messages; the portable line reader is considered
    for data without NUL only. *)
Inductive opened (c : cfg) (cap : nat -> nat -> nat) (d data : str) : str -> prs -> Prop :=
| op_file name p : parser_file c cap name d false (Some data) = Ok tt p -> opened c cap d data name p
| op_portable name p : ~ In NUL data -> parser_file c cap name d true (Some data) = Ok tt p -> opened c cap d data name p
| op_buffer p : parser_buffer c cap d (Some data) (length data) = Ok tt p -> opened c cap d data (S2 "CSV data buffer") p.

(** What a call of get_next shows: values (valid() is true), an error message (valid() is false; the message is empty
    unless string_error is set), an exception, or a crash: undefined behaviour, no termination, or a value that was
    never set. *)
Inductive gobs := GValues (vs : list val) | GError (msg : str) | GThrown (msg : str) | GCrash.
Fixpoint given (xs : list slot) : option (list val) :=
  match xs with
  | [] => Some []
  | Some v :: xs' => match given xs' with Some l => Some (v :: l) | None => None end
  | None :: _ => None
  end.
Definition message (e : err) : str := match e with Some m => m | None => [] end.
Definition get_obs (c : cfg) (o : res prs (list slot)) : gobs :=
  match o with
  | Ok xs p => if p_valid c p then match given xs with Some vs => GValues vs | None => GCrash end
               else GError (message (p_err p))
  | Throw m _ => GThrown m
  | _ => GCrash
  end.
(** The parser after a call, returned or thrown. *)
Definition after {A} (p : prs) (o : res prs A) : prs := match o with Ok _ p' | Throw _ p' => p' | _ => p end.

(** One call after the other, whatever they report: what each shows, and eof(), line() and position() after it. *)
Record seen := mkSeen { s_what : gobs; s_eof : bool; s_line : nat; s_pos : Z }.
Definition see (c : cfg) (what : gobs) (p : prs) : seen := mkSeen what (p_eof p) (p_line p) (p_position p).
Fixpoint reads (c : cfg) (cap : nat -> nat -> nat) (p : prs) (ess : list (list elem)) : list seen :=
  match ess with
  | [] => []
  | es :: ess' =>
      let o := get_next c cap es p in
      see c (get_obs c o) (after p o) :: reads c cap (after p o) ess'
  end.

(** How values or an error message are presented: [k1], [k2] are line numbers, [name] the parser's name. *)
Definition shown (c : cfg) (name : str) (k1 k2 : nat) (o : list val + str) (g : gobs) : Prop :=
  match o with
  | inl vs => g = GValues vs
  | inr m => match c_mode c with
             | EBool => g = GError []
             | EString => g = GError (name ++ S2 " " ++ dec k1 ++ S2 ": " ++ m)
             | EThrow => g = GThrown (name ++ S2 " " ++ dec k2 ++ S2 ": " ++ m)
             end
  end.

(** What the [i]-th further call shows once eof() is true: line() was [k] then, and [last] is the error of the last row, if it
    had one.  Errors that are not thrown come back every second time, each time with the next line number. *)
Definition past_end (c : cfg) (name : str) (k : nat) (last : option str) (i : nat) : gobs :=
  let over := name ++ S2 ": read on end of file" in
  match c_mode c, last with
  | EThrow, _ => GThrown over
  | EBool, _ => GError []
  | EString, Some m => GError (if Nat.odd i then name ++ S2 " " ++ dec (S k + i / 2) ++ S2 ": " ++ m else over)
  | EString, None => GError over
  end.
Definition past_line (c : cfg) (k : nat) (last : option str) (i : nat) : nat :=
  match c_mode c, last with
  | EThrow, _ | _, None => k
  | _, Some _ => k + S i / 2
  end.

(** The same values, or an error both times. *)
Definition alike (g1 g2 : gobs) : Prop :=
  match g1, g2 with
  | GValues a, GValues b => a = b
  | GError _, GError _ | GThrown _, GThrown _ => True
  | _, _ => False
  end.
(** The same setup without ignore_header; with another multiline limit (0: none). *)
Definition keep_header (c : cfg) : cfg :=
  mkCfg (c_quote c) (c_escape c) (c_triml c) (c_trimr c) (c_ml c) (c_mlsize c) (c_mode c) false (c_ignempty c).
Definition with_limit (n : nat) (c : cfg) : cfg :=
  mkCfg (c_quote c) (c_escape c) (c_triml c) (c_trimr c) (c_ml c) n (c_mode c) (c_ignhdr c) (c_ignempty c).
