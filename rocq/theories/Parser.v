(** parser.hpp: the parser on top of the reader. *)
From Verif Require Import Base Setup Splitter Extract Converter Reader.

(** parser.hpp:1069-1074 *)
Record prs := mkP {
  p_name : str;
  p_err : err;
  p_rdr : rdr;
  p_header : list str;
  p_raw : str;                      (* raw_header_ *)
  p_eof : bool;
}.
Definition pset_err e (p : prs) := mkP (p_name p) e (p_rdr p) (p_header p) (p_raw p) (p_eof p).
Definition pset_rdr r (p : prs) := mkP (p_name p) (p_err p) r (p_header p) (p_raw p) (p_eof p).
Definition pset_header h (p : prs) := mkP (p_name p) (p_err p) (p_rdr p) h (p_raw p) (p_eof p).
Definition pset_raw s (p : prs) := mkP (p_name p) (p_err p) (p_rdr p) (p_header p) s (p_eof p).
Definition pset_eof b (p : prs) := mkP (p_name p) (p_err p) (p_rdr p) (p_header p) (p_raw p) b.

Definition pupd (f : prs -> prs) : M prs unit := modify f.
Definition on_rdr {A} (m : M rdr A) : M prs A := zoom p_rdr pset_rdr m.

Fixpoint find_index (f : str) (l : list str) : option nat :=
  match l with
  | [] => None
  | x :: l' => if str_eqb x f then Some 0 else match find_index f l' with Some i => Some (S i) | None => None end
  end.
Definition count_str (f : str) (l : list str) : nat := length (filter (fun x => str_eqb x f) l).

(** The texts of a range list; unreadable memory is undefined behaviour. *)
Fixpoint texts (m : list (option ascii)) (rs : list (nat * nat)) : option (list str) :=
  match rs with
  | [] => Some []
  | (b, e) :: rs' => match range_str m b e, texts m rs' with Some x, Some l => Some (x :: l) | _, _ => None end
  end.

Section WithCfg.
(** [hc]: the setup of the header splitter (parser.hpp:35-36): the options without multiline.  If the options were
    given wrapped in one ss::setup<...>, the filter does not look inside and [hc = c]. *)
Context (c hc : cfg) (cap : nat -> nat -> nat).

(** parser.hpp:78-86 *)
Definition p_valid (p : prs) : bool := err_valid (c_mode c) (p_err p).
(** parser.hpp:106-109 *)
Definition p_line (p : prs) : nat := r_line (p_rdr p) - 1.
(** parser.hpp:111-113 *)
Definition p_position (p : prs) : Z := r_chars (p_rdr p).

(** parser.hpp:585-591 *)
Definition p_clear_error : M prs unit := pupd (pset_err None).
(** The common shape of the handlers parser.hpp:593-735: [msg] appended to nothing, or thrown. *)
Definition p_error (msg : prs -> str) : M prs unit :=
  p <- get ;;
  match c_mode c with
  | EString => pupd (pset_err (match msg p with [] => None | m => Some m end))
  | EThrow => throw (msg p)
  | EBool => pupd (pset_err (Some []))
  end.
Definition msg_failed_check p := p_name p ++ S2 ": failed check".
Definition msg_null_buffer p := p_name p ++ S2 ": received null data buffer".
Definition msg_not_open p := p_name p ++ S2 ": could not be opened".
Definition msg_eof p := p_name p ++ S2 ": read on end of file".
Definition msg_invalid_field f p := p_name p ++ S2 ": header does not contain given field: " ++ f.
Definition msg_field_twice f p := p_name p ++ S2 ": given field used multiple times: " ++ f.
Definition msg_use_fields (p : prs) := S2 "received invalid argument for 'use_fields'".
Definition msg_duplicate f p := p_name p ++ S2 ": header contains duplicate: " ++ f.
Definition msg_header_split m p := p_name p ++ S2 ": failed header parsing: " ++ m.
(** parser.hpp:645-658: throws nothing in throw_on_error mode (the converter already has). *)
Definition handle_error_invalid_conversion : M prs unit :=
  p <- get ;;
  match c_mode c with
  | EString => pupd (pset_err (Some (p_name p ++ S2 " " ++ dec (r_line (p_rdr p)) ++ S2 ": "
                                      ++ match v_err (r_conv (p_rdr p)) with Some m => m | None => [] end)))
  | EThrow => ret tt
  | EBool => pupd (pset_err (Some []))
  end.
(** parser.hpp:746-754 *)
Definition decorate_rethrow {A} (e : str) : M prs A :=
  p <- get ;; throw (p_name p ++ S2 " " ++ dec (p_line p) ++ S2 ": " ++ e).

(** parser.hpp:760-762 *)
Definition read_line : M prs unit :=
  ok <- on_rdr (read_next c cap) ;; pupd (pset_eof (negb ok)).
(** parser.hpp:97-99 *)
Definition ignore_next : M prs bool := on_rdr (read_next c cap).

(** The constructors parser.hpp:39-68.  [usable]: file_ / csv_data_buffer is not null. *)
Definition p_init (name delim : str) (src : source) : prs := mkP name None (rdr_init delim src) [] [] false.
Definition construct (usable : bool) (unusable_msg : prs -> str) : M prs unit :=
  if usable then
    read_line ;;
    if c_ignhdr c then ignore_next ;; ret tt
    else s <- on_rdr get_buffer ;; pupd (pset_raw s)
  else
    p_error unusable_msg ;;
    pupd (pset_eof true).
Definition parser_file (name delim : str) (portable : bool) (contents : option str) : res prs unit :=
  match contents with
  | Some data => construct true msg_not_open (p_init name delim (if portable then SPort data else SFile data))
  | None => construct false msg_not_open (p_init name delim (SNull 0))
  end.
Definition parser_buffer (delim : str) (data : option str) (size : nat) : res prs unit :=
  match data with
  | Some data => construct true msg_null_buffer (p_init (S2 "CSV data buffer") delim (SMem data))
  | None => construct false msg_null_buffer (p_init (S2 "CSV data buffer") delim (SNull size))
  end.

(** parser.hpp:115-163.  In throw_on_error mode the code after the second try block is unreachable. *)
Definition get_next (es : list elem) : M prs (list slot) :=
  p <- get ;;
  (if p_eof p then ret tt
   else
     match c_mode c with
     | EThrow => catch (on_rdr (parse c cap)) (fun e => read_line ;; decorate_rethrow e)
     | _ => on_rdr (parse c cap)
     end) ;;
  on_rdr update ;;
  p <- get ;;
  if negb (cv_valid c (r_conv (p_rdr p))) then
    handle_error_invalid_conversion ;;
    read_line ;;
    ret (defaults es)
  else
    p_clear_error ;;
    if p_eof p then p_error msg_eof ;; ret (defaults es)
    else
      match c_mode c with
      | EThrow =>
          catch (xs <- on_rdr (on_conv (cv_convert c es)) ;; read_line ;; ret xs)
                (fun e => read_line ;; decorate_rethrow e)
      | _ =>
          xs <- on_rdr (on_conv (cv_convert c es)) ;;
          p <- get ;;
          (if negb (cv_valid c (r_conv (p_rdr p))) then handle_error_invalid_conversion else ret tt) ;;
          read_line ;;
          ret xs
      end.
(** get_next<Ts...>() for any template arguments, and get_object (parser.hpp:101-104). *)
Definition get_next_as (ts : list targ) : M prs result :=
  match elems_of ts with
  | Some es =>
      xs <- get_next es ;;
      ret (match ts with [ATied _] => to_object (shape es xs) | _ => shape es xs end)
  | None => ub "does not compile"
  end.
Definition get_object (ts : list targ) : M prs result := r <- get_next_as ts ;; ret (to_object r).

(** ** The header *)

(** strict_split (parser.hpp:532-549) on a copy of raw_header_ with a new splitter; gives the splitter and its memory
    if the split succeeded. *)
Definition strict_split : M prs (option (sp * list (option ascii))) :=
  fun p =>
    match sp_split hc 0 (r_delim (p_rdr p)) (sp_init, map Some (p_raw p) ++ [Some NUL]) with
    | Ok _ (s, m) =>
        if sp_valid hc s then Ok (Some (s, m)) p
        else (p_error (msg_header_split (match s_err s with Some e => e | None => [] end)) ;; ret None) p
    | Throw e _ => throw (msg_header_split e p) p
    | UB w => UB w
    | OutOfFuel => OutOfFuel
    end.
Definition texts_of (sm : sp * list (option ascii)) : M prs (list str) :=
  match texts (snd sm) (s_sd (fst sm)) with
  | Some l => ret l
  | None => ub "header: column outside the header"
  end.

(** parser.hpp:165-168 *)
Definition raw_header : M prs str := gets p_raw.
(** parser.hpp:170-187 *)
Definition header : M prs (list str) :=
  p_clear_error ;;
  o <- strict_split ;;
  match o with
  | Some sm => texts_of sm
  | None => ret []
  end.
(** parser.hpp:551-569: the loop; header_ grows field by field, and stays as it is if the handler throws. *)
Fixpoint add_fields (fs : list str) : M prs unit :=
  match fs with
  | [] => ret tt
  | f :: fs' =>
      p <- get ;;
      match find_index f (p_header p) with
      | Some _ => p_error (msg_duplicate f) ;; pupd (pset_header [])
      | None => pupd (fun p => pset_header (p_header p ++ [f]) p) ;; add_fields fs'
      end
  end.
Definition split_header_data : M prs unit :=
  o <- strict_split ;;
  match o with
  | Some sm => l <- texts_of sm ;; add_fields l
  | None => ret tt
  end.
(** parser.hpp:571-579 *)
Definition header_index (f : str) (p : prs) : option nat := find_index f (p_header p).
(** parser.hpp:189-202 *)
Definition field_exists (f : str) : M prs bool :=
  p_clear_error ;;
  p <- get ;;
  (match p_header p with [] => split_header_data | _ => ret tt end) ;;
  p <- get ;;
  if negb (p_valid p) then ret false
  else ret (match header_index f p with Some _ => true | None => false end).

(** The loop parser.hpp:226-239: the column of each field, or [None] after reporting an error. *)
Fixpoint find_columns (all fs : list str) : M prs (option (list nat)) :=
  match fs with
  | [] => ret (Some [])
  | f :: fs' =>
      if negb (count_str f all =? 1) then p_error (msg_field_twice f) ;; ret None
      else
        p <- get ;;
        match header_index f p with
        | None => p_error (msg_invalid_field f) ;; ret None
        | Some i =>
            o <- find_columns all fs' ;;
            match o with Some l => ret (Some (i :: l)) | None => ret None end
        end
  end.
(** parser.hpp:204-249 *)
Definition use_fields (fs : list str) : M prs unit :=
  p_clear_error ;;
  p <- get ;;
  (match p_header p, p_eof p with [], false => split_header_data | _, _ => ret tt end) ;;
  p <- get ;;
  if negb (p_valid p) then ret tt
  else
    match fs with
    | [] => p_error msg_use_fields
    | _ =>
        o <- find_columns fs fs ;;
        match o with
        | None => ret tt
        | Some mapping =>
            let n := length (p_header p) in
            on_rdr (rupd (fun r => rset_conv (vup_map mapping n (r_conv r)) r)) ;;
            on_rdr (rupd (fun r => rset_nconv (vup_map mapping n (r_nconv r)) r)) ;;
            p <- get ;;
            if p_line p =? 0 then ignore_next ;; ret tt else ret tt
        end
    end.

(** ** try_next, or_else, on_error (parser.hpp:348-525) *)

(** A callback: none, one that returns nothing, or a check.  [k] identifies the callback in the log of calls. *)
Inductive callback := CbNone | CbVoid (k : nat) | CbCheck (k : nat) (f : list slot -> bool).
(** What ran: callback [k] on these values; an error handler with this message. *)
Inductive event := EvCall (k : nat) (args : list slot) | EvError (k : nat) (msg : str).
Definition chain := (prs * list event)%type.
Definition on_p {A} (m : M prs A) : M chain A := zoom fst (fun p t => (p, snd t)) m.
Definition log (e : event) : M chain unit := modify (fun t => (fst t, snd t ++ [e])).

(** parser.hpp:476-498 *)
Definition try_invoke (arg : list slot) (cb : callback) : M chain unit :=
  match cb with
  | CbNone => ret tt
  | CbVoid k => log (EvCall k arg)
  | CbCheck k f => log (EvCall k arg) ;; (if f arg then ret tt else on_p (p_error msg_failed_check))
  end.
(** parser.hpp:450-468 and 518-525: the composite is the list of its optional values. *)
Definition try_next (es : list elem) (cb : callback) : M chain (list (option (list slot))) :=
  xs <- on_p (get_next es) ;;
  t <- get ;;
  (if p_valid (fst t) then try_invoke xs cb else ret tt) ;;
  t <- get ;;
  ret [if p_valid (fst t) then Some xs else None].
(** parser.hpp:433-441 *)
Definition try_same (es : list elem) : M prs (list slot) :=
  p_clear_error ;;
  xs <- on_rdr (on_conv (cv_convert c es)) ;;
  p <- get ;;
  (if negb (cv_valid c (r_conv (p_rdr p))) then handle_error_invalid_conversion else ret tt) ;;
  ret xs.
(** parser.hpp:363-377 with 413-431 and 402-411. *)
Definition or_else (values : list (option (list slot))) (es : list elem) (cb : callback) : M chain (list (option (list slot))) :=
  t <- get ;;
  value <- (if p_valid (fst t) then ret None
            else
              xs <- on_p (try_same es) ;;
              t <- get ;;
              if negb (p_valid (fst t)) then ret None
              else try_invoke xs cb ;; ret (Some xs)) ;;
  t <- get ;;
  ret (values ++ [if p_valid (fst t) then value else None]).
(** parser.hpp:383-397; [k] identifies the handler. *)
Definition on_error (k : nat) : M chain unit :=
  t <- get ;;
  if p_valid (fst t) then ret tt
  else log (EvError k (match p_err (fst t) with Some m => m | None => [] end)).

(** ** iterate, iterate_object (parser.hpp:255-343) *)

(** iterable<get_object, T, Ts...>: [getv] is get_next<T, Ts...> or get_object<T, Ts...>, [zero] is value{}. *)
Section Iter.
Context {A : Type} (getv : M prs A) (zero : A).
(** An iterator (parser.hpp:257-324): whether parser_ is set, and value_. *)
Record iter := mkI { i_live : bool; i_value : A }.
(** operator++ (parser.hpp:281-294) *)
Definition iter_next (it : iter) : M prs iter :=
  p <- get ;;
  if negb (i_live it) || p_eof p then ret (mkI false (i_value it))
  else xs <- getv ;; ret (mkI true xs).
(** operator++(int) (parser.hpp:296-300): the copy handed back, and the iterator. *)
Definition iter_next_copy (it : iter) : M prs (iter * iter) := it' <- iter_next it ;; ret (it, it').
(** begin() and end() (parser.hpp:328-334) *)
Definition iter_begin : M prs iter := iter_next (mkI true zero).
Definition iter_end : iter := mkI false zero.
(** operator== (parser.hpp:302-307) for two different objects of the same parser: both at the end. *)
Definition iter_equal (a b : iter) : bool := negb (i_live a) && negb (i_live b).
(** for (auto& v : p.iterate<Ts...>()) body: [body] may use the parser and anything else ([W]); it says false to break out
    of the loop. *)
Context {W : Type} (body : A -> M (prs * W) bool).
Definition on_parser {B} (m : M prs B) : M (prs * W) B := zoom fst (fun p t => (p, snd t)) m.
Fixpoint iter_loop (fuel : nat) (it : iter) : M (prs * W) unit :=
  match fuel with
  | 0 => fun _ => OutOfFuel
  | S f =>
      if iter_equal it iter_end then ret tt
      else
        go_on <- body (i_value it) ;;
        if go_on : bool then it' <- on_parser (iter_next it) ;; iter_loop f it' else ret tt
  end.
Definition range_for (fuel : nat) : M (prs * W) unit := it <- on_parser iter_begin ;; iter_loop fuel it.
End Iter.
(** value{} for get_next<Ts...> and get_object<T, Ts...>: every slot default-initialised. *)
Definition default_as (ts : list targ) : result :=
  match elems_of ts with
  | Some es => match ts with [ATied _] => to_object (shape es (defaults es)) | _ => shape es (defaults es) end
  | None => RTuple []
  end.
Definition iterate {W} (ts : list targ) (body : result -> M (prs * W) bool) (fuel : nat) : M (prs * W) unit :=
  range_for (get_next_as ts) (default_as ts) body fuel.
Definition iterate_object {W} (ts : list targ) (body : result -> M (prs * W) bool) (fuel : nat) : M (prs * W) unit :=
  range_for (get_object ts) (to_object (default_as ts)) body fuel.

End WithCfg.

(** ** Moving a parser (parser.hpp:70-72, defaulted: member-wise).  Moved-from strings and vectors are left empty here. *)
Definition parser_move (other : prs) : prs * prs :=
  let '(r, r') := reader_move (p_rdr other) in
  (mkP (p_name other) (p_err other) r (p_header other) (p_raw other) (p_eof other),
   mkP [] (p_err other) r' [] [] (p_eof other)).
Definition parser_move_assign (this other : prs) : prs * prs :=
  let '(r, r') := reader_move_assign (p_rdr this) (p_rdr other) in
  (mkP (p_name other) (p_err other) r (p_header other) (p_raw other) (p_eof other),
   mkP [] (p_err other) r' [] [] (p_eof other)).
