(** Exceptions of user code: the conversion of a row and the calls of the parser once more, where the code of the user that
    runs inside them may throw.  Only what differs from Converter.v and Parser.v is written again.  As in Fault.v, [inr s] means:
    an exception that is not an ss::exception leaves the function, in state [s]. *)
From Verif Require Import Base Setup Splitter Extract Converter Reader Parser ConvProofs ParserApi SessionApi Fault.

(** What a piece of user code may throw: an ss::exception with this text, or anything else. *)
Inductive thrown := XSs (msg : str) | XOther.
Definition fraise {S A} (x : thrown) : F S A := match x with XSs m => lift (throw m) | XOther => fun s => inr s end.

Section User.
(** [conv e text]: what converting the column [text] to [e] throws, if anything.  The user code in it is an overload of
    ss::extract, ss_valid() and error() of a restriction, and constructors of the type; for std::string also the allocation.
    [back ev]: the same for a callback or an error handler, called as [ev] says. *)
Context (conv : elem -> str -> option thrown) (back : event -> option thrown).
Context (c hc : cfg) (cap : nat -> nat -> nat).

(** ** Converting *)
(** converter.hpp:424-452.  The value goes into a tuple that is destroyed; nothing was written into the converter yet. *)
Definition uextract_one (e : elem) (old : slot) (range : nat * nat) (pos : nat) : F vst slot :=
  fun s =>
    if negb (cv_valid c (fst s)) then lift (extract_one c e old range pos) s
    else
      match range_str (snd s) (fst range) (snd range) with
      | Some text =>
          match conv e text with
          | Some x => fraise x s
          | None => lift (extract_one c e old range pos) s
          end
      | None => lift (extract_one c e old range pos) s
      end.
(** converter.hpp:454-475 *)
Fixpoint uextract_multiple (argn : nat) (es : list elem) (elems : list (nat * nat)) : F vst (list slot) :=
  match es with
  | [] => lift (ret [])
  | e :: es' =>
      match e with
      | EVoid => uextract_multiple (S argn) es' elems
      | _ =>
          v <~ lift (vget (fun v => v)) ;;
          match column_position v argn with
          | Some p =>
              match nth_error elems p with
              | Some r =>
                  x <~ uextract_one e None r argn ;;
                  xs <~ uextract_multiple (S argn) es' elems ;;
                  lift (ret (x :: xs))
              | None => lift (ub "converter: elems[] out of range")
              end
          | None => lift (ub "converter: column_mappings_[] out of range")
          end
      end
  end.
(** converter.hpp:355-391 *)
Definition uconvert_impl (es : list elem) (elems : list (nat * nat)) : F vst (list slot) :=
  lift cv_clear_error ;~
  v <~ lift (vget (fun v => v)) ;;
  if negb (sp_valid c (v_sp v)) then lift (handle_error_bad_split c ;; ret (defaults es))
  else if negb (columns_mapped v) then
    if negb (length es =? length elems) then
      lift (cv_error c (msg_number_of_columns (length es) (length elems)) ;; ret (defaults es))
    else uextract_multiple 0 es elems
  else if negb (length es =? length (v_map v)) then
    lift (cv_error c (msg_incompatible_mapping (length es) (length (v_map v))) ;; ret (defaults es))
  else if negb (length elems =? v_ncols v) then
    lift (cv_error c (msg_number_of_columns (v_ncols v) (length elems)) ;; ret (defaults es))
  else uextract_multiple 0 es elems.
(** converter.hpp:165-168 *)
Definition ucv_convert (es : list elem) : F vst (list slot) :=
  s <~ lift (vget v_sp) ;; uconvert_impl es (s_sd s).

(** converter.hpp:119-130 *)
Definition ucv_convert_line (blk : nat) (delim : str) (es : list elem) : F vst (list slot) :=
  lift (cv_split c blk delim) ;~
  s <~ lift (vget v_sp) ;;
  if sp_valid c s then uconvert_impl es (s_sd s)
  else lift (handle_error_bad_split c ;; ret (defaults es)).

(** ** The parser *)
Definition fon_conv {A} (m : F vst A) : F rdr A :=
  fun r => match m (r_conv r, seen_by (r_conv r) (r_buf r)) with
           | inl (Ok a (v, _)) => inl (Ok a (rset_conv v r))
           | inl (Throw e (v, _)) => inl (Throw e (rset_conv v r))
           | inl (UB w) => inl (UB w)
           | inl OutOfFuel => inl OutOfFuel
           | inr (v, _) => inr (rset_conv v r)
           end.
(** parser.hpp:115-163.  Only an ss::exception is caught, and only if throw_on_error is set (139-148). *)
Definition uget_next (es : list elem) : F prs (list slot) :=
  p <~ lift get ;;
  lift (if p_eof p then ret tt
        else
          match c_mode c with
          | EThrow => catch (on_rdr (parse c cap)) (fun e => read_line c cap ;; decorate_rethrow e)
          | _ => on_rdr (parse c cap)
          end) ;~
  lift (on_rdr update) ;~
  p <~ lift get ;;
  if negb (cv_valid c (r_conv (p_rdr p))) then
    lift (handle_error_invalid_conversion c ;; read_line c cap ;; ret (defaults es))
  else
    lift p_clear_error ;~
    if p_eof p then lift (p_error c msg_eof ;; ret (defaults es))
    else
      match c_mode c with
      | EThrow =>
          fcatch (xs <~ fon_rdr (fon_conv (ucv_convert es)) ;; lift (read_line c cap ;; ret xs))
                 (fun e => lift (read_line c cap ;; decorate_rethrow e))
      | _ =>
          xs <~ fon_rdr (fon_conv (ucv_convert es)) ;;
          lift (p <- get ;;
                (if negb (cv_valid c (r_conv (p_rdr p))) then handle_error_invalid_conversion c else ret tt) ;;
                read_line c cap ;;
                ret xs)
      end.

(** Calling the user: the call is in the log also if it throws. *)
Definition fcalled (ev : event) : F chain unit :=
  lift (log ev) ;~ match back ev with Some x => fraise x | None => lift (ret tt) end.
(** parser.hpp:476-498 *)
Definition utry_invoke (arg : list slot) (cb : callback) : F chain unit :=
  match cb with
  | CbNone => lift (ret tt)
  | CbVoid k => fcalled (EvCall k arg)
  | CbCheck k f => fcalled (EvCall k arg) ;~ lift (if f arg then ret tt else on_p (p_error c msg_failed_check))
  end.
(** parser.hpp:450-468 and 518-525 *)
Definition utry_next (es : list elem) (cb : callback) : F chain (list (option (list slot))) :=
  xs <~ fon_p (uget_next es) ;;
  t <~ lift get ;;
  (if p_valid c (fst t) then utry_invoke xs cb else lift (ret tt)) ;~
  t <~ lift get ;;
  lift (ret [if p_valid c (fst t) then Some xs else None]).
(** parser.hpp:433-441 *)
Definition utry_same (es : list elem) : F prs (list slot) :=
  lift p_clear_error ;~
  xs <~ fon_rdr (fon_conv (ucv_convert es)) ;;
  lift (p <- get ;;
        (if negb (cv_valid c (r_conv (p_rdr p))) then handle_error_invalid_conversion c else ret tt) ;;
        ret xs).
(** parser.hpp:363-377 with 413-431 and 402-411 *)
Definition uor_else (values : list (option (list slot))) (es : list elem) (cb : callback) : F chain (list (option (list slot))) :=
  t <~ lift get ;;
  value <~ (if p_valid c (fst t) then lift (ret None)
            else
              xs <~ fon_p (utry_same es) ;;
              t <~ lift get ;;
              if negb (p_valid c (fst t)) then lift (ret None)
              else utry_invoke xs cb ;~ lift (ret (Some xs))) ;;
  t <~ lift get ;;
  lift (ret (values ++ [if p_valid c (fst t) then value else None])).
(** parser.hpp:383-397 *)
Definition uon_error (k : nat) : F chain unit :=
  t <~ lift get ;;
  if p_valid c (fst t) then lift (ret tt)
  else fcalled (EvError k (match p_err (fst t) with Some m => m | None => [] end)).
Fixpoint ufollow_links (values : list (option (list slot))) (ls : list link) : F chain (list (option (list slot))) :=
  match ls with
  | [] => lift (ret values)
  | LElse es cb :: ls' => vs <~ uor_else values es cb ;; ufollow_links vs ls'
  | LOnError k :: ls' => uon_error k ;~ ufollow_links values ls'
  end.
Definition uchain_call (es : list elem) (cb : callback) (ls : list link) : F chain (list (option (list slot))) :=
  vs <~ utry_next es cb ;; ufollow_links vs ls.
End User.
