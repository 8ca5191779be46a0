(** converter.hpp. *)
From Verif Require Import Base Setup Splitter Extract.

(** One element of the type list [Ts...]. *)
Inductive elem :=
| EVoid
| EVal (t : ty)
| ERes (t : ty) (r : restriction).       (* a validator over [t]: no_validator_t<T> = t (converter.hpp:27-41) *)

(** converter.hpp:397-418, members 484-495 (error_, splitter_, column_mappings_, number_of_columns_). *)
Record conv := mkConv { v_err : err; v_sp : sp; v_map : list nat; v_ncols : nat }.
Definition conv_init : conv := mkConv None sp_init [] 0.

Definition vup_err e (v : conv) := mkConv e (v_sp v) (v_map v) (v_ncols v).
Definition vup_sp s (v : conv) := mkConv (v_err v) s (v_map v) (v_ncols v).
(** set_column_mapping, converter.hpp:409-413 (use_fields applies it to both converters).  (clear_column_positions, 415-418,
    is private and never called: not modelled.) *)
Definition vup_map m n (v : conv) := mkConv (v_err v) (v_sp v) m n.

Notation vst := (conv * list (option ascii))%type (only parsing).
Definition vupd (f : conv -> conv) : M vst unit := modify (fun st => (f (fst st), snd st)).
Definition vget {A} (f : conv -> A) : M vst A := gets (fun st => f (fst st)).
(** Run a splitter operation. *)
Definition on_sp {A} (m : M (sp * list (option ascii)) A) : M vst A :=
  zoom (fun t => (v_sp (fst t), snd t)) (fun s t => (vup_sp (fst s) (fst t), snd s)) m.

Section WithCfg.
Context (c : cfg).

(** converter.hpp:170-178 *)
Definition cv_valid (v : conv) : bool := err_valid (c_mode c) (v_err v).

(** converter.hpp:219-225: error_.clear() or error_ = false, in every mode. *)
Definition cv_clear_error : M vst unit := vupd (vup_err None).

(** converter.hpp:227-238 *)
Definition error_sufix (text : str) (pos : nat) : str :=
  S2 "at column " ++ dec (S pos) ++ S2 ": '" ++ text ++ S2 "'".

(** The common shape of the handlers converter.hpp:278-349. *)
Definition cv_error (msg : str) : M vst unit :=
  match c_mode c with
  | EString => vupd (vup_err (match msg with [] => None | _ => Some msg end))
  | EThrow => throw msg
  | EBool => vupd (vup_err (Some []))
  end.

(** converter.hpp:240-247 *)
Definition handle_error_bad_split : M vst unit :=
  match c_mode c with
  | EString => s <- vget v_sp ;; vupd (vup_err (s_err s))
  | EThrow => ret tt
  | EBool => vupd (vup_err (Some []))
  end.
(** converter.hpp:249-258 *)
Definition handle_error_unterminated_escape : M vst unit :=
  match c_mode c with
  | EString => on_sp (sp_error c msg_unterminated_escape) ;; s <- vget v_sp ;; vupd (vup_err (s_err s))
  | EThrow => on_sp (sp_error c msg_unterminated_escape)
  | EBool => vupd (vup_err (Some []))
  end.
(** converter.hpp:260-269; splitter::handle_error_unterminated_quote (splitter.hpp:171-181) only sets the error. *)
Definition handle_error_unterminated_quote : M vst unit :=
  match c_mode c with
  | EString => on_sp (sp_error c msg_unterminated_quote) ;; s <- vget v_sp ;; vupd (vup_err (s_err s))
  | EThrow => on_sp (sp_error c msg_unterminated_quote)
  | EBool => vupd (vup_err (Some []))
  end.
(** converter.hpp:271-283 *)
Definition msg_multiline_limit := S2 "multiline limit reached".
Definition handle_error_multiline_limit_reached : M vst unit :=
  vupd (fun v => vup_sp (up_uq false (v_sp v)) v) ;;
  cv_error msg_multiline_limit.
(** converter.hpp:285-296 *)
Definition msg_invalid_conversion (text : str) (pos : nat) : str :=
  S2 "invalid conversion for parameter " ++ error_sufix text pos.
(** converter.hpp:298-308 *)
Definition msg_validation_failed (error text : str) (pos : nat) : str :=
  error ++ S2 " " ++ error_sufix text pos.
(** converter.hpp:310-328 *)
Definition msg_number_of_columns (expected got : nat) : str :=
  S2 "invalid number of columns, expected: " ++ dec expected ++ S2 ", got: " ++ dec got.
(** converter.hpp:330-349 *)
Definition msg_incompatible_mapping (argument_size mapping_size : nat) : str :=
  S2 "number of arguments does not match mapping, expected: " ++ dec mapping_size ++ S2 ", got: " ++ dec argument_size.

(** converter.hpp:191-199.  clear_split_data, then only a non-empty line is given to the splitter. *)
Definition cv_split (blk : nat) (delim : str) : M vst unit :=
  on_sp (upd (up_sd [])) ;;
  a <- on_sp (load 0) ;;
  if Ascii.eqb a NUL then ret tt else on_sp (sp_split c blk delim).

(** converter.hpp:206-208 *)
Definition cv_resplit (blk new_size : nat) (delim : str) : M vst unit := on_sp (sp_resplit c blk new_size delim).
(** converter.hpp:210-213; splitter.hpp:62-64 *)
Definition cv_size_shifted (v : conv) : nat := s_esc (v_sp v).
(** converter.hpp:185-187 *)
Definition cv_unterminated_quote (v : conv) : bool := s_uq (v_sp v).

(** converter.hpp:397-409 *)
Definition columns_mapped (v : conv) : bool := match v_map v with [] => false | _ => true end.
Definition column_position (v : conv) (pos : nat) : option nat :=
  if columns_mapped v then nth_error (v_map v) pos else Some pos.

(** elem types and the slot contents: [None] = as value-initialised. *)
Definition slot := option val.

(** converter.hpp:424-452.  The destination keeps what extract stored, also on failure. *)
Definition extract_one (e : elem) (old : slot) (range : nat * nat) (pos : nat) : M vst slot :=
  v <- vget (fun v => v) ;;
  if negb (cv_valid v) then ret old
  else
    m <- gets snd ;;
    match e with
    | EVoid => ret old
    | EVal t | ERes t _ =>
        match extract m range t, range_str m (fst range) (snd range) with
        | Some (ok, stored), Some text =>
            let new := match stored with Some x => Some x | None => old end in
            match ok, e with
            | false, EVal TString => ret new            (* the result is ignored for std::string, :429-432 *)
            | false, _ => cv_error (msg_invalid_conversion text pos) ;; ret new
            | true, ERes _ r =>
                match stored with
                | Some x =>
                    if ss_valid (ity_of t) r x then ret new
                    else cv_error (msg_validation_failed (ss_error r) text pos) ;; ret new
                | None => ub "converter: validator on an unset value"
                end
            | true, _ => ret new
            end
        | _, _ => ub "converter: column outside the line"
        end
    end.

(** converter.hpp:454-475: the pack from argument [argn] on; one slot per non-void element. *)
Fixpoint extract_multiple (argn : nat) (es : list elem) (elems : list (nat * nat)) : M vst (list slot) :=
  match es with
  | [] => ret []
  | e :: es' =>
      match e with
      | EVoid => extract_multiple (S argn) es' elems
      | _ =>
          v <- vget (fun v => v) ;;
          match column_position v argn with
          | Some p =>
              match nth_error elems p with
              | Some r =>
                  x <- extract_one e None r argn ;;
                  xs <- extract_multiple (S argn) es' elems ;;
                  ret (x :: xs)
              | None => ub "converter: elems[] out of range"
              end
          | None => ub "converter: column_mappings_[] out of range"
          end
      end
  end.

(** Number of values in the result tuple. *)
Definition arity (es : list elem) : nat := length (filter (fun e => match e with EVoid => false | _ => true end) es).
Definition defaults (es : list elem) : list slot := repeat None (arity es).

(** converter.hpp:355-391 *)
Definition convert_impl (es : list elem) (elems : list (nat * nat)) : M vst (list slot) :=
  cv_clear_error ;;
  v <- vget (fun v => v) ;;
  if negb (sp_valid c (v_sp v)) then handle_error_bad_split ;; ret (defaults es)
  else if negb (columns_mapped v) then
    if negb (length es =? length elems) then
      cv_error (msg_number_of_columns (length es) (length elems)) ;; ret (defaults es)
    else extract_multiple 0 es elems
  else if negb (length es =? length (v_map v)) then
    cv_error (msg_incompatible_mapping (length es) (length (v_map v))) ;; ret (defaults es)
  else if negb (length elems =? v_ncols v) then
    cv_error (msg_number_of_columns (v_ncols v) (length elems)) ;; ret (defaults es)
  else extract_multiple 0 es elems.

(* extract_tuple's static_assert (converter.hpp:480-481), at least one element that is not void, is a matter of compiling. *)

(** convert(const split_data&), converter.hpp:148-162, for a plain pack of elements. *)
Definition cv_convert_data (es : list elem) (elems : list (nat * nat)) : M vst (list slot) := convert_impl es elems.
(** convert(): converter.hpp:165-168 *)
Definition cv_convert (es : list elem) : M vst (list slot) :=
  s <- vget v_sp ;; cv_convert_data es (s_sd s).
(** convert(line, delim), converter.hpp:119-130 *)
Definition cv_convert_line (blk : nat) (delim : str) (es : list elem) : M vst (list slot) :=
  cv_split blk delim ;;
  s <- vget v_sp ;;
  if sp_valid c s then cv_convert_data es (s_sd s)
  else handle_error_bad_split ;; ret (defaults es).


(** The template arguments of convert (converter.hpp:148-162): plain elements, a std::tuple of elements, or a class
    with a tied() method (its member types). *)
Inductive targ := AElem (e : elem) | ATuple (es : list elem) | ATied (members : list elem).
Definition as_elem (a : targ) : option elem := match a with AElem e => Some e | _ => None end.
Fixpoint all_elems (l : list targ) : option (list elem) :=
  match l with
  | [] => Some []
  | a :: l' => match as_elem a, all_elems l' with Some e, Some es => Some (e :: es) | _, _ => None end
  end.
(** [None]: does not compile (a tuple or tied class among several arguments has no extract). *)
Definition elems_of (ts : list targ) : option (list elem) :=
  match ts with
  | [ATuple es] => Some es
  | [ATied es] => Some es
  | _ => all_elems ts
  end.

(** What is handed to the user: a tuple, the single element itself (converter.hpp:20-26), or an object built
    from them by T{...} (type_traits.hpp:368-383). *)
Inductive result := RTuple (l : list slot) | ROne (x : slot) | RObject (l : list slot).
Definition shape (es : list elem) (xs : list slot) : result :=
  match xs with [x] => if arity es =? 1 then ROne x else RTuple xs | _ => RTuple xs end.
(** type_traits.hpp:368-383 *)
Definition to_object (r : result) : result :=
  match r with RTuple l => RObject l | ROne x => RObject [x] | RObject l => RObject [] end.
(** convert<T, Ts...>(const split_data&): converter.hpp:148-162 *)
Definition convert_form (ts : list targ) (elems : list (nat * nat)) : M vst result :=
  match ts with
  | [ATuple es] => xs <- convert_impl es elems ;; ret (shape es xs)
  | [ATied es] => xs <- convert_impl es elems ;; ret (to_object (shape es xs))
  | _ => match all_elems ts with
         | Some es => xs <- convert_impl es elems ;; ret (shape es xs)
         | None => ub "converter: does not compile"
         end
  end.
(** convert_object<T, Ts...>(const split_data&): converter.hpp:134-138 *)
Definition convert_object (ts : list targ) (elems : list (nat * nat)) : M vst result :=
  r <- convert_form ts elems ;; ret (to_object r).

End WithCfg.
