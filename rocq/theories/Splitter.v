(** splitter.hpp, function by function.

    Pointers are offsets into the block that holds the line: [line_] is
    offset 0, so [p - line_] is the offset itself; the splitter also remembers the
    generation number [s_blk] of that block (used by the parser model to
    detect dangling ranges after a realloc).  The block itself ([cells]) is passed
    next to the splitter state because the caller owns it. *)
From Verif Require Import Base Setup.

(** splitter.hpp:472-482 *)
Record sp := mkSp {
  s_err : err;
  s_uq : bool;                      (* unterminated_quote_ *)
  s_done : bool;
  s_resp : bool;                    (* resplitting_ *)
  s_esc : nat;                      (* escaped_ *)
  s_sd : list (nat * nat);          (* split_data_ *)
  s_begin : nat;
  s_curr : nat;
  s_end : nat;
  s_blk : nat;                      (* which block line_ points to *)
}.

(** Default member initialisers (splitter.hpp:472-482). The raw pointers have none:
    they are written before being read by every path; 0 is a placeholder. *)
Definition sp_init : sp := mkSp None false true false 0 [] 0 0 0 0.

Notation sst := (sp * list (option ascii))%type (only parsing).

Definition up_err e (s : sp) := mkSp e (s_uq s) (s_done s) (s_resp s) (s_esc s) (s_sd s) (s_begin s) (s_curr s) (s_end s) (s_blk s).
Definition up_uq b (s : sp) := mkSp (s_err s) b (s_done s) (s_resp s) (s_esc s) (s_sd s) (s_begin s) (s_curr s) (s_end s) (s_blk s).
Definition up_done b (s : sp) := mkSp (s_err s) (s_uq s) b (s_resp s) (s_esc s) (s_sd s) (s_begin s) (s_curr s) (s_end s) (s_blk s).
Definition up_resp b (s : sp) := mkSp (s_err s) (s_uq s) (s_done s) b (s_esc s) (s_sd s) (s_begin s) (s_curr s) (s_end s) (s_blk s).
Definition up_esc n (s : sp) := mkSp (s_err s) (s_uq s) (s_done s) (s_resp s) n (s_sd s) (s_begin s) (s_curr s) (s_end s) (s_blk s).
Definition up_sd l (s : sp) := mkSp (s_err s) (s_uq s) (s_done s) (s_resp s) (s_esc s) l (s_begin s) (s_curr s) (s_end s) (s_blk s).
Definition up_begin p (s : sp) := mkSp (s_err s) (s_uq s) (s_done s) (s_resp s) (s_esc s) (s_sd s) p (s_curr s) (s_end s) (s_blk s).
Definition up_curr p (s : sp) := mkSp (s_err s) (s_uq s) (s_done s) (s_resp s) (s_esc s) (s_sd s) (s_begin s) p (s_end s) (s_blk s).
Definition up_end p (s : sp) := mkSp (s_err s) (s_uq s) (s_done s) (s_resp s) (s_esc s) (s_sd s) (s_begin s) (s_curr s) p (s_blk s).
Definition up_blk b (s : sp) := mkSp (s_err s) (s_uq s) (s_done s) (s_resp s) (s_esc s) (s_sd s) (s_begin s) (s_curr s) (s_end s) b.

Definition upd (f : sp -> sp) : M sst unit := modify (fun st => (f (fst st), snd st)).
Definition sget {A} (f : sp -> A) : M sst A := gets (fun st => f (fst st)).

(** [*p] *)
Definition load (p : nat) : M sst ascii :=
  fun st => match rd (snd st) p with
            | Some c => Ok c st
            | None => UB "splitter: read outside the line"
            end.

(** [split_impl] is instantiated with [char] or [std::string] (splitter.hpp:312-324). *)
Inductive delim := DChar (c : ascii) | DStr (s : str).

Section WithCfg.
Context (c : cfg).

Definition quote_enabled : bool := match c_quote c with Some _ => true | None => false end.
Definition escape_enabled : bool := match c_escape c with [] => false | _ => true end.
(** splitter.hpp:24 *)
Definition is_const_line : bool := negb quote_enabled && negb escape_enabled.

Definition quote_match (x : ascii) : bool :=
  match c_quote c with Some q => Ascii.eqb x q | None => false end.
Definition escape_match (x : ascii) : bool := mem x (c_escape c).

(** splitter.hpp:31-39 *)
Definition sp_valid (s : sp) : bool := err_valid (c_mode c) (s_err s).

(** The five handle_error_* functions have the same shape (splitter.hpp:131-197). *)
Definition sp_error (msg : str) : M sst unit :=
  match set_error (c_mode c) msg with
  | Some e => upd (up_err e)
  | None => throw msg
  end.

Definition msg_empty_delimiter := S2 "empty delimiter".
Definition msg_mismatched (n : nat) := (S2 "mismatched quote at position: " ++ dec n)%list.
Definition msg_unterminated_escape := S2 "unterminated escape at the end of the line".
Definition msg_unterminated_quote := S2 "unterminated quote".
Definition msg_invalid_resplit :=
  S2 "invalid resplit, new line must be longerthan the end of the last slice".

(** splitter.hpp:122-129 *)
Definition sp_clear_error : M sst unit :=
  upd (fun s => up_uq false (match c_mode c with EThrow => s | _ => up_err None s end)).

(** splitter.hpp:203-205 and 207-209; strncmp stops at the first difference or NUL. *)
Fixpoint strncmp_eq (p : nat) (d : str) : M sst bool :=
  match d with
  | [] => ret true
  | x :: d' =>
      a <- load p ;;
      if negb (Ascii.eqb a x) then ret false
      else if Ascii.eqb a NUL then ret true
      else strncmp_eq (S p) d'
  end.
Definition sp_match (p : nat) (d : delim) : M sst bool :=
  match d with
  | DChar x => a <- load p ;; ret (Ascii.eqb a x)
  | DStr s => strncmp_eq p s
  end.

(** splitter.hpp:211-217 *)
Definition delimiter_size (d : delim) : nat :=
  match d with DChar _ => 1 | DStr s => length s end.

(** The loops of trim_left_if_enabled / trim_right_if_enabled (splitter.hpp:219-233). *)
Fixpoint trim_loop (fuel : nat) (cs : list ascii) (p : nat) : M sst nat :=
  match fuel with
  | 0 => fun _ => OutOfFuel
  | S f => a <- load p ;; if mem a cs then trim_loop f cs (S p) else ret p
  end.
Definition fuel_of : M sst nat := gets (fun st => S (length (snd st))).
Definition trim_if_enabled (cs : list ascii) (p : nat) : M sst nat :=
  match cs with
  | [] => ret p
  | _ => f <- fuel_of ;; trim_loop f cs p
  end.

(** splitter.hpp:297-306.  [end_ - curr_ - escaped_] is a ptrdiff_t; a negative count
    makes copy_n do nothing, which truncated subtraction gives as well. *)
Definition shift_and_set_current : M sst unit :=
  s <- sget (fun s => s) ;;
  if negb is_const_line && (0 <? s_esc s) then
    (fun st => match copyn (snd st) (s_curr s + s_esc s) (s_end s - s_curr s - s_esc s) (s_curr s) with
               | Some m => Ok tt (fst st, m)
               | None => UB "splitter: copy_n outside the line"
               end) ;;
    upd (up_curr (s_end s - s_esc s))
  else upd (up_curr (s_end s)).

(** splitter.hpp:279-285 *)
Definition shift_and_jump_escape : M sst unit :=
  shift_and_set_current ;;
  when (negb is_const_line) (upd (fun s => up_esc (S (s_esc s)) s)) ;;
  upd (fun s => up_end (S (s_end s)) s).

(** splitter.hpp:292-295 *)
Definition shift_and_push : M sst unit :=
  shift_and_set_current ;;
  upd (fun s => up_sd (s_sd s ++ [(s_begin s, s_curr s)]) s).

(** splitter.hpp:287-290 *)
Definition shift_push_and_start_next (n : nat) : M sst unit :=
  shift_and_push ;;
  upd (fun s => up_begin (s_end s + n) s).

(** splitter.hpp:264-277. [curr] is passed by reference but never changed. *)
Definition shift_if_escaped (curr : nat) : M sst unit :=
  if escape_enabled then
    a <- load curr ;;
    if escape_match a then
      b <- load (S curr) ;;
      if Ascii.eqb b NUL then
        when (negb (c_ml c)) (sp_error msg_unterminated_escape) ;;
        upd (up_done true)
      else shift_and_jump_escape
    else ret tt
  else ret tt.

(** splitter.hpp:235-258 *)
Definition match_delimiter (begin : nat) (d : delim) : M sst (nat * bool) :=
  e <- trim_if_enabled (c_trimr c) begin ;;
  a <- load e ;;
  if Ascii.eqb a NUL then ret (0, false)
  else
    b <- sp_match e d ;;
    if negb b then
      shift_if_escaped e ;;
      ret (1 + e - begin, false)
    else
      e' <- trim_if_enabled (c_triml c) (e + delimiter_size d) ;;
      ret (e' - begin, true).

(** splitter.hpp:364-386 *)
Fixpoint read_normal (fuel : nat) (d : delim) : M sst unit :=
  match fuel with
  | 0 => fun _ => OutOfFuel
  | S f =>
      e <- sget s_end ;;
      '(width, valid) <- match_delimiter e d ;;
      if negb valid then
        if width =? 0 then
          shift_and_push ;;
          upd (up_done true)
        else
          upd (fun s => up_end (s_end s + width) s) ;;
          read_normal f d
      else shift_push_and_start_next width
  end.

(** splitter.hpp:388-466.  Inside the loop every use of [quote]/[escape] is guarded by
    [if constexpr (quote::enabled)]; read_quoted is only called with quote enabled. *)
Fixpoint read_quoted (fuel : nat) (d : delim) : M sst unit :=
  match fuel with
  | 0 => fun _ => OutOfFuel
  | S f =>
      e <- sget s_end ;;
      a <- load e ;;
      if negb (quote_match a) then
        if escape_enabled && escape_match a then
          b <- load (S e) ;;
          if Ascii.eqb b NUL then
            when (negb (c_ml c)) (sp_error msg_unterminated_escape) ;;
            upd (up_done true)
          else
            shift_and_jump_escape ;;
            upd (fun s => up_end (S (s_end s)) s) ;;
            read_quoted f d
        else if Ascii.eqb a NUL then
          shift_and_set_current ;;
          upd (up_uq true) ;;
          when (negb (c_ml c)) (sp_error msg_unterminated_quote) ;;
          upd (fun s => up_sd (s_sd s ++ [(0, s_begin s)]) s) ;;
          upd (up_done true)
        else
          upd (fun s => up_end (S (s_end s)) s) ;;
          read_quoted f d
      else
        '(width, valid) <- match_delimiter (S e) d ;;
        if valid : bool then shift_push_and_start_next (width + 1)
        else
          e' <- sget s_end ;;
          b <- load (S e') ;;
          if quote_match b then
            shift_and_jump_escape ;;
            upd (fun s => up_end (S (s_end s)) s) ;;
            read_quoted f d
          else
            (if width =? 0 then shift_and_push
             else
               e'' <- sget s_end ;;
               sp_error (msg_mismatched e'') ;;
               upd (fun s => up_sd (s_sd s ++ [(0, s_begin s)]) s)) ;;
            upd (up_done true)
  end.

(** splitter.hpp:342-362 *)
Definition sp_read (d : delim) : M sst unit :=
  f <- fuel_of ;;
  upd (up_esc 0) ;;
  if quote_enabled then
    r <- sget s_resp ;;
    if c_ml c && r then
      upd (up_resp false) ;;
      upd (fun s => up_begin (S (s_begin s)) s) ;;
      read_quoted f d
    else
      b <- sget s_begin ;;
      a <- load b ;;
      if quote_match a then
        upd (fun s => up_curr (S b) (up_end (S b) (up_begin (S b) s))) ;;
        read_quoted f d
      else
        upd (fun s => up_curr b (up_end b s)) ;;
        read_normal f d
  else
    b <- sget s_begin ;;
    upd (fun s => up_curr b (up_end b s)) ;;
    read_normal f d.

(** The loop of splitter.hpp:331-333. *)
Fixpoint split_loop (fuel : nat) (d : delim) : M sst unit :=
  match fuel with
  | 0 => fun _ => OutOfFuel
  | S f =>
      dn <- sget s_done ;;
      if dn : bool then ret tt
      else sp_read d ;; split_loop f d
  end.

(** splitter.hpp:326-336 *)
Definition split_impl (d : delim) : M sst unit :=
  b <- sget s_begin ;;
  b' <- trim_if_enabled (c_triml c) b ;;
  upd (up_begin b') ;;
  upd (up_done false) ;;
  f <- fuel_of ;;
  split_loop (S f) d.

(** splitter.hpp:312-324 *)
Definition split_impl_select_delim (delimiter : str) : M sst unit :=
  sp_clear_error ;;
  match delimiter with
  | [] => sp_error msg_empty_delimiter
  | [x] => split_impl (DChar x)
  | _ => split_impl (DStr delimiter)
  end.

(** splitter.hpp:50-56. The block (generation [blk]) holding the new line is already
    the second component of the state. *)
Definition sp_split (blk : nat) (delimiter : str) : M sst unit :=
  upd (fun s => up_begin 0 (up_blk blk (up_sd [] s))) ;;
  split_impl_select_delim delimiter.

(** splitter.hpp:83-116, with adjust_ranges (76-81) being the identity on offsets.
    [new_size] is a ssize_t; the callers in parser.hpp pass a size, so [nat]. *)
Definition sp_resplit (blk new_size : nat) (delimiter : str) : M sst unit :=
  s <- sget (fun s => s) ;;
  if negb quote_enabled || negb (c_ml c)
     || (match s_sd s with [] => true | _ => false end) || negb (s_uq s) then
    sp_error msg_invalid_resplit
  else
    let '(_, old_begin) := last (s_sd s) (0, 0) in
    let begin := old_begin - 1 in
    if new_size <? begin then sp_error msg_invalid_resplit
    else
      upd (fun s =>
             up_resp true
               (up_curr (s_end s - s_esc s)
                  (up_end (s_end s - s_esc s)
                     (up_begin begin
                        (up_blk blk (up_sd (removelast (s_sd s)) s)))))) ;;
      split_impl_select_delim delimiter.

End WithCfg.
