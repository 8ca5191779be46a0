(** common.hpp (reading lines) and parser.hpp's struct reader. *)
From Verif Require Import Base Setup Splitter Extract Converter.

(** ** Memory

    A heap block: its identity and its bytes.  The three buffers of a reader never alias, so each pointer carries its
    block.  A (re)allocation always yields a new identity: pointers into the old block are dangling from then on, as the
    C standard has it.  Allocations succeed (strict_realloc, common.hpp:35-42, throws std::bad_alloc otherwise: not
    modelled). *)
Record blk := mkB { b_id : nat; b_cells : list (option ascii) }.

(** The variables a line is read into: [char*& lineptr, size_t& n]; [l_fresh] is the next unused identity. *)
Record lp := mkLp { l_blk : option blk; l_n : nat; l_fresh : nat }.

Definition cells_of (p : option blk) : list (option ascii) := match p with Some b => b_cells b | None => [] end.

(** std::realloc: contents kept up to the smaller size, new bytes uninitialised. *)
Definition realloc (fresh : nat) (p : option blk) (n : nat) : blk :=
  mkB fresh (firstn n (cells_of p) ++ repeat None (n - length (cells_of p))).

(** lineptr = strict_realloc(lineptr, new_n); n = new_n; *)
Definition grow (new_n : nat) : M lp unit :=
  modify (fun l => mkLp (Some (realloc (l_fresh l) (l_blk l) new_n)) new_n (S (l_fresh l))).
(** lineptr[i] = ch; *)
Definition put (i : nat) (ch : ascii) : M lp unit :=
  fun l => match l_blk l with
           | Some b => match wr (b_cells b) i ch with
                       | Some m => Ok tt (mkLp (Some (mkB (b_id b) m)) (l_n l) (l_fresh l))
                       | None => UB "write outside the line buffer"
                       end
           | None => UB "write through a null line buffer"
           end.
(** lineptr[i] *)
Definition peek (i : nat) : M lp ascii :=
  fun l => match rd (cells_of (l_blk l)) i with
           | Some ch => Ok ch l
           | None => UB "read outside the line buffer"
           end.

(** common.hpp:19 *)
Definition initial_size : nat := 128.

(** The loop of get_line_buffer (common.hpp:104-124); [rest] is what lies between curr_char and csv_data_size.
    Returns line_used and the number of bytes consumed. *)
Fixpoint glb_loop (line_used consumed : nat) (rest : str) : M lp (nat * nat) :=
  match rest with
  | [] => put line_used NUL ;; ret (line_used, consumed)
  | ch :: rest' =>
      n <- gets l_n ;;
      (if n <=? line_used + 1 then grow (n * 2) else ret tt) ;;
      put line_used ch ;;
      if Ascii.eqb ch LF then put (S line_used) NUL ;; ret (S line_used, S consumed)
      else glb_loop (S line_used) (S consumed) rest'
  end.

(** common.hpp:90-126; [None] is the result -1. *)
Definition get_line_buffer (rest : str) : M lp (option nat * nat) :=
  match rest with
  | [] => ret (None, 0)
  | _ =>
      l <- get ;;
      (if match l_blk l with None => true | Some _ => l_n l <? initial_size end then grow initial_size else ret tt) ;;
      '(used, consumed) <- glb_loop 0 0 rest ;;
      ret (Some used, consumed)
  end.

(** The first line of [s] including its newline, and the rest. *)
Fixpoint cut_line (s : str) : str * str :=
  match s with
  | [] => ([], [])
  | ch :: s' => if Ascii.eqb ch LF then ([ch], s') else let '(a, b) := cut_line s' in (ch :: a, b)
  end.

(** POSIX getline (common.hpp:45-48) is external: this is its contract.  [cap n need]: the size it chooses when it has to
    (re)allocate a buffer of size [n] for [need] bytes; the bytes after the terminator are unspecified.  On end of file
    the buffer is left alone, except that a null pointer may be replaced by an uninitialised buffer of [cap 0 0] bytes
    (glibc does, musl does not). *)
Definition get_line_posix (cap : nat -> nat -> nat) (rest : str) : M lp (option nat * str) :=
  fun l =>
    match rest with
    | [] =>
        match l_blk l, cap 0 0 with
        | None, S k => Ok (None, []) (mkLp (Some (mkB (l_fresh l) (repeat None (S k)))) (S k) (S (l_fresh l)))
        | _, _ => Ok (None, []) l
        end
    | _ =>
        let '(line, rest') := cut_line rest in
        let need := S (length line) in
        match l_blk l with
        | Some b =>
            if need <=? l_n l then
              Ok (Some (length line), rest')
                 (mkLp (Some (mkB (b_id b) (map Some line ++ Some NUL :: repeat None (l_n l - need)))) (l_n l) (l_fresh l))
            else
              Ok (Some (length line), rest')
                 (mkLp (Some (mkB (l_fresh l) (map Some line ++ Some NUL :: repeat None (cap (l_n l) need - need))))
                       (cap (l_n l) need) (S (l_fresh l)))
        | None =>
            Ok (Some (length line), rest')
               (mkLp (Some (mkB (l_fresh l) (map Some line ++ Some NUL :: repeat None (cap 0 need - need))))
                     (cap 0 need) (S (l_fresh l)))
        end
    end.

(** std::fgets(buff, 128, file): at most 127 bytes, up to and including a newline.  The contents of buff, terminated. *)
Fixpoint fgets_take (n : nat) (s : str) : str * str :=
  match n, s with
  | 0, _ | _, [] => ([], s)
  | S n', ch :: s' => if Ascii.eqb ch LF then ([ch], s') else let '(a, b) := fgets_take n' s' in (ch :: a, b)
  end.
(** std::strlen of an array holding [s] and a terminator. *)
Fixpoint strlen (s : str) : nat :=
  match s with [] => 0 | ch :: s' => if Ascii.eqb ch NUL then 0 else S (strlen s') end.
(** std::strlen(lineptr) *)
Fixpoint strlen_from (fuel i : nat) : M lp nat :=
  match fuel with
  | 0 => fun _ => UB "strlen outside the line buffer"
  | S f => ch <- peek i ;; if Ascii.eqb ch NUL then ret i else strlen_from f (S i)
  end.
(** std::memcpy(lineptr + i, s, length s) *)
Fixpoint put_all (i : nat) (s : str) : M lp unit :=
  match s with [] => ret tt | ch :: s' => put i ch ;; put_all (S i) s' end.

(** The loop of the portable get_line_file (common.hpp:65-83). *)
Fixpoint fgets_loop (fuel line_used : nat) (rest : str) : M lp (option nat * str) :=
  match fuel with
  | 0 => fun _ => OutOfFuel
  | S f =>
      match rest with
      | [] => ret (if line_used =? 0 then None else Some line_used, [])        (* fgets returned null; :85 *)
      | _ =>
          let '(buff, rest') := fgets_take (initial_size - 1) rest in
          l0 <- get ;;
          line_used <- strlen_from (S (length (cells_of (l_blk l0)))) 0 ;;
          let buff_used := strlen buff in
          n <- gets l_n ;;
          (if n <=? buff_used + line_used then grow (n * 2) else ret tt) ;;
          put_all line_used (firstn buff_used buff) ;;
          let line_used := line_used + buff_used in
          put line_used NUL ;;
          match line_used with
          | 0 => ub "lineptr[-1]"
          | S k =>
              ch <- peek k ;;
              if Ascii.eqb ch LF then ret (Some line_used, rest') else fgets_loop f line_used rest'
          end
      end
  end.
(** common.hpp:53-86 (platforms without getline). *)
Definition get_line_fgets (rest : str) : M lp (option nat * str) :=
  l <- get ;;
  (if match l_blk l with None => true | Some _ => l_n l <? initial_size end then grow initial_size else ret tt) ;;
  put 0 NUL ;;
  fgets_loop (S (length rest)) 0 rest.

(** Where the data comes from: an open file with [rest] still unread, read with POSIX getline or with the portable
    replacement; a data buffer; or a null data buffer of the given size.  A file that could not be opened leaves a
    null data buffer of size 0 (parser.hpp:765-769, 1048-1052). *)
Inductive source :=
| SFile (rest : str)
| SPort (rest : str)
| SMem (data : str)
| SNull (size : nat).

(** parser.hpp:1027-1062.  [curr_char_] and [chars_read_] are size_t; curr_char_ is decremented on an end of file in file
    mode (common.hpp:136), below zero for an empty file, hence integers (to be read modulo 2^64). *)
Record rdr := mkR {
  r_buf : option blk; r_nl : option blk; r_help : option blk;
  r_conv : conv; r_nconv : conv;
  r_bufsz : nat; r_nlsz : nat; r_helpsz : nat;
  r_delim : str;
  r_src : source;                    (* file_, csv_data_buffer_, csv_data_size_ *)
  r_curr : Z;
  r_crlf : bool;
  r_line : nat;
  r_chars : Z;
  r_nlsize : nat;                    (* next_line_size_ *)
  r_fresh : nat;                     (* next unused block identity *)
}.

(** parser.hpp:765-774 and the member initialisers. *)
Definition rdr_init (delim : str) (src : source) : rdr :=
  mkR None None None conv_init conv_init 0 0 0 delim src 0 false 0 0 0 0.

Definition rset_nl (p : option blk) (n fresh : nat) (r : rdr) :=
  mkR (r_buf r) p (r_help r) (r_conv r) (r_nconv r) (r_bufsz r) n (r_helpsz r) (r_delim r) (r_src r) (r_curr r) (r_crlf r) (r_line r) (r_chars r) (r_nlsize r) fresh.
Definition rset_help (p : option blk) (n fresh : nat) (r : rdr) :=
  mkR (r_buf r) (r_nl r) p (r_conv r) (r_nconv r) (r_bufsz r) (r_nlsz r) n (r_delim r) (r_src r) (r_curr r) (r_crlf r) (r_line r) (r_chars r) (r_nlsize r) fresh.
Definition rset_src s z (r : rdr) :=
  mkR (r_buf r) (r_nl r) (r_help r) (r_conv r) (r_nconv r) (r_bufsz r) (r_nlsz r) (r_helpsz r) (r_delim r) s z (r_crlf r) (r_line r) (r_chars r) (r_nlsize r) (r_fresh r).
Definition rset_crlf b (r : rdr) :=
  mkR (r_buf r) (r_nl r) (r_help r) (r_conv r) (r_nconv r) (r_bufsz r) (r_nlsz r) (r_helpsz r) (r_delim r) (r_src r) (r_curr r) b (r_line r) (r_chars r) (r_nlsize r) (r_fresh r).
Definition rset_line n (r : rdr) :=
  mkR (r_buf r) (r_nl r) (r_help r) (r_conv r) (r_nconv r) (r_bufsz r) (r_nlsz r) (r_helpsz r) (r_delim r) (r_src r) (r_curr r) (r_crlf r) n (r_chars r) (r_nlsize r) (r_fresh r).
Definition rset_chars z (r : rdr) :=
  mkR (r_buf r) (r_nl r) (r_help r) (r_conv r) (r_nconv r) (r_bufsz r) (r_nlsz r) (r_helpsz r) (r_delim r) (r_src r) (r_curr r) (r_crlf r) (r_line r) z (r_nlsize r) (r_fresh r).
Definition rset_nlsize n (r : rdr) :=
  mkR (r_buf r) (r_nl r) (r_help r) (r_conv r) (r_nconv r) (r_bufsz r) (r_nlsz r) (r_helpsz r) (r_delim r) (r_src r) (r_curr r) (r_crlf r) (r_line r) (r_chars r) n (r_fresh r).
Definition rset_nconv v (r : rdr) :=
  mkR (r_buf r) (r_nl r) (r_help r) (r_conv r) v (r_bufsz r) (r_nlsz r) (r_helpsz r) (r_delim r) (r_src r) (r_curr r) (r_crlf r) (r_line r) (r_chars r) (r_nlsize r) (r_fresh r).
Definition rset_conv v (r : rdr) :=
  mkR (r_buf r) (r_nl r) (r_help r) v (r_nconv r) (r_bufsz r) (r_nlsz r) (r_helpsz r) (r_delim r) (r_src r) (r_curr r) (r_crlf r) (r_line r) (r_chars r) (r_nlsize r) (r_fresh r).

Definition rupd (f : rdr -> rdr) : M rdr unit := modify f.

(** Which of the two buffers a line is read into. *)
Inductive which := NextLine | Helper.
Definition lp_of (w : which) (r : rdr) : lp :=
  match w with
  | NextLine => mkLp (r_nl r) (r_nlsz r) (r_fresh r)
  | Helper => mkLp (r_help r) (r_helpsz r) (r_fresh r)
  end.
Definition lp_to (w : which) (l : lp) (r : rdr) : rdr :=
  match w with
  | NextLine => rset_nl (l_blk l) (l_n l) (l_fresh l) r
  | Helper => rset_help (l_blk l) (l_n l) (l_fresh l) r
  end.
Definition on_lp {A} (w : which) (m : M lp A) : M rdr A := zoom (lp_of w) (lp_to w) m.

(** Run a converter operation on next_line_converter_ and the line in next_line_buffer_; it may only touch that line. *)
Definition on_next {A} (m : nat -> M (conv * list (option ascii)) A) : M rdr A :=
  fun r => match r_nl r with
           | None => UB "null line buffer"
           | Some b =>
               match m (b_id b) (r_nconv r, b_cells b) with
               | Ok a (v, cs) => Ok a (rset_nl (Some (mkB (b_id b) cs)) (r_nlsz r) (r_fresh r) (rset_nconv v r))
               | Throw e (v, cs) => Throw e (rset_nl (Some (mkB (b_id b) cs)) (r_nlsz r) (r_fresh r) (rset_nconv v r))
               | UB w => UB w
               | OutOfFuel => OutOfFuel
               end
           end.
(** Operations on next_line_converter_ that do not look at the line. *)
Definition on_nconv {A} (m : M (conv * list (option ascii)) A) : M rdr A :=
  fun r => match m (r_nconv r, []) with
           | Ok a (v, _) => Ok a (rset_nconv v r)
           | Throw e (v, _) => Throw e (rset_nconv v r)
           | UB w => UB w
           | OutOfFuel => OutOfFuel
           end.
(** Operations on converter_: its column ranges point into buffer_, unless that block was reallocated in the meantime;
    then no memory is accessible through them. *)
Definition seen_by (v : conv) (p : option blk) : list (option ascii) :=
  match p with
  | Some b => if s_blk (v_sp v) =? b_id b then b_cells b else []
  | None => []
  end.
Definition on_conv {A} (m : M (conv * list (option ascii)) A) : M rdr A :=
  fun r => match m (r_conv r, seen_by (r_conv r) (r_buf r)) with
           | Ok a (v, _) => Ok a (rset_conv v r)
           | Throw e (v, _) => Throw e (rset_conv v r)
           | UB w => UB w
           | OutOfFuel => OutOfFuel
           end.

Section WithCfg.
Context (c : cfg) (cap : nat -> nat -> nat).

(** common.hpp:128-149; [None] is end of file (errno == ENOMEM at that point, which would throw std::bad_alloc, is not
    modelled). *)
Definition get_line (w : which) : M rdr (option nat) :=
  r <- get ;;
  match r_src r with
  | SFile rest =>
      '(size, rest') <- on_lp w (get_line_posix cap rest) ;;
      rupd (rset_src (SFile rest') (r_curr r + match size with Some n => Z.of_nat n | None => -1 end)) ;;
      ret size
  | SPort rest =>
      '(size, rest') <- on_lp w (get_line_fgets rest) ;;
      rupd (rset_src (SPort rest') (r_curr r + match size with Some n => Z.of_nat n | None => -1 end)) ;;
      ret size
  | SMem data =>
      '(size, consumed) <- on_lp w (get_line_buffer (skipn (Z.to_nat (r_curr r)) data)) ;;
      rupd (rset_src (SMem data) (r_curr r + Z.of_nat consumed)) ;;
      ret size
  | SNull size =>
      if (Z.of_nat size <=? r_curr r)%Z then ret None else ub "null data buffer read"
  end.

(** parser.hpp:969-985 *)
Definition remove_eol (w : which) (ssize : nat) : M rdr nat :=
  match ssize with
  | 0 => ub "buffer[-1]"
  | S k =>
      a <- on_lp w (peek k) ;;
      if negb (Ascii.eqb a LF) then rupd (rset_crlf false) ;; ret ssize
      else
        size <- (match k with
                 | 0 => rupd (rset_crlf false) ;; ret k
                 | S j =>
                     b <- on_lp w (peek j) ;;
                     if Ascii.eqb b CR then rupd (rset_crlf true) ;; ret j
                     else rupd (rset_crlf false) ;; ret k
                 end) ;;
        on_lp w (put size NUL) ;;
        ret size
  end.

(** parser.hpp:842-869: the loop.  Every iteration but the last consumes a line, hence the bound. *)
Fixpoint read_next_loop (fuel : nat) : M rdr bool :=
  match fuel with
  | 0 => fun _ => OutOfFuel
  | S f =>
      rupd (fun r => rset_line (S (r_line r)) r) ;;
      r <- get ;;
      (if 0 <? r_nlsz r then on_lp NextLine (put 0 NUL) else ret tt) ;;
      rupd (fun r => rset_chars (r_curr r) r) ;;
      o <- get_line NextLine ;;
      match o with
      | None => ret false
      | Some ssize =>
          size <- remove_eol NextLine ssize ;;
          if c_ignempty c && (size =? 0) then read_next_loop f
          else rupd (rset_nlsize size) ;; ret true
      end
  end.
(** Bytes not yet read. *)
Definition unread (r : rdr) : str :=
  match r_src r with
  | SFile rest | SPort rest => rest
  | SMem data => skipn (Z.to_nat (r_curr r)) data
  | SNull _ => []
  end.
Definition read_next : M rdr bool :=
  on_nconv cv_clear_error ;;
  r <- get ;;
  read_next_loop (S (length (unread r))).

(** parser.hpp:928-932 *)
Definition update : M rdr unit :=
  rupd (fun r => mkR (r_nl r) (r_buf r) (r_help r) (r_nconv r) (r_conv r) (r_nlsz r) (r_bufsz r) (r_helpsz r)
                     (r_delim r) (r_src r) (r_curr r) (r_crlf r) (r_line r) (r_chars r) (r_nlsize r) (r_fresh r)).

(** parser.hpp:934-942; returns the new limit and whether it was reached. *)
Definition multiline_limit_reached (limit : nat) : M rdr (nat * bool) :=
  if 0 <? c_mlsize c then
    if c_mlsize c <=? limit then on_nconv (handle_error_multiline_limit_reached c) ;; ret (S limit, true)
    else ret (S limit, false)
  else ret (limit, false).

(** parser.hpp:944-952: number of escape characters before position [i], by the loop's reads; then the parity. *)
Fixpoint count_escapes (i : nat) : M rdr nat :=
  match i with
  | 0 => ret 0
  | S j =>
      a <- on_lp NextLine (peek j) ;;
      if escape_match c a then k <- count_escapes j ;; ret (S k) else ret 0
  end.
Definition escaped_eol (size : nat) : M rdr bool :=
  k <- count_escapes size ;;
  ret (Nat.even (S k)).

(** parser.hpp:958-967, on next_line_buffer_ and next_line_size_ (its only call). *)
Definition undo_remove_eol : M rdr unit :=
  r <- get ;;
  let size := r_nlsize r in
  if r_crlf r && (size + 2 <=? r_nlsz r) then
    on_lp NextLine (put_all size [CR; LF]) ;;
    rupd (rset_nlsize (size + 2))
  else if size <? r_nlsz r then
    on_lp NextLine (put size LF) ;;
    rupd (rset_nlsize (size + 1))
  else ret tt.

(** std::copy_n(second, n, first + at) between different blocks. *)
Definition copy_between (src : list (option ascii)) (n at_ : nat) (dst : list (option ascii)) : option (list (option ascii)) :=
  if (n <=? length src) && (at_ + n <=? length dst) then
    Some (firstn at_ dst ++ firstn n src ++ skipn (at_ + n) dst)
  else None.
(** parser.hpp:987-997, called with next_line_buffer_, next_line_size_, next_line_buffer_size_ and the helper buffer. *)
Definition realloc_concat (second_size : nat) : M rdr unit :=
  r <- get ;;
  on_lp NextLine (grow (r_nlsize r + second_size + 3)) ;;
  r1 <- get ;;
  match r_nl r1, r_help r1 with
  | Some b, Some h =>
      match copy_between (b_cells h) (second_size + 1) (r_nlsize r1) (b_cells b) with
      | Some m => rupd (fun r => rset_nl (Some (mkB (b_id b) m)) (r_nlsz r) (r_fresh r) r)
      | None => ub "realloc_concat: copy outside the buffers"
      end
  | _, _ => ub "realloc_concat: null buffer"
  end ;;
  rupd (fun r => rset_nlsize (r_nlsize r + second_size) r).

(** parser.hpp:999-1018 *)
Definition append_next_line_to_buffer : M rdr bool :=
  undo_remove_eol ;;
  rupd (fun r => rset_chars (r_curr r) r) ;;
  o <- get_line Helper ;;
  match o with
  | None => ret false
  | Some ssize =>
      rupd (fun r => rset_line (S (r_line r)) r) ;;
      next_size <- remove_eol Helper ssize ;;
      realloc_concat next_size ;;
      ret true
  end.

(** parser.hpp:25-29 *)
Definition escaped_multiline : bool := c_ml c && escape_enabled c.
Definition quoted_multiline : bool := c_ml c && quote_enabled c.

(** The while loops of parse over escaped line ends (parser.hpp:875-887 and 906-918, same text); the result tells
    whether to go on (true) or to return from parse, and the new limit.  Every round consumes a line. *)
Fixpoint escape_loop (fuel limit : nat) : M rdr (bool * nat) :=
  match fuel with
  | 0 => fun _ => OutOfFuel
  | S f =>
      r <- get ;;
      e <- escaped_eol (r_nlsize r) ;;
      if e : bool then
        '(limit, reached) <- multiline_limit_reached limit ;;
        if reached : bool then ret (false, limit)
        else
          more <- append_next_line_to_buffer ;;
          if more : bool then escape_loop f limit
          else on_nconv (handle_error_unterminated_escape c) ;; ret (false, limit)
      else ret (true, limit)
  end.
Definition escape_part (limit : nat) : M rdr (bool * nat) :=
  if escaped_multiline then r <- get ;; escape_loop (S (length (unread r))) limit
  else ret (true, limit).

(** parser.hpp:891-925.  Subtracting more than next_line_size_ would wrap around: counted as undefined behaviour here. *)
Fixpoint quote_loop (fuel limit : nat) : M rdr unit :=
  match fuel with
  | 0 => fun _ => OutOfFuel
  | S f =>
      r <- get ;;
      if cv_unterminated_quote (r_nconv r) then
        (if r_nlsize r <? cv_size_shifted (r_nconv r) then ub "next_line_size_ below zero" else ret tt) ;;
        rupd (rset_nlsize (r_nlsize r - cv_size_shifted (r_nconv r))) ;;
        '(limit, reached) <- multiline_limit_reached limit ;;
        if reached : bool then ret tt
        else
          more <- append_next_line_to_buffer ;;
          if more : bool then
            '(go_on, limit) <- escape_part limit ;;
            if go_on : bool then
              r <- get ;;
              on_next (fun id => cv_resplit c id (r_nlsize r) (r_delim r)) ;;
              quote_loop f limit
            else ret tt
          else on_nconv (handle_error_unterminated_quote c)
      else ret tt
  end.

(** parser.hpp:871-926 *)
Definition parse : M rdr unit :=
  '(go_on, limit) <- escape_part 0 ;;
  if go_on : bool then
    r <- get ;;
    on_next (fun id => cv_split c id (r_delim r)) ;;
    if quoted_multiline then r <- get ;; quote_loop (S (length (unread r))) limit
    else ret tt
  else ret tt.

(** parser.hpp:1020-1022: std::string{next_line_buffer_, next_line_size_}. *)
Definition get_buffer : M rdr str :=
  fun r => match range_str (cells_of (r_nl r)) 0 (r_nlsize r) with
           | Some s => Ok s r
           | None => UB "get_buffer: read outside the line buffer"
           end.

End WithCfg.

(** ** Moving (parser.hpp:776-825) and destruction (827-835)

    The moved-from converters and delimiter are left in a valid but unspecified state: here as after construction. *)
Definition reader_move (other : rdr) : rdr * rdr :=
  (mkR (r_buf other) (r_nl other) (r_help other) (r_conv other) (r_nconv other)
       (r_bufsz other) (r_nlsz other) (r_helpsz other) (r_delim other) (r_src other)
       (r_curr other) (r_crlf other) (r_line other) (r_chars other) (r_nlsize other) (r_fresh other),
   mkR None None None conv_init conv_init
       (r_bufsz other) (r_nlsz other) (r_helpsz other) []
       (match r_src other with SFile _ | SPort _ => SNull 0 | s => s end)
       (r_curr other) (r_crlf other) (r_line other) (r_chars other) (r_nlsize other) (r_fresh other)).
(** Assignment to a different object; what the target owned before is not released. *)
Definition reader_move_assign (this other : rdr) : rdr * rdr :=
  (mkR (r_buf other) (r_nl other) (r_help other) (r_conv other) (r_nconv other)
       (r_bufsz other) (r_nlsz other) (r_helpsz other) (r_delim other) (r_src other)
       (r_curr other) (r_crlf other) (r_line other) (r_chars other) (r_nlsize other) (r_fresh other),
   mkR None None None conv_init conv_init
       (r_bufsz other) (r_nlsz other) (r_helpsz other) []
       (match r_src other with SFile _ | SPort _ => SNull 0 | SMem data => SNull (length data) | s => s end)
       (r_curr other) (r_crlf other) (r_line other) (r_chars other) (r_nlsize other) (r_fresh other)).
(** The blocks the destructor frees, and whether it closes a file. *)
Definition owned (r : rdr) : list nat :=
  flat_map (fun p => match p with Some b => [b_id b] | None => [] end) [r_buf r; r_nl r; r_help r].
Definition open_file (r : rdr) : bool := match r_src r with SFile _ | SPort _ => true | _ => false end.
