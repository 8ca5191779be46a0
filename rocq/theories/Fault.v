(** Running out of memory: the reader and the parser of Reader.v and Parser.v once more, where an allocation for a line may
    fail.  Only what differs is written again; the rest is taken from there ([lift]). *)
From Verif Require Import Base Setup Splitter Extract Converter Reader Parser ConvProofs ParserApi SessionApi.

(** A computation out of which std::bad_alloc may come: [inr s] means it did, and left the state [s]. *)
Definition F (S A : Type) := S -> res S A + S.
Definition lift {S A} (m : M S A) : F S A := fun s => inl (m s).
Definition fbind {S A B} (m : F S A) (k : A -> F S B) : F S B :=
  fun s => match m s with
           | inl (Ok a s') => k a s'
           | inl (Throw e s') => inl (Throw e s')
           | inl (UB w) => inl (UB w)
           | inl OutOfFuel => inl OutOfFuel
           | inr s' => inr s'
           end.
(** try m catch (const ss::exception& e) { h e }: std::bad_alloc is not an ss::exception (exception.hpp:9). *)
Definition fcatch {S A} (m : F S A) (h : str -> F S A) : F S A :=
  fun s => match m s with inl (Throw e s') => h e s' | r => r end.
Definition fzoom {T S A} (g : T -> S) (p : S -> T -> T) (m : F S A) : F T A :=
  fun t => match m (g t) with
           | inl (Ok a s) => inl (Ok a (p s t))
           | inl (Throw e s) => inl (Throw e (p s t))
           | inl (UB w) => inl (UB w)
           | inl OutOfFuel => inl OutOfFuel
           | inr s => inr (p s t)
           end.
Notation "x <~ m ;; k" := (fbind m (fun x => k)) (at level 61, m at next level, right associativity) : monad_scope.
Notation "' p <~ m ;; k" := (fbind m (fun p => k)) (at level 61, p pattern, m at next level, right associativity) : monad_scope.
Notation "m ;~ k" := (fbind m (fun _ => k)) (at level 61, right associativity) : monad_scope.

Section Lines.
(** [fails i n]: the allocation that would give block [i] its [n] bytes fails.  Identities are never used twice, so this is
    any schedule of failures.  [stale r]: errno is ENOMEM when the end of the data is met in state [r], say from an earlier
    failure; nothing in the library resets it. *)
Context (fails : nat -> nat -> bool) (stale : rdr -> bool) (cap : nat -> nat -> nat).

(** lineptr = strict_realloc(lineptr, new_n); n = new_n;  (common.hpp:35-42): if realloc fails, the old block is still
    there, and neither variable was assigned. *)
Definition fgrow (new_n : nat) : F lp unit :=
  fun l => if fails (l_fresh l) new_n then inr l else lift (grow new_n) l.
(** common.hpp:104-124 *)
Fixpoint fglb_loop (line_used consumed : nat) (rest : str) : F lp (nat * nat) :=
  match rest with
  | [] => lift (put line_used NUL ;; ret (line_used, consumed))
  | ch :: rest' =>
      n <~ lift (gets l_n) ;;
      (if n <=? line_used + 1 then fgrow (n * 2) else lift (ret tt)) ;~
      lift (put line_used ch) ;~
      if Ascii.eqb ch LF then lift (put (S line_used) NUL ;; ret (S line_used, S consumed))
      else fglb_loop (S line_used) (S consumed) rest'
  end.
(** common.hpp:90-126 *)
Definition fget_line_buffer (rest : str) : F lp (option nat * nat) :=
  match rest with
  | [] => lift (ret (None, 0))
  | _ =>
      l <~ lift get ;;
      (if match l_blk l with None => true | Some _ => l_n l <? initial_size end then fgrow initial_size else lift (ret tt)) ;~
      '(used, consumed) <~ fglb_loop 0 0 rest ;;
      lift (ret (Some used, consumed))
  end.
(** POSIX getline that cannot enlarge the buffer: -1, errno is ENOMEM, on which get_line throws (common.hpp:143-146).  The
    buffer is the old one, its contents are unspecified. *)
Definition spoilt (l : lp) : lp :=
  mkLp (match l_blk l with Some b => Some (mkB (b_id b) (repeat None (length (b_cells b)))) | None => None end) (l_n l) (l_fresh l).
Definition fget_line_posix (rest : str) : F lp (option nat * str) :=
  fun l =>
    match get_line_posix cap rest l with
    | Ok _ l' => if (l_fresh l <? l_fresh l') && fails (l_fresh l) (l_n l') then inr (spoilt l) else lift (get_line_posix cap rest) l
    | _ => lift (get_line_posix cap rest) l
    end.
(** common.hpp:65-83 *)
Fixpoint ffgets_loop (fuel line_used : nat) (rest : str) : F lp (option nat * str) :=
  match fuel with
  | 0 => fun _ => inl OutOfFuel
  | S f =>
      match rest with
      | [] => lift (ret (if line_used =? 0 then None else Some line_used, []))
      | _ =>
          let '(buff, rest') := fgets_take (initial_size - 1) rest in
          l0 <~ lift get ;;
          line_used <~ lift (strlen_from (S (length (cells_of (l_blk l0)))) 0) ;;
          let buff_used := strlen buff in
          n <~ lift (gets l_n) ;;
          (if n <=? buff_used + line_used then fgrow (n * 2) else lift (ret tt)) ;~
          lift (put_all line_used (firstn buff_used buff)) ;~
          let line_used := line_used + buff_used in
          lift (put line_used NUL) ;~
          match line_used with
          | 0 => lift (ub "lineptr[-1]")
          | S k =>
              ch <~ lift (peek k) ;;
              if Ascii.eqb ch LF then lift (ret (Some line_used, rest')) else ffgets_loop f line_used rest'
          end
      end
  end.
(** common.hpp:53-86 *)
Definition fget_line_fgets (rest : str) : F lp (option nat * str) :=
  l <~ lift get ;;
  (if match l_blk l with None => true | Some _ => l_n l <? initial_size end then fgrow initial_size else lift (ret tt)) ;~
  lift (put 0 NUL) ;~
  ffgets_loop (S (length rest)) 0 rest.

Definition fon_lp {A} (w : which) (m : F lp A) : F rdr A := fzoom (lp_of w) (lp_to w) m.
(** common.hpp:141-147 *)
Definition fend_of_data (size : option nat) : F rdr (option nat) :=
  fun r => match size with None => if stale r then inr r else inl (Ok None r) | Some n => inl (Ok (Some n) r) end.
(** common.hpp:128-149.  How far an interrupted read got is not said: the position is the one before it. *)
Definition fget_line (w : which) : F rdr (option nat) :=
  r <~ lift get ;;
  match r_src r with
  | SFile rest =>
      '(size, rest') <~ fon_lp w (fget_line_posix rest) ;;
      lift (rupd (rset_src (SFile rest') (r_curr r + match size with Some n => Z.of_nat n | None => -1 end))) ;~
      fend_of_data size
  | SPort rest =>
      '(size, rest') <~ fon_lp w (fget_line_fgets rest) ;;
      lift (rupd (rset_src (SPort rest') (r_curr r + match size with Some n => Z.of_nat n | None => -1 end))) ;~
      fend_of_data size
  | SMem data =>
      '(size, consumed) <~ fon_lp w (fget_line_buffer (skipn (Z.to_nat (r_curr r)) data)) ;;
      lift (rupd (rset_src (SMem data) (r_curr r + Z.of_nat consumed))) ;~
      fend_of_data size
  | SNull size =>
      if (Z.of_nat size <=? r_curr r)%Z then fend_of_data None else lift (ub "null data buffer read")
  end.

Context (c hc : cfg).

(** parser.hpp:842-869 *)
Fixpoint fread_next_loop (fuel : nat) : F rdr bool :=
  match fuel with
  | 0 => fun _ => inl OutOfFuel
  | S f =>
      lift (rupd (fun r => rset_line (S (r_line r)) r)) ;~
      r <~ lift get ;;
      lift (if 0 <? r_nlsz r then on_lp NextLine (put 0 NUL) else ret tt) ;~
      lift (rupd (fun r => rset_chars (r_curr r) r)) ;~
      o <~ fget_line NextLine ;;
      match o with
      | None => lift (ret false)
      | Some ssize =>
          size <~ lift (remove_eol NextLine ssize) ;;
          if c_ignempty c && (size =? 0) then fread_next_loop f
          else lift (rupd (rset_nlsize size) ;; ret true)
      end
  end.
Definition fread_next : F rdr bool :=
  lift (on_nconv cv_clear_error) ;~
  r <~ lift get ;;
  fread_next_loop (S (length (unread r))).

(** parser.hpp:987-997: the new size is assigned before the reallocation that may fail. *)
Definition fgrow_sized (new_n : nat) : F lp unit :=
  fun l => if fails (l_fresh l) new_n then inr (mkLp (l_blk l) new_n (l_fresh l)) else lift (grow new_n) l.
Definition frealloc_concat (second_size : nat) : F rdr unit :=
  r <~ lift get ;;
  fon_lp NextLine (fgrow_sized (r_nlsize r + second_size + 3)) ;~
  lift (r1 <- get ;;
        match r_nl r1, r_help r1 with
        | Some b, Some h =>
            match copy_between (b_cells h) (second_size + 1) (r_nlsize r1) (b_cells b) with
            | Some m => rupd (fun r => rset_nl (Some (mkB (b_id b) m)) (r_nlsz r) (r_fresh r) r)
            | None => ub "realloc_concat: copy outside the buffers"
            end
        | _, _ => ub "realloc_concat: null buffer"
        end ;;
        rupd (fun r => rset_nlsize (r_nlsize r + second_size) r)).
(** parser.hpp:999-1018 *)
Definition fappend_next_line_to_buffer : F rdr bool :=
  lift undo_remove_eol ;~
  lift (rupd (fun r => rset_chars (r_curr r) r)) ;~
  o <~ fget_line Helper ;;
  match o with
  | None => lift (ret false)
  | Some ssize =>
      lift (rupd (fun r => rset_line (S (r_line r)) r)) ;~
      next_size <~ lift (remove_eol Helper ssize) ;;
      frealloc_concat next_size ;~
      lift (ret true)
  end.
(** parser.hpp:875-887 and 906-918 *)
Fixpoint fescape_loop (fuel limit : nat) : F rdr (bool * nat) :=
  match fuel with
  | 0 => fun _ => inl OutOfFuel
  | S f =>
      r <~ lift get ;;
      e <~ lift (escaped_eol c (r_nlsize r)) ;;
      if e : bool then
        '(limit, reached) <~ lift (multiline_limit_reached c limit) ;;
        if reached : bool then lift (ret (false, limit))
        else
          more <~ fappend_next_line_to_buffer ;;
          if more : bool then fescape_loop f limit
          else lift (on_nconv (handle_error_unterminated_escape c) ;; ret (false, limit))
      else lift (ret (true, limit))
  end.
Definition fescape_part (limit : nat) : F rdr (bool * nat) :=
  if escaped_multiline c then r <~ lift get ;; fescape_loop (S (length (unread r))) limit
  else lift (ret (true, limit)).
(** parser.hpp:891-925 *)
Fixpoint fquote_loop (fuel limit : nat) : F rdr unit :=
  match fuel with
  | 0 => fun _ => inl OutOfFuel
  | S f =>
      r <~ lift get ;;
      if cv_unterminated_quote (r_nconv r) then
        lift (if r_nlsize r <? cv_size_shifted (r_nconv r) then ub "next_line_size_ below zero" else ret tt) ;~
        lift (rupd (rset_nlsize (r_nlsize r - cv_size_shifted (r_nconv r)))) ;~
        '(limit, reached) <~ lift (multiline_limit_reached c limit) ;;
        if reached : bool then lift (ret tt)
        else
          more <~ fappend_next_line_to_buffer ;;
          if more : bool then
            '(go_on, limit) <~ fescape_part limit ;;
            if go_on : bool then
              r <~ lift get ;;
              lift (on_next (fun id => cv_resplit c id (r_nlsize r) (r_delim r))) ;~
              fquote_loop f limit
            else lift (ret tt)
          else lift (on_nconv (handle_error_unterminated_quote c))
      else lift (ret tt)
  end.
(** parser.hpp:871-926 *)
Definition fparse : F rdr unit :=
  '(go_on, limit) <~ fescape_part 0 ;;
  if go_on : bool then
    r <~ lift get ;;
    lift (on_next (fun id => cv_split c id (r_delim r))) ;~
    if quoted_multiline c then r <~ lift get ;; fquote_loop (S (length (unread r))) limit
    else lift (ret tt)
  else lift (ret tt).

(** ** The parser *)
Definition fon_rdr {A} (m : F rdr A) : F prs A := fzoom p_rdr pset_rdr m.
(** parser.hpp:760-762, 97-99 *)
Definition fread_line : F prs unit := ok <~ fon_rdr fread_next ;; lift (pupd (pset_eof (negb ok))).
Definition fignore_next : F prs bool := fon_rdr fread_next.
(** parser.hpp:39-68.  If it throws, the members are destroyed, the reader among them. *)
Definition fconstruct (usable : bool) (unusable_msg : prs -> str) : F prs unit :=
  if usable then
    fread_line ;~
    if c_ignhdr c then fignore_next ;~ lift (ret tt)
    else lift (s <- on_rdr get_buffer ;; pupd (pset_raw s))
  else lift (p_error c unusable_msg ;; pupd (pset_eof true)).
(** parser.hpp:115-163 *)
Definition fget_next (es : list elem) : F prs (list slot) :=
  p <~ lift get ;;
  (if p_eof p then lift (ret tt)
   else
     match c_mode c with
     | EThrow => fcatch (fon_rdr fparse) (fun e => fread_line ;~ lift (decorate_rethrow e))
     | _ => fon_rdr fparse
     end) ;~
  lift (on_rdr update) ;~
  p <~ lift get ;;
  if negb (cv_valid c (r_conv (p_rdr p))) then
    lift (handle_error_invalid_conversion c) ;~
    fread_line ;~
    lift (ret (defaults es))
  else
    lift p_clear_error ;~
    if p_eof p then lift (p_error c msg_eof ;; ret (defaults es))
    else
      match c_mode c with
      | EThrow =>
          fcatch (xs <~ lift (on_rdr (on_conv (cv_convert c es))) ;; fread_line ;~ lift (ret xs))
                 (fun e => fread_line ;~ lift (decorate_rethrow e))
      | _ =>
          xs <~ lift (on_rdr (on_conv (cv_convert c es))) ;;
          p <~ lift get ;;
          lift (if negb (cv_valid c (r_conv (p_rdr p))) then handle_error_invalid_conversion c else ret tt) ;~
          fread_line ;~
          lift (ret xs)
      end.
(** parser.hpp:204-249; only the last step reads. *)
Definition fuse_fields (fs : list str) : F prs unit :=
  lift p_clear_error ;~
  p <~ lift get ;;
  lift (match p_header p, p_eof p with [], false => split_header_data c hc | _, _ => ret tt end) ;~
  p <~ lift get ;;
  if negb (p_valid c p) then lift (ret tt)
  else
    match fs with
    | [] => lift (p_error c msg_use_fields)
    | _ =>
        o <~ lift (find_columns c fs fs) ;;
        match o with
        | None => lift (ret tt)
        | Some mapping =>
            let n := length (p_header p) in
            lift (on_rdr (rupd (fun r => rset_conv (vup_map mapping n (r_conv r)) r))) ;~
            lift (on_rdr (rupd (fun r => rset_nconv (vup_map mapping n (r_nconv r)) r))) ;~
            p <~ lift get ;;
            if p_line p =? 0 then fignore_next ;~ lift (ret tt) else lift (ret tt)
        end
    end.
(** parser.hpp:450-468 and 518-525; or_else and on_error read nothing. *)
Definition fon_p {A} (m : F prs A) : F chain A := fzoom fst (fun p t => (p, snd t)) m.
Definition ftry_next (es : list elem) (cb : callback) : F chain (list (option (list slot))) :=
  xs <~ fon_p (fget_next es) ;;
  lift (t <- get ;;
        (if p_valid c (fst t) then try_invoke c xs cb else ret tt) ;;
        t <- get ;;
        ret [if p_valid c (fst t) then Some xs else None]).
Definition fchain_call (es : list elem) (cb : callback) (ls : list link) : F chain (list (option (list slot))) :=
  vs <~ ftry_next es cb ;; lift (follow_links c vs ls).

(** ** Calls (SessionApi.v): the reply and the parser afterwards, or the parser std::bad_alloc left behind. *)
Definition fcall {A} (f : res prs A -> reply) (p : prs) (o : res prs A + prs) : reply * prs + prs :=
  match o with inl o => inl (f o, after p o) | inr q => inr q end.
Definition fdo_call (p : prs) (k : call) : reply * prs + prs :=
  match k with
  | CGet es => fcall (fun o => YGet (get_obs c o)) p (fget_next es p)
  | CTry es cb ls =>
      match fchain_call es cb ls (p, []) with
      | inl (Ok vs (p', l)) => inl (match all_given vs with Some r => YTry r l (p_valid c p') | None => YCrash end, p')
      | inl (Throw m (p', _)) => inl (YThrown m, p')
      | inl _ => inl (YCrash, p)
      | inr (q, _) => inr q
      end
  | CIgnore => fcall (plain_answer YBool) p (fignore_next p)
  | CUse fs => fcall (answer c (fun _ => YDone)) p (fuse_fields fs p)
  | CRaw | CHeader | CField _ => inl (do_call c hc cap p k)
  end.
(** The replies up to the first failure, and the parser it left behind. *)
Fixpoint freplies (p : prs) (ks : list call) : list reply * option prs :=
  match ks with
  | [] => ([], None)
  | k :: ks' =>
      match fdo_call p k with
      | inl (y, p') => let '(ys, o) := freplies p' ks' in (y :: ys, o)
      | inr q => ([], Some q)
      end
  end.
End Lines.
(** The constructors: a parser, an ss::exception (whose text is what it is), or std::bad_alloc. *)
Definition fparser_file fails stale cap c (name delim : str) (portable : bool) (contents : option str) : res prs unit + prs :=
  match contents with
  | Some data => fconstruct fails stale cap c true msg_not_open (p_init name delim (if portable then SPort data else SFile data))
  | None => fconstruct fails stale cap c false msg_not_open (p_init name delim (SNull 0))
  end.
Definition fparser_buffer fails stale cap c (delim : str) (data : option str) (size : nat) : res prs unit + prs :=
  match data with
  | Some data => fconstruct fails stale cap c true msg_null_buffer (p_init (S2 "CSV data buffer") delim (SMem data))
  | None => fconstruct fails stale cap c false msg_null_buffer (p_init (S2 "CSV data buffer") delim (SNull size))
  end.
