(** common.hpp and parser.hpp's reader once more, counting the work on the data: one for every byte that is stored in or looked at
    in a line buffer, moved by realloc or std::copy_n, or handed over by the file (C57).  The work of splitting is that of
    SplitCost.v.  Conversions are not counted: what they do with a column is up to the types that are asked for.

    The functions are those of Reader.v, Converter.v and Parser.v, line by line; the lemmas [ct_...] prove that they are, once
    the counter is forgotten. *)
From Verif Require Import Base Setup Splitter Extract Converter Reader Parser SplitCost.

(** ** Counting *)
Definition free {S A} (m : M S A) : M (S * nat) A := zoom fst (fun s t => (s, snd t)) m.
Definition spend {S} (k : nat) : M (S * nat) unit := modify (fun t => (fst t, snd t + k)).
(** A counted computation on a component. *)
Definition inside {T S A} (g : T -> S) (p : S -> T -> T) (m : M (S * nat) A) : M (T * nat) A :=
  zoom (fun t => (g (fst t), snd t)) (fun s t => (p (fst s) (fst t), snd s)) m.
(** The state without the counter. *)
Definition ask {S} : M (S * nat) S := gets fst.

(** ** common.hpp *)
(** strict_realloc: what is kept is copied. *)
Definition n_grow (new_n : nat) : M (lp * nat) unit :=
  l <- ask ;; spend (Nat.min new_n (length (cells_of (l_blk l)))) ;; free (grow new_n).
Definition n_put (i : nat) (ch : ascii) : M (lp * nat) unit := spend 1 ;; free (put i ch).
Definition n_peek (i : nat) : M (lp * nat) ascii := spend 1 ;; free (peek i).

(** common.hpp:104-124 *)
Fixpoint n_glb_loop (line_used consumed : nat) (rest : str) : M (lp * nat) (nat * nat) :=
  match rest with
  | [] => n_put line_used NUL ;; ret (line_used, consumed)
  | ch :: rest' =>
      l <- ask ;;
      (if l_n l <=? line_used + 1 then n_grow (l_n l * 2) else ret tt) ;;
      n_put line_used ch ;;
      if Ascii.eqb ch LF then n_put (S line_used) NUL ;; ret (S line_used, S consumed)
      else n_glb_loop (S line_used) (S consumed) rest'
  end.
(** common.hpp:90-126 *)
Definition n_get_line_buffer (rest : str) : M (lp * nat) (option nat * nat) :=
  match rest with
  | [] => ret (None, 0)
  | _ =>
      l <- ask ;;
      (if match l_blk l with None => true | Some _ => l_n l <? initial_size end then n_grow initial_size else ret tt) ;;
      '(used, consumed) <- n_glb_loop 0 0 rest ;;
      ret (Some used, consumed)
  end.

(** POSIX getline is external: its work is taken to be the bytes of the line and the terminator, and the old buffer if it is too
    small. *)
Definition posix_work (rest : str) (l : lp) : nat :=
  match rest with
  | [] => 0
  | _ =>
      let need := S (length (fst (cut_line rest))) in
      need + (if need <=? l_n l then 0 else length (cells_of (l_blk l)))
  end.
Definition n_get_line_posix (cap : nat -> nat -> nat) (rest : str) : M (lp * nat) (option nat * str) :=
  l <- ask ;; spend (posix_work rest l) ;; free (get_line_posix cap rest).

(** std::strlen(lineptr) *)
Fixpoint n_strlen_from (fuel i : nat) : M (lp * nat) nat :=
  match fuel with
  | 0 => fun _ => UB "strlen outside the line buffer"
  | S f => ch <- n_peek i ;; if Ascii.eqb ch NUL then ret i else n_strlen_from f (S i)
  end.
(** std::memcpy *)
Fixpoint n_put_all (i : nat) (s : str) : M (lp * nat) unit :=
  match s with [] => ret tt | ch :: s' => n_put i ch ;; n_put_all (S i) s' end.
(** common.hpp:65-83: fgets stores the bytes and a terminator, strlen(buff) looks at them. *)
Fixpoint n_fgets_loop (fuel line_used : nat) (rest : str) : M (lp * nat) (option nat * str) :=
  match fuel with
  | 0 => fun _ => OutOfFuel
  | S f =>
      match rest with
      | [] => ret (if line_used =? 0 then None else Some line_used, [])
      | _ =>
          let '(buff, rest') := fgets_take (initial_size - 1) rest in
          spend (S (length buff)) ;;
          l0 <- ask ;;
          line_used <- n_strlen_from (S (length (cells_of (l_blk l0)))) 0 ;;
          let buff_used := strlen buff in
          spend (S buff_used) ;;
          l <- ask ;;
          (if l_n l <=? buff_used + line_used then n_grow (l_n l * 2) else ret tt) ;;
          n_put_all line_used (firstn buff_used buff) ;;
          let line_used := line_used + buff_used in
          n_put line_used NUL ;;
          match line_used with
          | 0 => ub "lineptr[-1]"
          | S k =>
              ch <- n_peek k ;;
              if Ascii.eqb ch LF then ret (Some line_used, rest') else n_fgets_loop f line_used rest'
          end
      end
  end.
(** common.hpp:53-86 *)
Definition n_get_line_fgets (rest : str) : M (lp * nat) (option nat * str) :=
  l <- ask ;;
  (if match l_blk l with None => true | Some _ => l_n l <? initial_size end then n_grow initial_size else ret tt) ;;
  n_put 0 NUL ;;
  n_fgets_loop (S (length rest)) 0 rest.

(** ** The reader *)
Definition n_on_lp {A} (w : which) (m : M (lp * nat) A) : M (rdr * nat) A := inside (lp_of w) (lp_to w) m.
Definition n_on_next {A} (m : nat -> M (vst * nat) A) : M (rdr * nat) A :=
  fun t => match r_nl (fst t) with
           | None => UB "null line buffer"
           | Some b =>
               match m (b_id b) ((r_nconv (fst t), b_cells b), snd t) with
               | Ok a ((v, cs), n) => Ok a (rset_nl (Some (mkB (b_id b) cs)) (r_nlsz (fst t)) (r_fresh (fst t)) (rset_nconv v (fst t)), n)
               | Throw e ((v, cs), n) => Throw e (rset_nl (Some (mkB (b_id b) cs)) (r_nlsz (fst t)) (r_fresh (fst t)) (rset_nconv v (fst t)), n)
               | UB w => UB w
               | OutOfFuel => OutOfFuel
               end
           end.
Definition n_on_sp {A} (m : M ((sp * list (option ascii)) * nat) A) : M (vst * nat) A :=
  inside (fun t => (v_sp (fst t), snd t)) (fun s t => (vup_sp (fst s) (fst t), snd s)) m.

Section WithCfg.
Context (c : cfg) (cap : nat -> nat -> nat).
(** converter.hpp:191-199 *)
Definition n_cv_split (blk : nat) (delim : str) : M (vst * nat) unit :=
  free (on_sp (upd (up_sd []))) ;;
  spend 1 ;;
  a <- free (on_sp (load 0)) ;;
  if Ascii.eqb a NUL then ret tt else n_on_sp (n_split c blk delim).
(** converter.hpp:206-208 *)
Definition n_cv_resplit (blk new_size : nat) (delim : str) : M (vst * nat) unit := n_on_sp (n_resplit c blk new_size delim).

(** common.hpp:128-149 *)
Definition n_get_line (w : which) : M (rdr * nat) (option nat) :=
  r <- ask ;;
  match r_src r with
  | SFile rest =>
      '(size, rest') <- n_on_lp w (n_get_line_posix cap rest) ;;
      free (rupd (rset_src (SFile rest') (r_curr r + match size with Some n => Z.of_nat n | None => -1 end))) ;;
      ret size
  | SPort rest =>
      '(size, rest') <- n_on_lp w (n_get_line_fgets rest) ;;
      free (rupd (rset_src (SPort rest') (r_curr r + match size with Some n => Z.of_nat n | None => -1 end))) ;;
      ret size
  | SMem data =>
      '(size, consumed) <- n_on_lp w (n_get_line_buffer (skipn (Z.to_nat (r_curr r)) data)) ;;
      free (rupd (rset_src (SMem data) (r_curr r + Z.of_nat consumed))) ;;
      ret size
  | SNull size =>
      if (Z.of_nat size <=? r_curr r)%Z then ret None else ub "null data buffer read"
  end.
(** parser.hpp:969-985: three bytes at most. *)
Definition n_remove_eol (w : which) (ssize : nat) : M (rdr * nat) nat := spend 3 ;; free (remove_eol w ssize).

(** parser.hpp:842-869 *)
Fixpoint n_read_next_loop (fuel : nat) : M (rdr * nat) bool :=
  match fuel with
  | 0 => fun _ => OutOfFuel
  | S f =>
      free (rupd (fun r => rset_line (S (r_line r)) r)) ;;
      r <- ask ;;
      (if 0 <? r_nlsz r then n_on_lp NextLine (n_put 0 NUL) else ret tt) ;;
      free (rupd (fun r => rset_chars (r_curr r) r)) ;;
      o <- n_get_line NextLine ;;
      match o with
      | None => ret false
      | Some ssize =>
          size <- n_remove_eol NextLine ssize ;;
          if c_ignempty c && (size =? 0) then n_read_next_loop f
          else free (rupd (rset_nlsize size)) ;; ret true
      end
  end.
Definition n_read_next : M (rdr * nat) bool :=
  free (on_nconv cv_clear_error) ;;
  r <- ask ;;
  n_read_next_loop (S (length (unread r))).

(** parser.hpp:944-952 *)
Fixpoint n_count_escapes (i : nat) : M (rdr * nat) nat :=
  match i with
  | 0 => ret 0
  | S j =>
      a <- n_on_lp NextLine (n_peek j) ;;
      if escape_match c a then k <- n_count_escapes j ;; ret (S k) else ret 0
  end.
Definition n_escaped_eol (size : nat) : M (rdr * nat) bool :=
  k <- n_count_escapes size ;;
  ret (Nat.even (S k)).

(** parser.hpp:958-967: two bytes at most. *)
Definition n_undo_remove_eol : M (rdr * nat) unit := spend 2 ;; free undo_remove_eol.
(** parser.hpp:987-997: realloc, and copy_n of the second buffer with its terminator. *)
Definition n_realloc_concat (second_size : nat) : M (rdr * nat) unit :=
  r <- ask ;;
  spend (Nat.min (r_nlsize r + second_size + 3) (length (cells_of (r_nl r))) + (second_size + 1)) ;;
  free (realloc_concat second_size).
(** parser.hpp:999-1018 *)
Definition n_append_next_line_to_buffer : M (rdr * nat) bool :=
  n_undo_remove_eol ;;
  free (rupd (fun r => rset_chars (r_curr r) r)) ;;
  o <- n_get_line Helper ;;
  match o with
  | None => ret false
  | Some ssize =>
      free (rupd (fun r => rset_line (S (r_line r)) r)) ;;
      next_size <- n_remove_eol Helper ssize ;;
      n_realloc_concat next_size ;;
      ret true
  end.

(** parser.hpp:875-887 and 906-918 *)
Fixpoint n_escape_loop (fuel limit : nat) : M (rdr * nat) (bool * nat) :=
  match fuel with
  | 0 => fun _ => OutOfFuel
  | S f =>
      r <- ask ;;
      e <- n_escaped_eol (r_nlsize r) ;;
      if e : bool then
        '(limit, reached) <- free (multiline_limit_reached c limit) ;;
        if reached : bool then ret (false, limit)
        else
          more <- n_append_next_line_to_buffer ;;
          if more : bool then n_escape_loop f limit
          else free (on_nconv (handle_error_unterminated_escape c)) ;; ret (false, limit)
      else ret (true, limit)
  end.
Definition n_escape_part (limit : nat) : M (rdr * nat) (bool * nat) :=
  if escaped_multiline c then r <- ask ;; n_escape_loop (S (length (unread r))) limit
  else ret (true, limit).
(** parser.hpp:891-925 *)
Fixpoint n_quote_loop (fuel limit : nat) : M (rdr * nat) unit :=
  match fuel with
  | 0 => fun _ => OutOfFuel
  | S f =>
      r <- ask ;;
      if cv_unterminated_quote (r_nconv r) then
        (if r_nlsize r <? cv_size_shifted (r_nconv r) then ub "next_line_size_ below zero" else ret tt) ;;
        free (rupd (rset_nlsize (r_nlsize r - cv_size_shifted (r_nconv r)))) ;;
        '(limit, reached) <- free (multiline_limit_reached c limit) ;;
        if reached : bool then ret tt
        else
          more <- n_append_next_line_to_buffer ;;
          if more : bool then
            '(go_on, limit) <- n_escape_part limit ;;
            if go_on : bool then
              r <- ask ;;
              n_on_next (fun id => n_cv_resplit id (r_nlsize r) (r_delim r)) ;;
              n_quote_loop f limit
            else ret tt
          else free (on_nconv (handle_error_unterminated_quote c))
      else ret tt
  end.
(** parser.hpp:871-926 *)
Definition n_parse : M (rdr * nat) unit :=
  '(go_on, limit) <- n_escape_part 0 ;;
  if go_on : bool then
    r <- ask ;;
    n_on_next (fun id => n_cv_split id (r_delim r)) ;;
    if quoted_multiline c then r <- ask ;; n_quote_loop (S (length (unread r))) limit
    else ret tt
  else ret tt.
(** parser.hpp:1020-1022 *)
Definition n_get_buffer : M (rdr * nat) str := r <- ask ;; spend (r_nlsize r) ;; free get_buffer.

(** ** The parser *)
Definition n_on_rdr {A} (m : M (rdr * nat) A) : M (prs * nat) A := inside p_rdr pset_rdr m.
(** parser.hpp:760-762 *)
Definition n_read_line : M (prs * nat) unit :=
  ok <- n_on_rdr n_read_next ;; free (pupd (pset_eof (negb ok))).
(** parser.hpp:39-68, on data that can be read *)
Definition n_construct : M (prs * nat) unit :=
  n_read_line ;;
  if c_ignhdr c then n_on_rdr n_read_next ;; ret tt
  else s <- n_on_rdr n_get_buffer ;; free (pupd (pset_raw s)).
(** parser.hpp:115-163 *)
Definition n_get_next (es : list elem) : M (prs * nat) (list slot) :=
  p <- ask ;;
  (if p_eof p then ret tt
   else
     match c_mode c with
     | EThrow => catch (n_on_rdr n_parse) (fun e => n_read_line ;; free (decorate_rethrow e))
     | _ => n_on_rdr n_parse
     end) ;;
  free (on_rdr update) ;;
  p <- ask ;;
  if negb (cv_valid c (r_conv (p_rdr p))) then
    free (handle_error_invalid_conversion c) ;;
    n_read_line ;;
    ret (defaults es)
  else
    free p_clear_error ;;
    if p_eof p then free (p_error c msg_eof) ;; ret (defaults es)
    else
      match c_mode c with
      | EThrow =>
          catch (xs <- free (on_rdr (on_conv (cv_convert c es))) ;; n_read_line ;; ret xs)
                (fun e => n_read_line ;; free (decorate_rethrow e))
      | _ =>
          xs <- free (on_rdr (on_conv (cv_convert c es))) ;;
          p <- ask ;;
          (if negb (cv_valid c (r_conv (p_rdr p))) then free (handle_error_invalid_conversion c) else ret tt) ;;
          n_read_line ;;
          ret xs
      end.
End WithCfg.

(** ** Forgetting the counter *)
Definition plain {S A} (o : res (S * nat) A) : res S A :=
  match o with
  | Ok a t => Ok a (fst t)
  | Throw e t => Throw e (fst t)
  | UB w => UB w
  | OutOfFuel => OutOfFuel
  end.
Definition counts {S A} (m' : M (S * nat) A) (m : M S A) : Prop := forall s n, plain (m' (s, n)) = m s.

Lemma ct_ret {S A} (a : A) : counts (S:=S) (ret a) (ret a). Proof. intros s n; reflexivity. Qed.
Lemma ct_free {S A} (m : M S A) : counts (free m) m.
Proof. intros s n. unfold free, zoom. cbn [fst snd]. destruct (m s); reflexivity. Qed.
Lemma ct_bind {S A B} (m' : M (S * nat) A) m (k' : A -> M (S * nat) B) k : counts m' m -> (forall a, counts (k' a) (k a)) -> counts (bind m' k') (bind m k).
Proof.
  intros H K s n. unfold bind. rewrite <- (H s n). destruct (m' (s, n)) as [a [s' n']|e [s' n']|w|]; cbn [plain fst]; try reflexivity. apply K.
Qed.
Lemma ct_spend {S A} k (m' : M (S * nat) A) m : counts m' m -> counts (spend k ;; m') m.
Proof. intros H s n. unfold bind, spend, modify. cbn [fst snd]. apply H. Qed.
Lemma ct_ask {S A} (k' : S -> M (S * nat) A) k : (forall a, counts (k' a) (k a)) -> counts (bind ask k') (bind get k).
Proof. intros H s n. unfold bind, ask, gets, get. cbn [fst]. apply H. Qed.
Lemma ct_gets {S A B} (f : S -> B) (k' : S -> M (S * nat) A) k : (forall a, counts (k' a) (k (f a))) -> counts (bind ask k') (bind (gets f) k).
Proof. intros H s n. unfold bind, ask, gets. cbn [fst]. apply H. Qed.
(** The counter looks at the state where the original does not. *)
Lemma ct_look {S A} (k' : S -> M (S * nat) A) m : (forall a, counts (k' a) m) -> counts (bind ask k') m.
Proof. intros H s n. unfold bind, ask, gets. cbn [fst]. apply H. Qed.
Lemma ct_catch {S A} (m' : M (S * nat) A) m h' h : counts m' m -> (forall e, counts (h' e) (h e)) -> counts (catch m' h') (catch m h).
Proof. intros H K s n. unfold catch. rewrite <- (H s n). destruct (m' (s, n)) as [a [s' n']|e [s' n']|w|]; cbn [plain fst]; try reflexivity. apply K. Qed.
Lemma ct_inside {T S A} (g : T -> S) p (m' : M (S * nat) A) m : counts m' m -> counts (inside g p m') (zoom g p m).
Proof. intros H s n. unfold inside, zoom. cbn [fst snd]. rewrite <- (H (g s) n). destruct (m' (g s, n)) as [a [s' n']|e [s' n']|w|]; reflexivity. Qed.
Lemma ct_fuel {S A} : counts (S:=S) (A:=A) (fun _ => OutOfFuel) (fun _ => OutOfFuel). Proof. intros s n; reflexivity. Qed.
Lemma ct_ub {S A} w : counts (S:=S) (A:=A) (fun _ => UB w) (fun _ => UB w). Proof. intros s n; reflexivity. Qed.
Lemma ct_split {A} (m' : M ((sp * list (option ascii)) * nat) A) m : erased m' m -> counts m' m.
Proof. intros H s n. exact (H s n). Qed.

Ltac ct :=
  repeat match goal with
  | |- counts (ret _) _ => apply ct_ret
  | |- counts (free _) _ => apply ct_free
  | |- counts (ub _) _ => apply ct_ub
  | |- counts (bind (spend _) _) _ => apply ct_spend
  | |- counts (bind ask _) (bind get _) => apply ct_ask; intros ?
  | |- counts (bind ask _) (bind (gets _) _) => apply ct_gets; intros ?
  | |- counts (bind ask _) _ => apply ct_look; intros ?
  | |- counts (bind _ _) (bind _ _) => apply ct_bind; [|intros ?]
  | |- counts (catch _ _) (catch _ _) => apply ct_catch; [|intros ?]
  | |- counts (n_on_lp _ _) (on_lp _ _) => apply ct_inside
  | |- counts (n_on_rdr _) (on_rdr _) => apply ct_inside
  | |- counts (n_on_sp _) (on_sp _) => apply ct_inside
  | |- counts (if ?b then _ else _) _ => destruct b
  | |- counts (let '(_, _) := ?x in _) _ => destruct x
  | H : forall _, counts _ _ |- _ => apply H
  | H : forall _ _, counts _ _ |- _ => apply H
  | H : counts _ _ |- _ => apply H
  end.
Lemma ct_grow n : counts (n_grow n) (grow n). Proof. unfold n_grow. ct. Qed.
Lemma ct_put i ch : counts (n_put i ch) (put i ch). Proof. unfold n_put. ct. Qed.
Lemma ct_peek i : counts (n_peek i) (peek i). Proof. unfold n_peek. ct. Qed.
Lemma ct_glb : forall rest used k, counts (n_glb_loop used k rest) (glb_loop used k rest).
Proof.
  pose proof ct_grow. pose proof ct_put.
  induction rest as [|ch rest IH]; intros used k; cbn [n_glb_loop glb_loop]; ct.
Qed.
Lemma ct_buffer rest : counts (n_get_line_buffer rest) (get_line_buffer rest).
Proof. pose proof ct_grow. destruct rest as [|ch rest]; [apply ct_ret|]. unfold n_get_line_buffer, get_line_buffer. ct. apply ct_glb. Qed.
Lemma ct_posix cap rest : counts (n_get_line_posix cap rest) (get_line_posix cap rest).
Proof. unfold n_get_line_posix. ct. Qed.
Lemma ct_strlen : forall f i, counts (n_strlen_from f i) (strlen_from f i).
Proof. pose proof ct_peek. induction f as [|f IH]; intros i; cbn [n_strlen_from strlen_from]; [apply ct_ub|]. ct. Qed.
Lemma ct_put_all : forall s i, counts (n_put_all i s) (put_all i s).
Proof. pose proof ct_put. induction s as [|x s IH]; intros i; cbn [n_put_all put_all]; ct. Qed.
Lemma ct_fgets_loop : forall f u rest, counts (n_fgets_loop f u rest) (fgets_loop f u rest).
Proof.
  pose proof ct_grow. pose proof ct_put. pose proof ct_peek.
  induction f as [|f IH]; intros u rest; cbn [n_fgets_loop fgets_loop]; [apply ct_fuel|].
  destruct rest as [|x rest]; [apply ct_ret|]. destruct (fgets_take (initial_size - 1) (x :: rest)) as [bf rest'].
  apply ct_spend, ct_ask. intros l0. apply ct_bind; [apply ct_strlen|intros u1]. cbv zeta. apply ct_spend, ct_gets. intros l.
  apply ct_bind; [ct|intros _]. apply ct_bind; [apply ct_put_all|intros _]. apply ct_bind; [ct|intros _].
  destruct (u1 + strlen bf); ct.
Qed.
Lemma ct_fgets rest : counts (n_get_line_fgets rest) (get_line_fgets rest).
Proof. pose proof ct_grow. pose proof ct_put. unfold n_get_line_fgets, get_line_fgets. ct. apply ct_fgets_loop. Qed.
Lemma ct_on_next {A} (m' : nat -> M (vst * nat) A) m : (forall id, counts (m' id) (m id)) -> counts (n_on_next m') (on_next m).
Proof.
  intros H r n. unfold n_on_next, on_next. cbn [fst snd]. destruct (r_nl r) as [b|]; [|reflexivity]. rewrite <- (H (b_id b) (r_nconv r, b_cells b) n).
  destruct (m' (b_id b) _) as [a [[v cs] n']|e [[v cs] n']|w|]; reflexivity.
Qed.

Section Erase.
Context (c : cfg) (cap : nat -> nat -> nat).
Lemma ct_cv_split blk d : counts (n_cv_split c blk d) (cv_split c blk d).
Proof. unfold n_cv_split, cv_split. ct. apply ct_split, er_split. Qed.
Lemma ct_cv_resplit blk n d : counts (n_cv_resplit c blk n d) (cv_resplit c blk n d).
Proof. unfold n_cv_resplit, cv_resplit. ct. apply ct_split, er_resplit. Qed.
Lemma ct_get_line w : counts (n_get_line cap w) (get_line cap w).
Proof. unfold n_get_line, get_line. apply ct_ask. intros r. destruct (r_src r); ct; first [apply ct_posix|apply ct_fgets|apply ct_buffer]. Qed.
Lemma ct_remove_eol w n : counts (n_remove_eol w n) (remove_eol w n). Proof. unfold n_remove_eol. ct. Qed.
Lemma ct_read_next_loop : forall f, counts (n_read_next_loop c cap f) (read_next_loop c cap f).
Proof.
  pose proof ct_get_line. pose proof ct_remove_eol. pose proof ct_put.
  induction f as [|f IH]; cbn [n_read_next_loop read_next_loop]; [apply ct_fuel|].
  apply ct_bind; [ct|intros _]. apply ct_ask; intros r. apply ct_bind; [ct|intros _]. apply ct_bind; [ct|intros _]. apply ct_bind; [ct|intros [k|]]; ct.
Qed.
Lemma ct_read_next : counts (n_read_next c cap) (read_next c cap).
Proof. unfold n_read_next, read_next. ct. apply ct_read_next_loop. Qed.
Lemma ct_escapes : forall i, counts (n_count_escapes c i) (count_escapes c i).
Proof. pose proof ct_peek. induction i as [|i IH]; cbn [n_count_escapes count_escapes]; ct. Qed.
Lemma ct_escaped_eol n : counts (n_escaped_eol c n) (escaped_eol c n).
Proof. pose proof ct_escapes. unfold n_escaped_eol, escaped_eol. ct. Qed.
Lemma ct_append : counts (n_append_next_line_to_buffer cap) (append_next_line_to_buffer cap).
Proof.
  pose proof ct_get_line. pose proof ct_remove_eol. unfold n_append_next_line_to_buffer, append_next_line_to_buffer, n_undo_remove_eol, n_realloc_concat.
  apply ct_bind; [ct|intros _]. apply ct_bind; [ct|intros _]. apply ct_bind; [ct|intros [k|]]; ct.
Qed.
Lemma ct_escape_loop : forall f l, counts (n_escape_loop c cap f l) (escape_loop c cap f l).
Proof.
  pose proof ct_append. pose proof ct_escaped_eol. induction f as [|f IH]; intros l; cbn [n_escape_loop escape_loop]; [apply ct_fuel|]. ct.
Qed.
Lemma ct_escape_part l : counts (n_escape_part c cap l) (escape_part c cap l).
Proof. unfold n_escape_part, escape_part. ct. apply ct_escape_loop. Qed.
Lemma ct_quote_loop : forall f l, counts (n_quote_loop c cap f l) (quote_loop c cap f l).
Proof.
  pose proof ct_append. pose proof ct_escape_part. pose proof ct_cv_resplit.
  induction f as [|f IH]; intros l; cbn [n_quote_loop quote_loop]; [apply ct_fuel|]. ct. apply ct_on_next. intros id. apply ct_cv_resplit.
Qed.
Lemma ct_parse : counts (n_parse c cap) (parse c cap).
Proof. pose proof ct_escape_part. pose proof ct_cv_split. unfold n_parse, parse. ct; first [apply ct_quote_loop|apply ct_on_next; intros id; apply ct_cv_split]. Qed.
Lemma ct_get_buffer : counts n_get_buffer get_buffer. Proof. unfold n_get_buffer. ct. Qed.
Lemma ct_read_line : counts (n_read_line c cap) (read_line c cap).
Proof. pose proof ct_read_next. unfold n_read_line, read_line. ct. Qed.
Theorem ct_construct m : counts (n_construct c cap) (construct c cap true m).
Proof. pose proof ct_read_next. pose proof ct_read_line. pose proof ct_get_buffer. unfold n_construct, construct, ignore_next. ct. Qed.
Theorem ct_get_next es : counts (n_get_next c cap es) (get_next c cap es).
Proof.
  pose proof ct_read_line. pose proof ct_parse. unfold n_get_next, get_next. apply ct_ask; intros p.
  apply ct_bind; [destruct (p_eof p); [ct|destruct (c_mode c); ct]|intros _]. apply ct_bind; [ct|intros _]. apply ct_ask; intros q.
  destruct (negb _); [ct|]. apply ct_bind; [ct|intros _]. destruct (p_eof q); [ct|]. destruct (c_mode c); ct.
Qed.
End Erase.
