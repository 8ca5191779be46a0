(** splitter.hpp once more, counting the accesses to the line: one for every character that is looked at and one for
    every character that is moved (C55).  Nothing else in these functions takes time that depends on the line, except
    the growth of [split_data_] (amortised constant time per column).

    The functions are those of Splitter.v, line by line; [run_erased] proves that they are, once the counter is forgotten.
    The code reads [*end_] up to three times in one iteration where the model (and the counter) has one [load]: a constant
    factor. *)
From Verif Require Import Base Setup Splitter SplitPure ListFacts SplitApi.

(** The splitter, the line, and the number of accesses so far. *)
Notation cst := ((sp * list (option ascii)) * nat)%type (only parsing).
Definition lift {A} (m : M sst A) : M cst A := zoom fst (fun s t => (s, snd t)) m.
Definition tick (k : nat) : M cst unit := modify (fun t => (fst t, snd t + k)).
Definition cload (p : nat) : M cst ascii := tick 1 ;; lift (load p).
Definition cupd (f : sp -> sp) : M cst unit := lift (upd f).
Definition cget {A} (f : sp -> A) : M cst A := lift (sget f).

(** splitter.hpp:203-209 *)
Fixpoint n_strncmp (p : nat) (d : str) : M cst bool :=
  match d with
  | [] => ret true
  | x :: d' =>
      a <- cload p ;;
      if negb (Ascii.eqb a x) then ret false
      else if Ascii.eqb a NUL then ret true
      else n_strncmp (S p) d'
  end.
Definition n_match (p : nat) (d : delim) : M cst bool :=
  match d with
  | DChar x => a <- cload p ;; ret (Ascii.eqb a x)
  | DStr s => n_strncmp p s
  end.

(** splitter.hpp:219-233 *)
Fixpoint n_trim_loop (fuel : nat) (cs : list ascii) (p : nat) : M cst nat :=
  match fuel with
  | 0 => fun _ => OutOfFuel
  | S f => a <- cload p ;; if mem a cs then n_trim_loop f cs (S p) else ret p
  end.
Definition n_fuel : M cst nat := lift fuel_of.
Definition n_trim (cs : list ascii) (p : nat) : M cst nat :=
  match cs with
  | [] => ret p
  | _ => f <- n_fuel ;; n_trim_loop f cs p
  end.

Section WithCfg.
Context (c : cfg).

(** The number of characters copy_n moves (splitter.hpp:297-306). *)
Definition moved (s : sp) : nat :=
  if negb (is_const_line c) && (0 <? s_esc s) then s_end s - s_curr s - s_esc s else 0.
Definition n_shift_and_set_current : M cst unit :=
  k <- cget moved ;;
  tick k ;;
  lift (shift_and_set_current c).

(** splitter.hpp:279-285 *)
Definition n_jump : M cst unit :=
  n_shift_and_set_current ;;
  when (negb (is_const_line c)) (cupd (fun s => up_esc (S (s_esc s)) s)) ;;
  cupd (fun s => up_end (S (s_end s)) s).

(** splitter.hpp:292-295 *)
Definition n_push : M cst unit :=
  n_shift_and_set_current ;;
  cupd (fun s => up_sd (s_sd s ++ [(s_begin s, s_curr s)]) s).

(** splitter.hpp:287-290 *)
Definition n_push_next (n : nat) : M cst unit :=
  n_push ;;
  cupd (fun s => up_begin (s_end s + n) s).

(** splitter.hpp:264-277 *)
Definition n_shift_if_escaped (curr : nat) : M cst unit :=
  if escape_enabled c then
    a <- cload curr ;;
    if escape_match c a then
      b <- cload (S curr) ;;
      if Ascii.eqb b NUL then
        when (negb (c_ml c)) (lift (sp_error c msg_unterminated_escape)) ;;
        cupd (up_done true)
      else n_jump
    else ret tt
  else ret tt.

(** splitter.hpp:235-258 *)
Definition n_match_delimiter (begin : nat) (d : delim) : M cst (nat * bool) :=
  e <- n_trim (c_trimr c) begin ;;
  a <- cload e ;;
  if Ascii.eqb a NUL then ret (0, false)
  else
    b <- n_match e d ;;
    if negb b then
      n_shift_if_escaped e ;;
      ret (1 + e - begin, false)
    else
      e' <- n_trim (c_triml c) (e + delimiter_size d) ;;
      ret (e' - begin, true).

(** splitter.hpp:364-386 *)
Fixpoint n_normal (fuel : nat) (d : delim) : M cst unit :=
  match fuel with
  | 0 => fun _ => OutOfFuel
  | S f =>
      e <- cget s_end ;;
      '(width, valid) <- n_match_delimiter e d ;;
      if negb valid then
        if width =? 0 then
          n_push ;;
          cupd (up_done true)
        else
          cupd (fun s => up_end (s_end s + width) s) ;;
          n_normal f d
      else n_push_next width
  end.

(** splitter.hpp:388-466 *)
Fixpoint n_quoted (fuel : nat) (d : delim) : M cst unit :=
  match fuel with
  | 0 => fun _ => OutOfFuel
  | S f =>
      e <- cget s_end ;;
      a <- cload e ;;
      if negb (quote_match c a) then
        if escape_enabled c && escape_match c a then
          b <- cload (S e) ;;
          if Ascii.eqb b NUL then
            when (negb (c_ml c)) (lift (sp_error c msg_unterminated_escape)) ;;
            cupd (up_done true)
          else
            n_jump ;;
            cupd (fun s => up_end (S (s_end s)) s) ;;
            n_quoted f d
        else if Ascii.eqb a NUL then
          n_shift_and_set_current ;;
          cupd (up_uq true) ;;
          when (negb (c_ml c)) (lift (sp_error c msg_unterminated_quote)) ;;
          cupd (fun s => up_sd (s_sd s ++ [(0, s_begin s)]) s) ;;
          cupd (up_done true)
        else
          cupd (fun s => up_end (S (s_end s)) s) ;;
          n_quoted f d
      else
        '(width, valid) <- n_match_delimiter (S e) d ;;
        if valid : bool then n_push_next (width + 1)
        else
          e' <- cget s_end ;;
          b <- cload (S e') ;;
          if quote_match c b then
            n_jump ;;
            cupd (fun s => up_end (S (s_end s)) s) ;;
            n_quoted f d
          else
            (if width =? 0 then n_push
             else
               e'' <- cget s_end ;;
               lift (sp_error c (msg_mismatched e'')) ;;
               cupd (fun s => up_sd (s_sd s ++ [(0, s_begin s)]) s)) ;;
            cupd (up_done true)
  end.

(** splitter.hpp:342-362 *)
Definition n_read (d : delim) : M cst unit :=
  f <- n_fuel ;;
  cupd (up_esc 0) ;;
  if quote_enabled c then
    r <- cget s_resp ;;
    if c_ml c && r then
      cupd (up_resp false) ;;
      cupd (fun s => up_begin (S (s_begin s)) s) ;;
      n_quoted f d
    else
      b <- cget s_begin ;;
      a <- cload b ;;
      if quote_match c a then
        cupd (fun s => up_curr (S b) (up_end (S b) (up_begin (S b) s))) ;;
        n_quoted f d
      else
        cupd (fun s => up_curr b (up_end b s)) ;;
        n_normal f d
  else
    b <- cget s_begin ;;
    cupd (fun s => up_curr b (up_end b s)) ;;
    n_normal f d.

(** splitter.hpp:331-333 *)
Fixpoint n_loop (fuel : nat) (d : delim) : M cst unit :=
  match fuel with
  | 0 => fun _ => OutOfFuel
  | S f =>
      dn <- cget s_done ;;
      if dn : bool then ret tt
      else n_read d ;; n_loop f d
  end.

(** splitter.hpp:326-336 *)
Definition n_impl (d : delim) : M cst unit :=
  b <- cget s_begin ;;
  b' <- n_trim (c_triml c) b ;;
  cupd (up_begin b') ;;
  cupd (up_done false) ;;
  f <- n_fuel ;;
  n_loop (S f) d.

(** splitter.hpp:312-324 *)
Definition n_select (delimiter : str) : M cst unit :=
  lift (sp_clear_error c) ;;
  match delimiter with
  | [] => lift (sp_error c msg_empty_delimiter)
  | [x] => n_impl (DChar x)
  | _ => n_impl (DStr delimiter)
  end.

(** splitter.hpp:50-56 *)
Definition n_split (blk : nat) (delimiter : str) : M cst unit :=
  cupd (fun s => up_begin 0 (up_blk blk (up_sd [] s))) ;;
  n_select delimiter.

(** splitter.hpp:83-116 *)
Definition n_resplit (blk new_size : nat) (delimiter : str) : M cst unit :=
  s <- cget (fun s => s) ;;
  if negb (quote_enabled c) || negb (c_ml c)
     || (match s_sd s with [] => true | _ => false end) || negb (s_uq s) then
    lift (sp_error c msg_invalid_resplit)
  else
    let '(_, old_begin) := last (s_sd s) (0, 0) in
    let begin := old_begin - 1 in
    if new_size <? begin then lift (sp_error c msg_invalid_resplit)
    else
      cupd (fun s =>
             up_resp true
               (up_curr (s_end s - s_esc s)
                  (up_end (s_end s - s_esc s)
                     (up_begin begin
                        (up_blk blk (up_sd (removelast (s_sd s)) s)))))) ;;
      n_select delimiter.

End WithCfg.

(** ** Forgetting the counter gives back the splitter. *)
Definition forget {A} (o : res cst A) : res sst A :=
  match o with
  | Ok a t => Ok a (fst t)
  | Throw e t => Throw e (fst t)
  | UB w => UB w
  | OutOfFuel => OutOfFuel
  end.
Definition erased {A} (m' : M cst A) (m : M sst A) : Prop := forall st n, forget (m' (st, n)) = m st.

Lemma er_ret {A} (a : A) : erased (ret a) (ret a). Proof. intros st n; reflexivity. Qed.
Lemma er_lift {A} (m : M sst A) : erased (lift m) m.
Proof. intros st n. unfold lift, zoom. cbn [fst snd]. destruct (m st); reflexivity. Qed.
Lemma er_bind {A B} (m' : M cst A) m (k' : A -> M cst B) k : erased m' m -> (forall a, erased (k' a) (k a)) ->
  erased (bind m' k') (bind m k).
Proof.
  intros H K st n. unfold bind. rewrite <- (H st n). destruct (m' (st, n)) as [a [st' n']|e [st' n']|w|]; cbn [forget fst]; try reflexivity.
  apply K.
Qed.
Lemma er_tick {A} k (m' : M cst A) m : erased m' m -> erased (tick k ;; m') m.
Proof. intros H st n. unfold bind, tick, modify. cbn [fst snd]. apply H. Qed.
Lemma er_cget {A B} (f : sp -> A) (k' : A -> M cst B) m : (forall a, erased (k' a) m) -> erased (bind (cget f) k') m.
Proof. intros H [s mm] n. unfold bind, cget, lift, zoom, sget, gets. cbn [fst snd]. apply H. Qed.
Lemma er_fuel {A} : erased (A:=A) (fun _ => OutOfFuel) (fun _ => OutOfFuel). Proof. intros st n; reflexivity. Qed.
Lemma er_load p : erased (cload p) (load p). Proof. apply er_tick, er_lift. Qed.
Lemma er_upd f : erased (cupd f) (upd f). Proof. apply er_lift. Qed.
Lemma er_get {A} (f : sp -> A) : erased (cget f) (sget f). Proof. apply er_lift. Qed.
Lemma er_when b m' m : erased m' m -> erased (when b m') (when b m).
Proof. intros H. destruct b; [exact H|apply er_ret]. Qed.

Ltac er :=
  repeat match goal with
  | |- erased (ret _) _ => apply er_ret
  | |- erased (lift _) _ => apply er_lift
  | |- erased (cload _) _ => apply er_load
  | |- erased (cupd _) _ => apply er_upd
  | |- erased (cget _) _ => apply er_get
  | |- erased (when _ _) _ => apply er_when
  | |- erased (bind _ _) (bind _ _) => apply er_bind; [|intros ?]
  | |- erased (if ?b then _ else _) _ => destruct b
  | |- erased (let '(_, _) := ?x in _) _ => destruct x
  | |- erased (match ?x with [] => _ | _ => _ end) _ => destruct x
  | |- erased (match ?x with DChar _ => _ | DStr _ => _ end) _ => destruct x
  | H : forall _, erased _ _ |- _ => apply H
  | H : erased _ _ |- _ => apply H
  end.

Lemma er_strncmp d : forall p, erased (n_strncmp p d) (strncmp_eq p d).
Proof. induction d as [|x d IH]; intros p; cbn [n_strncmp strncmp_eq]; er. Qed.
Lemma er_match p d : erased (n_match p d) (sp_match p d).
Proof. unfold n_match, sp_match. er. apply er_strncmp. Qed.
Lemma er_trim_loop cs : forall f p, erased (n_trim_loop f cs p) (trim_loop f cs p).
Proof. induction f as [|f IH]; intros p; cbn [n_trim_loop trim_loop]; [apply er_fuel|er]. Qed.
Lemma er_trim cs p : erased (n_trim cs p) (trim_if_enabled cs p).
Proof. unfold n_trim, trim_if_enabled, n_fuel. er; apply er_trim_loop. Qed.

Section Erase.
Context (c : cfg).
Lemma er_shift : erased (n_shift_and_set_current c) (shift_and_set_current c).
Proof. unfold n_shift_and_set_current. apply er_cget. intros k. apply er_tick, er_lift. Qed.
Lemma er_jump : erased (n_jump c) (shift_and_jump_escape c).
Proof. unfold n_jump, shift_and_jump_escape. pose proof er_shift. er. Qed.
Lemma er_push : erased (n_push c) (shift_and_push c).
Proof. unfold n_push, shift_and_push. pose proof er_shift. er. Qed.
Lemma er_push_next n : erased (n_push_next c n) (shift_push_and_start_next c n).
Proof. unfold n_push_next, shift_push_and_start_next. pose proof er_push. er. Qed.
Lemma er_shift_if p : erased (n_shift_if_escaped c p) (shift_if_escaped c p).
Proof. unfold n_shift_if_escaped, shift_if_escaped. pose proof er_jump. er. Qed.
Lemma er_md b d : erased (n_match_delimiter c b d) (match_delimiter c b d).
Proof. unfold n_match_delimiter, match_delimiter. er; first [apply er_trim|apply er_match|apply er_shift_if]. Qed.
Lemma er_normal d : forall f, erased (n_normal c f d) (read_normal c f d).
Proof.
  pose proof er_push. pose proof er_push_next.
  induction f as [|f IH]; cbn [n_normal read_normal]; [apply er_fuel|]. er. apply er_md.
Qed.
Lemma er_quoted d : forall f, erased (n_quoted c f d) (read_quoted c f d).
Proof.
  pose proof er_push. pose proof er_push_next. pose proof er_jump. pose proof er_shift.
  induction f as [|f IH]; cbn [n_quoted read_quoted]; [apply er_fuel|]. er; apply er_md.
Qed.
Lemma er_read d : erased (n_read c d) (sp_read c d).
Proof. unfold n_read, sp_read, n_fuel. er; first [apply er_quoted|apply er_normal]. Qed.
Lemma er_loop d : forall f, erased (n_loop c f d) (split_loop c f d).
Proof. pose proof (er_read d). induction f as [|f IH]; cbn [n_loop split_loop]; [apply er_fuel|er]. Qed.
Lemma er_impl d : erased (n_impl c d) (split_impl c d).
Proof. unfold n_impl, split_impl, n_fuel. er; first [apply er_trim|apply er_loop]. Qed.
Lemma er_select d : erased (n_select c d) (split_impl_select_delim c d).
Proof. unfold n_select, split_impl_select_delim. apply er_bind; [er|intros _]. destruct d as [|x [|y d]]; [er|apply er_impl|apply er_impl]. Qed.
Theorem er_split blk d : erased (n_split c blk d) (sp_split c blk d).
Proof. unfold n_split, sp_split. apply er_bind; [er|intros _; apply er_select]. Qed.
Theorem er_resplit blk n d : erased (n_resplit c blk n d) (sp_resplit c blk n d).
Proof.
  unfold n_resplit, sp_resplit. apply er_bind; [er|intros s]. destruct (_ || _); [er|].
  destruct (last (s_sd s) (0, 0)) as [x y]. cbv zeta. destruct (_ <? _); [er|]. apply er_bind; [er|intros _; apply er_select].
Qed.
End Erase.
