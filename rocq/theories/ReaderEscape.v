(** Line ends preceded by an escape: the escape loops of parse. *)
From Verif Require Import Base Setup Splitter Extract Converter Reader ListFacts LineProofs GetLineProofs ReaderBase ReaderInv ReaderLines.

(** Why a row could not be completed. *)
Inductive stop := StLimit | StEscape | StQuote.
Definition stop_msg (s : stop) : str :=
  match s with StLimit => msg_multiline_limit | StEscape => msg_unterminated_escape | StQuote => msg_unterminated_quote end.
Definition stop_err (c : cfg) (s : stop) : err := match c_mode c with EString => Some (stop_msg s) | EBool => Some [] | EThrow => None end.
(** What the error handlers leave in the converter. *)
Definition fail_conv (c : cfg) (s : stop) (v : conv) : conv :=
  match s with
  | StLimit => let v := vup_sp (up_uq false (v_sp v)) v in
               match c_mode c with EThrow => v | _ => vup_err (stop_err c s) v end
  | _ => match c_mode c with
         | EThrow => v
         | EString => vup_err (Some (stop_msg s)) (vup_sp (up_err (Some (stop_msg s)) (v_sp v)) v)
         | EBool => vup_err (Some []) v
         end
  end.
Definition stopped {A} (c : cfg) (s : stop) (a : A) (r : rdr) : res rdr A :=
  let r' := rset_nconv (fail_conv c s (r_nconv r)) r in
  match c_mode c with EThrow => Throw (stop_msg s) r' | _ => Ok a r' end.

Lemma stop_limit_eq c r : on_nconv (handle_error_multiline_limit_reached c) r = stopped c StLimit tt r.
Proof.
  unfold on_nconv, handle_error_multiline_limit_reached, stopped, fail_conv, cv_error, stop_err.
  destruct (c_mode c) eqn:E; cbn; rewrite ?E; reflexivity.
Qed.
Lemma stop_escape_eq c r : on_nconv (handle_error_unterminated_escape c) r = stopped c StEscape tt r.
Proof.
  unfold on_nconv, handle_error_unterminated_escape, stopped, fail_conv, sp_error, on_sp, zoom.
  destruct (c_mode c) eqn:E; cbn; rewrite ?E; try reflexivity. destruct (r_nconv r); reflexivity.
Qed.
Lemma stop_quote_eq c r : on_nconv (handle_error_unterminated_quote c) r = stopped c StQuote tt r.
Proof.
  unfold on_nconv, handle_error_unterminated_quote, stopped, fail_conv, sp_error, on_sp, zoom.
  destruct (c_mode c) eqn:E; cbn; rewrite ?E; try reflexivity. destruct (r_nconv r); reflexivity.
Qed.

Lemma fail_cvok c s v : cvok c v -> cvok c (fail_conv c s v).
Proof.
  intros (A & B & C & D). unfold fail_conv, cvok. destruct s, (c_mode c) eqn:E; cbn; repeat split; try assumption; try congruence; auto.
Qed.
Lemma fail_map c s v : v_map (fail_conv c s v) = v_map v /\ v_ncols (fail_conv c s v) = v_ncols v.
Proof. unfold fail_conv. destruct s, (c_mode c); split; reflexivity. Qed.
Lemma fail_err c s v : c_mode c <> EThrow -> v_err (fail_conv c s v) = stop_err c s.
Proof. unfold fail_conv, stop_err. destruct s, (c_mode c); cbn; congruence. Qed.
Lemma fail_uq c s v : s_uq (v_sp (fail_conv c s v)) = match s with StLimit => false | _ => s_uq (v_sp v) end.
Proof. unfold fail_conv. destruct s, (c_mode c); reflexivity. Qed.

(** Length of the run of escape characters at the end of [B]. *)
Fixpoint esc_run (c : cfg) (l : str) : nat :=
  match l with [] => 0 | x :: l' => if escape_match c x then S (esc_run c l') else 0 end.
Definition esc_tail (c : cfg) (B : str) : nat := esc_run c (rev B).

Lemma count_escapes_spec c r b B : forall B1 Y, r_nl r = Some b -> b_cells b = map Some (B1 ++ B) ++ Y ->
  count_escapes c (length B1) r = Ok (esc_tail c B1) r.
Proof.
  intros B1. unfold esc_tail. revert B. induction B1 as [|x B1 IH] using rev_ind; intros B Y Hb Hc; [reflexivity|].
  rewrite app_length, Nat.add_1_r. cbn [count_escapes]. unfold bind at 1.
  assert (P : on_lp NextLine (peek (length B1)) r = Ok x r).
  { apply on_lp_get. cbn [lp_of]. rewrite Hb.
    apply (peek_at b (map Some B1) x (map Some B ++ Y)); [|rewrite map_length; reflexivity].
    rewrite Hc, !map_app, <- !app_assoc. reflexivity. }
  rewrite P. rewrite rev_unit. cbn [esc_run]. destruct (escape_match c x); [|reflexivity].
  unfold bind. rewrite (IH (x :: B) Y Hb). { reflexivity. }
  rewrite Hc, <- app_assoc. reflexivity.
Qed.
Lemma escaped_eol_spec c r B Y : nlbuf r B Y -> escaped_eol c (r_nlsize r) r = Ok (Nat.odd (esc_tail c B)) r.
Proof.
  intros (b & Hb & Hc & Hn). unfold escaped_eol, bind. rewrite Hn.
  rewrite (count_escapes_spec c r b [] B Y Hb) by (rewrite app_nil_r; exact Hc).
  unfold ret. rewrite Nat.even_succ. reflexivity.
Qed.

Section I.
Context (c : cfg) (d : str) (cap : nat -> nat -> nat) (Hcap : forall n need, need <= cap n need).

(** The value of the local variable [limit] after [n] lines were appended. *)
Definition lim (n : nat) : nat := if 0 <? c_mlsize c then n else 0.
Definition hit (n : nat) : bool := (0 <? c_mlsize c) && (c_mlsize c <=? n).
Lemma limit_spec n r : multiline_limit_reached c (lim n) r =
  if hit n then stopped c StLimit (S (lim n), true) r else Ok (lim (S n), false) r.
Proof.
  unfold multiline_limit_reached, lim, hit. destruct (0 <? c_mlsize c); cbn [andb]; [|reflexivity].
  destruct (c_mlsize c <=? n); [|reflexivity]. unfold bind. rewrite stop_limit_eq. unfold stopped. destruct (c_mode c); reflexivity.
Qed.

Inductive eg := EGo (B e : str) (n : nat) (more : list (str * str)) | EStop (s : stop) (n : nat) (more : list (str * str)).
Fixpoint egather (more : list (str * str)) (n : nat) (B e : str) : eg :=
  if Nat.odd (esc_tail c B) then
    if hit n then EStop StLimit n more
    else match more with
         | [] => EStop StEscape n []
         | (t, e') :: more' => egather more' (S n) (B ++ e ++ t) e'
         end
  else EGo B e n more.

Definition pos (r : rdr) : Z := (r_curr r + Z.of_nat (length (unread r)))%Z.

Lemma rinv_stop s r : rinv c d r -> rinv c d (rset_nconv (fail_conv c s (r_nconv r)) r).
Proof.
  intros I. apply rinv_nconv; [exact I|apply fail_cvok, (i_nconv _ _ _ I)|apply fail_map|apply fail_map].
Qed.

(** [B'] continues [B] behind a line end. *)
Definition extends (B B' : str) : Prop := B' = B \/ exists y w, B' = B ++ y :: w /\ (y = LF \/ y = CR).

Lemma escape_loop_spec : forall fuel r B e n, rinv c d r -> bufline r B e -> length (unread r) < fuel ->
  match egather (lines (unread r)) n B e with
  | EGo B' e' n' more => exists r', escape_loop c cap fuel (lim n) r = Ok (true, lim n') r' /\ rinv c d r' /\ quiet r r' /\
      bufline r' B' e' /\ lines (unread r') = more /\ n <= n' /\ r_line r' = r_line r + (n' - n) /\ pos r' = pos r /\
      (nulfree (unread r) -> nulfree (unread r') /\ exists w, B' = B ++ w /\ nulfree w) /\ extends B B' /\ length (unread r') <= length (unread r) - (n' - n)
  | EStop s n' more => exists r1 l, escape_loop c cap fuel (lim n) r = stopped c s (false, l) r1 /\ rinv c d r1 /\ quiet r r1 /\
      lines (unread r1) = more /\ n <= n' /\ r_line r1 = r_line r + (n' - n) /\
      (s = StLimit -> pos r1 = pos r) /\ s <> StQuote /\ (s = StEscape -> more = []) /\ (nulfree (unread r) -> nulfree (unread r1)) /\
      length (unread r1) <= length (unread r)
  end.
Proof.
  induction fuel as [|f IH]; intros r B e n I HB Hf; [lia|].
  destruct (bufline_nlbuf _ _ _ HB) as (Y & HN & He & HY).
  remember (escape_loop c cap (S f) (lim n) r) as o eqn:Eo. cbn [escape_loop] in Eo.
  unfold bind at 1, get in Eo. unfold bind at 1 in Eo. rewrite (escaped_eol_spec c r B Y HN) in Eo.
  assert (EG : egather (lines (unread r)) n B e =
    if Nat.odd (esc_tail c B) then
    if hit n then EStop StLimit n (lines (unread r))
    else match lines (unread r) with
         | [] => EStop StEscape n []
         | (t, e') :: more' => egather more' (S n) (B ++ e ++ t) e'
         end
    else EGo B e n (lines (unread r))) by (destruct (lines (unread r)) as [|[? ?] ?]; reflexivity).
  rewrite EG. clear EG. destruct (Nat.odd (esc_tail c B)) eqn:Eodd.
  2:{ exists r. split; [exact Eo|]. split; [exact I|]. split; [apply quiet_refl|]. split; [exact HB|]. split; [reflexivity|].
      split; [lia|]. split; [lia|]. split; [reflexivity|]. split; [intros N; split; [exact N|]; exists []; rewrite app_nil_r; split; [reflexivity|apply nulfree_nil]|]. split; [left; reflexivity|lia]. }
  unfold bind at 1 in Eo. rewrite limit_spec in Eo. destruct (hit n) eqn:Eh.
  { exists r, (S (lim n)). split.
    { rewrite Eo. unfold stopped. destruct (c_mode c); reflexivity. }
    split; [exact I|]. split; [apply quiet_refl|]. split; [reflexivity|]. split; [lia|]. split; [lia|]. split; [reflexivity|].
    split; [discriminate|]. split; [discriminate|]. split; [auto|lia]. }
  unfold bind at 1 in Eo.
  pose proof (append_spec c d cap Hcap r B Y e I HN He ltac:(lia)) as A.
  destruct (lines (unread r)) as [|[t e'] more] eqn:El.
  - destruct A as (r1 & A1 & A2 & A3 & A4 & A5 & A6). rewrite A1 in Eo.
    unfold bind at 1 in Eo. rewrite stop_escape_eq in Eo. exists r1, (lim (S n)). split.
    { rewrite Eo. unfold stopped. destruct (c_mode c); reflexivity. }
    split; [exact A2|]. split; [exact A3|]. split; [rewrite A4; reflexivity|]. split; [lia|]. split; [lia|]. split; [discriminate|].
    split; [discriminate|]. split; [reflexivity|]. rewrite A4. split; [intros _; apply nulfree_nil|cbn; lia].
  - destruct A as (r1 & A1 & A2 & A3 & A4 & A5 & A6 & A7 & A8 & (y & w & A9 & A9') & A10 & _). rewrite A1 in Eo.
    specialize (IH r1 (B ++ e ++ t) e' (S n) A2 A5 ltac:(lia)). rewrite A6, <- Eo in IH.
    destruct (egather more (S n) (B ++ e ++ t) e') as [B2 e2 n2 more2|s n2 more2].
    + destruct IH as (r' & C1 & C2 & C3 & C4 & C5 & C6 & C7 & C8 & C9 & C10 & C11). exists r'.
      split; [exact C1|]. split; [exact C2|]. split; [eapply quiet_trans; eauto|]. split; [exact C4|]. split; [exact C5|]. split; [lia|].
      split; [rewrite C7, A4; lia|]. split; [unfold pos in *; congruence|].
      split.
      { intros N. specialize (A7 N). rewrite !nulfree_app in A7. destruct A7 as (N1 & N2 & N3). destruct (C9 N3) as (N4 & w3 & E3 & N5).
        split; [exact N4|]. exists ((e ++ t) ++ w3). rewrite E3, !nulfree_app, <- !app_assoc. auto. }
      split; [|lia]. right. rewrite A9 in C10. destruct C10 as [->|(y2 & w2 & -> & _)].
      * exists y, (w ++ t). split; [reflexivity|exact A9'].
      * exists y, (w ++ t ++ y2 :: w2). split; [|exact A9']. rewrite <- !app_assoc. reflexivity.
    + destruct IH as (r' & l & C1 & C2 & C3 & C4 & C5 & C6 & C7 & C8 & C9 & C10 & C11). exists r', l.
      split; [exact C1|]. split; [exact C2|]. split; [eapply quiet_trans; eauto|]. split; [exact C4|]. split; [lia|].
      split; [rewrite C6, A4; lia|]. split; [intros Hs; specialize (C7 Hs); unfold pos in *; congruence|]. split; [exact C8|]. split; [exact C9|].
      split; [|lia]. intros N. apply C10. specialize (A7 N). rewrite !nulfree_app in A7. tauto.
Qed.

Definition egather_if (more : list (str * str)) (n : nat) (B e : str) : eg :=
  if escaped_multiline c then egather more n B e else EGo B e n more.

Lemma escape_part_spec r B e n : rinv c d r -> bufline r B e ->
  match egather_if (lines (unread r)) n B e with
  | EGo B' e' n' more => exists r', escape_part c cap (lim n) r = Ok (true, lim n') r' /\ rinv c d r' /\ quiet r r' /\
      bufline r' B' e' /\ lines (unread r') = more /\ n <= n' /\ r_line r' = r_line r + (n' - n) /\ pos r' = pos r /\
      (nulfree (unread r) -> nulfree (unread r') /\ exists w, B' = B ++ w /\ nulfree w) /\ extends B B' /\ length (unread r') <= length (unread r) - (n' - n)
  | EStop s n' more => exists r1 l, escape_part c cap (lim n) r = stopped c s (false, l) r1 /\ rinv c d r1 /\ quiet r r1 /\
      lines (unread r1) = more /\ n <= n' /\ r_line r1 = r_line r + (n' - n) /\
      (s = StLimit -> pos r1 = pos r) /\ s <> StQuote /\ (s = StEscape -> more = []) /\ (nulfree (unread r) -> nulfree (unread r1)) /\
      length (unread r1) <= length (unread r)
  end.
Proof.
  intros I HB. unfold egather_if, escape_part. destruct (escaped_multiline c).
  - unfold bind, get. apply escape_loop_spec; auto.
  - exists r. split; [reflexivity|]. split; [exact I|]. split; [apply quiet_refl|]. split; [exact HB|]. split; [reflexivity|].
      split; [lia|]. split; [lia|]. split; [reflexivity|]. split; [intros N; split; [exact N|]; exists []; rewrite app_nil_r; split; [reflexivity|apply nulfree_nil]|]. split; [left; reflexivity|lia].
Qed.
End I.
