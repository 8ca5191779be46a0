(** C57: the work of reading is linear. *)
From Verif Require Import Base Setup Splitter SplitPure ListFacts SetupProofs Extract Converter Reader LineSpec LineProofs GetLineProofs ReaderBase ReaderInv ReaderEscape ReaderParse Parser ParserApi ParserInv ParserOpen SafeProofs PropSafe NoThrow SplitCost ReadCost ReadWork RowWork PortWork.

(** ** One call *)
Section C.
Context (c : cfg) (Hc : cfg_ok c) (d : str) (Hd : nulfree d) (cap : nat -> nat -> nat) (Hcap : forall n need, need <= cap n need).
Notation Kc := (4 * length d + 400).
(** What is left to read. *)
Definition rest (p : prs) : nat := if p_eof p then 3 * length (unread (p_rdr p)) else pot (p_rdr p).
Definition after_line (p : prs) (n : nat) (p' : prs) (n' : nat) : Prop :=
  direct (p_rdr p') /\ length (unread (p_rdr p')) <= length (unread (p_rdr p)) /\
  rest p' <= 3 * length (unread (p_rdr p)) /\ n' + 135 * rest p' <= n + 135 * (3 * length (unread (p_rdr p))) + 2.
Lemma read_line_cost p n : has NextLine (p_rdr p) -> ob (n_read_line c cap (p, n)) (fun _ p' n' => after_line p n p' n') (fun _ _ => False).
Proof.
  intros H. unfold n_read_line. apply ob_bind. unfold n_on_rdr. apply ob_inside.
  eapply ob_weaken; [apply (read_next_cost c cap Hcap); exact H| |auto]. intros b r' n' (D & U & N & S). cbv beta.
  apply ob_free; [|discriminate]. intros [] p' E. injection E as <-. unfold after_line, rest. cbn [p_rdr pset_eof pset_rdr p_eof].
  split; [exact D|]. split; [exact U|]. destruct b; cbn [negb].
  - destruct S as [S1 S2]. unfold pot. lia.
  - lia.
Qed.

Context (Q L : nat) (HQ : forall q, allowed c q -> q <= L -> q <= Q).
Notation F := ((Q + 1) * Kc).
Definition paid (p : prs) (n : nat) (p' : prs) (n' : nat) : Prop :=
  direct (p_rdr p') /\ length (unread (p_rdr p')) <= length (unread (p_rdr p)) /\ n' + F * rest p' <= n + F * (rest p + 2).
Lemma f_big : 400 <= F. Proof. nia. Qed.
Lemma paid_line p n p1 n1 p2 n2 : length (unread (p_rdr p1)) <= length (unread (p_rdr p)) -> n1 + F * (3 * length (unread (p_rdr p1))) <= n + F * (rest p + 1) ->
  after_line p1 n1 p2 n2 -> paid p n p2 n2.
Proof.
  intros U N (D2 & U2 & R2 & N2). split; [exact D2|]. split; [lia|]. pose proof f_big as B. remember F as f eqn:Ef. clear Ef.
  remember (rest p2) as r2. remember (3 * length (unread (p_rdr p1))) as u1. clear - N R2 N2 B. nia.
Qed.
(** After parse (or at the end of the data), nothing but errors and the converter change until the next line is read. *)
Definition like (p p' : prs) : Prop := p_eof p' = p_eof p /\ (has NextLine (p_rdr p) -> has NextLine (p_rdr p')) /\ unread (p_rdr p') = unread (p_rdr p).
Lemma like_refl p : like p p. Proof. split; [reflexivity|]. split; [auto|reflexivity]. Qed.
Lemma like_trans p q r : like p q -> like q r -> like p r.
Proof. intros (A1 & A2 & A3) (B1 & B2 & B3). split; [congruence|]. split; [auto|congruence]. Qed.
Lemma like_err e p : like p (pset_err e p). Proof. split; [reflexivity|]. split; [auto|reflexivity]. Qed.
Lemma handle_like p a p' : handle_error_invalid_conversion c p = Ok a p' -> like p p'.
Proof. unfold handle_error_invalid_conversion, bind, get, pupd, modify, ret. destruct (c_mode c); intros E; injection E as _ <-; try apply like_err. apply like_refl. Qed.
Lemma handle_quiet p e p' : handle_error_invalid_conversion c p <> Throw e p'.
Proof. unfold handle_error_invalid_conversion, bind, get, pupd, modify, ret. destruct (c_mode c); discriminate. Qed.
Lemma conv_like {A} (m : M (conv * list (option ascii)) A) p : match on_rdr (on_conv m) p with Ok _ p' => like p p' | Throw _ p' => like p p' | _ => True end.
Proof. unfold on_rdr, zoom, on_conv. destruct (m _) as [a [v cs]|e [v cs]|w|]; auto; (split; [reflexivity|]; split; [auto|reflexivity]). Qed.
Lemma rethrow_line {A} e p n p2 n2 (P : A -> prs -> nat -> Prop) : paid p n p2 n2 -> ob (free (decorate_rethrow e) (p2, n2)) P (paid p n).
Proof. intros H. apply ob_free; unfold decorate_rethrow, bind, get, throw; [discriminate|]. intros e' s' E. injection E as _ <-. exact H. Qed.

Lemma tail_cost es p n p1 n1 : rinv c d (p_rdr p1) -> direct (p_rdr p1) -> length (unread (p_rdr p1)) <= length (unread (p_rdr p)) ->
  p_eof p1 = p_eof p -> (p_eof p = true -> length (unread (p_rdr p)) = 0) ->
  n1 + F * (3 * length (unread (p_rdr p1))) <= n + F * (rest p + 1) ->
  ob ((free (on_rdr update) ;;
       p <- ask ;;
       if negb (cv_valid c (r_conv (p_rdr p))) then
         free (handle_error_invalid_conversion c) ;; n_read_line c cap ;; ret (defaults es)
       else
         free p_clear_error ;;
         if p_eof p then free (p_error c msg_eof) ;; ret (defaults es)
         else
           match c_mode c with
           | EThrow =>
               catch (xs <- free (on_rdr (on_conv (cv_convert c es))) ;; n_read_line c cap ;; ret xs)
                     (fun e => n_read_line c cap ;; free (decorate_rethrow e))
           | _ =>
               xs <- free (on_rdr (on_conv (cv_convert c es))) ;;
               p <- ask ;;
               (if negb (cv_valid c (r_conv (p_rdr p))) then free (handle_error_invalid_conversion c) else ret tt) ;;
               n_read_line c cap ;;
               ret xs
           end) (p1, n1)) (fun _ => paid p n) (paid p n).
Proof.
  intros I D U EE UE N. apply ob_bind, ob_free; [|discriminate]. intros [] p2 E. unfold on_rdr, zoom in E. rewrite update_eq in E. injection E as <-.
  set (p2 := pset_rdr (swapped (p_rdr p1)) p1). pose proof (rinv_swapped _ _ _ I) as I2.
  assert (H2 : has NextLine (p_rdr p2)) by (apply (rinv_has c d); [exact I2|exact D]).
  assert (U2 : unread (p_rdr p2) = unread (p_rdr p1)) by reflexivity. assert (E2 : p_eof p2 = p_eof p) by exact EE. clearbody p2.
  assert (LINE : forall p3, like p2 p3 -> ob (n_read_line c cap (p3, n1)) (fun _ p' n' => paid p n p' n') (fun _ _ => False)).
  { intros p3 (_ & H3 & U3). eapply ob_weaken; [apply read_line_cost; apply H3; exact H2| |auto]. intros [] p4 n4 A. eapply paid_line; [| |exact A]; rewrite U3, U2; assumption. }
  apply ob_bind, ob_ask. destruct (negb (cv_valid c (r_conv (p_rdr p2)))).
  - apply ob_bind, ob_free; [|intros e s' X; exfalso; eapply handle_quiet; exact X]. intros [] p3 E3. apply handle_like in E3.
    apply ob_bind. eapply ob_weaken; [apply LINE; exact E3| |contradiction]. intros [] p4 n4 A. apply ob_ret. exact A.
  - apply ob_bind, ob_free; [|discriminate]. intros [] p3 E3. injection E3 as <-. rewrite E2. destruct (p_eof p) eqn:Ep.
    + specialize (UE eq_refl).
      assert (DONE : forall e, paid p n (pset_err e p2) n1).
      { intros e. split; [apply H2|]. unfold rest. cbn [p_rdr pset_err p_eof]. rewrite E2, U2. split; [lia|]. unfold rest in N. rewrite Ep in *. rewrite UE in *. replace (length (unread (p_rdr p1))) with 0 in * by lia. lia. }
      assert (DONE' : paid p n (pset_err None p2) n1) by apply DONE.
      apply ob_bind, ob_free; unfold p_error, bind, get, pupd, modify, throw; destruct (c_mode c); try discriminate.
      * intros a s' X. injection X as _ <-. apply ob_ret. exact (DONE _).
      * intros a s' X. injection X as _ <-. apply ob_ret. exact (DONE _).
      * intros a s' X. injection X as _ <-. exact DONE'.
    + set (p3 := pset_err None p2). assert (L3 : like p2 p3) by apply like_err. clearbody p3. pose proof (conv_like (cv_convert c es) p3) as CL.
      assert (LT : forall p4, like p3 p4 -> like p2 p4) by (intros p4 X; eapply like_trans; eassumption).
      assert (PLAIN : c_mode c <> EThrow -> ob ((xs <- free (on_rdr (on_conv (cv_convert c es))) ;;
               p <- ask ;;
               (if negb (cv_valid c (r_conv (p_rdr p))) then free (handle_error_invalid_conversion c) else ret tt) ;;
               n_read_line c cap ;;
               ret xs) (p3, n1)) (fun _ => paid p n) (paid p n)).
      { intros NT. apply ob_bind, ob_free.
        - intros xs p4 E4. rewrite E4 in CL. apply ob_bind, ob_ask, ob_bind.
          assert (X : ob ((if negb (cv_valid c (r_conv (p_rdr p4))) then free (handle_error_invalid_conversion c) else ret tt) (p4, n1)) (fun _ p5 n5 => like p4 p5 /\ n5 = n1) (fun _ _ => False)).
          { destruct (negb _); [|apply ob_ret; split; [apply like_refl|reflexivity]]. apply ob_free; [|intros e s' X; exfalso; eapply handle_quiet; exact X]. intros [] p5 E5. split; [eapply handle_like; exact E5|reflexivity]. }
          eapply ob_weaken; [exact X| |contradiction]. intros [] p5 n5 [L5 ->]. apply ob_bind. eapply ob_weaken; [apply (LINE p5)| |contradiction].
          + eapply like_trans; [apply LT; exact CL|exact L5].
          + intros [] p6 n6 A. apply ob_ret. exact A.
        - intros e p4 E4. exfalso. unfold on_rdr, zoom, on_conv in E4. pose proof (nt_convert c NT es (r_conv (p_rdr p3), seen_by (r_conv (p_rdr p3)) (r_buf (p_rdr p3)))) as K.
          destruct (cv_convert c es _) as [a [v cs]|e' [v cs]|w|]; try discriminate. exact K. }
      destruct (c_mode c); [apply PLAIN; discriminate|apply PLAIN; discriminate|].
      apply ob_catch, ob_bind, ob_free.
      * intros xs p4 E4. rewrite E4 in CL. apply ob_bind. eapply ob_weaken; [apply (LINE p4); apply LT; exact CL| |contradiction]. intros [] p6 n6 A. apply ob_ret. exact A.
      * intros e p4 E4 e'. rewrite E4 in CL. apply ob_bind. eapply ob_weaken; [apply (LINE p4); apply LT; exact CL| |contradiction]. intros [] p6 n6 A. apply rethrow_line. exact A.
Qed.
Lemma get_next_cost es p n : pinv c d p -> direct (p_rdr p) -> length (unread (p_rdr p)) <= L ->
  ob (n_get_next c cap es (p, n)) (fun _ => paid p n) (paid p n).
Proof.
  intros (I & UE & PF) D UL. unfold n_get_next. apply ob_bind, ob_ask. destruct (p_eof p) eqn:Ep.
  - apply ob_bind, ob_ret. pose proof f_big. apply tail_cost; auto; try lia.
    + intros _. rewrite (UE eq_refl). reflexivity.
    + unfold rest. rewrite Ep. lia.
  - destruct (PF eq_refl) as (_ & UQ & LR). pose proof (parse_safe c Hc d Hd cap Hcap (p_rdr p) I UQ LR) as (r1 & SO).
    assert (PC : ob (n_on_rdr (n_parse c cap) (p, n))
      (fun _ p1 n1 => p_eof p1 = false /\ rinv c d (p_rdr p1) /\ direct (p_rdr p1) /\ length (unread (p_rdr p1)) <= length (unread (p_rdr p)) /\ n1 + F * (3 * length (unread (p_rdr p1))) <= n + F * (rest p + 1))
      (fun p1 n1 => c_mode c = EThrow /\ p_eof p1 = false /\ rinv c d (p_rdr p1) /\ direct (p_rdr p1) /\ length (unread (p_rdr p1)) <= length (unread (p_rdr p)) /\ n1 + F * (3 * length (unread (p_rdr p1))) <= n + F * (rest p + 1))).
    { unfold n_on_rdr. apply ob_inside. eapply ob_with; [apply ct_parse|].
      assert (PD : forall r2 n2, parsed c d (p_rdr p) n r2 n2 -> direct r2 /\ length (unread r2) <= length (unread (p_rdr p)) /\ n2 + F * (3 * length (unread r2)) <= n + F * (rest p + 1)).
      { intros r2 n2 (q & S & A & N). split; [apply S|]. destruct S as [_ _ S]. split; [lia|]. assert (QQ : q <= Q) by (apply HQ; [exact A|lia]).
        unfold rest. rewrite Ep. unfold wide, pot in *. remember (length (unread r2)) as u2. remember (length (unread (p_rdr p))) as u0. remember (r_nlsize (p_rdr p)) as z.
        assert (X : (q + 1) * (Kc * (z + 3 * u0 - 3 * u2 + 1)) <= F * (z + 3 * u0 - 3 * u2 + 1)).
        { rewrite Nat.mul_assoc. apply Nat.mul_le_mono_r, Nat.mul_le_mono_r. lia. }
        remember F as f. assert (Y : f * (z + 3 * u0 - 3 * u2 + 1) + f * (3 * u2) = f * (z + 3 * u0 + 1)) by (rewrite <- Nat.mul_add_distr_l; f_equal; lia). lia. }
      assert (SR : rinv c d r1) by apply SO.
      assert (SS : forall r2, (parse c cap (p_rdr p) = Ok tt r2 \/ exists e, parse c cap (p_rdr p) = Throw e r2) -> r2 = r1).
      { intros r2 H. destruct SO as (_ & _ & _ & _ & [(_ & _ & [(E & _)|(_ & e & E)])|(s & r3 & E3 & E & _)]).
        - destruct H as [H|[e H]]; rewrite E in H; [injection H as <-; reflexivity|discriminate].
        - destruct H as [H|[e' H]]; rewrite E in H; [discriminate|injection H as _ <-; reflexivity].
        - rewrite E in H. unfold stopped in H. rewrite E3. destruct (c_mode c); destruct H as [H|[e' H]]; try discriminate; [injection H as <-|injection H as <-|injection H as _ <-]; reflexivity. }
      eapply ob_weaken; [apply (parse_cost c Hc d Hd cap Hcap); assumption|..].
      - intros [] r2 n2 P E. specialize (PD _ _ P). rewrite (SS r2 (or_introl E)) in *. cbn [p_rdr pset_rdr p_eof]. rewrite Ep. tauto.
      - intros r2 n2 P [e E]. specialize (PD _ _ P). rewrite (SS r2 (or_intror (ex_intro _ e E))) in *. cbn [p_rdr pset_rdr p_eof]. rewrite Ep. split; [|tauto].
        destruct (c_mode c) eqn:Em; auto; exfalso; pose proof (nt_parse c ltac:(congruence) cap (p_rdr p)) as K; rewrite E in K; exact K. }
    apply ob_bind.
    assert (PLAIN : c_mode c <> EThrow -> ob (n_on_rdr (n_parse c cap) (p, n)) (fun _ p1 n1 => p_eof p1 = false /\ rinv c d (p_rdr p1) /\ direct (p_rdr p1) /\ length (unread (p_rdr p1)) <= length (unread (p_rdr p)) /\ n1 + F * (3 * length (unread (p_rdr p1))) <= n + F * (rest p + 1)) (paid p n)).
    { intros NT. eapply ob_weaken; [exact PC|auto|]. intros s k (A & _). congruence. }
    eapply (ob_weaken _ (fun _ p1 n1 => p_eof p1 = false /\ rinv c d (p_rdr p1) /\ direct (p_rdr p1) /\ length (unread (p_rdr p1)) <= length (unread (p_rdr p)) /\ n1 + F * (3 * length (unread (p_rdr p1))) <= n + F * (rest p + 1)) _ (paid p n)); [|intros [] p1 n1 (A1 & A2 & A3 & A4 & A5); apply tail_cost; auto; congruence|auto].
    destruct (c_mode c); [apply PLAIN; discriminate|apply PLAIN; discriminate|]. clear PLAIN.
    apply ob_catch. eapply ob_weaken; [exact PC|auto|]. intros p1 n1 (_ & A1 & A2 & A3 & A4 & A5) e.
    apply ob_bind. eapply ob_weaken; [apply read_line_cost; apply (rinv_has c d); assumption| |contradiction]. intros [] p2 n2 AL. apply rethrow_line. eapply paid_line; eassumption.
Qed.
End C.

(** ** Documents *)
(** Opening a file (POSIX getline) or data in memory, counting. *)
Definition open_counted (c : cfg) (cap : nat -> nat -> nat) (name d : str) (mem : bool) (data : str) : res (prs * nat) unit :=
  n_construct c cap (p_init name d (if mem then SMem data else SFile data), 0).
(** get_next after get_next, whatever they report.  [None]: undefined behaviour. *)
Fixpoint calls_work (c : cfg) (cap : nat -> nat -> nat) (p : prs) (n : nat) (ess : list (list elem)) : option nat :=
  match ess with
  | [] => Some n
  | es :: ess' =>
      match n_get_next c cap es (p, n) with
      | Ok _ (p', n') | Throw _ (p', n') => calls_work c cap p' n' ess'
      | _ => None
      end
  end.
Definition document_work c cap name d mem data ess : option nat :=
  match open_counted c cap name d mem data with Ok _ (p, n) => calls_work c cap p n ess | _ => None end.

(** The counter only counts. *)
Theorem C57_work_is_of_reading : forall c cap name d data,
  plain (open_counted c cap name d false data) = parser_file c cap name d false (Some data) /\
  plain (open_counted c cap (S2 "CSV data buffer") d true data) = parser_buffer c cap d (Some data) (length data) /\
  forall es p n, plain (n_get_next c cap es (p, n)) = get_next c cap es p.
Proof. intros. split; [apply ct_construct|]. split; [apply ct_construct|]. intros. apply ct_get_next. Qed.
Print Assumptions C57_work_is_of_reading.

Section D.
Context (c : cfg) (Hc : cfg_ok c) (d : str) (Hd : nulfree d) (cap : nat -> nat -> nat) (Hcap : enough cap).
Notation U p := (length (unread (p_rdr p))).
Lemma construct_cost src name : src_okz src 0 -> direct (rdr_init d src) -> forall data, unread (rdr_init d src) = data ->
  ob (n_construct c cap (p_init name d src, 0)) (fun _ p n => direct (p_rdr p) /\ U p <= length data /\ rest p <= 3 * length data /\ n <= 136 * length data + 4) (fun _ _ => True).
Proof.
  intros SO D data ED. pose proof (rinv_init c d src SO) as I.
  unfold n_construct. apply ob_bind. unfold n_read_line. apply ob_bind. unfold n_on_rdr at 1. apply ob_inside. cbn [p_rdr p_init].
  eapply ob_with; [apply ct_read_next|]. eapply ob_weaken; [apply (read_next_cost c cap Hcap); apply (rinv_has c d); assumption| |contradiction]. rewrite ED.
  intros b r1 n1 (D1 & U1 & N1 & S1) E1. destruct (read_next_spec c d cap Hcap _ I) as (r' & E & I1 & _). rewrite E1 in E. injection E as _ <-.
  apply ob_free; [|discriminate]. intros [] p E. injection E as <-. destruct (c_ignhdr c).
  - apply ob_bind. unfold n_on_rdr. apply ob_inside. cbn [p_rdr pset_eof pset_rdr].
    eapply ob_weaken; [apply (read_next_cost c cap Hcap); apply (rinv_has c d); assumption| |contradiction].
    intros b2 r2 n2 (D2 & U2 & N2 & S2). apply ob_ret. unfold rest. cbn [p_rdr pset_eof pset_rdr p_eof].
    split; [exact D2|]. split; [lia|]. split; [|lia]. destruct b; cbn [negb]; [|lia]. unfold pot. destruct b2; lia.
  - apply ob_bind. unfold n_on_rdr. apply ob_inside. unfold n_get_buffer. apply ob_bind, ob_ask, ob_bind, ob_spend. cbn [p_rdr pset_eof pset_rdr].
    assert (GB : forall a r2, get_buffer r1 = Ok a r2 -> r2 = r1).
    { intros a r2. unfold get_buffer. destruct (range_str _ _ _); [|discriminate]. intros X; injection X as _ <-; reflexivity. }
    apply ob_free; [|intros; exact Logic.I]. intros s r2 E2. apply GB in E2. subst r2.
    apply ob_free; [|discriminate]. intros [] p2 E2. injection E2 as <-. unfold rest. cbn [p_rdr pset_eof pset_rdr p_eof pset_raw].
    split; [exact D1|]. split; [lia|]. destruct b; cbn [negb]; unfold pot; [lia|]. change (r_nlsize (rdr_init d src)) with 0 in S1. lia.
Qed.

Lemma calls_cost Q (data : str) : (forall q, allowed c q -> q <= length data -> q <= Q) ->
  forall ess p n, sinv c d (S (length data)) p -> direct (p_rdr p) -> U p <= length data -> Forall types ess ->
  exists w, calls_work c cap p n ess = Some w /\ w <= n + (Q + 1) * (4 * length d + 400) * (rest p + 2 * length ess).
Proof.
  intros HQ. induction ess as [|es ess IH]; intros p n SI D UL T; cbn [calls_work length]; [exists n; split; [reflexivity|lia]|].
  inversion T as [|? ? T1 T2]; subst. destruct (next_safe c d cap (S (length data)) Hc Hd Hcap p es SI T1) as [NC SI']. pose proof SI as (P & _).
  pose proof (get_next_cost c Hc d Hd cap Hcap Q (length data) HQ es p n P D UL) as CO. pose proof (ct_get_next c cap es p n) as CT.
  destruct (n_get_next c cap es (p, n)) as [xs [p' n']|e [p' n']|w|]; cbn [plain fst ob] in *; rewrite <- CT in *; cbn [after] in *.
  - destruct CO as (D' & U' & N'). destruct (IH p' n' SI' D' ltac:(lia) T2) as (w & E & L). exists w. split; [exact E|]. nia.
  - destruct CO as (D' & U' & N'). destruct (IH p' n' SI' D' ltac:(lia) T2) as (w & E & L). exists w. split; [exact E|]. nia.
  - exfalso. apply NC. reflexivity.
  - exfalso. apply NC. reflexivity.
Qed.
End D.

(** The number of further lines a row may have. *)
Definition row_lines (c : cfg) (data : str) : nat :=
  if c_ml c then if c_mlsize c =? 0 then length data else c_mlsize c else 0.
(** Reading a document takes work in proportion to the size of the document (and the number of calls), if a row is a line or the
    number of lines of a row is limited.  Without a limit the bound is quadratic, as is the code: see DESIGN.md, finding 43. *)
Theorem C57_reading_is_linear : forall c cap name d mem data ess,
  cfg_ok c -> ~ In NUL d -> enough cap -> header_ok c data -> Forall types ess ->
  exists w, document_work c cap name d mem data ess = Some w /\
    w <= 16 * (length d + 100) * (row_lines c data + 1) * (length data + length ess + 1).
Proof.
  intros c cap name d mem data ess Hc Hd Hcap Hh T. assert (Hd' : nulfree d) by (intros X; apply Hd; exact X).
  set (src := if mem then SMem data else SFile data).
  assert (SO : src_okz src 0) by (unfold src; destruct mem; cbn; [lia|exact Logic.I]).
  assert (ED : unread (rdr_init d src) = data) by (unfold src; destruct mem; reflexivity).
  assert (DI : direct (rdr_init d src)) by (unfold src; destruct mem; exact Logic.I).
  pose proof (construct_cost c d cap Hcap src name SO DI data ED) as CO.
  destruct (construct_safe c d cap (S (length data)) Hcap src name msg_not_open SO) as (p & E & SI & _); [rewrite ED; lia|rewrite ED; apply (header_skips _ _ Hh)|].
  unfold document_work, open_counted. fold src. pose proof (ct_construct c cap msg_not_open (p_init name d src) 0) as CT. rewrite E in CT.
  destruct (n_construct c cap (p_init name d src, 0)) as [[] [p' n]| | |]; try discriminate. cbn in CT. injection CT as ->. cbn [ob] in CO. destruct CO as (D & U & R & N).
  assert (HQ : forall q, allowed c q -> q <= length data -> q <= row_lines c data).
  { intros q A L. unfold allowed, row_lines in *. destruct (c_ml c); [|lia]. destruct (c_mlsize c =? 0) eqn:Z; [exact L|]. apply Nat.eqb_neq in Z. apply A. lia. }
  destruct (calls_cost c Hc d Hd' cap Hcap (row_lines c data) data HQ ess p n SI D U T) as (w & EW & LW). exists w. split; [exact EW|].
  remember (row_lines c data) as Q. remember (length d) as x. remember (length data) as L. remember (length ess) as k. clear - R N LW.
  set (f := (Q + 1) * (4 * x + 400)) in *. assert (B : 400 <= f) by (unfold f; nia). replace (16 * (x + 100) * (Q + 1)) with (4 * f) by (unfold f; lia). clearbody f. nia.
Qed.
Print Assumptions C57_reading_is_linear.


(** ** Lines *)
(** The work of a computation on a line buffer, if it ends. *)
Definition work_of {S A} (o : res (S * nat) A) : option nat := match o with Ok _ (_, n) => Some n | _ => None end.
(** Reading a line takes work in proportion to the line, whatever follows it: from memory, and from a file by getline. *)
Theorem C57_line_is_linear : forall cap line tail l,
  enough cap -> lp_ok l -> line <> [] -> (In LF line -> exists s, line = s ++ [LF] /\ ~ In LF s) -> (~ In LF line -> tail = []) ->
  (exists w, work_of (n_get_line_buffer (line ++ tail) (l, 0)) = Some w /\ w <= 3 * length line + 128) /\
  (exists w, work_of (n_get_line_posix cap (line ++ tail) (l, 0)) = Some w /\ w <= 2 * length line + 2).
Proof.
  intros cap line tail l Hcap Hl NE H1 H2.
  assert (CL : fst (cut_line (line ++ tail)) = line).
  { destruct (in_dec Ascii.ascii_dec LF line) as [I|I].
    - destruct (H1 I) as (s & -> & Hs). rewrite <- app_assoc. change ([LF] ++ tail) with (LF :: tail). clear - Hs. induction s as [|y s IH]; [reflexivity|]. cbn [app]. rewrite cut_cons.
      destruct (Ascii.eqb y LF) eqn:E; [apply Ascii.eqb_eq in E; subst; exfalso; apply Hs; left; reflexivity|]. rewrite IH; [reflexivity|]. intros X; apply Hs; right; exact X.
    - rewrite (H2 I), app_nil_r. clear - I. induction line as [|y s IH]; [reflexivity|]. rewrite cut_cons.
      destruct (Ascii.eqb y LF) eqn:E; [apply Ascii.eqb_eq in E; subst; exfalso; apply I; left; reflexivity|]. rewrite IH; [reflexivity|]. intros X; apply I; right; exact X. }
  assert (NE' : line ++ tail <> []) by (destruct line; [congruence|discriminate]). split.
  - destruct (get_line_buffer_spec (line ++ tail) l Hl NE') as (l' & E & _). destruct (counted_ok _ _ _ _ _ (ct_buffer (line ++ tail)) E 0) as (n & EN).
    exists n. rewrite EN. split; [reflexivity|]. pose proof (buffer_cost (line ++ tail) l 0 (lp_sized l Hl)) as B. rewrite EN in B. cbn [ob] in B. rewrite CL in B. lia.
  - destruct (get_line_posix_spec cap Hcap (line ++ tail) l Hl NE') as (l' & E & _). destruct (counted_ok _ _ _ _ _ (ct_posix cap (line ++ tail)) E 0) as (n & EN).
    exists n. rewrite EN. split; [reflexivity|]. pose proof (posix_cost cap (line ++ tail) l 0 (lp_sized l Hl)) as B. rewrite EN in B. cbn [ob] in B. rewrite CL in B.
    destruct (line ++ tail); lia.
Qed.
Print Assumptions C57_line_is_linear.

(** With the portable reader it does not: opening a file of one long line takes more than any linear bound. *)
Theorem C57_portable_reader_refuted : forall c cap name d a b, enough cap -> c_ignhdr c = false ->
  exists data w, ~ In NUL data /\ ~ In LF data /\
    work_of (n_construct c cap (p_init name d (SPort data), 0)) = Some w /\ a * length data + b < w.
Proof.
  intros c cap name d a b Hcap Hi. set (m := 2 * a + 2 * b + 3). set (data := repeat "x"%char (127 * m)).
  assert (NN : ~ In NUL data) by (intros X; apply repeat_spec in X; discriminate).
  assert (SO : src_okz (SPort data) 0) by exact NN.
  destruct (construct_safe c d cap (S (length data)) Hcap (SPort data) name msg_not_open SO) as (p & E & _ & _); [reflexivity|congruence|].
  pose proof (ct_construct c cap msg_not_open (p_init name d (SPort data)) 0) as CT. rewrite E in CT.
  pose proof (construct_work "x"%char ltac:(discriminate) eq_refl c cap name d m Hi) as W. fold data in W.
  destruct (n_construct c cap (p_init name d (SPort data), 0)) as [[] [p' n]| | |] eqn:EN; try discriminate. cbn [ob] in W.
  exists data, n. rewrite EN. split; [exact NN|]. split; [intros X; apply repeat_spec in X; discriminate|]. split; [reflexivity|].
  unfold data at 1. rewrite repeat_length. clear - W. assert (M : m - 1 = 2 * a + 2 * b + 2) by (unfold m; lia). rewrite M in W. clearbody m.
  nia.
Qed.
Print Assumptions C57_portable_reader_refuted.

(** ** A case *)
Definition w_cfg : cfg := mkCfg (Some """"%char) [] [] [] true 2 EString false false.
Definition w_cap (n need : nat) : nat := Nat.max n need.
Definition w_data : str := S2 "a,b" ++ [LF] ++ S2 "1,""x" ++ [LF] ++ S2 "y""" ++ [LF] ++ S2 "2,3".
Example C57_case :
  setup [OQuote """"%char; OMultiline 2 true; OStringError] = Some w_cfg /\ cfg_ok w_cfg /\ ~ In NUL (S2 ",") /\ enough w_cap /\ header_ok w_cfg w_data /\
  Forall types (repeat [EVal TString; EVal TString] 4) /\
  map (fun mem => document_work w_cfg w_cap (S2 "f.csv") (S2 ",") mem w_data (repeat [EVal TString; EVal TString] 4)) [false; true] = [Some 81; Some 85] /\
  map (fun k => option_map Z.of_nat (work_of (n_construct w_cfg w_cap (p_init (S2 "f.csv") (S2 ",") (SPort (repeat "x"%char (127 * k))), 0)))) [1; 2; 4; 8] = [Some 517; Some 1285; Some 3202; Some 8560]%Z.
Proof.
  split; [reflexivity|]. split; [apply (setup_ok [OQuote """"%char; OMultiline 2 true; OStringError]); reflexivity|]. split; [intros [X|[]]; discriminate|].
  split; [intros n need; unfold w_cap; lia|]. split; [intros X; discriminate|]. split; [apply Forall_forall; intros es X; apply repeat_spec in X as ->; split; [apply Forall_cons; [exact Logic.I|apply Forall_cons; [exact Logic.I|apply Forall_nil]]|discriminate]|]. split; vm_compute; reflexivity.
Qed.
