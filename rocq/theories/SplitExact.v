(** The pure splitter computes the reading of SplitActual.v, for every line. *)
From Verif Require Import Base Setup Splitter SplitPure ListFacts SetupProofs SplitSpec SplitRefine SplitSpecProofs SplitActual.

Section X.
Context (c : cfg) (Hc : cfg_ok c) (d : str) (Hd0 : d <> []).
Notation ends := (field_ends (c_trimr c) d).
Notation meets := (meets_escape (c_escape c) (c_trimr c)).
Notation pl := (plain (c_escape c) (c_trimr c) d).
Notation pld := (plain_defect (c_escape c) (c_trimr c) d).
Notation ins := (inside (c_escape c) (c_trimr c) d).
Notation insd := (inside_defect (c_escape c) (c_trimr c) d).
Notation onef := (one_field (c_quote c) (c_escape c) (c_trimr c) d).
Notation oned := (one_defect (c_quote c) (c_escape c) (c_trimr c) d).
Notation cols := (has_columns (c_quote c) (c_escape c) (c_triml c) (c_trimr c) d).
Notation dfct := (has_defect (c_quote c) (c_escape c) (c_triml c) (c_trimr c) d).

Lemma other_ltrim s t x r : md c d s = MOther t x r -> ltrim (c_trimr c) s = x :: r.
Proof.
  intros E. apply md_other in E as (Es & F & U & _). rewrite ltrim_dropc, Es. unfold dropc. rewrite span_intro by auto. reflexivity.
Qed.
Lemma not_ends s : ~ ends s -> exists t x r, md c d s = MOther t x r.
Proof. rewrite (ends_md c d). destruct (md c d s); [tauto|tauto|eauto]. Qed.
Lemma esc_not_trim e : In e (c_escape c) -> ~ In e (c_trimr c).
Proof. intros H. exact (ok_er c Hc e H). Qed.
Lemma md_run w e r : Forall (fun y => In y (c_trimr c)) w -> In e (c_escape c) -> ~ ends (w ++ e :: r) -> md c d (w ++ e :: r) = MOther w e r.
Proof.
  intros F He N. destruct (not_ends _ N) as (t & x & r' & E). rewrite E. pose proof (other_ltrim _ _ _ _ E) as L.
  rewrite ltrim_dropc in L. unfold dropc in L. rewrite span_intro in L by (auto; apply esc_not_trim; exact He). cbn in L.
  apply md_other in E as (Es & Ft & U & _). injection L as <- <-.
  apply app_inv_tail in Es. subst t. reflexivity.
Qed.
Lemma meets_md s t x r : md c d s = MOther t x r -> (meets s <-> In x (c_escape c)).
Proof. intros E. unfold meets_escape. rewrite (other_ltrim _ _ _ _ E). split; [intros (e & r' & H & K); injection H as <- <-; exact K|eauto]. Qed.

(** One unit of an unquoted field. *)
Lemma normal_unit acc h s : normal c d 0 false acc (h :: s) =
  match md c d (h :: s) with
  | MEol => FLast acc
  | MDelim rest => FNext acc rest
  | MOther w x r =>
      if escape_match c x then
        match r with
        | [] => FLastEsc (acc ++ h :: s)
        | y :: r' => match w with [] => normal c d 0 false (acc ++ [y]) r' | _ :: w' => normal c d 0 false (acc ++ w' ++ [x; y]) r' end
        end
      else normal c d 0 false (acc ++ [h]) s
  end.
Proof.
  destruct (md c d (h :: s)) as [|rest|t x r] eqn:Em; [cbn [normal]; rewrite Em; reflexivity|cbn [normal]; rewrite Em; reflexivity|].
  destruct (escape_match c x) eqn:Ex.
  - cbn [normal]. rewrite Em, Ex. apply md_other in Em as (E & F & U & St). destruct r as [|y r].
    + destruct t as [|h' t]; cbn in E.
      * injection E as -> ->. reflexivity.
      * injection E as <- ->. replace (length (h :: t)) with (length (t ++ [x])) by (rewrite app_length; cbn; lia).
        rewrite <- (app_nil_r (t ++ [x])) at 2. rewrite normal_keep. cbn [normal]. rewrite <- app_assoc. reflexivity.
    + destruct t as [|h' t]; cbn in E.
      * injection E as <- ->. reflexivity.
      * injection E as <- ->. replace (S (length (h :: t))) with (length (t ++ [x; y])) by (rewrite app_length; cbn; lia).
        replace (t ++ x :: y :: r) with ((t ++ [x; y]) ++ r) by (rewrite <- app_assoc; reflexivity). rewrite normal_keep. reflexivity.
  - rewrite (normal_step c Hc d).
    + rewrite Em. destruct (escape_match c h) eqn:Eh; [|reflexivity]. exfalso. pose proof (md_other _ _ _ _ _ _ Em) as (E & F & U & _). destruct t as [|h' t]; cbn in E.
      * injection E as -> ->. congruence.
      * injection E as <- _. apply escape_In in Eh. exact (esc_not_trim h Eh (Forall_inv F)).
    + intros t' x' r' E' _. rewrite Em in E'. injection E' as <- <- <-. exact Ex.
Qed.
Lemma plain_complete s v after : pl s v after -> forall acc,
  (ltrim (c_trimr c) after = [] -> normal c d 0 false acc s = FLast (acc ++ v)) /\
  (forall u, ltrim (c_trimr c) after = d ++ u -> normal c d 0 false acc s = FNext (acc ++ v) (ltrim (c_triml c) u)).
Proof.
  induction 1 as [s H|x s v after N M P IH|e x s v after N He P IH|h w e x s v after N Hh F He P IH]; intros acc.
  - rewrite app_nil_r. split.
    + intros E. apply (md_eol c d) in E. destruct s as [|h s]; [reflexivity|]. rewrite normal_unit, E. reflexivity.
    + intros u E. destruct s as [|h s]; [destruct d; [congruence|discriminate]|].
      assert (Em : md c d (h :: s) = MDelim (ltrim (c_triml c) u)) by (apply (md_delim c d Hd0); eauto). rewrite normal_unit, Em. reflexivity.
  - rewrite normal_unit. destruct (not_ends _ N) as (t & y & r & E). rewrite E. rewrite (meets_md _ _ _ _ E) in M. apply escape_nIn in M. rewrite M.
    specialize (IH (acc ++ [x])). rewrite <- app_assoc in IH. exact IH.
  - rewrite normal_unit. pose proof (md_run [] e (x :: s) (Forall_nil _) He N) as E. cbn [app] in E. rewrite E. apply escape_In in He. rewrite He.
    specialize (IH (acc ++ [x])). rewrite <- app_assoc in IH. exact IH.
  - rewrite normal_unit. pose proof (md_run (h :: w) e (x :: s) (Forall_cons (P := fun y => In y (c_trimr c)) h Hh F) He N) as E. cbn [app] in E. rewrite E. apply escape_In in He. rewrite He.
    specialize (IH (acc ++ w ++ [e; x])). rewrite <- !app_assoc in IH. exact IH.
Qed.
Lemma plain_defect_complete s : pld s -> forall acc, exists a, normal c d 0 false acc s = FLastEsc a.
Proof.
  induction 1 as [w e N F He|x s N M P IH|e x s N He P IH|h w e x s N Hh F He P IH]; intros acc.
  - pose proof (md_run w e [] F He N) as E. destruct (w ++ [e]) as [|h s] eqn:Ew; [destruct w; discriminate|].
    rewrite normal_unit, E. apply escape_In in He. rewrite He. eauto.
  - rewrite normal_unit. destruct (not_ends _ N) as (t & y & r & E). rewrite E. rewrite (meets_md _ _ _ _ E) in M. apply escape_nIn in M. rewrite M. apply IH.
  - rewrite normal_unit. pose proof (md_run [] e (x :: s) (Forall_nil _) He N) as E. cbn [app] in E. rewrite E. apply escape_In in He. rewrite He. apply IH.
  - rewrite normal_unit. pose proof (md_run (h :: w) e (x :: s) (Forall_cons (P := fun y => In y (c_trimr c)) h Hh F) He N) as E. cbn [app] in E. rewrite E. apply escape_In in He. rewrite He. apply IH.
Qed.
Lemma plain_sound : forall n s acc, length s <= n ->
  match normal c d 0 false acc s with
  | FLast a => exists v after, a = acc ++ v /\ pl s v after /\ ltrim (c_trimr c) after = []
  | FNext a rest => exists v after u, a = acc ++ v /\ pl s v after /\ ltrim (c_trimr c) after = d ++ u /\ rest = ltrim (c_triml c) u
  | FLastEsc _ => pld s
  | _ => False
  end.
Proof.
  induction n as [|n IH]; intros s acc Hl.
  - destruct s; [|cbn in Hl; lia]. cbn. exists [], []. rewrite app_nil_r. split; [reflexivity|]. split; [constructor; left; reflexivity|reflexivity].
  - destruct s as [|h s]; [cbn; exists [], []; rewrite app_nil_r; split; [reflexivity|]; split; [constructor; left; reflexivity|reflexivity]|].
    rewrite normal_unit. cbn in Hl. destruct (md c d (h :: s)) as [|rest|t x r] eqn:Em.
    + apply (md_eol c d) in Em. exists [], (h :: s). rewrite app_nil_r. split; [reflexivity|]. split; [constructor; left; exact Em|exact Em].
    + apply (md_delim c d Hd0) in Em as (u & Eu & ->). exists [], (h :: s), u. rewrite app_nil_r. split; [reflexivity|]. split; [constructor; right; eauto|auto].
    + assert (N : ~ ends (h :: s)) by (rewrite (ends_md c d), Em; auto). pose proof (meets_md _ _ _ _ Em) as M.
      destruct (escape_match c x) eqn:Ex.
      * apply escape_In in Ex. apply md_other in Em as (E & F & U & St). destruct r as [|y r].
        { rewrite E in *. apply pd_lone; assumption. }
        destruct t as [|h' t]; cbn in E.
        { injection E as <- ->. specialize (IH r (acc ++ [y]) ltac:(cbn in Hl; lia)). destruct (normal c d 0 false (acc ++ [y]) r); auto.
          - destruct IH as (v & after & u & -> & P & A & B). exists (y :: v), after, u. rewrite <- app_assoc. split; [reflexivity|]. split; [constructor; assumption|auto].
          - destruct IH as (v & after & -> & P & A). exists (y :: v), after. rewrite <- app_assoc. split; [reflexivity|]. split; [constructor; assumption|auto].
          - apply pd_escape; assumption. }
        injection E as <- ->. specialize (IH r (acc ++ t ++ [x; y]) ltac:(rewrite app_length in Hl; cbn in Hl; lia)).
        pose proof (Forall_inv F) as F1. pose proof (Forall_inv_tail F) as F2. cbn in F1. destruct (normal c d 0 false (acc ++ t ++ [x; y]) r); auto.
        -- destruct IH as (v & after & u & -> & P & A & B). exists (t ++ x :: y :: v), after, u. rewrite <- !app_assoc. split; [reflexivity|]. split; [apply p_trim_escape; assumption|auto].
        -- destruct IH as (v & after & -> & P & A). exists (t ++ x :: y :: v), after. rewrite <- !app_assoc. split; [reflexivity|]. split; [apply p_trim_escape; assumption|auto].
        -- apply pd_trim_escape; assumption.
      * apply escape_nIn in Ex. rewrite <- M in Ex. specialize (IH s (acc ++ [h]) ltac:(lia)). destruct (normal c d 0 false (acc ++ [h]) s); auto.
        -- destruct IH as (v & after & u & -> & P & A & B). exists (h :: v), after, u. rewrite <- app_assoc. split; [reflexivity|]. split; [constructor; assumption|auto].
        -- destruct IH as (v & after & -> & P & A). exists (h :: v), after. rewrite <- app_assoc. split; [reflexivity|]. split; [constructor; assumption|auto].
        -- apply pd_char; assumption.
Qed.

(** Quoted fields; [pos] is the offset of [s] in a line of [total] characters. *)
Definition verdict (total : nat) (k : defect) (f : fres) : Prop :=
  match k with
  | OpenQuote => exists a, f = FUnterm a
  | LoneEscape => f = FEscEnd
  | StrayQuote from => f = FMismatch (total - length from) false
  | StrayQuoteEscape from => f = FMismatch (total - length from) true
  end.
Section Q.
Context (q : ascii) (Hq : c_quote c = Some q).
Lemma qm : quote_match c q = true.
Proof. apply quote_eq. exact Hq. Qed.
Lemma q_not_trim : ~ In q (c_trimr c).
Proof. intros K. apply (ok_qr c Hc q); [unfold quote_list; rewrite Hq; left; reflexivity|exact K]. Qed.
Lemma esc_not_quote e : In e (c_escape c) -> quote_match c e = false.
Proof. intros He. destruct (quote_match c e) eqn:E; [|reflexivity]. apply quote_eq in E. exfalso. apply (ok_qe c Hc e He). unfold quote_list. rewrite E. left. reflexivity. Qed.
Lemma q_not_esc : escape_match c q = false.
Proof. apply escape_nIn. intros H. apply esc_not_quote in H. rewrite qm in H. discriminate. Qed.
Lemma md_q s : ~ ends (q :: s) -> md c d (q :: s) = MOther [] q s.
Proof.
  intros N. destruct (not_ends _ N) as (t & x & r & E). rewrite E. apply md_other in E as (Es & F & _). destruct t as [|y t]; cbn in Es.
  - injection Es as <- <-. reflexivity.
  - injection Es as <- _. exfalso. exact (q_not_trim (Forall_inv F)).
Qed.
Lemma quoted_double pos acc s : ~ ends (q :: s) -> quoted c d 0 0 pos acc (q :: q :: s) = quoted c d 0 0 (S (S pos)) (acc ++ [q]) s.
Proof. intros N. cbn [quoted]. rewrite qm, (md_q s N), q_not_esc. cbn [length Nat.eqb andb]. rewrite qm. reflexivity. Qed.
Lemma quoted_qeq pos acc e s : ~ ends (e :: q :: s) -> In e (c_escape c) -> quoted c d 0 0 pos acc (q :: e :: q :: s) = quoted c d 0 0 (S (S (S pos))) (acc ++ [q]) s.
Proof.
  intros N He. pose proof (md_run [] e (q :: s) (Forall_nil _) He N) as E. cbn [app] in E. cbn [quoted]. rewrite qm, E.
  pose proof He as He'. apply escape_In in He'. rewrite He'. cbn [length Nat.eqb andb]. rewrite qm. reflexivity.
Qed.
Lemma quoted_escape pos acc e x s : In e (c_escape c) -> quoted c d 0 0 pos acc (e :: x :: s) = quoted c d 0 0 (S (S pos)) (acc ++ [x]) s.
Proof. intros He. cbn [quoted]. rewrite (esc_not_quote e He). apply escape_In in He. rewrite He. reflexivity. Qed.
Lemma quoted_char pos acc x s : x <> q -> ~ In x (c_escape c) -> quoted c d 0 0 pos acc (x :: s) = quoted c d 0 0 (S pos) (acc ++ [x]) s.
Proof.
  intros Nx Ne. cbn [quoted]. destruct (quote_match c x) eqn:E; [apply quote_eq in E; congruence|]. apply escape_nIn in Ne. rewrite Ne. reflexivity.
Qed.
Lemma inside_complete s v after : ins q s v after -> forall pos acc,
  (ltrim (c_trimr c) after = [] -> quoted c d 0 0 pos acc s = FLast (acc ++ v)) /\
  (forall u, ltrim (c_trimr c) after = d ++ u -> quoted c d 0 0 pos acc s = FNext (acc ++ v) (ltrim (c_triml c) u)).
Proof.
  induction 1 as [after H|x s v after Nx Ne P IH|s v after N P IH|e x s v after He P IH|e s v after N He P IH]; intros pos acc.
  - rewrite app_nil_r. cbn [quoted]. rewrite qm. split.
    + intros E. apply (md_eol c d) in E. rewrite E. reflexivity.
    + intros u E. assert (Em : md c d after = MDelim (ltrim (c_triml c) u)) by (apply (md_delim c d Hd0); eauto). rewrite Em. reflexivity.
  - rewrite quoted_char by assumption. specialize (IH (S pos) (acc ++ [x])). rewrite <- app_assoc in IH. exact IH.
  - rewrite quoted_double by assumption. specialize (IH (S (S pos)) (acc ++ [q])). rewrite <- app_assoc in IH. exact IH.
  - rewrite quoted_escape by assumption. specialize (IH (S (S pos)) (acc ++ [x])). rewrite <- app_assoc in IH. exact IH.
  - rewrite quoted_qeq by assumption. specialize (IH (S (S (S pos))) (acc ++ [q])). rewrite <- app_assoc in IH. exact IH.
Qed.
Lemma inside_defect_complete total s k : insd q s k -> forall pos acc, pos + length s = total -> verdict total k (quoted c d 0 0 pos acc s).
Proof.
  induction 1 as [|e He|after e N L He|after x r N L Ne Nh|after e x r N L He Nq|x s k Nx Ne P IH|s k N P IH|e x s k He P IH|e s k N He P IH]; intros pos acc T.
  - cbn. eauto.
  - cbn [quoted]. rewrite (esc_not_quote e He). apply escape_In in He. rewrite He. reflexivity.
  - cbn [quoted]. rewrite qm. destruct (not_ends _ N) as (t & y & r & E). pose proof (other_ltrim _ _ _ _ E) as L'. rewrite L in L'. injection L' as <- <-.
    rewrite E. apply escape_In in He. rewrite He. cbn [verdict]. f_equal. lia.
  - cbn [quoted]. rewrite qm. destruct (not_ends _ N) as (t & y & r' & E). pose proof (other_ltrim _ _ _ _ E) as L'. rewrite L in L'. injection L' as <- <-.
    rewrite E. apply escape_nIn in Ne. rewrite Ne. apply md_other in E as (Es & _). destruct ((length t =? 0) && quote_match c x) eqn:B.
    + exfalso. apply andb_true_iff in B as [B1 B2]. apply Nat.eqb_eq in B1. destruct t; [|discriminate]. apply quote_eq in B2. apply Nh. rewrite Es. cbn. congruence.
    + cbn [verdict]. f_equal. lia.
  - cbn [quoted]. rewrite qm. destruct (not_ends _ N) as (t & y & r' & E). pose proof (other_ltrim _ _ _ _ E) as L'. rewrite L in L'. injection L' as <- <-.
    rewrite E. apply escape_In in He. rewrite He. apply md_other in E as (Es & _). destruct ((length t =? 0) && quote_match c x) eqn:B.
    + exfalso. apply andb_true_iff in B as [B1 B2]. apply Nat.eqb_eq in B1. destruct t; [|discriminate]. apply quote_eq in B2. apply Nq. split; [exact Es|congruence].
    + cbn [verdict]. f_equal. cbn [length] in T. lia.
  - rewrite quoted_char by assumption. apply IH. cbn in T. lia.
  - rewrite quoted_double by assumption. apply IH. cbn in T. lia.
  - rewrite quoted_escape by assumption. apply IH. cbn in T. lia.
  - rewrite quoted_qeq by assumption. apply IH. cbn in T. lia.
Qed.
Definition found_inside (total : nat) (acc s : str) (f : fres) : Prop :=
  match f with
  | FLast a => exists v after, a = acc ++ v /\ ins q s v after /\ ltrim (c_trimr c) after = []
  | FNext a rest => exists v after u, a = acc ++ v /\ ins q s v after /\ ltrim (c_trimr c) after = d ++ u /\ rest = ltrim (c_triml c) u
  | FLastEsc _ => False
  | f => exists k, insd q s k /\ verdict total k f
  end.
Lemma inside_sound total : forall n s pos acc, length s <= n -> pos + length s = total ->
  found_inside total acc s (quoted c d 0 0 pos acc s).
Proof.
  assert (LIFT : forall s x (f : fres) acc s', (forall v after, ins q s v after -> ins q s' (x :: v) after) -> (forall k, insd q s k -> insd q s' k) ->
    found_inside total (acc ++ [x]) s f -> found_inside total acc s' f).
  { intros s x f acc s' A B. unfold found_inside. destruct f; try contradiction.
    - intros (v & after & u & -> & P & Q). exists (x :: v), after, u. rewrite <- app_assoc. split; [reflexivity|]. split; [apply A; exact P|exact Q].
    - intros (v & after & -> & P & Q). exists (x :: v), after. rewrite <- app_assoc. split; [reflexivity|]. split; [apply A; exact P|exact Q].
    - intros (k & P & Q). exists k. split; [apply B; exact P|exact Q].
    - intros (k & P & Q). exists k. split; [apply B; exact P|exact Q].
    - intros (k & P & Q). exists k. split; [apply B; exact P|exact Q]. }
  induction n as [|n IH]; intros s pos acc Hl T.
  - destruct s; [|cbn in Hl; lia]. cbn. exists OpenQuote. split; [constructor|]. cbn. eauto.
  - destruct s as [|h s]; [cbn; exists OpenQuote; split; [constructor|]; cbn; eauto|]. cbn in Hl, T.
    destruct (quote_match c h) eqn:Eh.
    + assert (h = q) by (apply quote_eq in Eh; congruence). subst h. destruct (md c d s) as [|rest|t x r] eqn:Em.
      * cbn [quoted]. rewrite qm, Em. apply (md_eol c d) in Em. exists [], s. rewrite app_nil_r. split; [reflexivity|]. split; [constructor; left; exact Em|exact Em].
      * cbn [quoted]. rewrite qm, Em. apply (md_delim c d Hd0) in Em as (u & Eu & ->). exists [], s, u. rewrite app_nil_r. split; [reflexivity|]. split; [constructor; right; eauto|auto].
      * assert (N : ~ ends s) by (rewrite (ends_md c d), Em; auto). pose proof (other_ltrim _ _ _ _ Em) as L.
        pose proof (md_other _ _ _ _ _ _ Em) as (Es & F & U & _).
        destruct (escape_match c x) eqn:Ex.
        -- pose proof Ex as He. apply escape_In in He. destruct r as [|y r].
           { cbn [quoted]. rewrite qm, Em, Ex. exists (StrayQuoteEscape (q :: s)). split; [eapply id_stray_lone; eauto|]. cbn. f_equal. lia. }
           destruct ((length t =? 0) && quote_match c y) eqn:B.
           ++ apply andb_true_iff in B as [B1 B2]. apply Nat.eqb_eq in B1. destruct t; [|discriminate]. apply quote_eq in B2. assert (y = q) by congruence. subst y.
              cbn [app] in Es. subst s. rewrite quoted_qeq by assumption. eapply (LIFT r q); [intros; apply i_quote_escape_quote; assumption|intros; apply id_quote_escape_quote; assumption|].
              apply IH; cbn in Hl, T; lia.
           ++ cbn [quoted]. rewrite qm, Em, Ex, B. exists (StrayQuote s). split; [|cbn; f_equal; lia]. eapply id_stray_escape; eauto.
              intros [K ->]. rewrite Es in K. destruct t as [|z t]; [cbn in B; rewrite qm in B; discriminate|]. cbn in K. injection K as -> _. exact (U (Forall_inv F)).
        -- pose proof Ex as Ne. apply escape_nIn in Ne. destruct ((length t =? 0) && quote_match c x) eqn:B.
           ++ apply andb_true_iff in B as [B1 B2]. apply Nat.eqb_eq in B1. destruct t; [|discriminate]. apply quote_eq in B2. assert (x = q) by congruence. subst x.
              cbn [app] in Es. subst s. rewrite quoted_double by assumption. eapply (LIFT r q); [intros; apply i_double; assumption|intros; apply id_double; assumption|].
              apply IH; cbn in Hl, T; lia.
           ++ cbn [quoted]. rewrite qm, Em, Ex, B. exists (StrayQuote (q :: s)). split; [|cbn; f_equal; lia]. eapply id_stray; eauto.
              rewrite Es. destruct t as [|z t]; cbn; intros K; injection K as ->; [cbn in B; rewrite qm in B; discriminate|]. exact (q_not_trim (Forall_inv F)).
    + assert (Nq : h <> q) by (intros ->; rewrite qm in Eh; discriminate). destruct (escape_match c h) eqn:Ex.
      * pose proof Ex as He. apply escape_In in He. destruct s as [|y s].
        { cbn [quoted]. rewrite Eh, Ex. exists LoneEscape. split; [constructor; exact He|reflexivity]. }
        rewrite quoted_escape by assumption. eapply (LIFT s y); [intros; apply i_escape; assumption|intros; apply id_escape; assumption|]. apply IH; cbn in Hl, T; lia.
      * apply escape_nIn in Ex. rewrite quoted_char by assumption. eapply (LIFT s h); [intros; apply i_char; assumption|intros; apply id_char; assumption|]. apply IH; lia.
Qed.
End Q.

(** One field. *)
Definition fverdict (total : nat) (k : defect) (f : fres) : Prop :=
  match k with LoneEscape => f = FEscEnd \/ exists a, f = FLastEsc a | _ => verdict total k f end.
Lemma verdict_f total k f : verdict total k f -> fverdict total k f.
Proof. destruct k; cbn; auto. Qed.
Lemma field_plain s pos : (forall q, c_quote c = Some q -> hd_error s <> Some q) -> field c d pos s = normal c d 0 false [] s.
Proof.
  intros H. unfold field. destruct s as [|h s]; [reflexivity|]. destruct (quote_match c h) eqn:E; [|reflexivity]. apply quote_eq in E. exfalso. exact (H h E eq_refl).
Qed.
Lemma field_exact_complete s v after pos : onef s v after ->
  (ltrim (c_trimr c) after = [] -> field c d pos s = FLast v) /\
  (forall u, ltrim (c_trimr c) after = d ++ u -> field c d pos s = FNext v (ltrim (c_triml c) u)).
Proof.
  destruct 1 as [s v after H P|q s v after Hq P].
  - rewrite field_plain by exact H. exact (plain_complete _ _ _ P []).
  - cbn [field]. rewrite (qm q Hq). exact (inside_complete q Hq _ _ _ P (S pos) []).
Qed.
Lemma field_defect_complete total s k pos : oned s k -> pos + length s = total -> fverdict total k (field c d pos s).
Proof.
  intros O T. destruct O as [s H P|q s k Hq P].
  - rewrite field_plain by exact H. right. exact (plain_defect_complete _ P []).
  - cbn [field]. rewrite (qm q Hq). apply verdict_f, (inside_defect_complete q Hq); [exact P|]. cbn in T. lia.
Qed.
Lemma field_exact_sound total s pos : pos + length s = total ->
  match field c d pos s with
  | FLast v => exists after, onef s v after /\ ltrim (c_trimr c) after = []
  | FNext v rest => exists after u, onef s v after /\ ltrim (c_trimr c) after = d ++ u /\ rest = ltrim (c_triml c) u
  | f => exists k, oned s k /\ fverdict total k f
  end.
Proof.
  intros T. destruct s as [|h s].
  - cbn. exists []. split; [|reflexivity]. apply o_plain; [discriminate|]. constructor. left. reflexivity.
  - destruct (quote_match c h) eqn:Eh.
    + cbn [field]. rewrite Eh. apply quote_eq in Eh. pose proof (inside_sound h Eh total (length s) s (S pos) [] (le_n _) ltac:(cbn in T; lia)) as K.
      destruct (quoted c d 0 0 (S pos) [] s).
      * destruct K as (v & after & u & -> & P & A & B). exists after, u. split; [apply o_quoted; assumption|auto].
      * destruct K as (v & after & -> & P & A). exists after. split; [apply o_quoted; assumption|auto].
      * contradiction.
      * destruct K as (k & P & V). exists k. split; [apply od_quoted; assumption|apply verdict_f; exact V].
      * destruct K as (k & P & V). exists k. split; [apply od_quoted; assumption|apply verdict_f; exact V].
      * destruct K as (k & P & V). exists k. split; [apply od_quoted; assumption|apply verdict_f; exact V].
    + assert (H : forall q, c_quote c = Some q -> hd_error (h :: s) <> Some q) by (intros q E K; injection K as ->; apply quote_eq in E; congruence).
      rewrite field_plain by exact H. pose proof (plain_sound (length (h :: s)) (h :: s) [] (le_n _)) as K.
      destruct (normal c d 0 false [] (h :: s)); try contradiction.
      * destruct K as (v & after & u & -> & P & A & B). exists after, u. split; [apply o_plain; assumption|auto].
      * destruct K as (v & after & -> & P & A). exists after. split; [apply o_plain; assumption|auto].
      * exists LoneEscape. split; [apply od_plain; assumption|]. right. eauto.
Qed.

(** The line. *)
Definition tverdict (total : nat) (k : defect) (t : ptail) : Prop :=
  match k with
  | OpenQuote => exists p a, t = TUnterm p a
  | LoneEscape => t = TEscQ \/ t = TEsc
  | StrayQuote from => exists b, t = TMismatch (total - length from) false b
  | StrayQuoteEscape from => exists b, t = TMismatch (total - length from) true b
  end.
Lemma one_field_len s v after : onef s v after -> length after <= length s.
Proof.
  destruct 1 as [s v after _ P|q s v after _ P].
  - induction P; cbn [length] in *; rewrite ?app_length; cbn [length]; lia.
  - cbn. induction P; cbn [length] in *; lia.
Qed.
Lemma columns_complete line vs : cols line vs -> forall fuel total, length line < fuel -> fields c d fuel total (ltrim (c_triml c) line) = (vs, TOk).
Proof.
  induction 1 as [line v after F A|line v after rest vs F A R IH]; intros fuel total L; (destruct fuel as [|f]; [lia|]); cbn [fields].
  - destruct (field_exact_complete _ _ _ (total - length (ltrim (c_triml c) line)) F) as [K _]. rewrite K by exact A. reflexivity.
  - destruct (field_exact_complete _ _ _ (total - length (ltrim (c_triml c) line)) F) as [_ K]. rewrite (K rest A).
    rewrite IH; [reflexivity|]. pose proof (one_field_len _ _ _ F). pose proof (len_ltrim (c_triml c) line). pose proof (len_after c d Hd0 _ _ A). lia.
Qed.
Lemma defect_complete line k : dfct line k -> forall fuel total, length line < fuel -> length line <= total -> tverdict total k (snd (fields c d fuel total (ltrim (c_triml c) line))).
Proof.
  induction 1 as [line k D|line v after rest k F A R IH]; intros fuel total L T; (destruct fuel as [|f]; [lia|]); cbn [fields]; pose proof (len_ltrim (c_triml c) line) as LL.
  - pose proof (field_defect_complete total _ _ (total - length (ltrim (c_triml c) line)) D ltac:(lia)) as K.
    destruct k; cbn in K; [destruct K as [a ->]|destruct K as [->|[a ->]]|rewrite K|rewrite K]; cbn; eauto.
  - destruct (field_exact_complete _ _ _ (total - length (ltrim (c_triml c) line)) F) as [_ K]. rewrite (K rest A).
    pose proof (one_field_len _ _ _ F). pose proof (len_after c d Hd0 _ _ A). specialize (IH f total ltac:(lia) ltac:(lia)).
    destruct (fields c d f total (ltrim (c_triml c) rest)). exact IH.
Qed.
Lemma line_sound : forall fuel total line, length line < fuel -> length line <= total ->
  match fields c d fuel total (ltrim (c_triml c) line) with
  | (vs, TOk) => cols line vs
  | (_, t) => exists k, dfct line k /\ tverdict total k t
  end.
Proof.
  induction fuel as [|f IH]; intros total line L T; [lia|]. cbn [fields]. pose proof (len_ltrim (c_triml c) line) as LL.
  pose proof (field_exact_sound total (ltrim (c_triml c) line) (total - length (ltrim (c_triml c) line)) ltac:(lia)) as K.
  destruct (field c d (total - length (ltrim (c_triml c) line)) (ltrim (c_triml c) line)) as [v rest|v|v|v| |].
  - destruct K as (after & u & F & A & ->). pose proof (one_field_len _ _ _ F). pose proof (len_after c d Hd0 _ _ A). specialize (IH total u ltac:(lia) ltac:(lia)).
    destruct (fields c d f total (ltrim (c_triml c) u)) as [l t]. destruct t; try (destruct IH as (k & D & V); exists k; split; [eapply hd_later; eauto|exact V]).
    eapply hc_more; eauto.
  - destruct K as (after & F & A). eapply hc_last; eauto.
  - destruct K as (k & D & V). exists k. split; [apply hd_here; exact D|]. destruct k; cbn in *; try discriminate; auto; destruct V; discriminate.
  - destruct K as (k & D & V). exists k. split; [apply hd_here; exact D|]. destruct k; cbn in *; eauto; try discriminate; destruct V as [V|[? V]]; discriminate.
  - destruct K as (k & D & V). exists k. split; [apply hd_here; exact D|]. destruct k; cbn in *; auto; try discriminate; destruct V; discriminate.
  - destruct K as (k & D & V). exists k. split; [apply hd_here; exact D|]. destruct k; cbn in *; [destruct V; discriminate|destruct V as [V|[? V]]; discriminate| |]; injection V as -> ->; eauto.
Qed.
Theorem psplit_columns line vs : cols line vs -> psplit c d line = (vs, TOk).
Proof. intros H. unfold psplit. rewrite <- ltrim_dropc. apply columns_complete; [exact H|lia]. Qed.
Theorem psplit_defect line k : dfct line k -> tverdict (length line) k (snd (psplit c d line)).
Proof. intros H. unfold psplit. rewrite <- ltrim_dropc. apply defect_complete; [exact H|lia|lia]. Qed.
Theorem psplit_total line : match psplit c d line with (vs, TOk) => cols line vs | (_, t) => exists k, dfct line k /\ tverdict (length line) k t end.
Proof. unfold psplit. rewrite <- ltrim_dropc. apply line_sound; lia. Qed.
End X.
