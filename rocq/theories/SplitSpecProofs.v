(** The pure splitter SplitPure.psplit against the grammar of SplitSpec. *)
From Verif Require Import Base Setup Splitter SplitPure ListFacts SplitSpec SplitRefine.

Lemma mem_dec x cs : mem x cs = if in_dec ascii_dec x cs then true else false.
Proof. destruct (in_dec ascii_dec x cs) as [H|H]; [apply mem_In|apply mem_nIn]; exact H. Qed.
Lemma ltrim_dropc cs s : ltrim cs s = dropc cs s.
Proof.
  unfold dropc. induction s as [|x s IH]; [reflexivity|].
  cbn [ltrim span]. rewrite mem_dec. destruct (in_dec ascii_dec x cs); [|reflexivity].
  rewrite IH. destruct (span cs s); reflexivity.
Qed.

Lemma never_adjacent_tail a b x s : never_adjacent a b (x :: s) -> never_adjacent a b s.
Proof. intros H pre u v post ->. exact (H (x :: pre) u v post eq_refl). Qed.
Lemma never_adjacent_app a b p s : never_adjacent a b (p ++ s) -> never_adjacent a b s.
Proof. induction p as [|x p IH]; [auto|]. intros H; apply IH; eapply never_adjacent_tail; exact H. Qed.
Lemma never_qeq_app q e p s : never_qeq q e (p ++ s) -> never_qeq q e s.
Proof. intros H pre x y post ->. apply (H (p ++ pre) x y post). rewrite <- app_assoc; reflexivity. Qed.

Section G.
Context (c : cfg) (Hc : cfg_ok c) (d : str) (Hd0 : d <> []).

Notation ends := (field_ends (c_trimr c) d).
Notation nte := (no_trim_before_escape (c_escape c) (c_trimr c)).
Notation unq := (unquoted (c_escape c) (c_trimr c) d nte).
Notation inq := (inquotes (c_escape c) (c_trimr c) d).
Notation ftext := (field_text (c_quote c) (c_escape c) (c_trimr c) d nte).
Notation reads := (reads_as (c_quote c) (c_escape c) (c_triml c) (c_trimr c) d nte).
Notation ubr := (unquoted_break (c_escape c) (c_trimr c) d).
Notation ibr := (inquotes_break (c_escape c) (c_trimr c) d).
Notation brk := (breaks_as (c_quote c) (c_escape c) (c_triml c) (c_trimr c) d nte).
Notation noadj := (never_adjacent (c_trimr c) (c_escape c)).

Lemma ends_md s : ends s <-> match md c d s with MOther _ _ _ => False | _ => True end.
Proof.
  unfold field_ends. rewrite ltrim_dropc. unfold md, dropc.
  destruct (span (c_trimr c) s) as [t u]; cbn [snd].
  destruct u as [|x r]; [intuition|].
  destruct (strip d (x :: r)) as [rest|] eqn:E.
  - apply strip_spec in E. split; [auto|]. intros _; right; exists rest; exact E.
  - split; [|contradiction]. intros [H|(rest & H)]; [discriminate|].
    rewrite H, strip_app in E; discriminate.
Qed.
Lemma md_eol s : md c d s = MEol <-> ltrim (c_trimr c) s = [].
Proof.
  rewrite ltrim_dropc. unfold md, dropc. destruct (span (c_trimr c) s) as [t [|x r]]; cbn [snd]; [intuition|].
  destruct (strip d (x :: r)); split; discriminate.
Qed.
Lemma md_delim s rest : md c d s = MDelim rest <-> exists v, ltrim (c_trimr c) s = d ++ v /\ rest = ltrim (c_triml c) v.
Proof.
  setoid_rewrite ltrim_dropc. unfold md. unfold dropc at 2. destruct (span (c_trimr c) s) as [t [|x r]]; cbn [snd].
  - split; [discriminate|]. intros (v & E & _). destruct d; [congruence|discriminate].
  - destruct (strip d (x :: r)) as [v|] eqn:E.
    + apply strip_spec in E. split.
      * intros H; injection H as <-. exists v; auto.
      * intros (v' & E' & ->). rewrite E in E'. apply app_inv_head in E' as ->. reflexivity.
    + split; [discriminate|]. intros (v' & E' & ->). rewrite E', strip_app in E; discriminate.
Qed.

Lemma md_other s t x r : md c d s = MOther t x r ->
  s = t ++ x :: r /\ Forall (fun y => In y (c_trimr c)) t /\ ~ In x (c_trimr c) /\ strip d (x :: r) = None.
Proof.
  unfold md. destruct (span (c_trimr c) s) as [t' u] eqn:E. apply span_spec in E as (-> & F & U).
  destruct u as [|y u]; [discriminate|]. destruct (strip d (y :: u)) eqn:Es; [discriminate|].
  intros H; injection H as <- <- <-. auto.
Qed.
Lemma md_other_intro t x r : Forall (fun y => In y (c_trimr c)) t -> ~ In x (c_trimr c) -> strip d (x :: r) = None ->
  md c d (t ++ x :: r) = MOther t x r.
Proof. intros F U E. unfold md. rewrite span_intro by auto. rewrite E. reflexivity. Qed.

Lemma escape_In x : escape_match c x = true <-> In x (c_escape c).
Proof. apply mem_In. Qed.
Lemma escape_nIn x : escape_match c x = false <-> ~ In x (c_escape c).
Proof. apply mem_nIn. Qed.
Lemma quote_eq x : quote_match c x = true <-> c_quote c = Some x.
Proof.
  unfold quote_match; destruct (c_quote c) as [q|]; [|split; discriminate].
  rewrite Ascii.eqb_eq. split; congruence.
Qed.

(** One step of [normal] without look-ahead skipping. *)
Lemma normal_step flag acc h s :
  (forall t x r, md c d (h :: s) = MOther t x r -> t <> [] -> escape_match c x = false) ->
  normal c d 0 flag acc (h :: s) =
  match md c d (h :: s) with
  | MEol => if flag then FLastEsc acc else FLast acc
  | MDelim rest => FNext acc rest
  | MOther _ _ _ =>
      if escape_match c h then
        match s with
        | [] => FLastEsc (acc ++ [h])
        | y :: r => normal c d 0 flag (acc ++ [y]) r
        end
      else normal c d 0 flag (acc ++ [h]) s
  end.
Proof.
  intros Hn. cbn [normal]. destruct (md c d (h :: s)) as [|rest|t x r] eqn:Em; try reflexivity.
  destruct (md_other _ _ _ _ Em) as (E & F & U & St).
  destruct t as [|h' t].
  - cbn in E. injection E as <- <-. cbn [length].
    destruct (escape_match c h); [|reflexivity].
    destruct s; reflexivity.
  - cbn in E. injection E as <- ->.
    assert (Hx : escape_match c x = false) by (apply (Hn _ _ _ eq_refl); discriminate).
    assert (Hh : escape_match c h = false).
    { apply escape_nIn. intros Hh. apply (ok_er c Hc h); [exact Hh|exact (Forall_inv F)]. }
    rewrite Hx, Hh.
    assert (K : forall t a, Forall (fun y => In y (c_trimr c)) t ->
       normal c d (S (length t)) flag a (t ++ x :: r) = normal c d 0 flag a (t ++ x :: r)).
    { intros t0 a F0.
      replace (normal c d (S (length t0)) flag a (t0 ++ x :: r)) with (normal c d 0 flag (a ++ t0 ++ [x]) r).
      2:{ rewrite <- normal_keep. rewrite app_length. cbn [length]. rewrite <- app_assoc. cbn [app]. f_equal. lia. }
      pose proof (md_other_intro t0 x r F0 U St) as Em0.
      destruct t0 as [|y t1]; cbn [app] in *.
      - cbn [normal]. rewrite Em0, Hx. reflexivity.
      - cbn [normal]. rewrite Em0, Hx. cbn [length].
        replace (S (length t1)) with (length (t1 ++ [x])) by lens.
        change (x :: r) with ([x] ++ r). rewrite (app_assoc t1), normal_keep.
        rewrite <- !app_assoc. reflexivity. }
    cbn [length]. apply K. exact (Forall_inv_tail F).
Qed.

Lemma noadj_step s : noadj s -> forall t x r, md c d s = MOther t x r -> t <> [] -> escape_match c x = false.
Proof.
  intros Hn t x r Em Ht. apply md_other in Em as (E & F & U & St).
  apply escape_nIn. intros Hx. destruct (@exists_last _ t Ht) as (l & y & El).
  assert (Hy : In y (c_trimr c)).
  { rewrite El in F. rewrite Forall_app in F. destruct F as [_ F]. exact (Forall_inv F). }
  apply (Hn l y x r); auto. rewrite E, El, <- app_assoc. reflexivity.
Qed.

Lemma unq_step v t after : unq v t after ->
  forall t0 x r, md c d (t ++ after) = MOther t0 x r -> length t0 < length t /\ (t0 <> [] -> escape_match c x = false).
Proof.
  induction 1 as [after He|x v t after Hne Hx Hok Hu IH|e x v t after Hne He Hu IH]; intros t0 y r Em; cbn [app] in *.
  - apply ends_md in He. rewrite Em in He. contradiction.
  - destruct t0 as [|h t0]; [cbn; split; [lia|congruence]|].
    pose proof (md_other _ _ _ _ Em) as (E & F & U & St). cbn in E. injection E as <- E.
    assert (Em' : md c d (t ++ after) = MOther t0 y r) by (rewrite E; apply md_other_intro; [exact (Forall_inv_tail F)|exact U|exact St]).
    destruct (IH _ _ _ Em') as [IL IE]. split; [cbn; lia|]. intros _.
    destruct t0 as [|h2 t0]; [|apply IE; discriminate].
    destruct t as [|z t]; [cbn in IL; lia|]. cbn in E. injection E as <- _.
    apply escape_nIn. apply (Hok (Forall_inv F) z t eq_refl).
  - destruct t0 as [|h t0]; [cbn; split; [lia|congruence]|].
    exfalso. apply md_other in Em as (E & F & _). cbn in E. injection E as <- _.
    apply (ok_er c Hc e He). exact (Forall_inv F).
Qed.

Lemma normal_flag : forall s k acc, match normal c d k true acc s with FLast _ => False | _ => True end.
Proof.
  induction s as [|h s IH]; intros k acc; cbn [normal]; [exact I|].
  destruct k; [|apply IH]. destruct (md c d (h :: s)); [exact I|exact I|].
  destruct (escape_match c x); [destruct r|]; apply IH.
Qed.

(** Unquoted fields. *)
Lemma normal_sound : forall n s acc, length s <= n -> noadj s ->
  match normal c d 0 false acc s with
  | FLast a => exists v t after, s = t ++ after /\ a = acc ++ v /\ unq v t after /\ ltrim (c_trimr c) after = []
  | FNext a rest => exists v t after u, s = t ++ after /\ a = acc ++ v /\ unq v t after
        /\ ltrim (c_trimr c) after = d ++ u /\ rest = ltrim (c_triml c) u
  | FLastEsc _ => ubr s
  | _ => False
  end.
Proof.
  induction n as [|n IH]; intros s acc Hl Hn.
  - destruct s; [|cbn in Hl; lia]. cbn. exists [], [], []. rewrite ?app_nil_r. repeat split; rewrite ?app_nil_r; auto.
    constructor. left; reflexivity.
  - destruct s as [|h s].
    { cbn. exists [], [], []. rewrite ?app_nil_r. repeat split; rewrite ?app_nil_r; auto. constructor. left; reflexivity. }
    rewrite normal_step by (apply noadj_step; exact Hn). cbn in Hl.
    destruct (md c d (h :: s)) as [|rest|t x r] eqn:Em.
    + apply md_eol in Em. exists [], [], (h :: s). rewrite ?app_nil_r. repeat split; rewrite ?app_nil_r; auto. constructor. left; exact Em.
    + apply md_delim in Em as (u & Eu & ->). exists [], [], (h :: s), u. rewrite ?app_nil_r. repeat split; rewrite ?app_nil_r; auto.
      constructor. right; exists u; exact Eu.
    + assert (NE : ~ ends (h :: s)) by (rewrite ends_md, Em; auto).
      destruct (escape_match c h) eqn:Eh.
      * apply escape_In in Eh. destruct s as [|y s]; [constructor; auto|].
        assert (Hn' : noadj s) by (do 2 apply never_adjacent_tail in Hn; exact Hn).
        specialize (IH s (acc ++ [y]) ltac:(cbn in Hl; lia) Hn').
        destruct (normal c d 0 false (acc ++ [y]) s) as [a rest|a|a|a| |]; auto.
        -- destruct IH as (v & t0 & after & u & Es & Ea & U & E1 & E2).
           exists (y :: v), (h :: y :: t0), after, u. rewrite Es, Ea, <- app_assoc in *. repeat split; auto.
           constructor; auto.
        -- destruct IH as (v & t0 & after & Es & Ea & U & E1).
           exists (y :: v), (h :: y :: t0), after. rewrite Es, Ea, <- app_assoc in *. repeat split; auto.
           constructor; auto.
        -- apply ub_escape; auto.
      * apply escape_nIn in Eh.
        assert (Hn' : noadj s) by (apply never_adjacent_tail in Hn; exact Hn).
        specialize (IH s (acc ++ [h]) ltac:(lia) Hn').
        destruct (normal c d 0 false (acc ++ [h]) s) as [a rest|a|a|a| |]; auto.
        -- destruct IH as (v & t0 & after & u & Es & Ea & U & E1 & E2).
           exists (h :: v), (h :: t0), after, u. rewrite Es, Ea, <- app_assoc in *. repeat split; auto.
           constructor; auto. intros Ht y t' -> Hy. exact (Hn [] h y (t' ++ after) eq_refl Ht Hy).
        -- destruct IH as (v & t0 & after & Es & Ea & U & E1).
           exists (h :: v), (h :: t0), after. rewrite Es, Ea, <- app_assoc in *. repeat split; auto.
           constructor; auto. intros Ht y t' -> Hy. exact (Hn [] h y (t' ++ after) eq_refl Ht Hy).
        -- apply ub_char; auto.
Qed.

Lemma normal_complete v t after : unq v t after -> forall acc,
  (ltrim (c_trimr c) after = [] -> normal c d 0 false acc (t ++ after) = FLast (acc ++ v)) /\
  (forall u, ltrim (c_trimr c) after = d ++ u -> normal c d 0 false acc (t ++ after) = FNext (acc ++ v) (ltrim (c_triml c) u)).
Proof.
  intros H. pose proof H as H0. revert H0.
  induction H as [after He|x v t after Hne Hx Hok Hu IH|e x v t after Hne He Hu IH]; intros HU acc; pose proof (unq_step _ _ _ HU) as HS.
  - cbn [app] in *. rewrite app_nil_r. split.
    + intros E. apply md_eol in E. destruct after as [|h s]; [reflexivity|]. rewrite normal_step by (rewrite E; discriminate).
      rewrite E. reflexivity.
    + intros u E. destruct after as [|h s]; [destruct d; [congruence|discriminate]|].
      assert (Em : md c d (h :: s) = MDelim (ltrim (c_triml c) u)) by (apply md_delim; eauto).
      rewrite normal_step by (rewrite Em; discriminate). rewrite Em. reflexivity.
  - cbn [app] in *. rewrite ends_md in Hne. rewrite normal_step by (intros; eapply HS; eauto).
    destruct (md c d (x :: t ++ after)); try tauto.
    apply escape_nIn in Hx. rewrite Hx.
    specialize (IH Hu (acc ++ [x])). rewrite <- app_assoc in IH. exact IH.
  - cbn [app] in *. rewrite ends_md in Hne. rewrite normal_step by (intros; eapply HS; eauto).
    destruct (md c d (e :: x :: t ++ after)); try tauto.
    apply escape_In in He. rewrite He.
    specialize (IH Hu (acc ++ [x])). rewrite <- app_assoc in IH. exact IH.
Qed.

(** Quoted fields. *)
Lemma quoted_complete q v t after : c_quote c = Some q -> inq q v t after -> forall pos acc,
  (ltrim (c_trimr c) after = [] -> quoted c d 0 0 pos acc (t ++ q :: after) = FLast (acc ++ v)) /\
  (forall u, ltrim (c_trimr c) after = d ++ u -> quoted c d 0 0 pos acc (t ++ q :: after) = FNext (acc ++ v) (ltrim (c_triml c) u)).
Proof.
  intros Hq. assert (Hqm : quote_match c q = true) by (apply quote_eq; exact Hq).
  induction 1 as [after He|x v t after Hxq Hx Hu IH|v t after Hne Hu IH|e x v t after He Hu IH]; intros pos acc.
  - cbn [app]. rewrite app_nil_r. cbn [quoted]. rewrite Hqm. split.
    + intros E. apply md_eol in E. rewrite E. reflexivity.
    + intros u E. assert (Em : md c d after = MDelim (ltrim (c_triml c) u)) by (apply md_delim; eauto).
      rewrite Em. reflexivity.
  - cbn [app]. cbn [quoted]. apply escape_nIn in Hx. rewrite Hx.
    destruct (quote_match c x) eqn:E; [apply quote_eq in E; congruence|].
    specialize (IH (S pos) (acc ++ [x])). rewrite <- app_assoc in IH. exact IH.
  - cbn [app]. cbn [quoted]. rewrite Hqm. rewrite ends_md in Hne.
    destruct (md c d (q :: t ++ q :: after)) as [| |t0 x0 r0] eqn:Em; try tauto.
    apply md_other in Em as (E & F & U & St).
    assert (t0 = []).
    { destruct t0 as [|y t0]; [reflexivity|]. exfalso. cbn in E. injection E as <- _.
      apply (ok_qr c Hc q); [unfold quote_list; rewrite Hq; left; reflexivity|exact (Forall_inv F)]. }
    subst t0. cbn in E. injection E as <- <-.
    destruct (escape_match c q) eqn:Ee.
    { apply escape_In in Ee. exfalso. apply (ok_qe c Hc q Ee). unfold quote_list; rewrite Hq; left; reflexivity. }
    cbn [length Nat.eqb andb]. rewrite Hqm.
    specialize (IH (S (S pos)) (acc ++ [q])). rewrite <- app_assoc in IH. exact IH.
  - cbn [app]. cbn [quoted].
    assert (Hne : quote_match c e = false).
    { destruct (quote_match c e) eqn:E; [|reflexivity]. apply quote_eq in E. exfalso.
      apply (ok_qe c Hc e He). unfold quote_list; rewrite E; left; reflexivity. }
    apply escape_In in He. rewrite Hne, He.
    specialize (IH (S (S pos)) (acc ++ [x])). rewrite <- app_assoc in IH. exact IH.
Qed.

Lemma quoted_sound q : c_quote c = Some q -> forall n s pos acc, length s <= n -> never_qeq (c_quote c) (c_escape c) s ->
  match quoted c d 0 0 pos acc s with
  | FLast a => exists v t after, s = t ++ q :: after /\ a = acc ++ v /\ inq q v t after /\ ltrim (c_trimr c) after = []
  | FNext a rest => exists v t after u, s = t ++ q :: after /\ a = acc ++ v /\ inq q v t after
        /\ ltrim (c_trimr c) after = d ++ u /\ rest = ltrim (c_triml c) u
  | FLastEsc _ => False
  | FUnterm _ => ibr q UnterminatedQuote s
  | FEscEnd => ibr q UnterminatedEscape s
  | FMismatch _ e => ibr q MismatchedQuote s /\ (e = true -> ibr q UnterminatedEscape s)
  end.
Proof.
  intros Hq. induction n as [|n IH]; intros s pos acc Hl Hn.
  - destruct s; [constructor|cbn in Hl; lia].
  - destruct s as [|h s]; [constructor|]. cbn in Hl. cbn [quoted].
    destruct (quote_match c h) eqn:Eqh.
    + apply quote_eq in Eqh. assert (h = q) by congruence. subst h.
      destruct (md c d s) as [|rest|t x r] eqn:Em.
      * apply md_eol in Em. exists [], [], s. rewrite ?app_nil_r. repeat split; rewrite ?app_nil_r; auto. constructor. left; exact Em.
      * apply md_delim in Em as (u & Eu & ->). exists [], [], s, u. rewrite ?app_nil_r. repeat split; rewrite ?app_nil_r; auto.
        constructor. right; exists u; exact Eu.
      * assert (NE : ~ ends s) by (rewrite ends_md, Em; auto).
        apply md_other in Em as (Es & F & U & St).
        assert (EL : ltrim (c_trimr c) s = x :: r).
        { rewrite ltrim_dropc, Es. unfold dropc. rewrite span_intro by auto. reflexivity. }
        assert (HM : (t = [] -> x <> q) -> hd_error s <> Some q).
        { intros H. rewrite Es. destruct t as [|y t]; cbn; [intros [= ->]; exact (H eq_refl eq_refl)|].
          intros [= ->]. apply (ok_qr c Hc q); [unfold quote_list; rewrite Hq; left; reflexivity|exact (Forall_inv F)]. }
        assert (HE : escape_match c x = true -> x <> q).
        { intros Ee ->. apply escape_In in Ee. apply (ok_qe c Hc q Ee). unfold quote_list; rewrite Hq; left; reflexivity. }
        destruct (escape_match c x) eqn:Ee.
        -- destruct r as [|y r].
           { split; [apply qb_mismatched; auto|]. intros _. apply escape_In in Ee. eapply qb_lone_after; eauto. }
           destruct ((length t =? 0) && quote_match c y) eqn:Eb; [|split; [apply qb_mismatched; auto|discriminate]].
           exfalso. apply andb_true_iff in Eb as [Et Ey]. apply Nat.eqb_eq in Et. destruct t; [|discriminate].
           apply quote_eq in Ey. assert (y = q) by congruence. subst y.
           apply escape_In in Ee. apply (Hn [] q x r); auto. rewrite Es. reflexivity.
        -- destruct ((length t =? 0) && quote_match c x) eqn:Eb.
           2:{ split; [|discriminate]. apply qb_mismatched; auto. apply HM. intros -> ->.
               apply quote_eq in Hq. cbn in Eb. congruence. }
           apply andb_true_iff in Eb as [Et Ey]. apply Nat.eqb_eq in Et. destruct t; [|discriminate].
           apply quote_eq in Ey. assert (x = q) by congruence. subst x. cbn [app] in Es. subst s.
           cbn [quoted].
           assert (Hn' : never_qeq (c_quote c) (c_escape c) r) by (apply (never_qeq_app _ _ [q; q]) in Hn; exact Hn).
           specialize (IH r (S (S pos)) (acc ++ [q]) ltac:(cbn in Hl; lia) Hn').
           destruct (quoted c d 0 0 (S (S pos)) (acc ++ [q]) r) as [a rest|a|a|a| |]; auto.
           ++ destruct IH as (v & t0 & after & u & Es & Ea & I1 & E1 & E2). subst r a rest.
              exists (q :: v), (q :: q :: t0), after, u. rewrite <- app_assoc in *. repeat split; auto.
              apply q_double; auto.
           ++ destruct IH as (v & t0 & after & Es & Ea & I1 & E1). subst r a.
              exists (q :: v), (q :: q :: t0), after. rewrite <- app_assoc in *. repeat split; auto.
              apply q_double; auto.
           ++ apply qb_double; auto.
           ++ apply qb_double; auto.
           ++ destruct IH; split; [|intros]; apply qb_double; auto.
    + assert (Hhq : h <> q) by (intros ->; apply quote_eq in Hq; congruence).
      destruct (escape_match c h) eqn:Ee.
      * destruct s as [|y s]; [apply escape_In in Ee; constructor; exact Ee|]. cbn [quoted].
        assert (Hn' : never_qeq (c_quote c) (c_escape c) s) by (apply (never_qeq_app _ _ [h; y]) in Hn; exact Hn).
        specialize (IH s (S (S pos)) (acc ++ [y]) ltac:(cbn in Hl; lia) Hn').
        apply escape_In in Ee.
        destruct (quoted c d 0 0 (S (S pos)) (acc ++ [y]) s) as [a rest|a|a|a| |]; auto.
        -- destruct IH as (v & t0 & after & u & Es & Ea & I1 & E1 & E2). subst s a rest.
           exists (y :: v), (h :: y :: t0), after, u. rewrite <- app_assoc in *. repeat split; auto.
           apply q_escape; auto.
        -- destruct IH as (v & t0 & after & Es & Ea & I1 & E1). subst s a.
           exists (y :: v), (h :: y :: t0), after. rewrite <- app_assoc in *. repeat split; auto.
           apply q_escape; auto.
        -- apply qb_escape; auto.
        -- apply qb_escape; auto.
        -- destruct IH; split; [|intros]; apply qb_escape; auto.
      * assert (Hn' : never_qeq (c_quote c) (c_escape c) s) by (apply (never_qeq_app _ _ [h]) in Hn; exact Hn).
        specialize (IH s (S pos) (acc ++ [h]) ltac:(lia) Hn').
        apply escape_nIn in Ee.
        destruct (quoted c d 0 0 (S pos) (acc ++ [h]) s) as [a rest|a|a|a| |]; auto.
        -- destruct IH as (v & t0 & after & u & Es & Ea & I1 & E1 & E2). subst s a rest.
           exists (h :: v), (h :: t0), after, u. rewrite <- app_assoc in *. repeat split; auto.
           constructor; auto.
        -- destruct IH as (v & t0 & after & Es & Ea & I1 & E1). subst s a.
           exists (h :: v), (h :: t0), after. rewrite <- app_assoc in *. repeat split; auto.
           constructor; auto.
        -- apply qb_char; auto.
        -- apply qb_char; auto.
        -- destruct IH; split; [|intros]; apply qb_char; auto.
Qed.

(** A field. *)
Lemma field_complete v t after pos : ftext v t after ->
  (ltrim (c_trimr c) after = [] -> field c d pos (t ++ after) = FLast v) /\
  (forall u, ltrim (c_trimr c) after = d ++ u -> field c d pos (t ++ after) = FNext v (ltrim (c_triml c) u)).
Proof.
  intros H. destruct H as [v t after Hq Hu|q v t after Hq Hu].
  - pose proof (normal_complete v t after Hu []) as K. cbn [app] in K.
    assert (Ef : field c d pos (t ++ after) = normal c d 0 false [] (t ++ after)).
    { unfold field. destruct (t ++ after) as [|h s]; [reflexivity|].
      destruct (quote_match c h) eqn:E; [|reflexivity]. apply quote_eq in E. exfalso. apply (Hq h E). reflexivity. }
    rewrite Ef. exact K.
  - cbn [app]. rewrite <- app_assoc. cbn [app field].
    assert (Hqm : quote_match c q = true) by (apply quote_eq; exact Hq). rewrite Hqm.
    exact (quoted_complete q v t after Hq Hu (S pos) []).
Qed.

Lemma field_sound s pos : noadj s -> never_qeq (c_quote c) (c_escape c) s ->
  match field c d pos s with
  | FLast v => exists t after, s = t ++ after /\ ftext v t after /\ ltrim (c_trimr c) after = []
  | FNext v rest => exists t after u, s = t ++ after /\ ftext v t after
        /\ ltrim (c_trimr c) after = d ++ u /\ rest = ltrim (c_triml c) u
  | _ => True
  end.
Proof.
  intros Hn Hq.
  assert (HN : match normal c d 0 false [] s with
     | FLast v => (forall q, c_quote c = Some q -> hd_error s <> Some q) -> exists t after, s = t ++ after /\ ftext v t after /\ ltrim (c_trimr c) after = []
     | FNext v rest => (forall q, c_quote c = Some q -> hd_error s <> Some q) -> exists t after u, s = t ++ after /\ ftext v t after
        /\ ltrim (c_trimr c) after = d ++ u /\ rest = ltrim (c_triml c) u
     | _ => True end).
  { pose proof (normal_sound (length s) s [] (le_n _) Hn) as K.
    destruct (normal c d 0 false [] s); auto.
    - destruct K as (v & t & after & u & E & Ea & U & E1 & E2). intros Hh. exists t, after, u.
      cbn in Ea; subst acc. repeat split; auto. apply f_plain; auto. rewrite <- E; exact Hh.
    - destruct K as (v & t & after & E & Ea & U & E1). intros Hh. exists t, after.
      cbn in Ea; subst acc. repeat split; auto. apply f_plain; auto. rewrite <- E; exact Hh. }
  unfold field. destruct s as [|h s].
  - exists [], []. repeat split. apply f_plain; [discriminate|]. constructor. left; reflexivity.
  - destruct (quote_match c h) eqn:Eh.
    + apply quote_eq in Eh.
      assert (Hq' : never_qeq (c_quote c) (c_escape c) s) by (apply (never_qeq_app _ _ [h]) in Hq; exact Hq).
      pose proof (quoted_sound h Eh (length s) s (S pos) [] (le_n _) Hq') as K.
      destruct (quoted c d 0 0 (S pos) [] s); auto.
      * destruct K as (v & t & after & u & E & Ea & U & E1 & E2). exists (h :: t ++ [h]), after, u.
        cbn in Ea; subst acc s. repeat split; auto; [cbn; rewrite <- app_assoc; reflexivity|]. apply f_quoted; auto.
      * destruct K as (v & t & after & E & Ea & U & E1). exists (h :: t ++ [h]), after.
        cbn in Ea; subst acc s. repeat split; auto; [cbn; rewrite <- app_assoc; reflexivity|]. apply f_quoted; auto.
    + assert (Hh : forall q, c_quote c = Some q -> hd_error (h :: s) <> Some q).
      { intros q Eq E. cbn in E. injection E as ->. apply quote_eq in Eq. congruence. }
      destruct (normal c d 0 false [] (h :: s)); auto.
Qed.

(** Lines. *)
Lemma ltrim_suffix cs s : exists p, s = p ++ ltrim cs s.
Proof. rewrite ltrim_dropc. destruct (dropc_suffix cs s) as (p & E & _); eauto. Qed.

Lemma noadj_rest cs s : noadj s -> noadj (ltrim cs s).
Proof. destruct (ltrim_suffix cs s) as (p & E). rewrite E at 1. apply never_adjacent_app. Qed.
Lemma qeq_rest cs s : never_qeq (c_quote c) (c_escape c) s -> never_qeq (c_quote c) (c_escape c) (ltrim cs s).
Proof. destruct (ltrim_suffix cs s) as (p & E). rewrite E at 1. apply never_qeq_app. Qed.

Lemma len_ltrim cs s : length (ltrim cs s) <= length s.
Proof. rewrite ltrim_dropc. apply dropc_length. Qed.

Lemma len_after after u : ltrim (c_trimr c) after = d ++ u -> length u < length after.
Proof.
  intros E. pose proof (len_ltrim (c_trimr c) after) as H. rewrite E, app_length in H.
  destruct d; [congruence|cbn in H; lia].
Qed.

Lemma noadj_after after u : ltrim (c_trimr c) after = d ++ u -> noadj after -> noadj u.
Proof. intros E H. apply (noadj_rest (c_trimr c)) in H. rewrite E in H. apply never_adjacent_app in H. exact H. Qed.
Lemma qeq_after after u : ltrim (c_trimr c) after = d ++ u -> never_qeq (c_quote c) (c_escape c) after -> never_qeq (c_quote c) (c_escape c) u.
Proof. intros E H. apply (qeq_rest (c_trimr c)) in H. rewrite E in H. apply never_qeq_app in H. exact H. Qed.

Lemma fields_complete line vs : reads line vs -> forall fuel total,
  length line < fuel -> fields c d fuel total (ltrim (c_triml c) line) = (vs, TOk).
Proof.
  induction 1 as [line v t after El Hf Ea|line v t after rest vs El Hf Ea Hr IH]; intros fuel total Hfu;
    (destruct fuel as [|f]; [lia|]); cbn [fields].
  - rewrite El.
    destruct (field_complete v t after (total - length (t ++ after)) Hf) as [K _]. rewrite (K Ea). reflexivity.
  - pose proof (len_after _ _ Ea). pose proof (len_ltrim (c_triml c) line) as Hle. rewrite El in *.
    destruct (field_complete v t after (total - length (t ++ after)) Hf) as [_ K]. rewrite (K rest Ea).
    rewrite IH; [reflexivity|]. rewrite app_length in Hle. lia.
Qed.

Lemma fields_sound : forall fuel total line vs,
  noadj line -> never_qeq (c_quote c) (c_escape c) line ->
  fields c d fuel total (ltrim (c_triml c) line) = (vs, TOk) -> reads line vs.
Proof.
  induction fuel as [|f IH]; intros total line vs Hn Hq E; cbn [fields] in E; [discriminate|].
  pose proof (field_sound (ltrim (c_triml c) line) (total - length (ltrim (c_triml c) line))
    (noadj_rest _ _ Hn) (qeq_rest _ _ Hq)) as K.
  apply (noadj_rest (c_triml c)) in Hn. apply (qeq_rest (c_triml c)) in Hq.
  destruct (field c d _ (ltrim (c_triml c) line)) as [v rest|v|v|v| |]; try discriminate.
  - destruct K as (t & after & u & El & Hf & Ea & ->).
    destruct (fields c d f total (ltrim (c_triml c) u)) as [l tl] eqn:Er. injection E as <- ->.
    eapply r_more; eauto. eapply IH; [| |exact Er].
    + apply (noadj_after _ _ Ea). rewrite El in Hn. apply never_adjacent_app in Hn. exact Hn.
    + apply (qeq_after _ _ Ea). rewrite El in Hq. apply never_qeq_app in Hq. exact Hq.
  - destruct K as (t & after & El & Hf & Ea). injection E as <-. eapply r_last; eauto.
Qed.

Theorem psplit_complete line vs : reads line vs -> psplit c d line = (vs, TOk).
Proof. intros H. unfold psplit. rewrite <- ltrim_dropc. apply fields_complete; auto. Qed.
Theorem psplit_sound line vs : noadj line -> never_qeq (c_quote c) (c_escape c) line ->
  psplit c d line = (vs, TOk) -> reads line vs.
Proof. unfold psplit. rewrite <- ltrim_dropc. apply fields_sound. Qed.

(** Malformed lines. *)
Lemma ltrim_md s e : ltrim (c_trimr c) s = [e] -> ~ ends s -> exists t, md c d s = MOther t e [].
Proof.
  rewrite ends_md, ltrim_dropc. unfold md, dropc. destruct (span (c_trimr c) s) as [t u]. cbn [snd]. intros ->.
  destruct (strip d [e]); [tauto|eauto].
Qed.
Lemma normal_break s : ubr s -> noadj s -> forall acc, exists a, normal c d 0 false acc s = FLastEsc a.
Proof.
  induction 1 as [e Hne He|x t Hne Hx Hu IH|e x t Hne He Hu IH]; intros Hn acc;
    rewrite normal_step by (apply noadj_step; exact Hn); rewrite ends_md in Hne.
  - destruct (md c d [e]); try tauto. apply escape_In in He. rewrite He. eauto.
  - destruct (md c d (x :: t)); try tauto. apply escape_nIn in Hx. rewrite Hx.
    apply IH. apply never_adjacent_tail in Hn; exact Hn.
  - destruct (md c d (e :: x :: t)); try tauto. apply escape_In in He. rewrite He.
    apply IH. do 2 apply never_adjacent_tail in Hn; exact Hn.
Qed.
Lemma quoted_break q k s : c_quote c = Some q -> ibr q k s -> never_qeq (c_quote c) (c_escape c) s -> forall pos acc,
  match quoted c d 0 0 pos acc s with
  | FUnterm _ => k = UnterminatedQuote
  | FEscEnd => k = UnterminatedEscape
  | FMismatch _ e => k = MismatchedQuote \/ e = true /\ k = UnterminatedEscape
  | _ => False
  end.
Proof.
  intros Hq. assert (Hqm : quote_match c q = true) by (apply quote_eq; exact Hq).
  assert (HQE : forall e, In e (c_escape c) -> quote_match c e = false).
  { intros e He. destruct (quote_match c e) eqn:E; [|reflexivity]. apply quote_eq in E. exfalso.
    apply (ok_qe c Hc e He). unfold quote_list; rewrite E; left; reflexivity. }
  induction 1 as [|e He|e after Hne El He|after Hne Hh|k x t Hxq Hx Hi IH|k t Hne Hi IH|k e x t He Hi IH]; intros Hn pos acc; cbn [quoted].
  - reflexivity.
  - rewrite (HQE e He). apply escape_In in He. rewrite He. reflexivity.
  - rewrite Hqm. destruct (ltrim_md _ _ El Hne) as (t & Em). rewrite Em. apply escape_In in He. rewrite He. auto.
  - rewrite Hqm. rewrite ends_md in Hne. destruct (md c d after) as [| |t x r] eqn:Em; try tauto.
    apply md_other in Em as (Es & F & U & St).
    destruct (escape_match c x) eqn:Ee.
    + destruct r as [|y r]; [auto|]. destruct ((length t =? 0) && quote_match c y) eqn:Eb; [|auto].
      exfalso. apply andb_true_iff in Eb as [Et Ey]. apply Nat.eqb_eq in Et. destruct t; [|discriminate].
      apply quote_eq in Ey. apply escape_In in Ee. apply (Hn [] y x r); auto. rewrite Es.
      assert (y = q) by congruence. subst y. reflexivity.
    + destruct ((length t =? 0) && quote_match c x) eqn:Eb; [|auto].
      exfalso. apply andb_true_iff in Eb as [Et Ey]. apply Nat.eqb_eq in Et. destruct t; [|discriminate].
      apply Hh. rewrite Es. cbn. apply quote_eq in Ey. congruence.
  - destruct (quote_match c x) eqn:E; [apply quote_eq in E; congruence|]. apply escape_nIn in Hx. rewrite Hx.
    apply IH. apply (never_qeq_app _ _ [x]) in Hn. exact Hn.
  - rewrite Hqm. rewrite ends_md in Hne.
    destruct (md c d (q :: t)) as [| |t0 x0 r0] eqn:Em; try tauto.
    apply md_other in Em as (E & F & U & St).
    assert (t0 = []).
    { destruct t0 as [|y t0]; [reflexivity|]. exfalso. cbn in E. injection E as <- _.
      apply (ok_qr c Hc q); [unfold quote_list; rewrite Hq; left; reflexivity|exact (Forall_inv F)]. }
    subst t0. cbn in E. injection E as <- <-.
    destruct (escape_match c q) eqn:Ee; [apply escape_In in Ee; rewrite (HQE q Ee) in Hqm; discriminate|].
    cbn [length Nat.eqb andb]. rewrite Hqm. cbn [quoted].
    apply IH. apply (never_qeq_app _ _ [q; q]) in Hn. exact Hn.
  - rewrite (HQE e He). apply escape_In in He. rewrite He. cbn [quoted].
    apply IH. apply (never_qeq_app _ _ [e; x]) in Hn. exact Hn.
Qed.

Definition tail_breaks (t : ptail) : list break :=
  match t with
  | TEsc | TEscQ => [UnterminatedEscape]
  | TUnterm _ _ => [UnterminatedQuote]
  | TMismatch _ e _ => MismatchedQuote :: if e then [UnterminatedEscape] else []
  | TOk | TFuel => []
  end.

Lemma field_break s pos : noadj s -> never_qeq (c_quote c) (c_escape c) s ->
  match field c d pos s with
  | FLastEsc _ => (forall q, c_quote c = Some q -> hd_error s <> Some q) /\ ubr s
  | FUnterm _ => exists q t, c_quote c = Some q /\ s = q :: t /\ ibr q UnterminatedQuote t
  | FEscEnd => exists q t, c_quote c = Some q /\ s = q :: t /\ ibr q UnterminatedEscape t
  | FMismatch _ e => exists q t, c_quote c = Some q /\ s = q :: t /\ ibr q MismatchedQuote t /\ (e = true -> ibr q UnterminatedEscape t)
  | _ => True
  end.
Proof.
  intros Hn Hq. unfold field. destruct s as [|h s]; [exact I|].
  destruct (quote_match c h) eqn:Eh.
  - apply quote_eq in Eh.
    assert (Hq' : never_qeq (c_quote c) (c_escape c) s) by (apply (never_qeq_app _ _ [h]) in Hq; exact Hq).
    pose proof (quoted_sound h Eh (length s) s (S pos) [] (le_n _) Hq') as K.
    destruct (quoted c d 0 0 (S pos) [] s); auto; try contradiction; exists h, s; auto.
  - pose proof (normal_sound (length (h :: s)) (h :: s) [] (le_n _) Hn) as K.
    destruct (normal c d 0 false [] (h :: s)); auto; try contradiction.
    split; [|exact K]. intros q Eq [= ->]. apply quote_eq in Eq. congruence.
Qed.

Lemma fields_break : forall fuel total line vs t k,
  noadj line -> never_qeq (c_quote c) (c_escape c) line ->
  fields c d fuel total (ltrim (c_triml c) line) = (vs, t) -> In k (tail_breaks t) -> brk line k.
Proof.
  induction fuel as [|f IH]; intros total line vs t k Hn Hq E Hk; cbn [fields] in E; [injection E as <- <-; destruct Hk|].
  pose proof (field_sound (ltrim (c_triml c) line) (total - length (ltrim (c_triml c) line))
    (noadj_rest _ _ Hn) (qeq_rest _ _ Hq)) as K.
  pose proof (field_break (ltrim (c_triml c) line) (total - length (ltrim (c_triml c) line))
    (noadj_rest _ _ Hn) (qeq_rest _ _ Hq)) as K2.
  apply (noadj_rest (c_triml c)) in Hn. apply (qeq_rest (c_triml c)) in Hq.
  destruct (field c d _ (ltrim (c_triml c) line)) as [v rest|v|v|v| |].
  - destruct K as (t0 & after & u & El & Hf & Ea & ->).
    destruct (fields c d f total (ltrim (c_triml c) u)) as [l tl] eqn:Er. injection E as <- <-.
    eapply b_later; eauto. eapply IH; [| |exact Er|exact Hk].
    + apply (noadj_after _ _ Ea). rewrite El in Hn. apply never_adjacent_app in Hn. exact Hn.
    + apply (qeq_after _ _ Ea). rewrite El in Hq. apply never_qeq_app in Hq. exact Hq.
  - injection E as <- <-. destruct Hk.
  - injection E as <- <-. destruct Hk as [<-|[]]. destruct K2. apply b_plain; auto.
  - injection E as <- <-. destruct Hk as [<-|[]]. destruct K2 as (q & t0 & A & B & C). eapply b_quoted; eauto.
  - injection E as <- <-. destruct Hk as [<-|[]]. destruct K2 as (q & t0 & A & B & C). eapply b_quoted; eauto.
  - injection E as <- <-. destruct K2 as (q & t0 & A & B & C & D).
    destruct Hk as [<-|Hk]; [eapply b_quoted; eauto|].
    destruct esc; [|destruct Hk]. destruct Hk as [<-|[]]. eapply b_quoted; eauto.
Qed.

Lemma break_fields line k : brk line k -> noadj line -> never_qeq (c_quote c) (c_escape c) line ->
  forall fuel total, length line < fuel -> In k (tail_breaks (snd (fields c d fuel total (ltrim (c_triml c) line)))).
Proof.
  induction 1 as [line Hh Hu|line q t k Hq El Hi|line v t after rest k El Hf Ea Hr IH]; intros Hn Hqe fuel total Hfu;
    (destruct fuel as [|f]; [lia|]); cbn [fields];
    apply (noadj_rest (c_triml c)) in Hn; apply (qeq_rest (c_triml c)) in Hqe.
  - assert (Ef : forall pos, field c d pos (ltrim (c_triml c) line) = normal c d 0 false [] (ltrim (c_triml c) line)).
    { intros pos. unfold field. destruct (ltrim (c_triml c) line) as [|h s] eqn:El; [inversion Hu|].
      destruct (quote_match c h) eqn:E; [|reflexivity]. apply quote_eq in E. exfalso. apply (Hh h E). reflexivity. }
    rewrite Ef. destruct (normal_break _ Hu Hn []) as (a & ->). left; reflexivity.
  - rewrite El in *. cbn [field]. assert (Hqm : quote_match c q = true) by (apply quote_eq; exact Hq). rewrite Hqm.
    apply (never_qeq_app _ _ [q]) in Hqe.
    pose proof (quoted_break q k t Hq Hi Hqe (S (total - length (q :: t))) []) as K.
    destruct (quoted c d 0 0 _ [] t); try contradiction; cbn; auto.
    destruct K as [->|[-> ->]]; cbn; auto.
  - pose proof (len_after _ _ Ea). pose proof (len_ltrim (c_triml c) line) as Hle. rewrite El in *.
    destruct (field_complete v t after (total - length (t ++ after)) Hf) as [_ K]. rewrite (K rest Ea).
    assert (Hlt : length rest < f) by (rewrite app_length in Hle; lia).
    assert (Hn' : noadj rest) by (apply (noadj_after _ _ Ea); apply never_adjacent_app in Hn; exact Hn).
    assert (Hq' : never_qeq (c_quote c) (c_escape c) rest) by (apply (qeq_after _ _ Ea); apply never_qeq_app in Hqe; exact Hqe).
    specialize (IH Hn' Hq' f total Hlt).
    destruct (fields c d f total (ltrim (c_triml c) rest)) as [l tl]. exact IH.
Qed.

Theorem psplit_breaks line k : noadj line -> never_qeq (c_quote c) (c_escape c) line ->
  (brk line k <-> In k (tail_breaks (snd (psplit c d line)))).
Proof.
  intros Hn Hq. unfold psplit. rewrite <- ltrim_dropc. split.
  - intros H. apply break_fields; auto.
  - intros H. destruct (fields _ _ _ _ _) as [vs t] eqn:E. eapply fields_break; eauto.
Qed.

(** The plain grammar and its restriction. *)
Notation reads0 := (reads_as (c_quote c) (c_escape c) (c_triml c) (c_trimr c) d any_char).

Lemma unq_any v t after : unq v t after -> unquoted (c_escape c) (c_trimr c) d any_char v t after.
Proof. induction 1; constructor; auto. exact I. Qed.
Lemma reads_any line vs : reads line vs -> reads0 line vs.
Proof.
  assert (F : forall v t after, ftext v t after -> field_text (c_quote c) (c_escape c) (c_trimr c) d any_char v t after).
  { intros v t after [v' t' after' Hq Hu|q v' t' after' Hq Hu]; [apply f_plain; auto; apply unq_any; exact Hu|apply f_quoted; auto]. }
  induction 1; [eapply r_last|eapply r_more]; eauto.
Qed.
Lemma unq_nte v t after : unquoted (c_escape c) (c_trimr c) d any_char v t after -> noadj t -> unq v t after.
Proof.
  induction 1 as [after He|x v t after Hne Hx Hok Hu IH|e x v t after Hne He Hu IH]; intros Hn.
  - constructor; exact He.
  - constructor; auto.
    + intros Hx' y t' -> Hy. exact (Hn [] x y t' eq_refl Hx' Hy).
    + apply IH. eapply never_adjacent_tail; exact Hn.
  - constructor; auto. apply IH. eapply never_adjacent_tail, never_adjacent_tail; exact Hn.
Qed.
Lemma noadj_prefix a b : noadj (a ++ b) -> noadj a.
Proof. intros H pre x y post ->. apply (H pre x y (post ++ b)). rewrite <- app_assoc. reflexivity. Qed.
Lemma reads_nte line vs : reads0 line vs -> noadj line -> reads line vs.
Proof.
  assert (F : forall v t after, field_text (c_quote c) (c_escape c) (c_trimr c) d any_char v t after -> noadj (t ++ after) -> ftext v t after).
  { intros v t after [v' t' after' Hq Hu|q v' t' after' Hq Hu] Hn; [apply f_plain; auto; apply unq_nte; auto; eapply noadj_prefix; exact Hn|apply f_quoted; auto]. }
  induction 1 as [line v t after El Hf Ea|line v t after rest vs El Hf Ea Hr IH]; intros Hn;
    assert (Hn' : noadj (t ++ after)) by (rewrite <- El; apply noadj_rest; exact Hn).
  - eapply r_last; eauto.
  - eapply r_more; eauto. apply IH. apply (noadj_after _ _ Ea). apply never_adjacent_app in Hn'. exact Hn'.
Qed.

Notation brk0 := (breaks_as (c_quote c) (c_escape c) (c_triml c) (c_trimr c) d any_char).
Lemma brk_any line k : brk line k -> brk0 line k.
Proof.
  assert (F : forall v t after, ftext v t after -> field_text (c_quote c) (c_escape c) (c_trimr c) d any_char v t after).
  { intros v t after [v' t' after' Hq Hu|q v' t' after' Hq Hu]; [apply f_plain; auto; apply unq_any; exact Hu|apply f_quoted; auto]. }
  induction 1; [eapply b_plain|eapply b_quoted|eapply b_later]; eauto.
Qed.
Lemma brk_nte line k : brk0 line k -> noadj line -> brk line k.
Proof.
  assert (F : forall v t after, field_text (c_quote c) (c_escape c) (c_trimr c) d any_char v t after -> noadj (t ++ after) -> ftext v t after).
  { intros v t after [v' t' after' Hq Hu|q v' t' after' Hq Hu] Hn; [apply f_plain; auto; apply unq_nte; auto; eapply noadj_prefix; exact Hn|apply f_quoted; auto]. }
  induction 1 as [line Hh Hu|line q t k Hq El Hi|line v t after rest k El Hf Ea Hr IH]; intros Hn.
  - apply b_plain; auto.
  - eapply b_quoted; eauto.
  - assert (Hn' : noadj (t ++ after)) by (rewrite <- El; apply noadj_rest; exact Hn).
    eapply b_later; eauto. apply IH. apply (noadj_after _ _ Ea). apply never_adjacent_app in Hn'. exact Hn'.
Qed.

(** The fuel of [psplit] suffices. *)
Lemma md_delim_len s rest : md c d s = MDelim rest -> length rest < length s.
Proof.
  intros E. apply md_delim in E as (u & Eu & ->). apply len_after in Eu. pose proof (len_ltrim (c_triml c) u). lia.
Qed.
Lemma normal_len : forall s k fl acc, match normal c d k fl acc s with FNext _ rest => length rest < length s | _ => True end.
Proof.
  induction s as [|h s IH]; intros k fl acc; cbn [normal]; [destruct fl; exact I|].
  assert (L : forall k fl acc, match normal c d k fl acc s with FNext _ rest => length rest < length (h :: s) | _ => True end).
  { intros k0 fl0 acc0. specialize (IH k0 fl0 acc0). destruct (normal c d k0 fl0 acc0 s); auto. cbn; lia. }
  destruct k; [|apply L]. destruct (md c d (h :: s)) eqn:Em; [destruct fl; exact I|apply md_delim_len; exact Em|].
  destruct (escape_match c x); [destruct r|]; apply L.
Qed.
Lemma quoted_len : forall s dr k pos acc, match quoted c d dr k pos acc s with FNext _ rest => length rest < length s | _ => True end.
Proof.
  induction s as [|h s IH]; intros dr k pos acc; cbn [quoted]; [exact I|].
  assert (L : forall dr k pos acc, match quoted c d dr k pos acc s with FNext _ rest => length rest < length (h :: s) | _ => True end).
  { intros a1 a2 a3 a4. specialize (IH a1 a2 a3 a4). destruct (quoted c d a1 a2 a3 a4 s); auto. cbn; lia. }
  destruct dr; [|apply L]. destruct k; [|apply L].
  destruct (quote_match c h).
  - destruct (md c d s) eqn:Em; [exact I|apply md_delim_len in Em; cbn; lia|].
    destruct (escape_match c x); [destruct r; [exact I|]|]; (destruct (_ && _); [apply L|exact I]).
  - destruct (escape_match c h); [destruct s; [exact I|]|]; apply L.
Qed.
Lemma field_len s pos : match field c d pos s with FNext _ rest => length rest < length s | _ => True end.
Proof.
  unfold field. destruct s as [|h s]; [exact I|]. destruct (quote_match c h); [|apply normal_len].
  pose proof (quoted_len s 0 0 (S pos) []) as K. destruct (quoted _ _ _ _ _ _ _); auto. cbn; lia.
Qed.
Lemma fields_nofuel : forall fuel total s, length s < fuel -> snd (fields c d fuel total s) <> TFuel.
Proof.
  induction fuel as [|f IH]; intros total s H; [lia|]. cbn [fields].
  pose proof (field_len s (total - length s)) as K.
  destruct (field _ _ _ s); cbn; try discriminate.
  specialize (IH total rest ltac:(lia)). destruct (fields c d f total rest). exact IH.
Qed.
Lemma psplit_nofuel s : snd (psplit c d s) <> TFuel.
Proof. apply fields_nofuel. pose proof (dropc_length (c_triml c) s). lia. Qed.

End G.
