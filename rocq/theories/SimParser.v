(** Two parsers side by side: one on a file, one reading the same bytes from another source. *)
From Verif Require Import Base Setup Splitter ListFacts Extract Converter Reader Parser LineProofs GetLineProofs ReaderBase ReaderInv ParserApi SessionApi Sim SimReader SimParse.

Section P.
Context (c hc : cfg) (cap : nat -> nat -> nat) (Hcap : forall n need, need <= cap n need) (n1 n2 : str).

(** The same text, possibly after the respective name. *)
Definition named (a b : str) : Prop := a = b \/ exists t, t <> [] /\ a = n1 ++ t /\ b = n2 ++ t.
Definition erel (a b : err) : Prop := match a, b with None, None => True | Some x, Some y => named x y | _, _ => False end.
Record prel (p q : prs) : Prop := {
  pr_name1 : p_name p = n1; pr_name2 : p_name q = n2; pr_err : erel (p_err p) (p_err q); pr_rdr : rr (p_rdr p) (p_rdr q);
  pr_header : p_header p = p_header q; pr_raw : p_raw p = p_raw q; pr_eof : p_eof p = p_eof q }.
Notation pmsim := (msim named prel).
Notation emsim := (msim eq prel).

Lemma named_refl x : named x x. Proof. left. reflexivity. Qed.
Lemma weak {S T A} (R : S -> T -> Prop) (o1 : res S A) o2 : osim eq R o1 o2 -> osim named R o1 o2.
Proof. unfold osim. destruct o1, o2; auto. intros [-> ?]. split; [apply named_refl|assumption]. Qed.
Lemma os_catch {S T A} (E E' : str -> str -> Prop) (R : S -> T -> Prop) (m1 : M S A) (m2 : M T A) h1 h2 s t :
  osim E R (m1 s) (m2 t) -> (forall e f s' t', E e f -> R s' t' -> osim E' R (h1 e s') (h2 f t')) -> osim E' R (catch m1 h1 s) (catch m2 h2 t).
Proof.
  unfold catch, osim. intros H K. destruct (m1 s) as [a s'|e s'| |], (m2 t) as [b t'|f t'| |]; try contradiction; try exact Logic.I; auto.
  - destruct H as [H1 H2]. specialize (K _ _ _ _ H1 H2). destruct (h1 e s'), (h2 f t'); auto.
  - destruct (h1 e s'); exact Logic.I.
  - destruct (h1 e s'); exact Logic.I.
Qed.
Lemma err_valid_rel m a b : erel a b -> err_valid m a = err_valid m b.
Proof. unfold err_valid. destruct m, a, b; cbn; auto; try contradiction. Qed.
Lemma valid_rel p q : prel p q -> p_valid c p = p_valid c q.
Proof. intros []. unfold p_valid. apply err_valid_rel. assumption. Qed.
Lemma prel_err a b p q : prel p q -> erel a b -> prel (pset_err a p) (pset_err b q).
Proof. intros [] H. split; cbn; assumption. Qed.
Lemma prel_rdr a b p q : prel p q -> rr a b -> prel (pset_rdr a p) (pset_rdr b q).
Proof. intros [] H. split; cbn; assumption. Qed.
Lemma prel_eof b p q : prel p q -> prel (pset_eof b p) (pset_eof b q).
Proof. intros []. split; cbn; auto. Qed.
Lemma prel_raw b p q : prel p q -> prel (pset_raw b p) (pset_raw b q).
Proof. intros []. split; cbn; auto. Qed.
Lemma prel_header b p q : prel p q -> prel (pset_header b p) (pset_header b q).
Proof. intros []. split; cbn; auto. Qed.
Lemma ps_upd f g : (forall p q, prel p q -> prel (f p) (g q)) -> forall E, msim E prel (pupd f) (pupd g).
Proof. intros H E p q R. split; [reflexivity|]. apply H. exact R. Qed.
Lemma os_rdr {A} (m1 m2 : M rdr A) p q : prel p q -> osim eq rr (m1 (p_rdr p)) (m2 (p_rdr q)) -> osim eq prel (on_rdr m1 p) (on_rdr m2 q).
Proof.
  intros R H. unfold on_rdr, zoom, osim in *. destruct (m1 (p_rdr p)), (m2 (p_rdr q)); try exact H; destruct H as [-> H]; (split; [reflexivity|]); apply prel_rdr; assumption.
Qed.
Lemma ps_rdr {A} (m : M rdr A) : rmsim m m -> emsim (on_rdr m) (on_rdr m).
Proof. intros H p q R. apply os_rdr; [exact R|]. apply H. apply (pr_rdr _ _ R). Qed.

Definition msg_rel (f : prs -> str) : Prop := forall p q, prel p q -> named (f p) (f q).
Lemma ps_error f : msg_rel f -> pmsim (p_error c f) (p_error c f).
Proof.
  intros H p q R. unfold p_error. apply os_get. specialize (H p q R). destruct (c_mode c).
  - apply ps_upd; [|exact R]. intros a b Q. apply prel_err; [exact Q|]. apply named_refl.
  - apply ps_upd; [|exact R]. intros a b Q. apply prel_err; [exact Q|]. destruct H as [<-|(t & Ht & -> & ->)].
    + destruct (f p); [exact Logic.I|apply named_refl].
    + assert (X : forall n : str, n ++ t <> []) by (intros n E; apply app_eq_nil in E; apply Ht, E).
      pose proof (X n1) as X1. pose proof (X n2) as X2. assert (Y : named (n1 ++ t) (n2 ++ t)) by (right; eauto). destruct (n1 ++ t); [congruence|]. destruct (n2 ++ t); [congruence|]. exact Y.
  - split; [exact H|exact R].
Qed.
Lemma named_msg t : t <> [] -> forall p q, prel p q -> named (p_name p ++ t) (p_name q ++ t).
Proof. intros Ht p q []. rewrite pr_name3, pr_name4. right. eauto. Qed.
Lemma S2_app (s : string) t : S2 s <> [] -> S2 s ++ t <> []. Proof. destruct (S2 s); [congruence|discriminate]. Qed.
Ltac mr := intros p q R; apply named_msg; [first [discriminate|apply S2_app; discriminate]|exact R].
Lemma mr_check : msg_rel msg_failed_check. Proof. mr. Qed.
Lemma mr_eof : msg_rel msg_eof. Proof. mr. Qed.
Lemma mr_invalid f : msg_rel (msg_invalid_field f). Proof. mr. Qed.
Lemma mr_twice f : msg_rel (msg_field_twice f). Proof. mr. Qed.
Lemma mr_use : msg_rel msg_use_fields. Proof. intros p q R. apply named_refl. Qed.
Lemma mr_dup f : msg_rel (msg_duplicate f). Proof. mr. Qed.
Lemma mr_split m : msg_rel (msg_header_split m). Proof. mr. Qed.

Lemma ps_clear : forall E, msim E prel p_clear_error p_clear_error.
Proof. apply ps_upd. intros p q R. apply prel_err; [exact R|exact Logic.I]. Qed.
Lemma ps_conversion : forall E, msim E prel (handle_error_invalid_conversion c) (handle_error_invalid_conversion c).
Proof.
  intros E p q R. unfold handle_error_invalid_conversion. apply os_get. destruct (c_mode c).
  - split; [reflexivity|]. apply prel_err; [exact R|apply named_refl].
  - split; [reflexivity|]. apply prel_err; [exact R|]. pose proof (pr_rdr _ _ R) as RR. rewrite (rr_line _ _ RR). destruct (rr_conv _ _ RR) as (_ & -> & _). apply named_msg; [|exact R].
    apply S2_app. discriminate.
  - split; [reflexivity|exact R].
Qed.
Lemma ps_rethrow {A} e : pmsim (@decorate_rethrow A e) (@decorate_rethrow A e).
Proof.
  intros p q R. unfold decorate_rethrow. apply os_get. split; [|exact R]. unfold p_line. rewrite (rr_line _ _ (pr_rdr _ _ R)). apply named_msg; [|exact R]. apply S2_app. discriminate.
Qed.
Lemma ps_read_line : emsim (read_line c cap) (read_line c cap).
Proof.
  apply ms_bind; [apply ps_rdr, rs_read_next; exact Hcap|]. intros ok. apply ps_upd. intros p q R. apply prel_eof. exact R.
Qed.
Lemma ps_ignore : emsim (ignore_next c cap) (ignore_next c cap).
Proof. apply ps_rdr, rs_read_next. exact Hcap. Qed.
Lemma wk {A} (m1 m2 : M prs A) : emsim m1 m2 -> pmsim m1 m2.
Proof. intros H p q R. apply weak, H. exact R. Qed.

Lemma cvv_rel v w : veq v w -> cv_valid c v = cv_valid c w.
Proof. intros (_ & E & _). unfold cv_valid. rewrite E. reflexivity. Qed.
Definition parse_ready (p q : prs) : Prop :=
  p_eof p = false -> (room (p_rdr p) /\ room (p_rdr q)) \/ nothing_open c (p_rdr p) (p_rdr q).
Lemma ps_get_next es p q : prel p q -> parse_ready p q -> osim named prel (get_next c cap es p) (get_next c cap es q).
Proof.
  intros R PR. unfold get_next. apply os_get. eapply os_bind with (R := prel); [|auto|].
  { rewrite <- (pr_eof _ _ R). destruct (p_eof p) eqn:Ee; [split; auto|].
    assert (X : osim eq prel (on_rdr (parse c cap) p) (on_rdr (parse c cap) q)) by (apply os_rdr; [exact R|apply rs_parse; [exact Hcap|apply (pr_rdr _ _ R)|apply PR; exact Ee]]).
    destruct (c_mode c); [apply weak; exact X|apply weak; exact X|]. eapply os_catch; [exact X|]. intros e f s t <- R1. eapply os_bind; [apply weak, ps_read_line; exact R1|auto|]. intros _ s' t' _ _ R2. apply ps_rethrow. exact R2. }
  intros _ p1 q1 _ _ R1. eapply os_bind; [apply weak; apply ps_rdr; [apply rs_update|exact R1]|auto|]. intros _ p2 q2 _ _ R2. apply os_get.
  rewrite (cvv_rel _ _ (rr_conv _ _ (pr_rdr _ _ R2))). destruct (negb _).
  - eapply os_bind; [apply ps_conversion; exact R2|auto|]. intros _ p3 q3 _ _ R3. eapply os_bind; [apply weak, ps_read_line; exact R3|auto|]. intros _ p4 q4 _ _ R4. split; auto.
  - eapply os_bind; [apply ps_clear; exact R2|auto|]. intros _ p3 q3 _ _ R3. rewrite <- (pr_eof _ _ R2). destruct (p_eof p2).
    + eapply os_bind; [apply ps_error; [exact mr_eof|exact R3]|auto|]. intros _ p4 q4 _ _ R4. split; auto.
    + assert (X : emsim (on_rdr (on_conv (cv_convert c es))) (on_rdr (on_conv (cv_convert c es)))) by (apply ps_rdr, rs_on_conv, vs_convert).
      assert (Y : osim named prel ((xs <- on_rdr (on_conv (cv_convert c es)) ;; p <- get ;; (if negb (cv_valid c (r_conv (p_rdr p))) then handle_error_invalid_conversion c else ret tt) ;; read_line c cap ;; ret xs) p3)
                                  ((xs <- on_rdr (on_conv (cv_convert c es)) ;; p <- get ;; (if negb (cv_valid c (r_conv (p_rdr p))) then handle_error_invalid_conversion c else ret tt) ;; read_line c cap ;; ret xs) q3)).
      { eapply os_bind; [apply weak, X; exact R3|auto|]. intros xs p4 q4 _ _ R4. apply os_get. rewrite (cvv_rel _ _ (rr_conv _ _ (pr_rdr _ _ R4))).
        eapply os_bind with (R := prel); [destruct (negb _); [apply ps_conversion; exact R4|split; auto]|auto|]. intros _ p5 q5 _ _ R5. eapply os_bind; [apply weak, ps_read_line; exact R5|auto|]. intros _ p6 q6 _ _ R6. split; auto. }
      destruct (c_mode c); [exact Y|exact Y|]. eapply os_catch with (E := eq).
      * eapply os_bind; [apply X; exact R3|auto|]. intros xs p4 q4 _ _ R4. eapply os_bind; [apply ps_read_line; exact R4|auto|]. intros _ p5 q5 _ _ R5. split; auto.
      * intros e f s t <- R4. eapply os_bind; [apply weak, ps_read_line; exact R4|auto|]. intros _ s' t' _ _ R5. apply ps_rethrow. exact R5.
Qed.

(** *** The header *)
Lemma ps_strict_split : pmsim (strict_split c hc) (strict_split c hc).
Proof.
  intros p q R. unfold strict_split. rewrite <- (rr_delim _ _ (pr_rdr _ _ R)), <- (pr_raw _ _ R). destruct (sp_split hc 0 _ _) as [u [s m]|e [s m]| |]; try exact Logic.I.
  - destruct (sp_valid hc s); [split; auto|]. eapply os_bind; [apply ps_error; [apply mr_split|exact R]|auto|]. intros _ p1 q1 _ _ R1. split; auto.
  - split; [apply mr_split; exact R|exact R].
Qed.
Lemma ps_texts sm : forall E, msim E prel (texts_of sm) (texts_of sm).
Proof. intros E p q R. unfold texts_of. destruct (texts _ _); [split; auto|exact Logic.I]. Qed.
Lemma ps_header : pmsim (header c hc) (header c hc).
Proof.
  apply ms_bind; [apply ps_clear|]. intros _. apply ms_bind; [apply ps_strict_split|]. intros [sm|]; [apply ps_texts|apply ms_ret].
Qed.
Lemma ps_add_fields : forall fs, pmsim (add_fields c fs) (add_fields c fs).
Proof.
  induction fs as [|f fs IH]; [apply ms_ret|]. intros p q R. cbn [add_fields]. apply os_get. rewrite <- (pr_header _ _ R). destruct (find_index f (p_header p)).
  - eapply os_bind; [apply ps_error; [apply mr_dup|exact R]|auto|]. intros _ p1 q1 _ _ R1. split; [reflexivity|]. apply prel_header. exact R1.
  - eapply os_bind with (R := prel); [|auto|]. { split; [reflexivity|]. rewrite <- (pr_header _ _ R). apply prel_header. exact R. }
    intros _ p1 q1 _ _ R1. apply IH. exact R1.
Qed.
Lemma ps_split_header : pmsim (split_header_data c hc) (split_header_data c hc).
Proof.
  apply ms_bind; [apply ps_strict_split|]. intros [sm|]; [|apply ms_ret]. apply ms_bind; [apply ps_texts|]. intros l. apply ps_add_fields.
Qed.
Lemma ps_field_exists f : pmsim (field_exists c hc f) (field_exists c hc f).
Proof.
  intros p q R. unfold field_exists. eapply os_bind; [apply ps_clear; exact R|auto|]. intros _ p1 q1 _ _ R1. apply os_get. rewrite <- (pr_header _ _ R1).
  eapply os_bind with (R := prel); [destruct (p_header p1); [apply ps_split_header; exact R1|split; auto]|auto|]. intros _ p2 q2 _ _ R2. apply os_get. rewrite <- (valid_rel _ _ R2). unfold header_index. rewrite <- (pr_header _ _ R2).
  destruct (negb _); split; auto.
Qed.
Lemma ps_find_columns all : forall fs, pmsim (find_columns c all fs) (find_columns c all fs).
Proof.
  induction fs as [|f fs IH]; [apply ms_ret|]. intros p q R. cbn [find_columns]. destruct (negb _).
  - eapply os_bind; [apply ps_error; [apply mr_twice|exact R]|auto|]. intros _ p1 q1 _ _ R1. split; auto.
  - apply os_get. unfold header_index. rewrite <- (pr_header _ _ R). destruct (find_index f (p_header p)) as [i|].
    + eapply os_bind; [apply IH; exact R|auto|]. intros [l|] p1 q1 _ _ R1; split; auto.
    + eapply os_bind; [apply ps_error; [apply mr_invalid|exact R]|auto|]. intros _ p1 q1 _ _ R1. split; auto.
Qed.
Lemma veq_map mp n v w : veq v w -> veq (vup_map mp n v) (vup_map mp n w).
Proof. intros (A & B & C & D). split; [exact A|]. split; [exact B|]. split; reflexivity. Qed.
Lemma ps_use_fields fs : pmsim (use_fields c hc cap fs) (use_fields c hc cap fs).
Proof.
  intros p q R. unfold use_fields. eapply os_bind; [apply ps_clear; exact R|auto|]. intros _ p1 q1 _ _ R1. apply os_get. rewrite <- (pr_header _ _ R1), <- (pr_eof _ _ R1).
  eapply os_bind with (R := prel); [destruct (p_header p1); [destruct (p_eof p1); [split; auto|apply ps_split_header; exact R1]|split; auto]|auto|].
  intros _ p2 q2 _ _ R2. apply os_get. rewrite <- (valid_rel _ _ R2). destruct (negb _); [split; auto|]. destruct fs as [|f fs]; [apply ps_error; [apply mr_use|exact R2]|].
  eapply os_bind; [apply ps_find_columns; exact R2|auto|]. intros [l|] p3 q3 _ _ R3; [|split; auto]. rewrite <- (pr_header _ _ R2).
  eapply os_bind with (R := prel); [|auto|].
  { apply weak, os_rdr; [exact R3|]. split; [reflexivity|]. pose proof (pr_rdr _ _ R3) as RR. apply rr_conv_set; [exact RR|]. apply veq_map. apply (rr_conv _ _ RR). }
  intros _ p4 q4 _ _ R4. eapply os_bind with (R := prel); [|auto|].
  { apply weak, os_rdr; [exact R4|]. split; [reflexivity|]. pose proof (pr_rdr _ _ R4) as RR. apply rr_nconv_set; [exact RR|]. apply veq_map. apply (rr_nconv _ _ RR). }
  intros _ p5 q5 _ _ R5. apply os_get. unfold p_line. rewrite (rr_line _ _ (pr_rdr _ _ R5)). destruct (_ =? _); [|split; auto].
  eapply os_bind; [apply weak, ps_ignore; exact R5|auto|]. intros _ p6 q6 _ _ R6. split; auto.
Qed.

(** *** try_next and what follows it *)
Definition ev_rel (a b : event) : Prop :=
  match a, b with EvCall k xs, EvCall k' ys => k = k' /\ xs = ys | EvError k x, EvError k' y => k = k' /\ named x y | _, _ => False end.
Definition crel (a b : chain) : Prop := prel (fst a) (fst b) /\ Forall2 ev_rel (snd a) (snd b).
Notation cmsim := (msim named crel).
Lemma os_on_p {A} (m1 m2 : M prs A) a b : crel a b -> osim named prel (m1 (fst a)) (m2 (fst b)) -> osim named crel (on_p m1 a) (on_p m2 b).
Proof.
  intros [R L] H. unfold on_p, zoom, osim in *. destruct (m1 (fst a)), (m2 (fst b)); try exact H; destruct H as [H1 H2]; (split; [exact H1|]); split; assumption.
Qed.
Lemma cs_log e e' : ev_rel e e' -> cmsim (log e) (log e').
Proof. intros H a b [R L]. split; [reflexivity|]. split; [exact R|]. cbn. apply Forall2_app; [exact L|]. constructor; [exact H|constructor]. Qed.
Lemma cs_try_invoke xs cb : cmsim (try_invoke c xs cb) (try_invoke c xs cb).
Proof.
  destruct cb as [|k|k f]; [apply ms_ret|apply cs_log; cbn; auto|]. apply ms_bind; [apply cs_log; cbn; auto|]. intros _. destruct (f xs); [apply ms_ret|].
  intros a b R. apply os_on_p; [exact R|]. apply ps_error; [apply mr_check|apply R].
Qed.
Lemma cs_valid a b : crel a b -> p_valid c (fst a) = p_valid c (fst b).
Proof. intros [R _]. apply valid_rel. exact R. Qed.
Lemma cs_try_next es cb a b : crel a b -> parse_ready (fst a) (fst b) -> osim named crel (try_next c cap es cb a) (try_next c cap es cb b).
Proof.
  intros R PR. unfold try_next. eapply os_bind; [apply os_on_p; [exact R|apply ps_get_next; [apply R|exact PR]]|auto|]. intros xs a1 b1 _ _ R1. apply os_get. rewrite <- (cs_valid _ _ R1).
  eapply os_bind with (R := crel); [destruct (p_valid c (fst a1)); [apply cs_try_invoke; exact R1|split; auto]|auto|]. intros _ a2 b2 _ _ R2. apply os_get. rewrite <- (cs_valid _ _ R2). split; auto.
Qed.
Lemma ps_try_same es : pmsim (try_same c es) (try_same c es).
Proof.
  apply ms_bind; [apply ps_clear|]. intros _. apply ms_bind; [apply wk, ps_rdr, rs_on_conv, vs_convert|]. intros xs p q R. apply os_get. rewrite (cvv_rel _ _ (rr_conv _ _ (pr_rdr _ _ R))).
  eapply os_bind with (R := prel); [destruct (negb _); [apply ps_conversion; exact R|split; auto]|auto|]. intros _ p1 q1 _ _ R1. split; auto.
Qed.
Lemma cs_or_else vs es cb : cmsim (or_else c vs es cb) (or_else c vs es cb).
Proof.
  intros a b R. unfold or_else. apply os_get. rewrite <- (cs_valid _ _ R). eapply os_bind with (R := crel); [|auto|].
  - destruct (p_valid c (fst a)); [split; auto|]. eapply os_bind; [apply os_on_p; [exact R|apply ps_try_same; apply R]|auto|]. intros xs a1 b1 _ _ R1. apply os_get. rewrite <- (cs_valid _ _ R1).
    destruct (negb _); [split; auto|]. eapply os_bind; [apply cs_try_invoke; exact R1|auto|]. intros _ a2 b2 _ _ R2. split; auto.
  - intros v a1 b1 _ _ R1. apply os_get. rewrite <- (cs_valid _ _ R1). split; auto.
Qed.
Lemma cs_on_error k : cmsim (on_error c k) (on_error c k).
Proof.
  intros a b R. unfold on_error. apply os_get. rewrite <- (cs_valid _ _ R). destruct (p_valid c (fst a)); [split; auto|]. apply cs_log; [|exact R]. split; [reflexivity|].
  destruct R as [[] _]. unfold erel in *. destruct (p_err (fst a)), (p_err (fst b)); try contradiction; [assumption|apply named_refl].
Qed.
Lemma cs_links : forall ls vs, cmsim (follow_links c vs ls) (follow_links c vs ls).
Proof.
  induction ls as [|[es cb|k] ls IH]; intros vs; cbn [follow_links]; [apply ms_ret| |]; (apply ms_bind; [|intros; apply IH]); [apply cs_or_else|apply cs_on_error].
Qed.
Lemma cs_chain es cb ls a b : crel a b -> parse_ready (fst a) (fst b) -> osim named crel (chain_call c cap es cb ls a) (chain_call c cap es cb ls b).
Proof. intros R PR. eapply os_bind; [apply cs_try_next; assumption|auto|]. intros vs a1 b1 _ _ R1. apply cs_links. exact R1. Qed.

(** *** Calls *)
Definition grel (a b : gobs) : Prop :=
  match a, b with GValues x, GValues y => x = y | GError x, GError y | GThrown x, GThrown y => named x y | GCrash, _ | _, GCrash => True | _, _ => False end.
Definition yrel (a b : reply) : Prop :=
  match a, b with
  | YCrash, _ | _, YCrash => True
  | YGet x, YGet y => grel x y
  | YTry x l v, YTry y m w => x = y /\ Forall2 ev_rel l m /\ v = w
  | YError x, YError y | YThrown x, YThrown y => named x y
  | a, b => a = b
  end.
Definition bad (y : reply) : Prop := y = YCrash \/ y = YGet GCrash.
Lemma message_rel a b : erel a b -> named (message a) (message b).
Proof. destruct a, b; cbn; try contradiction; auto using named_refl. Qed.
Lemma answer_rel {A} (f : A -> reply) o1 o2 : (forall a, yrel (f a) (f a)) -> osim named prel o1 o2 -> yrel (answer c f o1) (answer c f o2).
Proof.
  intros Hf H. unfold osim, answer in *. destruct o1 as [a p|e p| |], o2 as [b q|e' q| |]; try contradiction; try exact Logic.I; try (destruct (p_valid c p); [destruct (f a)|]; exact Logic.I).
  - destruct H as [-> R]. rewrite <- (valid_rel _ _ R). destruct (p_valid c p); [apply Hf|]. apply message_rel. apply (pr_err _ _ R).
  - apply H.
Qed.
Lemma after_rel {A} p q (o1 o2 : res prs A) : osim named prel o1 o2 -> (forall y, o1 <> UB y) -> o1 <> OutOfFuel -> (forall y, o2 <> UB y) -> o2 <> OutOfFuel -> prel (after p o1) (after q o2).
Proof. unfold osim. destruct o1 as [a x|e x| |], o2 as [b y|f y| |]; intros H A1 A2 B1 B2; try contradiction; try congruence; try apply H. Qed.
Lemma yrel_refl y : yrel y y.
Proof.
  destruct y as [[]|values l v| | | | | | |]; cbn; auto using named_refl. split; [reflexivity|]. split; [|reflexivity]. induction l as [|[] l IH]; constructor; cbn; auto using named_refl.
Qed.
Lemma sim_call k p q : prel p q -> parse_ready p q -> ~ bad (fst (do_call c hc cap p k)) -> ~ bad (fst (do_call c hc cap q k)) ->
  yrel (fst (do_call c hc cap p k)) (fst (do_call c hc cap q k)) /\ prel (snd (do_call c hc cap p k)) (snd (do_call c hc cap q k)).
Proof.
  intros R PR B1 B2. unfold bad in *.
  assert (AN : forall A (f : A -> reply) (o1 o2 : res prs A), osim named prel o1 o2 -> (forall a, yrel (f a) (f a)) -> answer c f o1 <> YCrash -> answer c f o2 <> YCrash ->
     yrel (answer c f o1) (answer c f o2) /\ prel (after p o1) (after q o2)).
  { intros A f o1 o2 H Hf N1 N2. split; [apply answer_rel; assumption|]. apply after_rel; [exact H|..]; intros; intros X; rewrite X in *; cbn in *; congruence. }
  assert (PA : forall A (f : A -> reply) (o1 o2 : res prs A), osim eq prel o1 o2 -> (forall a, yrel (f a) (f a)) -> plain_answer f o1 <> YCrash -> plain_answer f o2 <> YCrash ->
     yrel (plain_answer f o1) (plain_answer f o2) /\ prel (after p o1) (after q o2)).
  { intros A f o1 o2 H Hf N1 N2. split; [|apply after_rel; [apply weak; exact H|..]; intros; intros X; rewrite X in *; cbn in *; congruence].
    unfold osim, plain_answer in *. destruct o1 as [a x|e x| |], o2 as [b y|f' y| |]; try contradiction; try congruence; destruct H as [-> H]; [apply Hf|apply named_refl]. }
  destruct k as [es|es cb ls| | | |f|fs]; cbn [do_call fst snd] in *.
  - pose proof (ps_get_next es p q R PR) as H. destruct (get_next c cap es p) as [xs x|e x| |], (get_next c cap es q) as [ys y|e' y| |]; cbn [get_obs after] in *;
      try (exfalso; apply B1; right; reflexivity); try (exfalso; apply B2; right; reflexivity); try contradiction.
    + destruct H as [-> H]. split; [|exact H]. rewrite <- (valid_rel _ _ H). destruct (p_valid c x); [destruct (given ys); cbn; auto|]. cbn. apply message_rel. apply (pr_err _ _ H).
    + destruct H as [E H]. split; [exact E|exact H].
  - pose proof (cs_chain es cb ls (p, []) (q, []) (conj R (Forall2_nil _)) PR) as H.
    destruct (chain_call c cap es cb ls (p, [])) as [vs [x l]|e [x l]| |], (chain_call c cap es cb ls (q, [])) as [ws [y m]|e' [y m]| |]; cbn [fst snd] in *;
      try (exfalso; apply B1; left; reflexivity); try (exfalso; apply B2; left; reflexivity); try contradiction.
    + destruct H as [-> [H L]]. cbn in H, L. split; [|exact H]. rewrite <- (valid_rel _ _ H). destruct (all_given ws); cbn; auto.
    + destruct H as [E [H L]]. split; [exact E|exact H].
  - apply PA; [apply ps_ignore; exact R|intros; apply yrel_refl|intros X; apply B1; left; exact X|intros X; apply B2; left; exact X].
  - apply PA; [|intros; apply yrel_refl|intros X; apply B1; left; exact X|intros X; apply B2; left; exact X]. split; [apply (pr_raw _ _ R)|exact R].
  - apply AN; [apply ps_header; exact R|intros; apply yrel_refl|intros X; apply B1; left; exact X|intros X; apply B2; left; exact X].
  - apply AN; [apply ps_field_exists; exact R|intros; apply yrel_refl|intros X; apply B1; left; exact X|intros X; apply B2; left; exact X].
  - apply AN; [apply ps_use_fields; exact R|intros; apply yrel_refl|intros X; apply B1; left; exact X|intros X; apply B2; left; exact X].
Qed.
Lemma sim_construct d s1 s2 msg1 msg2 : src_okz s1 0 -> src_okz s2 0 -> (exists rest, s1 = SFile rest) -> unread_of s1 0 = unread_of s2 0 ->
  osim eq prel (construct c cap true msg1 (p_init n1 d s1)) (construct c cap true msg2 (p_init n2 d s2)).
Proof.
  intros O1 O2 X U. assert (R : prel (p_init n1 d s1) (p_init n2 d s2)).
  { split; try reflexivity. split; cbn; try reflexivity; try assumption; try (split; cbn; try reflexivity; assumption); try apply compat_nil1; apply veq_refl. }
  unfold construct. eapply os_bind; [apply ps_read_line; exact R|auto|]. intros _ p q _ _ R1. destruct (c_ignhdr c).
  - eapply os_bind; [apply ps_ignore; exact R1|auto|]. intros _ p1 q1 _ _ R2. split; auto.
  - eapply os_bind; [apply ps_rdr; [apply rs_get_buffer|exact R1]|auto|]. intros s p1 q1 _ _ R2. split; [reflexivity|]. apply prel_raw. exact R2.
Qed.
End P.
