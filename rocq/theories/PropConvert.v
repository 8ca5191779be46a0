(** Properties of conversion: C08 and C10 for the converter, C12-C18.  Vocabulary:
    [in_memory m b e s]: a column [b, e) holding the text [s]; [extracts] / [rejects]: extract on it succeeds with a value /
    fails (ConvTheorems.v); [denotes], [in_range], [decimal], [meaning]: ConvSpec.v;
    [vreach c v]: a converter after any history of calls;
    [convert_obs c d v line rest es]: what the user sees of convert<es...>(line, d) (ConvProofs.v);
    [row_ok es cols vs]: the texts [cols] are acceptable for the types [es] and give the values [vs];
    [row_bad es cols msg]: they are not, and [msg] names the first unacceptable one. *)
From Verif Require Import Base Setup Splitter ListFacts SetupProofs SplitSpec SplitModes SplitApi SplitTheorems Extract Converter ConvSpec ExtractProofs ConvProofs ConvTheorems.
Local Open Scope Z_scope.

(** C12 *)
Theorem C12_integer_conversion_exact : forall m b e s i v, in_memory m b e s -> (0 < i_bits i)%nat ->
  (extracts m b e (TInt i) v <->
   exists z, v = VInt z /\ denotes (i_signed i) s z /\ in_range (i_signed i) (i_bits i) z).
Proof. intros m b e s i v H W. apply (extracts_iff m b e s (TInt i) H W v). Qed.
Print Assumptions C12_integer_conversion_exact.
Theorem C12_every_value_reads_back : forall m b e i z, (0 < i_bits i)%nat -> in_range (i_signed i) (i_bits i) z ->
  in_memory m b e (decimal z) -> extracts m b e (TInt i) (VInt z) /\ extracts m b e (TWrap i) (VInt z).
Proof.
  intros m b e i z W R H.
  assert (D : denotes (i_signed i) (decimal z) z).
  { apply decimal_denotes. unfold in_range in R. destruct (i_signed i); [right; reflexivity|left; lia]. }
  split; apply (extracts_iff m b e (decimal z)); cbn; eauto.
Qed.
Print Assumptions C12_every_value_reads_back.
Theorem C12_anything_else_is_rejected : forall m b e s i, in_memory m b e s -> (0 < i_bits i)%nat ->
  (rejects m b e (TInt i) <-> ~ exists z, denotes (i_signed i) s z /\ in_range (i_signed i) (i_bits i) z).
Proof.
  intros m b e s i H W. rewrite (rejects_iff m b e s (TInt i) H W). cbn [converts]. split.
  - intros K (z & D). apply (K (VInt z)). eauto.
  - intros K v (z & _ & D). eauto.
Qed.
Print Assumptions C12_anything_else_is_rejected.

(** C13 *)
Theorem C13_bool : forall m b e s v, in_memory m b e s ->
  (extracts m b e TBool v <->
   v = VBool true /\ (s = S2 "1" \/ s = S2 "true") \/ v = VBool false /\ (s = S2 "0" \/ s = S2 "false")).
Proof. intros m b e s v H. apply (extracts_iff m b e s TBool H I v). Qed.
Print Assumptions C13_bool.
Theorem C13_char : forall m b e s v, in_memory m b e s ->
  (extracts m b e TChar v <-> exists x, v = VChar x /\ s = [x]).
Proof. intros m b e s v H. apply (extracts_iff m b e s TChar H I v). Qed.
Print Assumptions C13_char.
Theorem C13_string : forall m b e s, in_memory m b e s ->
  extracts m b e TString (VStr s) /\ extracts m b e TView (VView s).
Proof. intros m b e s H. split; [apply (extracts_iff m b e s TString H I)|apply (extracts_iff m b e s TView H I)]; reflexivity. Qed.
Print Assumptions C13_string.
(** Everything that is not accepted is rejected (conversion always returns). *)
Theorem C13_total : forall m b e s t, in_memory m b e s -> wfty t ->
  ((exists v, extracts m b e t v) /\ ~ rejects m b e t) \/ (rejects m b e t /\ ~ exists v, extracts m b e t v).
Proof.
  intros m b e s t H W. destruct (extracts_total m b e s t H W) as [[v E]|R].
  - left. split; [eauto|]. intros [o E']. unfold extracts in E. congruence.
  - right. split; [exact R|]. intros [v E]. destruct R as [o E']. unfold extracts in E. congruence.
Qed.
Print Assumptions C13_total.

(** C14 *)
Theorem C14_optional : forall m b e s t, in_memory m b e s -> wfty t ->
  exists o, extracts m b e (TOpt t) (VOpt o) /\ forall w, o = Some w <-> extracts m b e t w.
Proof.
  intros m b e s t H W. destruct (extracts_total m b e s t H W) as [[v E]|R].
  - exists (Some v). split.
    + apply (extracts_iff m b e s (TOpt t) H W). apply (extracts_iff m b e s t H W). exact E.
    + intros w. unfold extracts in *. split; [intros K; injection K as <-; exact E|congruence].
  - exists None. split.
    + apply (extracts_iff m b e s (TOpt t) H W). exact (proj1 (rejects_iff m b e s t H W) R).
    + intros w. split; [discriminate|]. destruct R as [o R]. unfold extracts. congruence.
Qed.
Print Assumptions C14_optional.
Theorem C14_variant : forall m b e s ts v, in_memory m b e s -> wfty (TVar ts) ->
  (extracts m b e (TVar ts) v <->
   exists i t w, v = VVar i w /\ nth_error ts i = Some t /\ extracts m b e t w /\
     forall j t', (j < i)%nat -> nth_error ts j = Some t' -> rejects m b e t').
Proof.
  intros m b e s ts v H W.
  assert (WT : forall i t, nth_error ts i = Some t -> wfty t).
  { cbn [wfty] in W. clear - W. induction ts as [|t ts IH]; intros [|i] t' E; try discriminate.
    - injection E as <-. exact (proj1 W).
    - exact (IH (proj2 W) i t' E). }
  rewrite (extracts_iff m b e s (TVar ts) H W v), converts_var. split; intros (i & t & w & -> & E & C & N).
  - exists i, t, w. split; [reflexivity|]. split; [exact E|]. split; [apply (extracts_iff m b e s t H (WT _ _ E)); exact C|].
    intros j t' Hj E'. apply (rejects_iff m b e s t' H (WT _ _ E')). eauto.
  - exists i, t, w. split; [reflexivity|]. split; [exact E|]. split; [apply (extracts_iff m b e s t H (WT _ _ E)); exact C|].
    intros j t' Hj E'. apply (rejects_iff m b e s t' H (WT _ _ E')). eauto.
Qed.
Print Assumptions C14_variant.
Theorem C14_variant_fails : forall m b e s ts, in_memory m b e s -> wfty (TVar ts) ->
  (rejects m b e (TVar ts) <-> Forall (rejects m b e) ts).
Proof.
  intros m b e s ts H W.
  assert (WT : Forall wfty ts).
  { cbn [wfty] in W. clear - W. induction ts as [|t ts IH]; constructor; [exact (proj1 W)|exact (IH (proj2 W))]. }
  rewrite (rejects_iff m b e s (TVar ts) H W). split.
  - intros N. clear W.
    assert (K : forall k, (forall v, ~ (fix first (i : nat) (ts : list ty) : Prop :=
                  match ts with
                  | [] => False
                  | t' :: ts' => (exists w, v = VVar i w /\ converts t' s w) \/ ((forall w, ~ converts t' s w) /\ first (S i) ts')
                  end) k ts) -> Forall (rejects m b e) ts).
    { clear N. induction WT as [|t ts Wt WT IH]; intros k N; constructor.
      - apply (rejects_iff m b e s t H Wt). intros w C. apply (N (VVar k w)). left. eauto.
      - apply (IH (S k)). intros v F. apply (N v). right. split; [|exact F]. intros w C. apply (N (VVar k w)). left. eauto. }
    exact (K O N).
  - intros F v C. rewrite converts_var in C. destruct C as (i & t & w & _ & E & C & _).
    rewrite Forall_forall in F, WT. apply nth_error_In in E.
    apply (proj1 (rejects_iff m b e s t H (WT _ E)) (F _ E) w C).
Qed.
Print Assumptions C14_variant_fails.

(** C15. Every restriction that can be put on a type decides as ConvSpec.v says: *)
Theorem C15_restrictions_mean_what_they_say : forall t s r x, wfty t -> converts t s x -> restricts t r ->
  (ss_valid (ity_of t) r x = true <-> passes t r x).
Proof. exact passes_iff. Qed.
Print Assumptions C15_restrictions_mean_what_they_say.
(** integers, characters, booleans and optionals of these are compared as one number; *)
Theorem C15_values_compare_as_numbers : forall t s x, comparable t -> converts t s x ->
  exists i o, number t x i o /\ forall i' o', number t x i' o' -> i' = i /\ o' = o.
Proof.
  intros t s x H C. destruct (comparable_number t H s x C) as (i & o & K). exists i, o. split; [exact K|]. apply number_same. exact K.
Qed.
Print Assumptions C15_values_compare_as_numbers.
(** every two types are compared in one way, and in it every number counts as one number; *)
Theorem C15_comparison_is_determined : forall t u x, exists m x', compared_in t u m /\ counts_as m x x' /\
  forall m2 x2, compared_in t u m2 -> counts_as m2 x x2 -> m2 = m /\ x2 = x'.
Proof.
  intros t u x. set (m := in_type (common t u)).
  assert (E : exists x', counts_as m x x').
  { destruct m as [n|]; [destruct (Z_lt_ge_dec x 0)|]; eexists; [apply ca_negative; assumption|apply ca_plain; lia|apply ca_signed]. }
  destruct E as [x' E]. exists m, x'. split; [apply compared_in_common; reflexivity|]. split; [exact E|].
  intros m2 x2 A B. apply compared_in_common in A. subst m2. split; [reflexivity|]. eapply counts_as_fun; eauto.
Qed.
Print Assumptions C15_comparison_is_determined.
(** where no negative number is compared in an unsigned type, that is the comparison of the numbers themselves: *)
Theorem C15_as_numbers : forall r t x, numeric r -> Forall (same_signs t x) (constants r) ->
  (satisfies r t (Some x) <-> plain_meaning r x).
Proof. exact meaning_plain. Qed.
Print Assumptions C15_as_numbers.
(** otherwise it need not be: gte<unsigned int, -1> rejects 5. *)
Theorem C15_negative_bound_unsigned_refuted : exists t s r x z, wfty t /\ restricts t r /\ converts t s x /\ number t x (ity_of t) (Some z) /\
  numeric r /\ plain_meaning r z /\ ss_valid (ity_of t) r x = false.
Proof.
  exists (TInt (mkIty false 32)), (S2 "5"), (RGte (mkCst (mkIty true 32) (-1))), (VInt 5), 5.
  split; [unfold wfty, wf; cbn; lia|]. split. { split; [exact I|]. constructor; [|constructor]. split; cbn; lia. }
  split. { exists 5. split; [reflexivity|]. split; [|cbn; lia]. apply (dn_plain false (S2 "5")). split; [discriminate|]. constructor; [|constructor]. cbn. auto 10. }
  split; [constructor|]. split; [exact I|]. split; [cbn; lia|reflexivity].
Qed.
Print Assumptions C15_negative_bound_unsigned_refuted.
Theorem C15_ne_rejects_exactly_empty : forall t s, (ss_valid t RNe (VStr s) = true <-> s <> []) /\ (ss_valid t RNe (VView s) = true <-> s <> []).
Proof. intros t [|x s]; cbn; split; split; congruence. Qed.
Print Assumptions C15_ne_rejects_exactly_empty.
(** A restricted column: accepted exactly when the conversion succeeds and the value passes, with the value of the
    conversion; otherwise an error that says so. *)
Theorem C15_restricted_column : forall c v m b e s t r n, in_memory m b e s -> wfelem (ERes t r) -> v_err v = None ->
  (forall x, extract_one c (ERes t r) None (b, e) n (v, m) = Ok (Some x) (v, m) <-> converts t s x /\ passes t r x) /\
  (forall x, converts t s x -> ~ passes t r x ->
     let msg := complaint r ++ S2 " at column " ++ dec (S n) ++ S2 ": '" ++ s ++ S2 "'" in
     match c_mode c with
     | EThrow => extract_one c (ERes t r) None (b, e) n (v, m) = Throw msg (v, m)
     | EString => exists y, extract_one c (ERes t r) None (b, e) n (v, m) = Ok y (vup_err (Some msg) v, m)
     | EBool => exists y, extract_one c (ERes t r) None (b, e) n (v, m) = Ok y (vup_err (Some []) v, m)
     end).
Proof.
  intros c v m b e s t r n H W Hv.
  assert (D : ERes t r <> EVoid) by discriminate.
  assert (NE : forall msg y, extract_one c (ERes t r) None (b, e) n (v, m) = Ok y (vup_err (after_error c msg) v, m) ->
     forall x, extract_one c (ERes t r) None (b, e) n (v, m) <> Ok (Some x) (v, m)).
  { intros msg y E x E'. rewrite E in E'. injection E' as _ E'. apply (f_equal v_err) in E'. rewrite Hv in E'. unfold after_error in E'.
    cbn in E'. destruct (c_mode c); discriminate. }
  destruct (extract_one_cases c v m (ERes t r) (b, e) s n Hv H W D) as [(x & C & E)|(msg & B & E)].
  - split.
    + intros y. rewrite E. split.
      * intros K. injection K as <-. inversion C; subst. auto.
      * intros [K P]. assert (E2 : Some x = Some y) by (eapply col_ok_fun; [exact C|constructor; assumption]). injection E2 as <-. reflexivity.
    + intros y K P. exfalso. eapply (col_excl (S n)); [exact C|]. eapply cb_res_val; eassumption.
  - split.
    + intros x. split.
      * intros K. exfalso. destruct (c_mode c); [destruct E as [y E]|destruct E as [y E]|]; try (eapply NE; eauto; fail). congruence.
      * intros [K P]. exfalso. apply (col_excl (S n) (ERes t r) s (Some x) msg); [constructor; assumption|exact B].
    + intros x K P msg'.
      assert (msg = msg'). { eapply col_bad_fun; [exact B|]. unfold msg'. eapply cb_res_val; eauto. }
      subst msg. unfold after_error in E. destruct (c_mode c); exact E.
Qed.
Print Assumptions C15_restricted_column.
(** The hypotheses are met: optional<char> restricted to 'a'..'z' (as int constants), text "Q"; and an unsigned 64 bit
    number above -1 is none. *)
Example C15_case : let r := RIr (mkCst (mkIty true 32) 97) (mkCst (mkIty true 32) 122) in
  wfelem (ERes (TOpt TChar) r) /\ converts (TOpt TChar) (S2 "Q") (VOpt (Some (VChar "Q"))) /\
  Forall (same_signs (mkIty true 8) 81) (constants r) /\ ~ passes (TOpt TChar) r (VOpt (Some (VChar "Q"))) /\
  passes (TOpt TChar) r (VOpt (Some (VChar "q"))) /\
  (forall w, ~ converts TChar (S2 "QQ") w) /\ passes (TOpt TChar) (RLt (mkCst (mkIty true 32) 97)) (VOpt None) /\
  compared_in (mkIty false 64) (mkIty true 32) (Some 64%nat) /\ counts_as (Some 64%nat) (-1) 18446744073709551615.
Proof.
  assert (SG : forall x k, same_signs (mkIty true 8) x (mkCst (mkIty true 32) k)).
  { intros x k. left. apply ci_signed; intros [E _]; discriminate. }
  assert (SS : forall x, Forall (same_signs (mkIty true 8) x) (constants (RIr (mkCst (mkIty true 32) 97) (mkCst (mkIty true 32) 122)))).
  { intros x. repeat (apply Forall_cons || apply Forall_nil); apply SG. }
  assert (NQ : forall x, (nat_of_ascii x < 128)%nat -> number (TOpt TChar) (VOpt (Some (VChar x))) (mkIty true 8) (Some (Z.of_nat (nat_of_ascii x)))).
  { intros x Hx. constructor. apply nu_ascii. exact Hx. }
  intros r. split. { split; [exact I|]. split; [exact I|]. repeat (apply Forall_cons || apply Forall_nil); split; cbn; lia. }
  split. { exists "Q"%char. auto. } split; [apply SS|].
  split. { intros (i & o & A & B). destruct (number_same _ _ _ _ (NQ "Q"%char ltac:(cbn; lia)) _ _ A) as [-> ->].
    apply (C15_as_numbers r) in B; [|exact I|apply SS]. cbn in B. lia. }
  split. { exists (mkIty true 8), (Some 113). split; [apply (NQ "q"%char); cbn; lia|]. apply C15_as_numbers; [exact I|apply SS|]. cbn. lia. }
  split. { intros w (x & _ & E). discriminate. }
  split. { exists (mkIty true 8), None. split; [|exact I]. eapply nu_none. apply (nu_ascii "Q"). cbn. lia. }
  split. { apply ci_left; [split; [reflexivity|cbn; lia]|cbn; lia]. } apply (ca_negative 64 (-1)). lia.
Qed.
(** C16. For a line that splits into [cols] (C02-C07 say when): *)
Theorem C16_values_iff_all_columns_convert : forall os c d v line rest es cols vs,
  setup os = Some c -> nulfree d -> vreach c v -> nulfree line -> line <> [] -> Forall wfelem es ->
  v_map v = [] -> v_ncols v = O ->
  split_obs c sp_init d line rest = SFields cols ->
  (convert_obs c d v line rest es = CValues (map Some vs) <-> row_ok es cols vs).
Proof.
  intros os c d v line rest es cols vs Hs Hd V HR Hne W Em En E.
  destruct (row_thm os c Hs d Hd v line rest es cols V HR Hne W E) as (_ & K1 & K2).
  rewrite Em, En in *. rewrite <- converted_values. split; [apply K2|]. intros C. exact (K1 _ C).
Qed.
Print Assumptions C16_values_iff_all_columns_convert.
Theorem C16_error_names_first_failing_column : forall os c d v line rest es cols,
  setup os = Some c -> nulfree d -> vreach c v -> nulfree line -> line <> [] -> Forall wfelem es ->
  v_map v = [] -> v_ncols v = O ->
  split_obs c sp_init d line rest = SFields cols ->
  (length es <> length cols -> convert_obs c d v line rest es = errobs c (wrong_count (length es) (length cols))) /\
  (length es = length cols -> (forall vs, ~ row_ok es cols vs) ->
     exists msg, row_bad es cols msg /\ convert_obs c d v line rest es = errobs c msg).
Proof.
  intros os c d v line rest es cols Hs Hd V HR Hne W Em En E.
  destruct (row_thm os c Hs d Hd v line rest es cols V HR Hne W E) as ((o & C) & K1 & _).
  rewrite Em, En in *. split.
  - intros N. apply (K1 (inr _)). apply cd_count; auto.
  - intros L N. inversion C as [ps vs T L1 R|ps msg T L1 R|E1 N1|E1 N1|E1 L1 N1]; subst; try contradiction.
    + unfold taken in T. subst ps. exfalso. eapply N; eauto.
    + unfold taken in T. subst ps. exists msg. split; [exact R|]. apply (K1 _ C).
Qed.
Print Assumptions C16_error_names_first_failing_column.
(** A line that does not split is not converted. *)
Theorem C16_split_error_is_reported : forall os c d v line rest es msg,
  setup os = Some c -> nulfree d -> vreach c v -> nulfree line -> line <> [] -> Forall wfelem es ->
  (split_obs c sp_init d line rest = SErr msg -> convert_obs c d v line rest es = CErr msg) /\
  (split_obs c sp_init d line rest = SThrown msg -> convert_obs c d v line rest es = CThrown msg).
Proof.
  intros os c d v line rest es msg Hs Hd V HR Hne W.
  destruct (row_bad_split os c Hs d Hd v line rest es V HR Hne W) as [A B]. split; [apply A|apply B].
Qed.
Print Assumptions C16_split_error_is_reported.
Theorem C16_convert_never_crashes : forall os c d v line rest es,
  setup os = Some c -> nulfree d -> vreach c v -> nulfree line -> Forall wfelem es ->
  convert_obs c d v line rest es <> CCrash.
Proof. intros os c d v line rest es Hs Hd V HR W. exact (convert_safe os c Hs d Hd v line rest es V HR W). Qed.
Print Assumptions C16_convert_never_crashes.
(** An empty line has no columns: no type list accepts it. *)
Theorem C16_empty_line_is_an_error : forall c d v rest es, vreach c v -> Forall wfelem es -> es <> [] ->
  is_cerror (convert_obs c d v [] rest es).
Proof. intros c d v rest es V W He. exact (empty_line c d v rest es V W He). Qed.
Print Assumptions C16_empty_line_is_an_error.

(** C17 *)
Theorem C17_void_columns_are_skipped : forall os c d v1 v2 line1 line2 rest es1 es2 cs1 s cs2 vs,
  setup os = Some c -> nulfree d -> vreach c v1 -> vreach c v2 -> nulfree line1 -> nulfree line2 -> line1 <> [] -> line2 <> [] ->
  Forall wfelem (es1 ++ es2) ->
  v_map v1 = [] -> v_ncols v1 = O -> v_map v2 = [] -> v_ncols v2 = O ->
  split_obs c sp_init d line1 rest = SFields (cs1 ++ s :: cs2) ->
  split_obs c sp_init d line2 rest = SFields (cs1 ++ cs2) ->
  length es1 = length cs1 ->
  (convert_obs c d v1 line1 rest (es1 ++ EVoid :: es2) = CValues (map Some vs) <->
   convert_obs c d v2 line2 rest (es1 ++ es2) = CValues (map Some vs)).
Proof.
  intros os c d v1 v2 line1 line2 rest es1 es2 cs1 s cs2 vs Hs Hd V1 V2 R1 R2 N1 N2 W M1 O1 M2 O2 E1 E2 L.
  assert (W1 : Forall wfelem (es1 ++ EVoid :: es2)).
  { rewrite Forall_app in *. destruct W as [Wa Wb]. split; [exact Wa|]. constructor; [exact I|exact Wb]. }
  rewrite (C16_values_iff_all_columns_convert os c d v1 line1 rest _ _ vs Hs Hd V1 R1 N1 W1 M1 O1 E1).
  rewrite (C16_values_iff_all_columns_convert os c d v2 line2 rest _ _ vs Hs Hd V2 R2 N2 W M2 O2 E2).
  apply row_void; exact L.
Qed.
Print Assumptions C17_void_columns_are_skipped.

(** C18. [members]: the elements of the tuple, the single element, or the arguments the object was built from. *)
Theorem C18_forms_convert_alike : forall c es elems st,
  same_values (convert_form c [ATuple es] elems st) (convert_form c (map AElem es) elems st) /\
  same_values (convert_form c [ATied es] elems st) (convert_form c (map AElem es) elems st) /\
  same_values (convert_object c (map AElem es) elems st) (convert_form c (map AElem es) elems st).
Proof. exact forms_thm. Qed.
Print Assumptions C18_forms_convert_alike.
Theorem C18_pack_form_is_convert : forall c es elems st,
  match convert_form c (map AElem es) elems st, convert_impl c es elems st with
  | Ok r s, Ok xs s' => members r = xs /\ s = s'
  | Throw e s, Throw e' s' => e = e' /\ s = s'
  | UB _, UB _ | OutOfFuel, OutOfFuel => True
  | _, _ => False
  end.
Proof.
  intros c es elems st. rewrite convert_form_pack. unfold bind, ret. destruct (convert_impl c es elems st); auto.
  split; [apply members_shape|reflexivity].
Qed.
Print Assumptions C18_pack_form_is_convert.

(** What the forms return: one element that is not void comes as itself, several come as a tuple, the object forms give an
    object; as many values as there are elements that are not void. *)
Definition not_void (es : list elem) : list elem := filter (fun e => match e with EVoid => false | _ => true end) es.
Inductive returns (n : nat) : result -> Prop :=
| ret_one x : n = 1%nat -> returns n (ROne x)
| ret_tuple xs : n <> 1%nat -> length xs = n -> returns n (RTuple xs).
Inductive returns_object (n : nat) : result -> Prop := ret_object xs : length xs = n -> returns_object n (RObject xs).
Lemma one_slot_each c es : forall elems argn st xs st', extract_multiple c argn es elems st = Ok xs st' -> length xs = length (not_void es).
Proof.
  induction es as [|e es IH]; intros elems argn st xs st' E; [injection E as <- _; reflexivity|]. cbn [extract_multiple] in E.
  assert (G : forall p, (match nth_error elems p with
       | Some r => x <- extract_one c e None r argn ;; xs <- extract_multiple c (S argn) es elems ;; ret (x :: xs)
       | None => ub "converter: elems[] out of range" end) st = Ok xs st' -> length xs = S (length (not_void es))).
  { intros p E1. destruct (nth_error elems p); [|discriminate]. unfold bind at 1 in E1. destruct (extract_one _ _ _ _ _ st) as [x s1| | |]; try discriminate.
    unfold bind in E1. destruct (extract_multiple c (S argn) es elems s1) as [ys s2| | |] eqn:E2; try discriminate. injection E1 as <- _. cbn. f_equal. eapply IH; eauto. }
  destruct e; cbn [not_void filter]; try (eapply IH; eassumption); unfold bind at 1, vget, gets in E; cbn in E;
    (destruct (column_position (fst st) argn) as [q|]; [eapply G; eauto|discriminate]).
Qed.
Lemma convert_slots c es elems st xs st' : convert_impl c es elems st = Ok xs st' -> length xs = length (not_void es).
Proof.
  assert (D : length (defaults es) = length (not_void es)) by (unfold defaults, arity; apply repeat_length).
  unfold convert_impl. unfold bind at 1. destruct (cv_clear_error st) as [[] s1| | |]; try discriminate. unfold bind at 1. destruct (vget _ s1) as [v s2| | |]; try discriminate.
  assert (X : forall (m : M vst unit), (m ;; ret (defaults es)) s2 = Ok xs st' -> length xs = length (not_void es)).
  { intros m E. unfold bind, ret in E. destruct (m s2); try discriminate. injection E as <- _. exact D. }
  repeat match goal with |- context [if ?b then _ else _] => destruct b end; intros E; eauto using one_slot_each.
Qed.
Theorem C18_result_types : forall c es elems st,
  (forall r st', convert_form c (map AElem es) elems st = Ok r st' -> returns (length (not_void es)) r) /\
  (forall r st', convert_form c [ATuple es] elems st = Ok r st' -> returns (length (not_void es)) r) /\
  (forall r st', convert_form c [ATied es] elems st = Ok r st' -> returns_object (length (not_void es)) r) /\
  (forall r st', convert_object c (map AElem es) elems st = Ok r st' -> returns_object (length (not_void es)) r).
Proof.
  intros c es elems st. unfold convert_object. rewrite convert_form_pack. unfold convert_form, bind, ret.
  pose proof (convert_slots c es elems st) as L. destruct (convert_impl c es elems st) as [xs s|e s|w|]; try (repeat split; intros; discriminate).
  specialize (L xs s eq_refl).
  assert (R : returns (length (not_void es)) (shape es xs)).
  { unfold shape, arity. fold (not_void es). destruct xs as [|x [|y xs]]; cbn in L; rewrite <- L; cbn; constructor; try reflexivity; discriminate. }
  assert (RO : returns_object (length (not_void es)) (to_object (shape es xs))).
  { destruct R as [x H|ys H H']; cbn; constructor; [cbn; congruence|assumption]. }
  repeat split; intros r st' E; injection E as <- _; assumption.
Qed.
Print Assumptions C18_result_types.

(** C08 for the converter *)
Theorem C08_convert_modes_agree : forall os1 os2 c m1 m2, setup os1 = Some (with_mode m1 c) -> setup os2 = Some (with_mode m2 c) ->
  forall d, nulfree d -> d <> [] -> forall v1 v2 line rest es,
  vreach (with_mode m1 c) v1 -> vreach (with_mode m2 c) v2 -> nulfree line -> Forall wfelem es -> es <> [] ->
  v_map v1 = v_map v2 -> v_ncols v1 = v_ncols v2 ->
  (exists vs, convert_obs (with_mode m1 c) d v1 line rest es = CValues (map Some vs) /\
              convert_obs (with_mode m2 c) d v2 line rest es = CValues (map Some vs)) \/
  (is_cerror (convert_obs (with_mode m1 c) d v1 line rest es) /\ is_cerror (convert_obs (with_mode m2 c) d v2 line rest es)).
Proof. exact convert_modes. Qed.
Print Assumptions C08_convert_modes_agree.
Theorem C08_convert_messages_agree : forall os1 os2 c d v1 v2 line rest es cols m m',
  setup os1 = Some (with_mode EString c) -> setup os2 = Some (with_mode EThrow c) -> nulfree d -> 
  vreach (with_mode EString c) v1 -> vreach (with_mode EThrow c) v2 -> nulfree line -> line <> [] -> Forall wfelem es ->
  v_map v1 = v_map v2 -> v_ncols v1 = v_ncols v2 ->
  split_obs (with_mode EString c) sp_init d line rest = SFields cols ->
  split_obs (with_mode EThrow c) sp_init d line rest = SFields cols ->
  convert_obs (with_mode EString c) d v1 line rest es = CErr m ->
  convert_obs (with_mode EThrow c) d v2 line rest es = CThrown m' -> m = m'.
Proof. exact convert_messages. Qed.
Print Assumptions C08_convert_messages_agree.

(** C10 for the converter, on lines that are not empty (PropHistory.v has every line) *)
Theorem C10_convert_independent_of_history : forall os c d v1 v2 line rest es,
  setup os = Some c -> nulfree d -> vreach c v1 -> vreach c v2 -> nulfree line -> line <> [] -> Forall wfelem es ->
  v_map v1 = v_map v2 -> v_ncols v1 = v_ncols v2 ->
  convert_obs c d v1 line rest es = convert_obs c d v2 line rest es.
Proof. intros os c d v1 v2 line rest es Hs Hd. exact (convert_history os c Hs d Hd v1 v2 line rest es). Qed.
Print Assumptions C10_convert_independent_of_history.
(** The empty line keeps the error of the line before it. *)
Definition pc_c := mkCfg (Some """"%char) [] [] [] false 0 EString false false.
Theorem C10_convert_empty_line_refuted :
  exists v, vreach pc_c v /\ v_map v = [] /\
    convert_obs pc_c [","%char] v [] [] [EVal TString] = CErr (S2 "unterminated quote") /\
    convert_obs pc_c [","%char] conv_init [] [] [EVal TString] = CErr (S2 "invalid number of columns, expected: 1, got: 0").
Proof.
  eexists. split; [|split; [|split]].
  - eapply (vr_line pc_c conv_init 0 [","%char] [EVal TString] (map Some (S2 "a,""b") ++ [Some NUL])); [apply vr_init|left; vm_compute; reflexivity].
  - reflexivity.
  - vm_compute. reflexivity.
  - vm_compute. reflexivity.
Qed.
Print Assumptions C10_convert_empty_line_refuted.

(** ** The hypotheses are met by non-trivial cases. *)
Definition ex_line := S2 "17,x,-3".
Example ex_int8 : in_memory (map Some ex_line ++ [Some NUL]) 5 7 (decimal (-3)) /\ in_range true 8 (-3) /\ denotes true (S2 "-3") (-3).
Proof. split; [split; [reflexivity|discriminate]|]. split; [cbn; lia|]. apply (decimal_denotes true (-3)). right; reflexivity. Qed.
Definition ir_0_9 := ERes (TInt (mkIty true 32)) (RIr (mkCst (mkIty true 32) 0) (mkCst (mkIty true 32) 9)).
Definition ex_es := [EVal (TInt (mkIty false 8)); EVoid; ir_0_9].
Example ex_split3 : split_obs pc_c sp_init [","%char] ex_line [] = SFields [S2 "17"; S2 "x"; S2 "-3"].
Proof. vm_compute. reflexivity. Qed.
Example ex_obs : convert_obs pc_c [","%char] conv_init ex_line [] ex_es = CErr (S2 "validation error at column 3: '-3'").
Proof. vm_compute. reflexivity. Qed.
Example ex_obs_ok : convert_obs pc_c [","%char] conv_init (S2 "17,x,3") [] ex_es = CValues [Some (VInt 17); Some (VInt 3)].
Proof. vm_compute. reflexivity. Qed.
Example ex_wf : Forall wfelem ex_es. Proof. repeat constructor; cbn; lia. Qed.
Example ex_vreach : exists v, vreach pc_c v /\ cv_valid pc_c v = false.
Proof.
  eexists. split; [eapply (vr_line pc_c conv_init 0 [","%char] ex_es (map Some ex_line ++ [Some NUL])); [apply vr_init|left; vm_compute; reflexivity]|reflexivity].
Qed.
