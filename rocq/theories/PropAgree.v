(** C67: the two classes of the library agree: a parser's call on a row answers what a converter answers on the row's text.
    Vocabulary: ParserSpec.v, ParserApi.v; [convert_obs c d v text [] es]: what converter.convert<es>(text, d) answers on the
    converter [v] ([vreach c v]: any history; it selects no columns), in the memory of a string that ends after [text]. *)
From Verif Require Import Base Setup Splitter SplitPure ListFacts SetupProofs SplitRefine SplitSpec SplitActual SplitApi Extract Converter ConvSpec ConvProofs ConvTheorems Reader LineSpec Parser ParserSpec ParserApi ParserRows ParserOpen ParserSession ParserFacts PropParser.

(** ** Specification *)

(** [answers c o]: the converter's answer [o] read as values or a message; without throw_on_error and string_error the message
    is not told. *)
Inductive answers (c : cfg) : cobs -> list val + str -> Prop :=
| an_values vs : answers c (CValues (map Some vs)) (inl vs)
| an_thrown m : c_mode c = EThrow -> answers c (CThrown m) (inr m)
| an_string m : c_mode c = EString -> answers c (CErr m) (inr m)
| an_bool m : c_mode c = EBool -> answers c (CErr []) (inr m).

(** ** Proofs *)
Lemma split_modes c d t : cfg_ok c -> nulfree d -> d <> [] -> nulfree t ->
  (forall m, split_obs c sp_init d t [] = SErr m -> c_mode c = EString \/ c_mode c = EBool /\ m = []) /\
  (forall m, split_obs c sp_init d t [] = SThrown m -> c_mode c = EThrow).
Proof.
  intros Hc Hd Hd0 HT. destruct (psplit c d t) as [l x] eqn:Ep. pose proof (split_obs_psplit c Hc d Hd Hd0 sp_init t [] l x (reach_init c) HT Ep) as K.
  destruct (report c x) as [[m mt]|].
  - rewrite K. destruct (c_mode c); split; intros n E; inversion E; auto.
  - destruct (junk x); [rewrite K; split; intros n E; discriminate|]. destruct K as (j & ->); [constructor|]. split; intros n E; discriminate.
Qed.
Lemma converted_same es cols mp n a b : Forall wfelem es -> converted mp n es cols a -> converted mp n es cols b -> a = b.
Proof. intros _. apply converted_fun. Qed.

(** ** The property *)

(** Rows in multiline setups: the numbers in a message may differ (a position in the text). *)
Theorem C67_parser_and_converter_agree : forall os c cap d data name p its ess,
  setup os = Some c -> fit c d -> enough cap -> nuls_ok c data -> opened c cap d data name p -> rows_of c d data its -> (c_ignhdr c = true -> its <> []) ->
  Forall types ess ->
  forall i it es text v, nth_error its i = Some it -> nth_error ess i = Some es -> it_out it = Complete text -> c_string text <> [] ->
  vreach c v -> v_map v = [] -> v_ncols v = 0 ->
  exists sn o o', nth_error (reads c cap p ess) i = Some sn /\
    answers c (convert_obs c d v (c_string text) [] es) o /\ shown c name (it_line it) (it_next it) o' (s_what sn) /\
    match o, o' with
    | inl vs, inl vs' => vs = vs'
    | inr m, inr m' => same_text m m' /\ (c_ml c = false -> m = m')
    | _, _ => False
    end.
Proof.
  intros os c cap d data name p its ess HS F Hcap N O R Hh TY i it es text v Hi He EC HT V VM VN.
  destruct (C25_each_row_once_in_order c cap d data name p its ess F Hcap N O R Hh TY) as (_ & K).
  destruct (K i it es Hi He) as (o' & sn & R1 & R2 & R3 & _). exists sn. rewrite EC in R2.
  assert (W : Forall wfelem es) by (eapply Forall_forall in TY; [exact (proj1 TY)|eapply nth_error_In; eauto]).
  pose proof (c_string_free text) as NF.
  pose proof (convert_line_thm os c HS d (fit_nul c d F) v (c_string text) [] es V NF HT W) as CL. rewrite VM, VN in CL.
  destruct (split_modes c d (c_string text) (fit_cfg c d F) (fit_nul c d F) (fit_delim c d F) NF) as [M1 M2].
  inversion R2 as [w|t m Z|t cols x Z SP CV|t m m' Z SP ST EQ]; subst; try contradiction.
  - rewrite SP in CL. destruct CL as (x & CX & ->). rewrite (converted_same _ _ _ _ _ _ W CX CV) in *. exists o', o'. split; [exact R1|]. split; [|split; [exact R3|]].
    + destruct o' as [vs|m]; cbn [show]; [constructor|]. unfold errobs. destruct (c_mode c) eqn:E; constructor; exact E.
    + destruct o' as [vs|m]; [reflexivity|]. split; reflexivity.
  - destruct SP as [SP|SP]; rewrite SP in CL; rewrite CL.
    + destruct (M1 m SP) as [E|[E ->]].
      * exists (inr m), (inr m'). split; [exact R1|]. split; [apply an_string; exact E|]. split; [exact R3|]. auto.
      * exists (inr m'), (inr m'). split; [exact R1|]. split; [apply an_bool; exact E|]. split; [exact R3|]. split; [reflexivity|auto].
    + exists (inr m), (inr m'). split; [exact R1|]. split; [apply an_thrown; eapply M2; exact SP|]. split; [exact R3|]. auto.
Qed.
Print Assumptions C67_parser_and_converter_agree.

(** Rows without text: both refuse. *)
Theorem C67_empty_rows : forall c cap d data name p its ess,
  fit c d -> enough cap -> nuls_ok c data -> opened c cap d data name p -> rows_of c d data its -> (c_ignhdr c = true -> its <> []) ->
  Forall types ess ->
  forall i it es text v rest, nth_error its i = Some it -> nth_error ess i = Some es -> it_out it = Complete text -> c_string text = [] -> vreach c v ->
  exists sn m, nth_error (reads c cap p ess) i = Some sn /\
    is_cerror (convert_obs c d v [] rest es) /\ shown c name (it_line it) (it_next it) (inr m) (s_what sn).
Proof.
  intros c cap d data name p its ess F Hcap N O R Hh TY i it es text v rest Hi He EC HT V.
  destruct (C25_each_row_once_in_order c cap d data name p its ess F Hcap N O R Hh TY) as (_ & K).
  destruct (K i it es Hi He) as (o' & sn & R1 & R2 & R3 & _). exists sn. rewrite EC in R2.
  assert (W : types es) by (eapply Forall_forall in TY; [exact TY|eapply nth_error_In; eauto]).
  inversion R2 as [w|t m Z|t cols x Z SP CV|t m m' Z SP ST EQ]; subst; try contradiction.
  exists m. split; [exact R1|]. split; [|exact R3]. apply empty_line; [exact V|apply W|apply W].
Qed.
Print Assumptions C67_empty_rows.

(** Two rows, the second with a column that does not convert, against a converter that has already split a line. *)
Definition ag_c : cfg := mkCfg None [] [] [] false 0 EString false false.
Definition ag_data : str := S2 "7,bob" ++ LF :: S2 "x,eve".
Definition ag_types : list elem := [EVal (TInt (mkIty true 32)); EVal TString].
Definition ag_its : list item := [mkItem (Complete (S2 "7,bob")) 1 1 [(S2 "x,eve", [])]; mkItem (Complete (S2 "x,eve")) 2 2 []].
Definition ag_cap : nat -> nat -> nat := fun _ need => need.
Example C67_case : setup [OStringError] = Some ag_c /\ fit ag_c (S2 ",") /\ enough ag_cap /\ nuls_ok ag_c ag_data /\ types ag_types /\
  rows_of ag_c (S2 ",") ag_data ag_its /\
  (exists v, vreach ag_c v /\ v_map v = [] /\ v_ncols v = 0 /\ v <> conv_init /\
    convert_obs ag_c (S2 ",") v (S2 "7,bob") [] ag_types = CValues [Some (VInt 7); Some (VStr (S2 "bob"))] /\
    convert_obs ag_c (S2 ",") v (S2 "x,eve") [] ag_types = CErr (S2 "invalid conversion for parameter at column 1: 'x'")) /\
  exists p, opened ag_c ag_cap (S2 ",") ag_data (S2 "f") p /\
    map s_what (reads ag_c ag_cap p [ag_types; ag_types]) =
      [GValues [VInt 7; VStr (S2 "bob")]; GError (S2 "f 2: invalid conversion for parameter at column 1: 'x'")].
Proof.
  assert (NM : forall t e ls, row ag_c (S2 ",") 0 t t e ls (Complete t) 0 ls).
  { intros t e ls. apply row_done. intros w G. destruct G; discriminate. }
  assert (NB : forall ls, blanks ag_c ls 0 ls) by (intros ls; apply bl_none; discriminate).
  assert (PH : physical ag_data [(S2 "7,bob", [LF]); (S2 "x,eve", [])]).
  { apply ph_lf; [vm_compute; intuition discriminate|intros t X; apply (f_equal (@rev _)) in X; rewrite rev_app_distr in X; discriminate|].
    apply ph_last; [discriminate|vm_compute; intuition discriminate]. }
  split; [reflexivity|]. split; [|split; [|split; [|split; [|split; [|split]]]]].
  - split; [apply (setup_ok [OStringError]); reflexivity| | |]; cbn; try discriminate. intros [H|[]]. discriminate.
  - intros n need. apply le_n.
  - discriminate.
  - split; [|discriminate]. repeat constructor.
  - exists 0, [(S2 "7,bob", [LF]); (S2 "x,eve", [])]. split; [eapply st_all; [reflexivity|exact PH|apply NB]|].
    apply (doc_row ag_c (S2 ",") 0 (S2 "7,bob") [LF] [(S2 "x,eve", [])] _ 0 [(S2 "x,eve", [])] 0); [apply NM|apply NB|].
    apply (doc_row ag_c (S2 ",") 1 (S2 "x,eve") [] [] _ 0 [] 0); [apply NM|apply NB|]. constructor.
  - destruct (cv_split ag_c 3 (S2 ";") (conv_init, map Some (S2 "a;b") ++ [Some NUL])) as [u [v m]|e s|w|] eqn:E; [|vm_compute in E; discriminate E..].
    exists v. split; [eapply vr_split; [apply vr_init|left; destruct u; exact E]|].
    vm_compute in E. injection E as _ <- _. split; [reflexivity|]. split; [reflexivity|]. split; [intros X; discriminate X|]. split; vm_compute; reflexivity.
  - destruct (parser_file ag_c ag_cap (S2 "f") (S2 ",") false (Some ag_data)) as [[] p|e p|r|] eqn:EP; [|vm_compute in EP; discriminate..].
    exists p. split; [apply op_file; exact EP|]. vm_compute in EP. injection EP as <-. vm_compute. reflexivity.
Qed.
