(** C48.  Without throw_on_error no call throws, whatever the data, the arguments and the calls before.
    (Out of scope, as everywhere: std::bad_alloc, and exceptions of user-supplied callbacks.) *)
From Verif Require Import Base Setup SetupProofs Splitter Extract Converter Reader Parser ParserApi SessionApi SessionSpec NoThrow.

Definition throws {S A} (o : res S A) : Prop := exists msg s, o = Throw msg s.
Definition thrown (y : reply) : Prop := exists msg, y = YThrown msg \/ y = YGet (GThrown msg).

Lemma no_throw_mode os c : setup os = Some c -> ~ In OThrowOnError os -> c_mode c <> EThrow.
Proof.
  intros E N. destruct (setup_meaning _ _ E) as (_ & _ & _ & _ & _ & _ & M & _). rewrite M. destruct (existsb is_string_error os); [discriminate|].
  destruct (existsb is_throw os) eqn:T; [|discriminate]. exfalso. apply N. apply existsb_exists in T as (o & Ho & Hb). destruct o; try discriminate. exact Ho.
Qed.
Lemma nt_not {S A} (m : M S A) s : nt m -> ~ throws (m s).
Proof. intros H (e & s' & E). specialize (H s). rewrite E in H. exact H. Qed.

(** A parser: its construction, and every call from every state of the parser. *)
Theorem C48_parser_does_not_throw : forall os c hc cap,
  setup os = Some c -> ~ In OThrowOnError os -> header_setup c hc ->
  (forall name d portable contents, ~ throws (parser_file c cap name d portable contents)) /\
  (forall d data size, ~ throws (parser_buffer c cap d data size)) /\
  (forall p ks, Forall (fun y => ~ thrown y) (replies c hc cap p ks)).
Proof.
  intros os c hc cap E N HS. pose proof (no_throw_mode _ _ E N) as Hm. assert (Hh : c_mode hc = c_mode c) by (destruct HS as [-> | ->]; reflexivity).
  split; [|split].
  - intros name d portable [data|]; cbn [parser_file]; apply nt_not; apply nt_construct; exact Hm.
  - intros d [data|] size; cbn [parser_buffer]; apply nt_not; apply nt_construct; exact Hm.
  - intros p ks. revert p. induction ks as [|k ks IH]; intros p; cbn [replies]; constructor; [|apply IH]. clear IH.
    assert (PL : forall A (f : A -> reply) (o : res prs A), ~ throws o -> (forall a, ~ thrown (f a)) -> ~ thrown (plain_answer f o)).
    { intros A f o T F. destruct o; cbn; auto; [|intros (? & [X|X]); discriminate X..]. exfalso. apply T. red. eauto. }
    assert (AN : forall A (f : A -> reply) (o : res prs A), ~ throws o -> (forall a, ~ thrown (f a)) -> ~ thrown (answer c f o)).
    { intros A f o T F. destruct o as [a q|e q| |]; cbn; auto; [|exfalso; apply T; red; eauto|intros (? & [X|X]); discriminate X..]. destruct (p_valid c q); auto. intros (? & [X|X]); discriminate X. }
    destruct k as [es|es cb ls| | | |f|fs]; cbn [do_call fst].
    + pose proof (nt_not _ p (nt_get_next c Hm cap es)) as T. unfold get_obs. destruct (get_next c cap es p) as [xs q|e q| |]; cbn.
      * destruct (p_valid c q); [destruct (given xs)|]; intros (? & [X|X]); discriminate X.
      * intros _. apply T. red. eauto.
      * intros (? & [X|X]); discriminate X.
      * intros (? & [X|X]); discriminate X.
    + pose proof (nt_not _ (p, []) (nt_chain c cap Hm es cb ls)) as T. destruct (chain_call c cap es cb ls (p, [])) as [vs [q l]|e [q l]| |]; cbn.
      * destruct (all_given vs); intros (? & [X|X]); discriminate X.
      * intros _. apply T. red. eauto.
      * intros (? & [X|X]); discriminate X.
      * intros (? & [X|X]); discriminate X.
    + apply PL; [apply nt_not; apply nt_ignore|intros a (? & [X|X]); discriminate X].
    + apply PL; [apply nt_not; apply nt_gets|intros a (? & [X|X]); discriminate X].
    + apply AN; [apply nt_not; apply nt_header; assumption|intros a (? & [X|X]); discriminate X].
    + apply AN; [apply nt_not; apply nt_field; assumption|intros a (? & [X|X]); discriminate X].
    + apply AN; [apply nt_not; apply nt_use; assumption|intros a (? & [X|X]); discriminate X].
Qed.
Print Assumptions C48_parser_does_not_throw.

(** Range-based for over iterate and iterate_object, if the body of the loop does not throw. *)
Theorem C48_loops_do_not_throw : forall os c cap ts (W : Type) (body : result -> M (prs * W) bool) fuel p w,
  setup os = Some c -> ~ In OThrowOnError os -> (forall x t, ~ throws (body x t)) ->
  ~ throws (iterate c cap ts body fuel (p, w)) /\ ~ throws (iterate_object c cap ts body fuel (p, w)).
Proof.
  intros os c cap ts W body fuel p w E N B. pose proof (no_throw_mode _ _ E N) as Hm.
  assert (NB : forall a, nt (body a)). { intros a t. specialize (B a t). destruct (body a t) eqn:Eb; auto. apply B. red. eauto. }
  split; apply nt_not; apply nt_range_for; auto; [apply nt_get_as|apply nt_object]; exact Hm.
Qed.
Print Assumptions C48_loops_do_not_throw.

(** The splitter and the converter on their own, from every state, on every line (terminated or not). *)
Theorem C48_converter_does_not_throw : forall os c,
  setup os = Some c -> ~ In OThrowOnError os ->
  (forall blk d s m, ~ throws (sp_split c blk d (s, m))) /\
  (forall blk n d s m, ~ throws (sp_resplit c blk n d (s, m))) /\
  (forall blk d es v m, ~ throws (cv_convert_line c blk d es (v, m))) /\
  (forall es elems v m, ~ throws (cv_convert_data c es elems (v, m))) /\
  (forall es v m, ~ throws (cv_convert c es (v, m))).
Proof.
  intros os c E N. pose proof (no_throw_mode _ _ E N) as Hm.
  split; [|split; [|split; [|split]]]; intros; apply nt_not; auto using nt_split, nt_resplit, nt_convert_line, nt_convert_data, nt_convert.
Qed.
Print Assumptions C48_converter_does_not_throw.

(** A malformed row in a parser with string_error, and in one with throw_on_error. *)
Definition nt_doc : str := S2 "a,x" ++ [LF] ++ S2 "b,2".
Definition nt_calls : list call := [CGet [EVal TString; EVal (TInt (mkIty true 32))]; CGet [EVal TString; EVal (TInt (mkIty true 32))]; CGet [EVal TString; EVal (TInt (mkIty true 32))]].
Example C48_example :
  match setup [OStringError] with
  | Some c => match parser_buffer c (fun _ n => n) (S2 ",") (Some nt_doc) (length nt_doc) with
              | Ok _ p => map (fun y => match y with YGet (GValues _) => 1 | YGet (GError _) => 2 | YGet (GThrown _) => 3 | _ => 0 end) (replies c (header_cfg c) (fun _ n => n) p nt_calls) = [2; 1; 2]
              | _ => False
              end
  | None => False
  end.
Proof. vm_compute. reflexivity. Qed.
Example C48_throwing :
  match setup [OThrowOnError] with
  | Some c => match parser_buffer c (fun _ n => n) (S2 ",") (Some nt_doc) (length nt_doc) with
              | Ok _ p => map (fun y => match y with YGet (GValues _) => 1 | YGet (GError _) => 2 | YGet (GThrown _) => 3 | _ => 0 end) (replies c (header_cfg c) (fun _ n => n) p nt_calls) = [3; 1; 3]
              | _ => False
              end
  | None => False
  end.
Proof. vm_compute. reflexivity. Qed.
