(** C40: moving parsers.  C42: sources that cannot be read. *)
From Verif Require Import Base Setup SetupProofs Splitter SplitPure ListFacts Extract Converter ConvProofs Reader ReaderBase ReaderInv Parser ParserSpec ParserApi ParserInv ParserOpen ParserSession SessionApi SessionSpec SafeProofs PropSafe.

Definition plain : cfg := mkCfg None [] [] [] false 0 EString false false.
(** C40.  What the user does with a parser and the parsers made from it by moving. *)
Inductive act :=
| ADo (k : call)                 (* a call on the parser that has the contents now *)
| AMove                          (* parser q{std::move(p)}; from now on q is used *)
| AAssign (target : prs).        (* target = std::move(p); from now on the target is used *)
Fixpoint calls_of (l : list act) : list call :=
  match l with [] => [] | ADo k :: l' => k :: calls_of l' | _ :: l' => calls_of l' end.
(** The replies, the parser used at the end, and the moved-from parsers. *)
Fixpoint run (c hc : cfg) (cap : nat -> nat -> nat) (p : prs) (husks : list prs) (l : list act) : list reply * prs * list prs :=
  match l with
  | [] => ([], p, husks)
  | ADo k :: l' => let '(rs, q, hs) := run c hc cap (snd (do_call c hc cap p k)) husks l' in (fst (do_call c hc cap p k) :: rs, q, hs)
  | AMove :: l' => let '(q, old) := parser_move p in run c hc cap q (old :: husks) l'
  | AAssign t :: l' => let '(q, old) := parser_move_assign t p in run c hc cap q (old :: husks) l'
  end.
Lemma move_same p : fst (parser_move p) = p. Proof. destruct p as [nm e [] h rw ef]. reflexivity. Qed.
Lemma assign_same t p : fst (parser_move_assign t p) = p. Proof. destruct p as [nm e [] h rw ef]. reflexivity. Qed.
Lemma run_eq c hc cap : forall l p hs, Forall (fun h => owned (p_rdr h) = [] /\ open_file (p_rdr h) = false) hs ->
  let '(rs, q, hs') := run c hc cap p hs l in rs = replies c hc cap p (calls_of l) /\ q = later c hc cap p (calls_of l) /\
    Forall (fun h => owned (p_rdr h) = [] /\ open_file (p_rdr h) = false) hs'.
Proof.
  induction l as [|a l IH]; intros p hs H; [cbn; auto|]. destruct a as [k| |t]; cbn [run calls_of replies later].
  - specialize (IH (snd (do_call c hc cap p k)) hs H). destruct (run c hc cap (snd (do_call c hc cap p k)) hs l) as [[rs q] hs']. destruct IH as (-> & -> & K). auto.
  - pose proof (move_same p) as E. destruct (parser_move p) as [q old] eqn:EM. cbn in E. subst q. apply IH. constructor; [|exact H].
    apply (f_equal snd) in EM. cbn in EM. subst old. cbn. unfold open_file. cbn. destruct (r_src (p_rdr p)); auto.
  - pose proof (assign_same t p) as E. destruct (parser_move_assign t p) as [q old] eqn:EM. cbn in E. subst q. apply IH. constructor; [|exact H].
    apply (f_equal snd) in EM. cbn in EM. subst old. cbn. unfold open_file. cbn. destruct (r_src (p_rdr p)); auto.
Qed.
(** Moves do not show: every reply is the one the original would have given, in every state the parser can be in; the
    moved-from objects own nothing, so each block (and the file) is released once when all of them are destroyed. *)
Theorem C40_moves_do_not_show : forall c hc cap p l rs q husks,
  run c hc cap p [] l = (rs, q, husks) ->
  rs = replies c hc cap p (calls_of l) /\ q = later c hc cap p (calls_of l) /\
  Forall (fun h => owned (p_rdr h) = [] /\ open_file (p_rdr h) = false) husks.
Proof. intros c hc cap p l rs q husks E. pose proof (run_eq c hc cap l p [] (Forall_nil _)) as H. rewrite E in H. exact H. Qed.
Print Assumptions C40_moves_do_not_show.
Theorem C40_nothing_is_freed_twice : forall c hc cap d data p l rs q husks,
  cfg_ok c -> header_setup c hc -> ~ In NUL d -> enough cap -> header_ok c data ->
  opened_any c cap d data p -> Forall call_ok (calls_of l) -> all_covered c hc cap p (calls_of l) ->
  run c hc cap p [] l = (rs, q, husks) ->
  NoDup (flat_map (fun h => owned (p_rdr h)) (q :: husks)) /\
  length (filter (fun h => open_file (p_rdr h)) (q :: husks)) <= 1.
Proof.
  intros c hc cap d data p l rs q husks Hc HS Hd Hcap Hh O KO KC E. destruct (C40_moves_do_not_show _ _ _ _ _ _ _ _ E) as (_ & Eq & F).
  destruct (C41_no_call_crashes_partial c hc cap d data p (calls_of l) Hc HS Hd Hcap Hh O KO KC) as [_ ND]. rewrite <- Eq in ND.
  assert (Z : flat_map (fun h => owned (p_rdr h)) husks = []) by (clear - F; induction F as [|h hs [A _] F IH]; [reflexivity|cbn -[owned]; rewrite A; exact IH]).
  assert (Z' : filter (fun h => open_file (p_rdr h)) husks = []) by (clear - F; induction F as [|h hs [_ A] F IH]; [reflexivity|cbn -[open_file]; rewrite A; exact IH]).
  cbn -[owned open_file]. rewrite Z, Z', app_nil_r. split; [exact ND|]. destruct (open_file (p_rdr q)); cbn; lia.
Qed.
Print Assumptions C40_nothing_is_freed_twice.
(** Beyond the property: assigning releases nothing of what the target had, which nothing owns afterwards. *)
Theorem C40_assignment_leaks : forall t p, let '(q, old) := parser_move_assign t p in
  owned (p_rdr q) = owned (p_rdr p) /\ owned (p_rdr old) = [] /\ r_src (p_rdr q) = r_src (p_rdr p).
Proof. intros t p. pose proof (assign_same t p) as E. destruct (parser_move_assign t p) as [q old] eqn:EM. cbn in E. subst q. apply (f_equal snd) in EM. cbn in EM. subst old. auto. Qed.
Print Assumptions C40_assignment_leaks.
Example C40_example : exists p t rs q husks,
  parser_buffer plain tight (S2 ",") (Some (S2 "a,1" ++ [LF] ++ S2 "b,2" ++ [LF] ++ S2 "c,3")) 11 = Ok tt p /\
  parser_file plain tight (S2 "g") (S2 ";") false (Some (S2 "z")) = Ok tt t /\
  let get := ADo (CGet [EVal TString; EVal (TInt (mkIty true 32))]) in
  run plain plain tight p [] [get; AMove; get; AAssign t; get] = (rs, q, husks) /\
  rs = [YGet (GValues [VStr (S2 "a"); VInt 1]); YGet (GValues [VStr (S2 "b"); VInt 2]); YGet (GValues [VStr (S2 "c"); VInt 3])] /\
  owned (p_rdr t) <> [] /\ open_file (p_rdr t) = true /\ open_file (p_rdr q) = false.
Proof.
  do 5 eexists. split; [vm_compute; reflexivity|]. split; [vm_compute; reflexivity|]. split; [vm_compute; reflexivity|]. split; [reflexivity|].
  split; [discriminate|]. split; reflexivity.
Qed.
Print Assumptions C40_example.

(** C42.  A file that cannot be opened, or a null pointer for the data. *)
Theorem C42_constructing : forall c cap d name portable size,
  match c_mode c with
  | EThrow => (exists p, parser_file c cap name d portable None = Throw (name ++ S2 ": could not be opened") p) /\
              (exists p, parser_buffer c cap d None size = Throw (S2 "CSV data buffer: received null data buffer") p)
  | m => (exists p, parser_file c cap name d portable None = Ok tt p /\ p_eof p = true /\ p_valid c p = false /\ p_line p = 0 /\ p_position p = 0%Z /\ p_raw p = [] /\
            (m = EString -> p_err p = Some (name ++ S2 ": could not be opened"))) /\
         (exists p, parser_buffer c cap d None size = Ok tt p /\ p_eof p = true /\ p_valid c p = false /\ p_line p = 0 /\ p_position p = 0%Z /\ p_raw p = [] /\
            (m = EString -> p_err p = Some (S2 "CSV data buffer: received null data buffer")))
  end.
Proof.
  intros c cap d name portable size. unfold parser_file, parser_buffer, construct, p_error, bind, get, throw, pupd, modify.
  destruct (c_mode c) eqn:Em.
  - split; eexists; (split; [reflexivity|]); unfold p_valid; rewrite Em; repeat split; discriminate.
  - split; eexists; (split; [reflexivity|]); unfold p_valid; rewrite Em; cbn [p_err p_eof pset_err pset_eof p_line p_position p_raw p_init]; unfold msg_not_open, msg_null_buffer, p_init; cbn [p_name].
    + destruct (name ++ S2 ": could not be opened") eqn:E; [apply (f_equal (@length _)) in E; rewrite app_length in E; cbn in E; lia|]. repeat split.
    + repeat split.
  - split; eexists; reflexivity.
Qed.
Print Assumptions C42_constructing.
Inductive unopened (c : cfg) (cap : nat -> nat -> nat) (d : str) : nat -> str -> prs -> Prop :=
| un_file name portable p : parser_file c cap name d portable None = Ok tt p -> unopened c cap d 0 name p
| un_buffer size p : parser_buffer c cap d None size = Ok tt p -> unopened c cap d size (S2 "CSV data buffer") p.
Lemma unopened_eq c cap d n name p : unopened c cap d n name p -> exists e, p = pset_eof true (pset_err e (p_init name d (SNull n))).
Proof.
  assert (G : forall msg nm m q, construct c cap false msg (p_init nm d (SNull m)) = Ok tt q -> exists e, q = pset_eof true (pset_err e (p_init nm d (SNull m)))).
  { intros msg nm m q. unfold construct, p_error, bind, get, throw, pupd, modify. destruct (c_mode c); intros E; try discriminate; injection E as <-; eauto. }
  intros [nm po q E|m q E]; eapply G; exact E.
Qed.
(** Reading goes on failing in the same way, and eof() stays true; nothing is ever read. *)
Theorem C42_reading : forall c cap d n name p ess, unopened c cap d n name p ->
  Forall (fun sn => s_eof sn = true /\ s_line sn = 0 /\ s_pos sn = 0%Z /\ s_what sn = GError (match c_mode c with EString => name ++ S2 ": read on end of file" | _ => [] end)) (reads c cap p ess).
Proof.
  intros c cap d n name p ess O.
  assert (NT : c_mode c <> EThrow).
  { intros Em. destruct O as [nm po q E|m q E]; unfold parser_file, parser_buffer, construct, p_error, bind, get in E; rewrite Em in E; discriminate E. }
  destruct (unopened_eq _ _ _ _ _ _ O) as (e & ->). clear O.
  assert (G : forall q, p_eof q = true -> p_name q = name -> r_line (p_rdr q) = 0 -> p_position q = 0%Z -> cv_valid c (r_conv (p_rdr q)) = true -> cv_valid c (r_nconv (p_rdr q)) = true ->
     Forall (fun sn => s_eof sn = true /\ s_line sn = 0 /\ s_pos sn = 0%Z /\ s_what sn = GError (match c_mode c with EString => name ++ S2 ": read on end of file" | _ => [] end)) (reads c cap q ess)).
  { induction ess as [|es ess IH]; intros q He Hn Hl Hp V1 V2; [constructor|]. cbn [reads].
    assert (EG : exists q', get_next c cap es q = Ok (defaults es) q' /\ p_eof q' = true /\ p_name q' = name /\ p_rdr q' = swapped (p_rdr q) /\
       p_err q' = match c_mode c with EString => Some (name ++ S2 ": read on end of file") | _ => Some [] end).
    { unfold get_next. unfold bind at 1, get at 1. rewrite He. unfold bind at 1, ret at 1. unfold bind at 1, on_rdr at 1, zoom at 1. rewrite update_eq.
      unfold bind at 1, get at 1. cbn [p_rdr pset_rdr p_eof]. change (r_conv (swapped (p_rdr q))) with (r_nconv (p_rdr q)). rewrite V2. cbn [negb]. unfold p_clear_error. unfold bind at 1, pupd at 1, modify at 1. rewrite He.
      unfold p_error, bind, get, pupd, modify, ret. destruct (c_mode c); [| |congruence]; eexists; (split; [reflexivity|]); cbn [p_eof p_name p_rdr p_err pset_err pset_rdr];
      (split; [exact He|]); (split; [exact Hn|]); (split; [reflexivity|]); [reflexivity|]. unfold msg_eof. change (p_name (pset_err None (pset_rdr (swapped (p_rdr q)) q))) with (p_name q). rewrite Hn.
      destruct (name ++ S2 ": read on end of file") eqn:E; [apply (f_equal (@length _)) in E; rewrite app_length in E; cbn in E; lia|reflexivity]. }
    destruct EG as (q' & E & E1 & E2 & E3 & E4). rewrite E. constructor.
    - cbn [see s_eof s_line s_what s_pos after get_obs]. split; [exact E1|]. split; [|split].
      + unfold p_line. rewrite E3. cbn [swapped r_line]. rewrite Hl. reflexivity.
      + unfold p_position in *. rewrite E3. exact Hp.
      + unfold p_valid. rewrite E4. destruct (c_mode c); [reflexivity|reflexivity|congruence].
    - cbn [after]. apply IH; auto; unfold p_position in *; rewrite E3; cbn; assumption. }
  apply G; try reflexivity; unfold cv_valid; destruct (c_mode c); reflexivity.
Qed.
Print Assumptions C42_reading.
(** No other call crashes either, if no size was given with the null pointer; and the parser stays at its end. *)
Theorem C42_no_call_crashes : forall c hc cap d name p ks,
  cfg_ok c -> header_setup c hc -> ~ In NUL d -> enough cap -> unopened c cap d 0 name p -> Forall call_ok ks -> all_covered c hc cap p ks ->
  Forall (fun y => y <> YCrash /\ y <> YGet GCrash) (replies c hc cap p ks) /\ p_eof (later c hc cap p ks) = true.
Proof.
  intros c hc cap d name p ks Hc HS Hd Hcap O. assert (Hd' : nulfree d) by (intros X; apply Hd; exact X).
  assert (SI : sinv c d 0 p).
  { destruct (unopened_eq _ _ _ _ _ _ O) as (e & ->). split; [|split].
    - split; [apply (rinv_init c d (SNull 0)); cbn; lia|]. split; [reflexivity|discriminate].
    - intros _. cbn. split; [exact Logic.I|]. split; [apply good_init|]. intros _. left. reflexivity.
    - apply le_n. }
  clear O. revert p SI. induction ks as [|k ks IH]; intros p SI KO KP.
  - split; [constructor|]. destruct SI as (_ & _ & L). unfold left_over in L. cbn. destruct (p_eof p); [reflexivity|lia].
  - inversion KO; subst. destruct KP as [KP1 KP2].
    destruct (call_safe c hc d cap 0 Hc Hd' Hcap HS k p) as [A B]; [apply now_permitted; assumption|assumption|exact SI|].
    cbn [replies later]. destruct (IH _ B) as [C D]; [assumption|assumption|]. split; [|exact D]. constructor; [|exact C]. unfold crashed in A. split; intros X; apply A; auto.
Qed.
Print Assumptions C42_no_call_crashes.
(** With a null pointer and a size, ignore_next reads through the null pointer; so does the second get_next after or_else. *)
Theorem C42_null_buffer_refuted : exists p,
  parser_buffer plain tight (S2 ",") None 1 = Ok tt p /\
  replies plain plain tight p [CIgnore] = [YCrash] /\
  let s := [EVal TString] in
  replies plain plain tight p [CTry s CbNone [LElse s CbNone]; CGet s; CGet s] =
    [YTry [None; None] [] false; YGet (GError (S2 "CSV data buffer: read on end of file")); YGet GCrash].
Proof. eexists. split; [vm_compute; reflexivity|]. split; vm_compute; reflexivity. Qed.
Print Assumptions C42_null_buffer_refuted.
Example C42_example : exists p, unopened plain tight (S2 ",") 0 (S2 "f") p /\
  replies plain plain tight p [CGet [EVal TString]; CIgnore; CHeader; CUse [S2 "a"]; CGet [EVal TString]] =
  [YGet (GError (S2 "f: read on end of file")); YBool false; YNames [[]]; YError (S2 "f: header does not contain given field: a"); YGet (GError (S2 "f: read on end of file"))].
Proof. eexists. split; [apply un_file with (portable := false); vm_compute; reflexivity|]. vm_compute. reflexivity. Qed.
Print Assumptions C42_example.
