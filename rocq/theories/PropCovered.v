(** C44: histories that contain no call left open, and a concrete session.  Vocabulary: SessionApi.v, SessionSpec.v. *)
From Verif Require Import Base Setup SetupProofs Splitter SplitApi Extract Converter ConvSpec ConvProofs Reader LineSpec LineProofs Parser ParserSpec ParserApi ParserRows SessionApi SessionSpec SessionHeader SessionProofs PropParser PropExamples PropSession.

(** Calls that may move to another row. *)
Definition moves (k : call) : bool := match k with CGet _ | CTry _ _ _ | CIgnore | CUse _ => true | _ => false end.
Definition count_moves (ks : list call) : nat := length (filter moves ks).
Section S.
Context (c hc : cfg) (d name h : str).
Context (Hml : c_ml c = false) (He : c_ignempty c = false) (Hh : c_ignhdr c = false) (Hm : c_mode c <> EThrow).
Lemma plain_blanks ls j ls' : blanks c ls j ls' -> j = 0 /\ ls' = ls.
Proof. intros H. destruct H as [ls H|e ls j ls' H1 H2]; [auto|congruence]. Qed.
Lemma plain_row n t l e ls out m rest : row c d n t l e ls out m rest -> out = Complete t /\ m = n /\ rest = ls.
Proof. intros H. destruct H; auto; match goal with G : goes_on _ _ _ _ _ |- _ => destruct G; congruence end. Qed.
Lemma plain_step v k y v' : does c hc d name h v k y v' -> length (w_lines v) <= length (w_lines v') + (if moves k then 1 else 0).
Proof.
  intros D. destruct D; cbn [w_lines moves length]; try lia;
    repeat match goal with H : row _ _ _ _ _ _ _ _ _ _ |- _ => apply plain_row in H as (_ & _ & ->) | H : blanks _ _ _ _ |- _ => apply plain_blanks in H as (_ & ->) end; lia.
Qed.
Lemma plain_inside v k : (moves k = true -> 1 <= length (w_lines v)) -> ~ outside c hc d name h v k.
Proof.
  assert (NX : ~ escapes_lines c) by (intros [X _]; congruence).
  intros H O. inversion O; subst; try congruence; try contradiction.
  - cbn in H. specialize (H eq_refl). lia.
  - match goal with X : row _ _ _ _ _ _ _ _ _ _ |- _ => apply plain_row in X as (X & _); discriminate end.
Qed.
Lemma plain_covered ks : forall v, count_moves ks <= length (w_lines v) -> covered c hc d name h v ks.
Proof.
  induction ks as [|k ks IH]; intros v H; [exact Logic.I|]. unfold count_moves in H. cbn [filter] in H. split.
  - apply plain_inside. intros E. rewrite E in H. cbn in H. lia.
  - intros y v' D. apply IH. pose proof (plain_step _ _ _ _ D) as P. unfold count_moves. destruct (moves k); cbn [length] in *; lia.
Qed.
End S.

(** One row per line, errors not thrown: any calls, in any order, if not more of them may move than there are lines.  Every
    reply is as specified, and the parser goes where the specification says. *)
Theorem C44_simple_histories : forall c hc cap d data name h p v ks, fit c d -> enough cap -> header_setup c hc ->
  c_ml c = false -> c_ignempty c = false -> c_ignhdr c = false -> c_mode c <> EThrow ->
  session c cap d data name h p v -> Forall call_ok ks -> count_moves ks <= length (w_lines v) ->
  exists v', leads c hc d name h v ks (replies c hc cap p ks) v' /\ p_eof (later c hc cap p ks) = w_over v' /\
    (w_over v' = false -> p_line (later c hc cap p ks) = w_line v') /\
    ~ In YCrash (replies c hc cap p ks) /\ ~ In (YGet GCrash) (replies c hc cap p ks).
Proof.
  intros c hc cap d data name h p v ks F Hcap HS H1 H2 H3 H4 SE W C. pose proof (plain_covered c hc d name h H1 H2 H3 H4 ks v C) as CV.
  destruct (C44_covered_histories c hc cap d data name h p v ks F Hcap HS SE W CV) as ((v' & L & E & _ & K & _) & N1 & N2). exists v'. auto.
Qed.
Print Assumptions C44_simple_histories.

(** If line ends cannot be escaped: any calls that compile, in any order and number, also at and behind the end of the data,
    except chains with alternatives. *)
Definition plain_call (c : cfg) (k : call) : Prop :=
  match k with
  | CTry _ _ lks => c_mode c <> EThrow /\ ~ has_else lks
  | CRaw | CHeader | CField _ | CUse _ => c_ignhdr c = false
  | CGet _ | CIgnore => True
  end.
Theorem C44_plain_calls : forall c hc cap d data name h p v ks, fit c d -> enough cap -> header_setup c hc ->
  ~ escapes_lines c -> session c cap d data name h p v -> Forall call_ok ks -> Forall (plain_call c) ks ->
  exists v', leads c hc d name h v ks (replies c hc cap p ks) v' /\ p_eof (later c hc cap p ks) = w_over v' /\
    (w_over v' = false -> p_line (later c hc cap p ks) = w_line v') /\
    ~ In YCrash (replies c hc cap p ks) /\ ~ In (YGet GCrash) (replies c hc cap p ks).
Proof.
  intros c hc cap d data name h p v ks F Hcap HS NX SE W PC.
  assert (CV : forall ks v, Forall (plain_call c) ks -> covered c hc d name h v ks).
  { clear - NX. induction ks as [|k ks IH]; intros v W; [exact Logic.I|]. inversion W as [|? ? W1 W2]; subst. split; [|intros y v' _; apply IH; exact W2].
    intros O. inversion O; subst; cbn in W1; try tauto.
    match goal with H : _ \/ _ |- _ => destruct H as [->|[->|[(f & ->)|(fs & ->)]]] end; cbn in W1; congruence. }
  destruct (C44_covered_histories c hc cap d data name h p v ks F Hcap HS SE W (CV ks v PC)) as ((v' & L & E & _ & K & _) & N1 & N2). exists v'. auto.
Qed.
Print Assumptions C44_plain_calls.

(** A concrete session: header queries, refused and accepted selections, rows, chains with alternatives, checks and handlers,
    skipping. *)
Definition quotes : cfg := mkCfg (Some """"%char) [] [] [] false 0 EString false false.
Definition people : str :=
  S2 "id,name,age" ++ [LF] ++ S2 "1,ann,30" ++ [LF] ++ S2 "2,""bob"",x" ++ [LF] ++ S2 "3,carl,50" ++ [LF] ++ S2 "4,dan,60" ++ [LF] ++ S2 "5,e" ++ [LF] ++ S2 "6,fay,70" ++ [LF] ++ S2 "7,gus,1" ++ [LF] ++ S2 "8,hal,2" ++ [LF].
Definition session_calls : list call :=
  [ CHeader; CField (S2 "age"); CField (S2 "Age"); CUse [S2 "age"; S2 "id"; S2 "age"]; CUse [S2 "size"]; CUse [S2 "age"; S2 "id"];
    CGet [int32; int32]; CTry [int32; int32] CbNone [LOnError 7; LElse [text; int32] (CbVoid 1); LOnError 8];
    CTry [int32; int32] (CbCheck 2 (fun vs => match vs with Some (VInt n) :: _ => (n <? 40)%Z | _ => false end)) [LElse [int32] CbNone; LOnError 9];
    CUse [S2 "name"]; CGet [text] ].
Definition session_replies : list reply :=
  [ YNames [S2 "id"; S2 "name"; S2 "age"]; YBool true; YBool false; YError (S2 "p.csv: given field used multiple times: age");
    YError (S2 "p.csv: header does not contain given field: size"); YDone;
    YGet (GValues [VInt 30; VInt 1]);
    YTry [None; Some [VStr (S2 "x"); VInt 2]] [EvError 7 (S2 "p.csv 3: invalid conversion for parameter at column 1: 'x'"); EvCall 1 [Some (VStr (S2 "x")); Some (VInt 2)]] true;
    YTry [None; None] [EvCall 2 [Some (VInt 50); Some (VInt 3)]; EvError 9 (S2 "p.csv 5: number of arguments does not match mapping, expected: 2, got: 1")] false;
    YDone; YGet (GValues [VStr (S2 "dan")]) ].
Theorem C44_example : exists p v, session quotes as_needed (S2 ",") people (S2 "p.csv") (S2 "id,name,age") p v /\
  Forall call_ok session_calls /\ count_moves session_calls <= length (w_lines v) /\
  replies quotes (header_cfg quotes) as_needed p session_calls = session_replies.
Proof.
  assert (B : forall ls, blanks quotes ls 0 ls) by (intros ls; apply bl_none; discriminate).
  eexists. exists (mkView 0 (lines people) false [] 0 []). split; [|split; [|split]].
  - apply (se quotes as_needed (S2 ",") people (S2 "p.csv") (S2 "id,name,age") _ 0 (lines people)); [apply op_file; vm_compute; reflexivity|vm_compute; intuition discriminate| |discriminate|].
    + eapply st_all; [reflexivity|apply lines_physical|apply B].
    + assert (E : lines people = (S2 "id,name,age", [LF]) :: tl (lines people)) by (vm_compute; reflexivity).
      eapply hl_line; [apply lines_physical|]. rewrite E. apply B.
  - repeat (constructor; [cbn [call_ok]; try exact Logic.I; unfold types; repeat (split || constructor || discriminate)|]). constructor.
  - apply Nat.leb_le. vm_compute. reflexivity.
  - vm_compute. reflexivity.
Qed.
Print Assumptions C44_example.
