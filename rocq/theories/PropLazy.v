(** C61: the parser reads one line ahead, and no more.  Vocabulary: [left p]: what was not taken from the source yet: the rest
    of the file, or the data from the offset on; [called c cap p ess]: the parser after the calls get_next<es...>() of
    [ess], whatever they report; [it_rest it]: the lines from the next row on (ParserSpec.v). *)
From Verif Require Import Base Setup Splitter SplitPure ListFacts SetupProofs SplitApi Extract Converter ConvSpec Reader LineSpec LineProofs ReaderBase ReaderInv ReaderEscape Parser ParserSpec ParserApi ParserRows ParserOpen ParserSession ParserFacts PropReader PropParser PropMulti PropExamples.

Definition left (p : prs) : str :=
  match r_src (p_rdr p) with
  | SFile rest | SPort rest => rest
  | SMem data => skipn (Z.to_nat (r_curr (p_rdr p))) data
  | SNull _ => []
  end.
Fixpoint called (c : cfg) (cap : nat -> nat -> nat) (p : prs) (ess : list (list elem)) : prs :=
  match ess with [] => p | es :: ess' => called c cap (after p (get_next c cap es p)) ess' end.

(** [holds data rest p]: of [data], all was taken but the lines of [rest] without the first: that line is the one read
    ahead, and position() is where it begins. *)
Definition holds (data : str) (rest : list (str * str)) (p : prs) : Prop :=
  match rest with
  | [] => left p = [] /\ p_eof p = true
  | (t, e) :: ls => exists before, data = before ++ (t ++ e) ++ left p /\ physical (left p) ls /\ p_position p = Z.of_nat (length before) /\ p_eof p = false
  end.

Lemma lines_concat s : concat (map (fun l => fst l ++ snd l) (lines s)) = s.
Proof. destruct (C21_physical_lines s) as (ls & _ & U & E & _). rewrite <- (U _ (lines_physical s)) in E. exact E. Qed.

Section L.
Context (c : cfg) (cap : nat -> nat -> nat) (d : str) (F : fit c d) (Hcap : enough cap).
Lemma pstate_holds data mp nc p L k used : lines data = used ++ L -> pstate c d mp nc (Z.of_nat (length data)) p L k -> holds data L p.
Proof.
  intros E PS. pose proof (pstate_pos c d mp nc _ p L k PS) as PP. destruct PS as [_ _ _ _ K]. destruct L as [|[t e] ls]; cbn [holds].
  - destruct K as (K1 & K2 & _). split; [exact K2|exact K1].
  - destruct K as (K1 & _ & _ & _ & K5 & _). change (unread (p_rdr p)) with (left p) in K5. exists (concat (map (fun l => fst l ++ snd l) used)).
    assert (ED : data = concat (map (fun l => fst l ++ snd l) used) ++ (t ++ e) ++ left p).
    { rewrite <- (lines_concat data), E, map_app, concat_app. cbn [map concat fst snd]. rewrite <- K5, lines_concat. reflexivity. }
    split; [exact ED|]. split; [rewrite <- K5; apply lines_physical|]. split; [|exact K1]. rewrite PP by discriminate.
    assert (EB : bytes ((t, e) :: ls) = length ((t ++ e) ++ left p)) by (unfold bytes; cbn [map concat fst snd]; rewrite <- K5, lines_concat; reflexivity).
    rewrite EB. rewrite ED at 1. rewrite app_length. lia.
Qed.
Lemma called_state : forall ess mp nc total p L k its, pstate c d mp nc total p L k -> document c d k L its -> Forall types ess ->
  forall i it, nth_error its i = Some it -> length ess = S i -> pstate c d mp nc total (called c cap p ess) (it_rest it) (it_next it).
Proof.
  induction ess as [|es0 ess IH]; intros mp nc total p L k its PS D W i it Hi Hn; [discriminate Hn|].
  inversion W as [|? ? W1 W2]; subst. destruct its as [|it0 its]; [destruct i; discriminate|].
  destruct (step_doc c d F cap Hcap _ _ _ _ _ _ _ _ _ PS D W1) as (o & p' & A1 & A2 & A3 & A4 & A5 & A6).
  destruct (told_obs _ _ _ _ _ _ p _ A2) as [B1 B2]. cbn [called]. rewrite B2.
  destruct i as [|i]; [injection Hi as <-; destruct ess; [exact A3|discriminate Hn]|]. cbn in Hn. injection Hn as Hn. exact (IH _ _ _ _ _ _ _ A3 A4 W2 i it Hi Hn).
Qed.
End L.

(** After construction, and after each call: everything up to the first line of the next row was taken from the source, and
    nothing behind it. *)
Theorem C61_one_line_ahead : forall c cap d data name p its ess,
  fit c d -> enough cap -> nuls_ok c data -> opened c cap d data name p -> rows_of c d data its -> (c_ignhdr c = true -> its <> []) -> Forall types ess ->
  (forall k L, starts c data k L -> holds data L p) /\
  (forall i it, nth_error its i = Some it -> length ess = S i -> holds data (it_rest it) (called c cap p ess)).
Proof.
  intros c cap d data name p its ess F Hcap N O R Hh W. destruct (open_rows c cap d Hcap data name p its O N R Hh) as (E & L & k & PS & D & SO).
  destruct (starts_lines c _ _ _ SO) as (u0 & E1 & E2). split.
  - intros k2 L2 SO2. destruct (starts_fun _ _ _ _ _ _ SO SO2) as [<- <-]. exact (pstate_holds c d data _ _ p L k u0 E1 PS).
  - intros i it Hi Hn. destruct (document_lines c d _ _ _ D i it Hi) as (u1 & E3 & _).
    apply (pstate_holds c d data [] 0 _ _ (it_next it) (u0 ++ u1)); [rewrite E1, E3, app_assoc; reflexivity|].
    eapply called_state; eauto.
Qed.
Print Assumptions C61_one_line_ahead.

(** Rows of one line, no header and no blank lines: after [i] calls, [i + 1] lines were taken. *)
Theorem C61_lines_taken : forall c cap d data name p ls ess, fit c d -> enough cap -> c_ml c = false -> c_ignhdr c = false -> c_ignempty c = false ->
  opened c cap d data name p -> physical data ls -> Forall types ess -> length ess < length ls ->
  physical (left (called c cap p ess)) (skipn (S (length ess)) ls).
Proof.
  intros c cap d data name p ls ess F Hcap Hm Hh Hi O P W Hn.
  assert (N : nuls_ok c data) by (intros X; congruence).
  assert (NB : forall l, blanks c l 0 l) by (intros l; apply bl_none; intros e l' X; congruence).
  assert (DX : forall l k, exists its, document c d k l its /\ forall i, i < length l -> exists it, nth_error its i = Some it /\ it_rest it = skipn (S i) l).
  { induction l as [|[t e] l IH]; intros k; [exists []; split; [constructor|intros i X; inversion X]|].
    destruct (IH (k + 1 + 0)) as (its & D & K). exists (mkItem (Complete t) (k + 1) (k + 1 + 0) l :: its). split.
    - eapply doc_row; [apply row_done; intros w G; inversion G; congruence|apply NB|exact D].
    - intros i X. destruct i as [|i]; [eexists; split; reflexivity|]. cbn in X. destruct (K i ltac:(lia)) as (it & A & B). exists it. split; [exact A|exact B]. }
  destruct (DX ls 0) as (its & D & K).
  assert (SO : starts c data 0 ls) by (eapply st_all; eauto).
  assert (R : rows_of c d data its) by (exists 0, ls; auto).
  destruct (C61_one_line_ahead c cap d data name p its ess F Hcap N O R ltac:(intros X; congruence) W) as [A B].
  assert (H : holds data (skipn (length ess) ls) (called c cap p ess)).
  { destruct ess as [|es ess]; [exact (A 0 ls SO)|]. destruct (K (length ess)) as (it & Hit & Er); [cbn in Hn; lia|]. cbn [length]. rewrite <- Er. apply (B (length ess)); [exact Hit|reflexivity]. }
  assert (SK : forall n (l : list (str * str)), skipn (S n) l = tl (skipn n l)).
  { clear. induction n as [|n IH]; intros l; [destruct l; reflexivity|]. destruct l as [|x l]; [reflexivity|]. exact (IH l). }
  rewrite SK. destruct (skipn (length ess) ls) as [|[t e] l']; cbn [holds tl] in *; [destruct H as [-> _]; constructor|]. destruct H as (b & _ & P2 & _). exact P2.
Qed.
Print Assumptions C61_lines_taken.

(** ** Example: the document of C25; the second row ends in the third line, the fourth is blank *)
Example C61_example : exists p, opened rich as_needed (S2 ",") rich_data (S2 "data.csv") p /\
  left p = S2 """b" ++ [CR; LF] ++ S2 "c"", 2 " ++ [LF] ++ [CR; LF] ++ S2 "d,x" ++ [LF] ++ S2 "e\" ++ [LF] ++ S2 "f,3" ++ [CR; LF] ++ S2 """g""h,4" ++ [LF] ++ S2 "i,5" /\
  left (called rich as_needed p (repeat [text; int32] 2)) = S2 "e\" ++ [LF] ++ S2 "f,3" ++ [CR; LF] ++ S2 """g""h,4" ++ [LF] ++ S2 "i,5" /\
  left (called rich as_needed p (repeat [text; int32] 3)) = S2 "f,3" ++ [CR; LF] ++ S2 """g""h,4" ++ [LF] ++ S2 "i,5" /\
  left (called rich as_needed p (repeat [text; int32] 4)) = S2 "i,5".
Proof. eexists. split; [apply op_file; vm_compute; reflexivity|]. split; [|split; [|split]]; vm_compute; reflexivity. Qed.
Print Assumptions C61_example.
