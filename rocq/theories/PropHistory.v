(** C10 for a reused splitter or converter, every line included. Vocabulary: [split_obs] (SplitApi.v), [convert_obs] and
    [show] (ConvProofs.v), [converted] (ConvSpec.v), [used] (ConvHistory.v: a converter after any public calls, with the last
    line it split that was not empty). *)
From Verif Require Import Base Setup Splitter SplitPure ListFacts SplitRefine SplitSpec SplitKeeps SplitApi SplitTheorems Extract Converter ConvSpec ExtractProofs ConvProofs ConvTheorems ConvHistory PropConvert.

(** What split shows does not depend on the history, for every delimiter, the empty one included (that is an error). *)
Theorem C10_split_shows_the_same : forall os c d s1 s2 line rest, setup os = Some c -> reach c s1 -> reach c s2 ->
  split_obs c s1 d line rest = split_obs c s2 d line rest.
Proof. intros os c d s1 s2 line rest Hs R1 R2. transitivity (split_obs c sp_init d line rest); [symmetry|]; apply (split_obs_any os c Hs d); assumption. Qed.
Print Assumptions C10_split_shows_the_same.

(** What convert shows: for a line that is not empty, the same whatever the converter did before (as long as the selection
    of columns is the same); the empty line is not split: if the last line that was has an error, this error is shown
    again, and otherwise it is a row without columns. *)
Theorem C10_convert_and_history : forall os c d v w line rest es, setup os = Some c -> nulfree d -> nulfree line -> Forall wfelem es ->
  used c v w ->
  (line <> [] -> forall v' w', used c v' w' -> v_map v' = v_map v -> v_ncols v' = v_ncols v ->
     convert_obs c d v' line rest es = convert_obs c d v line rest es) /\
  (line = [] ->
     match w with
     | Some (d', line', rest') => match split_obs c sp_init d' line' rest' with
         | SErr msg => convert_obs c d v line rest es = CErr msg
         | _ => exists o, converted (v_map v) (v_ncols v) es [] o /\ convert_obs c d v line rest es = show c o
         end
     | None => exists o, converted (v_map v) (v_ncols v) es [] o /\ convert_obs c d v line rest es = show c o
     end).
Proof.
  intros os c d v w line rest es Hs Hd HL W U. split.
  - intros Hne v' w' U' E1 E2. eapply convert_history; eauto using used_vreach.
  - intros ->. eapply empty_line_shows; eauto.
Qed.
Print Assumptions C10_convert_and_history.
(** Both cases of the empty line occur. *)
Example C10_empty_cases :
  (exists v, used pc_c v (Some ([","%char], S2 "a,""b", [])) /\
     convert_obs pc_c [","%char] v [] [] [EVal TString] = CErr (S2 "unterminated quote")) /\
  (exists v, used pc_c v (Some ([","%char], S2 "a,b", [])) /\
     convert_obs pc_c [","%char] v [] [] [EVal TString] = CErr (S2 "invalid number of columns, expected: 1, got: 0")).
Proof.
  assert (Nd : nulfree [","%char]) by (intros K; cbn in K; intuition discriminate).
  assert (N1 : nulfree (S2 "a,""b")) by (intros K; cbn in K; intuition discriminate).
  assert (N2 : nulfree (S2 "a,b")) by (intros K; cbn in K; intuition discriminate).
  split; eexists; split.
  - eapply (us_line pc_c conv_init None [","%char] (S2 "a,""b") [] [EVal TString]); [apply us_new|exact Nd|exact N1|left; vm_compute; reflexivity].
  - vm_compute. reflexivity.
  - eapply (us_line pc_c conv_init None [","%char] (S2 "a,b") [] [EVal TString]); [apply us_new|exact Nd|exact N2|left; vm_compute; reflexivity].
  - vm_compute. reflexivity.
Qed.
