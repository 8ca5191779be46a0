(** Two sessions with setups that read alike answer alike. *)
From Verif Require Import Base Setup Splitter SplitPure ListFacts SetupProofs SplitApi SplitRefine Extract Converter ConvSpec ConvProofs Reader LineSpec LineProofs Parser ParserSpec ParserApi ParserRows ParserOpen ParserSession ParserFacts SessionApi SessionSpec SessionHeader SessionProofs PropSession Roles.

Definition row_error (g : gobs) : Prop := match g with GError _ | GThrown _ => True | _ => False end.
(** The same but for what error messages say, and whether an error is thrown. *)
Inductive same_event : event -> event -> Prop :=
| sv_call i xs : same_event (EvCall i xs) (EvCall i xs)
| sv_error i m1 m2 : same_event (EvError i m1) (EvError i m2).
Definition refused (y : reply) : Prop := match y with YError _ | YThrown _ => True | _ => False end.
Inductive same_answer : reply -> reply -> Prop :=
| sa_row vs : same_answer (YGet (GValues vs)) (YGet (GValues vs))
| sa_failed g1 g2 : row_error g1 -> row_error g2 -> same_answer (YGet g1) (YGet g2)
| sa_try vs l1 l2 b : Forall2 same_event l1 l2 -> same_answer (YTry vs l1 b) (YTry vs l2 b)
| sa_bool b : same_answer (YBool b) (YBool b)
| sa_text t : same_answer (YText t) (YText t)
| sa_names l : same_answer (YNames l) (YNames l)
| sa_done : same_answer YDone YDone
| sa_refused y1 y2 : refused y1 -> refused y2 -> same_answer y1 y2.

(** Two results of a conversion: the same values, or two errors. *)
Definition agree (o1 o2 : list val + str) : Prop := match o1, o2 with inl a, inl b => a = b | inr _, inr _ => True | _, _ => False end.

Lemma row_rest c d (P : str * str -> Prop) n T last e more out m rest : row c d n T last e more out m rest -> Forall P more -> Forall P rest.
Proof. induction 1; intros K; auto. inversion K; auto. Qed.
Lemma blanks_rest c (P : str * str -> Prop) ls j ls' : blanks c ls j ls' -> Forall P ls -> Forall P ls'.
Proof. induction 1; intros K; auto. inversion K; auto. Qed.
Lemma blanks_det c ls j1 l1 j2 l2 : blanks c ls j1 l1 -> blanks c ls j2 l2 -> j1 = j2 /\ l1 = l2.
Proof. intros A B. apply blanks_fun in A. apply blanks_fun in B. rewrite A in B. injection B. auto. Qed.
Lemma positions_fun cols fs : NoDup cols -> forall mp1 mp2, positions cols fs mp1 -> positions cols fs mp2 -> mp1 = mp2.
Proof.
  intros N. unfold positions. induction fs as [|f fs IH]; intros mp1 mp2 A B; inversion A; inversion B; subst; [reflexivity|]. f_equal; [|auto].
  eapply NoDup_nth_error; [exact N| |congruence]. apply nth_error_Some. congruence.
Qed.
Lemma twice_fun : forall (a1 a2 b1 b2 : list str) f1 f2, a1 ++ f1 :: b1 = a2 ++ f2 :: b2 -> NoDup a1 -> NoDup a2 -> In f1 a1 -> In f2 a2 -> a1 = a2.
Proof.
  assert (G : forall x a1 a2 b1 b2 f1 f2, x ++ a1 ++ f1 :: b1 = x ++ a2 ++ f2 :: b2 -> NoDup (x ++ a1) -> NoDup (x ++ a2) -> In f1 (x ++ a1) -> In f2 (x ++ a2) -> x ++ a1 = x ++ a2 :> list str).
  { intros x a1. revert x. induction a1 as [|y a1 IH]; intros x [|z a2] b1 b2 f1 f2 E N1 N2 I1 I2; [reflexivity| | |]; apply app_inv_head in E; cbn in E.
    - injection E as <- _. exfalso. rewrite app_nil_r in I1. apply NoDup_remove in N2. apply N2. apply in_or_app. auto.
    - injection E as -> _. exfalso. rewrite app_nil_r in I2. apply NoDup_remove in N1. apply N1. apply in_or_app. auto.
    - injection E as <- E. change (y :: a1) with ([y] ++ a1) in *. change (y :: a2) with ([y] ++ a2) in *. rewrite app_assoc in *. rewrite (app_assoc x [y] a2) in *.
      apply (IH (x ++ [y]) a2 b1 b2 f1 f2); auto. f_equal. exact E. }
  intros a1 a2 b1 b2 f1 f2. exact (G [] a1 a2 b1 b2 f1 f2).
Qed.

Section A.
Context (c1 c2 hc1 hc2 : cfg) (d n1 n2 h : str).
Context (F1 : fit c1 d) (F2 : fit c2 d).
Context (El : c_ml c1 = c_ml c2) (Es : c_mlsize c1 = c_mlsize c2) (Ei : c_ignempty c1 = c_ignempty c2) (Eh : c_ignhdr c1 = c_ignhdr c2).
(** Whole rows read alike. *)
Context (RR : forall mp n es out o1 o2, whole c1 c2 d out -> row_reading c1 d mp n es out o1 -> row_reading c2 d mp n es out o2 ->
  agree o1 o2).
(** The header is split alike, or is an error for both. *)
Context (HH : (exists cols, split_obs hc1 sp_init d (c_string h) [] = SFields cols /\ split_obs hc2 sp_init d (c_string h) [] = SFields cols) \/
  exists e1 e2, (split_obs hc1 sp_init d (c_string h) [] = SErr e1 \/ split_obs hc1 sp_init d (c_string h) [] = SThrown e1) /\
                (split_obs hc2 sp_init d (c_string h) [] = SErr e2 \/ split_obs hc2 sp_init d (c_string h) [] = SThrown e2)).
(** With throw_on_error, a header with a name twice is remembered differently. *)
Context (TH : (c_mode c1 = EThrow <-> c_mode c2 = EThrow) \/ forall cols, names hc1 d h cols -> NoDup cols).

Definition clean (v : view) : Prop := Forall (okl c1 c2) (w_lines v) /\ NoDup (w_known v).

Lemma names_same cols1 cols2 : names hc1 d h cols1 -> names hc2 d h cols2 -> cols1 = cols2.
Proof. unfold names. intros A B. destruct HH as [(l & X & Y)|(e1 & e2 & [X|X] & _)]; congruence. Qed.
Lemma names_bad cols r : names hc1 d h cols -> bad_header c2 hc2 d n2 h r -> False.
Proof. unfold names. intros A B. destruct HH as [(l & X & Y)|(e1 & e2 & [X|X] & _)]; [|congruence|congruence]. inversion B; congruence. Qed.
Lemma bad_names cols r : names hc2 d h cols -> bad_header c1 hc1 d n1 h r -> False.
Proof. unfold names. intros A B. destruct HH as [(l & X & Y)|(e1 & e2 & _ & [X|X])]; [|congruence|congruence]. inversion B; congruence. Qed.
Lemma bad_refused c hc n r : bad_header c hc d n h r -> refused r.
Proof. intros []; exact Logic.I. Qed.
Lemma refusal_refused c m : refused (refusal c m).
Proof. unfold refusal. destruct (c_mode c); exact Logic.I. Qed.
Lemma repeated_not (a b : list str) f : In f a -> ~ NoDup (a ++ f :: b).
Proof. intros I0 N. apply NoDup_remove in N. apply N. apply in_or_app. auto. Qed.
Lemma asks_same kn k1 k2 r1 r2 : asks c1 hc1 d n1 h kn k1 r1 -> asks c2 hc2 d n2 h kn k2 r2 ->
  k1 = k2 /\ match r1, r2 with None, None => True | Some a, Some b => refused a /\ refused b | _, _ => False end.
Proof.
  intros A B. inversion A as [kn0 K|cols K1 K2|r K|a f b K1 K2 K3]; subst; inversion B as [kn0' L|cols' L1 L2|r' L|a' f' b' L1 L2 L3]; subst; try congruence; try (split; [reflexivity|exact Logic.I]).
  - rewrite (names_same _ _ K1 L1). auto.
  - destruct (names_bad _ _ K1 L).
  - rewrite (names_same _ _ K1 L1) in K2. destruct (repeated_not _ _ _ L3 K2).
  - destruct (bad_names _ _ L1 K).
  - split; [reflexivity|]. split; eapply bad_refused; eassumption.
  - destruct (bad_names _ _ L1 K).
  - pose proof (names_same _ _ K1 L1). subst. destruct (repeated_not _ _ _ K3 L2).
  - destruct (names_bad _ _ K1 L).
  - pose proof (names_same _ _ K1 L1) as E. pose proof (twice_fun _ _ _ _ _ _ E K2 L2 K3 L3) as ->. split; [|split; apply refusal_refused].
    destruct TH as [T|T]; [|destruct (repeated_not _ _ _ K3 (T _ K1))]. destruct (c_mode c1), (c_mode c2); intuition congruence.
Qed.
Lemma asks_known kn k r c hc n : asks c hc d n h kn k r -> NoDup kn -> NoDup k.
Proof. intros [] N; auto; try constructor. destruct (c_mode c); auto; constructor. Qed.
Lemma use_asks_same o kn k1 k2 r1 r2 : use_asks c1 hc1 d n1 h o kn k1 r1 -> use_asks c2 hc2 d n2 h o kn k2 r2 ->
  k1 = k2 /\ match r1, r2 with None, None => True | Some a, Some b => refused a /\ refused b | _, _ => False end.
Proof. unfold use_asks. destruct o; [intros [-> ->] [-> ->]; auto|apply asks_same]. Qed.
Lemma use_asks_known o kn k r c hc n : use_asks c hc d n h o kn k r -> NoDup kn -> NoDup k.
Proof. unfold use_asks. destruct o; [intros [-> _]; auto|apply asks_known]. Qed.

Lemma row_alike t e ls o1 m1 r1 o2 m2 r2 : Forall (okl c1 c2) ((t, e) :: ls) -> row c1 d 0 t t e ls o1 m1 r1 -> row c2 d 0 t t e ls o2 m2 r2 ->
  o1 = o2 /\ m1 = m2 /\ r1 = r2 /\ whole c1 c2 d o1 /\ Forall (okl c1 c2) r1.
Proof.
  intros K A B. inversion K as [|? ? [K1 K2] K3]; subst. cbn in K1, K2. pose proof F1 as [H1 Hd Hd0 _]. pose proof F2 as [H2 _ _ _].
  pose proof (row_same c1 c2 d H1 H2 Hd Hd0 El Es 0 t t e ls o1 m1 r1 A K1 K1 K2 K3) as A2.
  destruct (row_fun c2 d _ _ _ _ _ _ _ _ A2 _ _ _ B) as (-> & -> & ->). split; [reflexivity|]. split; [reflexivity|]. split; [reflexivity|]. split.
  - eapply row_whole; eauto.
  - eapply row_rest; eauto.
Qed.
Lemma blanks_alike ls j1 l1 j2 l2 : blanks c1 ls j1 l1 -> blanks c2 ls j2 l2 -> j1 = j2 /\ l1 = l2.
Proof. intros A B. apply (blanks_same c1 c2 Ei) in A. eapply blanks_det; eauto. Qed.
Lemma shown_alike2 k1 k2 k1' k2' o1 o2 g1 g2 : agree o1 o2 ->
  shown c1 n1 k1 k2 o1 g1 -> shown c2 n2 k1' k2' o2 g2 -> same_answer (YGet g1) (YGet g2).
Proof.
  unfold shown. destruct o1, o2; cbn [agree]; try contradiction; [intros -> -> ->; constructor|]. intros _ A B.
  apply sa_failed; [destruct (c_mode c1); subst; exact Logic.I|destruct (c_mode c2); subst; exact Logic.I].
Qed.
Definition same_status (s1 s2 : status) : Prop := match s1, s2 with Found, Found | Failed _, Failed _ => True | _, _ => False end.
Lemma invoked_fun cb vs e1 b1 e2 b2 : invoked cb vs e1 b1 -> invoked cb vs e2 b2 -> e1 = e2 /\ b1 = b2.
Proof. intros A B. inversion A; subst; inversion B; subst; auto. Qed.
Lemma events_refl l : Forall2 same_event l l.
Proof. induction l as [|[] l IH]; constructor; auto; constructor. Qed.
Lemma alternative_alike mp n k1 k2 out es cb v1 ev1 s1 v2 ev2 s2 : whole c1 c2 d out ->
  alternative c1 d n1 mp n k1 out es cb v1 ev1 s1 -> alternative c2 d n2 mp n k2 out es cb v2 ev2 s2 -> v1 = v2 /\ ev1 = ev2 /\ same_status s1 s2.
Proof.
  intros W A B. inversion A as [m R|vs ev R J|vs ev R J]; subst; inversion B as [m' R'|vs' ev' R' J'|vs' ev' R' J']; subst; pose proof (RR _ _ _ _ _ _ W R R') as X; cbn in X; try contradiction.
  - repeat split; exact Logic.I.
  - subst vs'. destruct (invoked_fun _ _ _ _ _ _ J J') as [-> _]. repeat split.
  - subst vs'. destruct (invoked_fun _ _ _ _ _ _ J J') as [_ X]. discriminate.
  - subst vs'. destruct (invoked_fun _ _ _ _ _ _ J J') as [_ X]. discriminate.
  - subst vs'. destruct (invoked_fun _ _ _ _ _ _ J J') as [-> _]. repeat split.
Qed.
Lemma followed_alike mp n k1 k2 out s lks vs1 ev1 s1 : followed c1 d n1 mp n k1 out s lks vs1 ev1 s1 -> forall s' vs2 ev2 s2,
  whole c1 c2 d out \/ ~ has_else lks -> same_status s s' -> followed c2 d n2 mp n k2 out s' lks vs2 ev2 s2 ->
  vs1 = vs2 /\ Forall2 same_event ev1 ev2 /\ same_status s1 s2.
Proof.
  assert (NE : forall l ls, ~ has_else (l :: ls) -> ~ has_else ls) by (intros l ls N (es & cb & K); apply N; exists es, cb; right; exact K).
  induction 1 as [s|es cb ls vs ev s H IH|i ls vs ev s H IH|m es cb v ev0 s0 ls vs ev s H0 H IH|m i ls vs ev s H IH]; intros s' vs2 ev2 s2 W S B.
  - inversion B; subst. split; [reflexivity|]. split; [constructor|exact S].
  - destruct s'; [|contradiction]. inversion B; subst. destruct (IH Found _ _ _ ltac:(destruct W; eauto) Logic.I ltac:(eassumption)) as (-> & E2 & E3). auto.
  - destruct s'; [|contradiction]. inversion B; subst. destruct (IH Found _ _ _ ltac:(destruct W; eauto) Logic.I ltac:(eassumption)) as (-> & E2 & E3). auto.
  - destruct s'; [contradiction|]. destruct W as [W|W]; [|exfalso; apply W; exists es, cb; left; reflexivity].
    inversion B as [| | |m' es' cb' v' ev0' s0' ls' vs' ev' s'' H0' H'|]; subst. destruct (alternative_alike _ _ _ _ _ _ _ _ _ _ _ _ _ W H0 H0') as (-> & -> & S0).
    destruct (IH _ _ _ _ (or_introl W) S0 H') as (-> & E2 & E3). split; [reflexivity|]. split; [apply Forall2_app; [apply events_refl|exact E2]|exact E3].
  - destruct s' as [|m2]; [contradiction|]. inversion B; subst. destruct (IH (Failed m2) _ _ _ ltac:(destruct W; eauto) Logic.I ltac:(eassumption)) as (-> & E2 & E3).
    split; [reflexivity|]. split; [constructor; [constructor|exact E2]|exact E3].
Qed.
Lemma found_alike s1 s2 : same_status s1 s2 -> found s1 = found s2.
Proof. destruct s1, s2; cbn; intuition. Qed.

Theorem does_alike v k y1 v1 y2 v2 : clean v -> does c1 hc1 d n1 h v k y1 v1 -> does c2 hc2 d n2 h v k y2 v2 -> same_answer y1 y2 /\ v1 = v2 /\ clean v1.
Proof.
  intros [K N] A B. cbn in K, N.
  inversion A; subst; inversion B; subst; cbn [w_lines w_known] in *; try congruence;
  repeat match goal with
  | X : row c1 d 0 ?t ?t ?e ?ls _ _ _, Y : row c2 d 0 ?t ?t ?e ?ls _ _ _ |- _ => destruct (row_alike _ _ _ _ _ _ _ _ _ K X Y) as (-> & -> & -> & ?W & ?K'); clear X Y
  end;
  repeat match goal with
  | X : blanks c1 ?ls _ _, Y : blanks c2 ?ls _ _ |- _ => assert (Forall (okl c1 c2) ls) by (first [assumption|inversion K; assumption]);
     pose proof (blanks_rest _ (okl c1 c2) _ _ _ X ltac:(assumption)); destruct (blanks_alike _ _ _ _ _ X Y) as [-> ->]; clear X Y
  end.
  (* get_next *)
  1-3: (split; [|split; [reflexivity|split; cbn; auto]]; 
    try match goal with X : shown c1 _ _ _ ?o1 _, Y : shown c2 _ _ _ ?o2 _ |- _ => refine (shown_alike2 _ _ _ _ o1 o2 _ _ _ X Y) end).
  1: match goal with X : row_reading c1 _ _ _ _ _ _, Y : row_reading c2 _ _ _ _ _ _ |- _ => exact (RR _ _ _ _ _ _ W X Y) end.
  1: exact Logic.I.
  1: (apply sa_failed; [destruct (c_mode c1)|destruct (c_mode c2)]; exact Logic.I).
  (* try_next *)
  1: { match goal with X : alternative c1 _ _ _ _ _ _ _ _ _ _ _, Y : alternative c2 _ _ _ _ _ _ _ _ _ _ _ |- _ => destruct (alternative_alike _ _ _ _ _ _ _ _ _ _ _ _ _ W X Y) as (-> & -> & S0) end.
       match goal with X : followed c1 _ _ _ _ _ _ _ _ _ _ _, Y : followed c2 _ _ _ _ _ _ _ _ _ _ _ |- _ => destruct (followed_alike _ _ _ _ _ _ _ _ _ _ X _ _ _ _ (or_introl W) S0 Y) as (-> & S2 & S3) end.
       rewrite (found_alike _ _ S3). split; [constructor; apply Forall2_app; [apply events_refl|exact S2]|]. split; [reflexivity|split; cbn; auto]. }
  1-2: match goal with X : followed c1 _ _ _ _ _ _ _ ?lks _ _ _, Y : followed c2 _ _ _ _ _ _ _ _ _ _ _, NE : ~ has_else ?lks |- _ =>
         destruct ((fun S0 => followed_alike _ _ _ _ _ _ _ _ _ _ X _ _ _ _ (or_intror NE) S0 Y) Logic.I) as (-> & S2 & S3) end; (split; [constructor; exact S2|split; [reflexivity|split; cbn; auto]]).
  1-3: (split; [constructor|split; [reflexivity|split; cbn; auto]]).
  1: { match goal with X : names hc1 _ _ _, Y : names hc2 _ _ _ |- _ => rewrite (names_same _ _ X Y) end. split; [constructor|split; [reflexivity|split; auto]]. }
  1: { exfalso. eapply names_bad; eassumption. }
  1: { exfalso. eapply bad_names; eassumption. }
  1: { split; [apply sa_refused; eapply bad_refused; eassumption|split; [reflexivity|split; auto]]. }
  all: match goal with
       | X : asks c1 _ _ _ _ _ _ _, Y : asks c2 _ _ _ _ _ _ _ |- _ => pose proof (asks_known _ _ _ _ _ _ X N) as N2; destruct (asks_same _ _ _ _ _ X Y) as [E1 E2]
       | X : use_asks c1 _ _ _ _ _ _ _ _, Y : use_asks c2 _ _ _ _ _ _ _ _ |- _ => pose proof (use_asks_known _ _ _ _ _ _ _ X N) as N2; destruct (use_asks_same _ _ _ _ _ _ X Y) as [E1 E2]
       | X : asks c1 _ _ _ _ _ _ _, Y : use_asks c2 _ _ _ _ _ _ _ _ |- _ => pose proof (asks_known _ _ _ _ _ _ X N) as N2; destruct (asks_same _ _ _ _ _ X Y) as [E1 E2]
       | X : use_asks c1 _ _ _ _ _ _ _ _, Y : asks c2 _ _ _ _ _ _ _ |- _ => pose proof (use_asks_known _ _ _ _ _ _ _ X N) as N2; destruct (asks_same _ _ _ _ _ X Y) as [E1 E2]
       end; try contradiction; try subst kn'0.
  all: try match goal with X : selection ?kn ?fs, Y : bad_selection _ ?kn ?fs _ |- _ => destruct (good_selection _ _ _ _ X Y) end.
  all: try match goal with X : positions ?kn ?fs ?a, Y : positions ?kn ?fs ?b |- _ => pose proof (positions_fun _ _ N2 _ _ X Y); try subst a end.
  all: try (exfalso; match goal with X : 0 <> 0 \/ false = true |- _ => destruct X; congruence end).
  all: split; [try (apply sa_refused; first [apply refusal_refused|apply E2]); constructor|split; [reflexivity|split; cbn; auto]].
Qed.

Context (cap1 cap2 : nat -> nat -> nat) (Hcap1 : enough cap1) (Hcap2 : enough cap2) (HS1 : header_setup c1 hc1) (HS2 : header_setup c2 hc2) (total : Z).
Theorem sessions_alike : forall ks v p1 p2, sim c1 d n1 h total v p1 -> sim c2 d n2 h total v p2 -> Forall call_ok ks -> clean v ->
  covered c1 hc1 d n1 h v ks -> covered c2 hc2 d n2 h v ks ->
  Forall2 same_answer (replies c1 hc1 cap1 p1 ks) (replies c2 hc2 cap2 p2 ks) /\
  exists v', sim c1 d n1 h total v' (later c1 hc1 cap1 p1 ks) /\ sim c2 d n2 h total v' (later c2 hc2 cap2 p2 ks).
Proof.
  induction ks as [|k ks IH]; intros v p1 p2 S1 S2 W CL C1 C2; [split; [constructor|exists v; auto]|].
  inversion W as [|? ? W1 W2]; subst. destruct C1 as [O1 C1], C2 as [O2 C2].
  destruct (sim_step c1 hc1 d n1 h cap1 F1 HS1 Hcap1 total v p1 k S1 W1) as [O|(y1 & v1 & q1 & D1 & E1 & T1)]; [contradiction|].
  destruct (sim_step c2 hc2 d n2 h cap2 F2 HS2 Hcap2 total v p2 k S2 W1) as [O|(y2 & v2 & q2 & D2 & E2 & T2)]; [contradiction|].
  destruct (does_alike v k y1 v1 y2 v2 CL D1 D2) as (SA & EV & CL'). subst v2.
  destruct (IH v1 q1 q2 T1 T2 W2 CL' (C1 _ _ D1) (C2 _ _ D2)) as [R R']. cbn [replies later]. rewrite E1, E2. cbn [fst snd]. split; [constructor; assumption|exact R'].
Qed.
(** If the second setup rules out no more calls than the first, the first session's coverage is enough. *)
Theorem covered_alike : forall ks v p1, sim c1 d n1 h total v p1 -> Forall call_ok ks -> clean v -> covered c1 hc1 d n1 h v ks ->
  (forall v k, In k ks -> clean v -> outside c2 hc2 d n2 h v k -> outside c1 hc1 d n1 h v k) -> covered c2 hc2 d n2 h v ks.
Proof.
  induction ks as [|k ks IH]; intros v p1 S1 W CL C1 OUT; [exact Logic.I|]. inversion W as [|? ? W1 W2]; subst. destruct C1 as [O1 C1]. split.
  - intros O. apply O1. apply OUT; [left; reflexivity|exact CL|exact O].
  - intros y2 v2 D2. destruct (sim_step c1 hc1 d n1 h cap1 F1 HS1 Hcap1 total v p1 k S1 W1) as [O|(y1 & v1 & q1 & D1 & E1 & T1)]; [contradiction|].
    destruct (does_alike v k y1 v1 y2 v2 CL D1 D2) as (SA & EV & CL'). subst v2.
    apply (IH v1 q1 T1 W2 CL' (C1 _ _ D1)). intros v0 k0 K. apply OUT. right. exact K.
Qed.
End A.
