(** The header functions. *)
From Verif Require Import Base Setup Splitter SplitPure ListFacts SplitApi SplitRefine SplitLocal SplitSafe Extract Converter ConvSpec ConvProofs Reader LineSpec LineProofs GetLineProofs ReaderBase ReaderInv ReaderEscape ReaderParse Parser ParserSpec ParserApi ParserInv ParserRows ParserOpen ParserSession SessionApi SessionSpec.

Lemma str_eqb_eq : forall a b, str_eqb a b = true <-> a = b.
Proof.
  induction a as [|x a IH]; intros [|y b]; cbn; try (split; congruence). rewrite andb_true_iff, Ascii.eqb_eq, IH. split; [intros [-> ->]; reflexivity|intros E; injection E; auto].
Qed.
Lemma find_index_none f l : find_index f l = None <-> ~ In f l.
Proof.
  induction l as [|x l IH]; cbn; [tauto|]. destruct (str_eqb x f) eqn:E.
  - apply str_eqb_eq in E. split; [discriminate|]. intros H. exfalso. auto.
  - destruct (find_index f l); split; try congruence.
    + intros H. exfalso. apply H. right. destruct (In_dec (list_eq_dec ascii_dec) f l) as [K|K]; [exact K|]. apply IH in K. discriminate.
    + intros _ [K|K]; [apply str_eqb_eq in K; congruence|]. apply IH in K; auto.
Qed.
Lemma find_index_some f l i : find_index f l = Some i -> nth_error l i = Some f.
Proof.
  revert i. induction l as [|x l IH]; cbn; intros i; [discriminate|]. destruct (str_eqb x f) eqn:E.
  - intros K. injection K as <-. apply str_eqb_eq in E. cbn. congruence.
  - destruct (find_index f l); [|discriminate]. intros K. injection K as <-. apply IH. reflexivity.
Qed.
Lemma count_str_occ f l : count_str f l = occurrences l f.
Proof.
  unfold count_str, occurrences. induction l as [|x l IH]; [reflexivity|]. cbn. destruct (list_eq_dec ascii_dec x f) as [->|N].
  - rewrite (proj2 (str_eqb_eq f f) eq_refl). cbn. congruence.
  - destruct (str_eqb x f) eqn:E; [apply str_eqb_eq in E; congruence|]. exact IH.
Qed.
Lemma texts_strings m : forall rs, texts m rs = strings_of m rs.
Proof. induction rs as [|[b e] rs IH]; [reflexivity|]. cbn. rewrite IH. reflexivity. Qed.
Lemma dup_cases : forall cols : list str, NoDup cols \/ exists f, first_repeated cols f.
Proof.
  assert (G : forall l acc, NoDup acc -> NoDup (acc ++ l) \/ exists f, first_repeated (acc ++ l) f).
  { induction l as [|x l IH]; intros acc N; [rewrite app_nil_r; auto|].
    destruct (In_dec (list_eq_dec ascii_dec) x acc) as [K|K]; [right; exists x; constructor; auto|].
    replace (acc ++ x :: l) with ((acc ++ [x]) ++ l) by (rewrite <- app_assoc; reflexivity). apply IH.
    apply NoDup_rev in N. rewrite <- (rev_involutive (acc ++ [x])). apply NoDup_rev. rewrite rev_app_distr. cbn. constructor; [|exact N].
    rewrite <- in_rev. exact K. }
  intros cols. exact (G cols [] (NoDup_nil _)).
Qed.
Lemma nodup_not_repeated cols f : NoDup cols -> ~ first_repeated cols f.
Proof. intros N R. inversion R as [a f' b Na Hf E1 E2]; subst. apply NoDup_remove_2 in N. apply N. apply in_or_app. auto. Qed.
Lemma repeated_fun cols f g : first_repeated cols f -> first_repeated cols g -> f = g.
Proof.
  intros R. inversion R as [a f' b Na Hf E1 E2]; subst. intros R2. inversion R2 as [a2 g' b2 Na2 Hg E1 E2]; subst.
  assert (G : forall (a a2 : list str) (f g : str) b b2, a ++ f :: b = a2 ++ g :: b2 -> (exists l, a = a2 ++ g :: l) \/ (exists l, a2 = a ++ f :: l) \/ f = g).
  { clear. induction a as [|x a IH]; intros [|y a2] f g b b2 E; cbn in E; injection E as E0 E; subst; [auto|right; left; eexists; reflexivity|left; eexists; reflexivity|].
    destruct (IH _ _ _ _ _ E) as [(l & ->)|[(l & ->)| ->]]; [left; exists l; reflexivity|right; left; exists l; reflexivity|auto]. }
  destruct (G _ _ _ _ _ _ E1) as [(l & ->)|[(l & ->)|X]]; [| |congruence].
  - apply NoDup_remove_2 in Na2. exfalso. apply Na2. apply in_or_app. auto.
  - apply NoDup_remove_2 in Na. exfalso. apply Na. apply in_or_app. auto.
Qed.

Section H.
Context (c hc : cfg) (d name h : str) (cap : nat -> nat -> nat).
Context (Hcfg : cfg_ok c) (Hd : nulfree d) (Hd0 : d <> []) (HS : header_setup c hc).

Notation sob := (split_obs hc sp_init d (c_string h) []).
Lemma hc_mode : c_mode hc = c_mode c.
Proof. destruct HS as [->| ->]; reflexivity. Qed.
Lemma hc_ok : cfg_ok hc.
Proof. destruct HS as [->| ->]; [|exact Hcfg]. destruct Hcfg. split; auto. discriminate. Qed.
Lemma sob_cases : (exists cols, sob = SFields cols) \/ (exists m, sob = SErr m /\ c_mode c <> EThrow) \/ (exists m, sob = SThrown m /\ c_mode c = EThrow).
Proof.
  destruct (psplit hc d (c_string h)) as [l t] eqn:Ep. pose proof (split_obs_psplit hc hc_ok d Hd Hd0 sp_init (c_string h) [] l t (reach_init hc) (c_string_free h) Ep) as K.
  rewrite hc_mode in K. destruct (report hc t) as [[m mt]|].
  - rewrite K. destruct (c_mode c); eauto; right; left; eexists; split; eauto; discriminate.
  - left. destruct (junk t); [eauto|]. destruct K as (j & ->); [constructor|]. eauto.
Qed.

Lemma sob_text : split_obs hc sp_init d h [] = sob.
Proof.
  pose proof sob_cases as SC. destruct (c_string_cells h []) as (X & EX). unfold split_obs, split_call in *.
  change (map Some h ++ Some NUL :: []) with (map Some h ++ [Some NUL]) in EX. rewrite EX.
  change (map Some (c_string h) ++ [Some NUL]) with (tm (c_string h)) in *.
  pose proof (lo_split hc 0 d sp_init (tm (c_string h)) X) as L.
  destruct (sp_split hc 0 d (sp_init, tm (c_string h))) as [u [s m]|e [s m]|w|]; cbn [observe] in *; try (destruct SC as [(? & K)|[(? & K & _)|(? & K & _)]]; discriminate).
  - destruct L as [-> _]. cbn [observe]. destruct (sp_valid hc s) eqn:Ev; [|reflexivity]. destruct (strings_of m (s_sd s)) as [l|] eqn:El.
    + rewrite (strings_of_tm _ X _ _ El). reflexivity.
    + destruct SC as [(? & K)|[(? & K & _)|(? & K & _)]]; discriminate.
  - destruct L as [-> _]. reflexivity.
Qed.

Definition headed (p : prs) : Prop := p_name p = name /\ p_raw p = h /\ r_delim (p_rdr p) = d.

Lemma strict_split_spec p : headed p ->
  match sob with
  | SFields cols => exists sm, strict_split c hc p = Ok (Some sm) p /\ texts (snd sm) (s_sd (fst sm)) = Some cols
  | SErr m => strict_split c hc p = Ok None (pset_err (Some (error_text c (msg_bad_header name m))) p)
  | SThrown m => strict_split c hc p = Throw (msg_bad_header name m) p
  | SCrash => False
  end.
Proof.
  intros (E1 & E2 & E3). unfold strict_split. rewrite E2, E3. change (sp_split hc 0 d (sp_init, map Some h ++ [Some NUL])) with (split_call hc sp_init d h []).
  pose proof sob_cases as SC. rewrite <- sob_text in *. unfold split_obs in *. destruct (split_call hc sp_init d h []) as [u [s m]|e [s m]|w|]; cbn [observe] in *.
  - destruct (sp_valid hc s) eqn:Ev.
    + destruct (strings_of m (s_sd s)) as [l|] eqn:El.
      * exists (s, m). split; [reflexivity|]. cbn [fst snd]. rewrite texts_strings. exact El.
      * destruct SC as [(? & K)|[(? & K & _)|(? & K & _)]]; discriminate.
    + destruct SC as [(? & K)|[(? & K & Km)|(? & K & _)]]; try discriminate.
      unfold p_error, bind, get, msg_header_split, error_text, msg_bad_header. rewrite E1. destruct (c_mode c); [reflexivity| |congruence].
      destruct (name ++ S2 ": failed header parsing: " ++ _) eqn:X; [|reflexivity]. exfalso. destruct name; discriminate X.
  - unfold throw, msg_header_split, msg_bad_header. rewrite E1. reflexivity.
  - destruct SC as [(? & K)|[(? & K & _)|(? & K & _)]]; discriminate.
  - destruct SC as [(? & K)|[(? & K & _)|(? & K & _)]]; discriminate.
Qed.

(** raw_header and header *)
Lemma raw_spec p : headed p -> raw_header p = Ok h p.
Proof. intros (_ & <- & _). reflexivity. Qed.
Lemma headed_err p e : headed p -> headed (pset_err e p). Proof. exact (fun x => x). Qed.
Lemma header_spec p : headed p -> exists p', after p (header c hc p) = p' /\ (exists e, p' = pset_err e p) /\
  ((exists cols, names hc d h cols /\ header c hc p = Ok cols p' /\ p_err p' = None) \/ bad_header c hc d name h (answer c YNames (header c hc p))).
Proof.
  intros H. pose proof (strict_split_spec (pset_err None p) (headed_err _ _ H)) as K. remember (header c hc p) as o eqn:Eo.
  unfold header in Eo. unfold names. unfold bind at 1, p_clear_error, pupd, modify in Eo. unfold bind at 1 in Eo.
  destruct sob as [cols|m|m|] eqn:Es; [| | |contradiction].
  - destruct K as (sm & E1 & Et). rewrite E1 in Eo. unfold texts_of in Eo. rewrite Et in Eo. rewrite Eo. eexists. split; [reflexivity|]. split; [eexists; reflexivity|]. left. exists cols. auto.
  - rewrite K in Eo. rewrite Eo. eexists. split; [reflexivity|]. split; [eexists; reflexivity|]. right. cbn -[error_text].
    destruct sob_cases as [(? & X)|[(? & X & Xm)|(? & X & _)]]; try congruence. unfold p_valid. cbn -[error_text].
    replace (err_valid (c_mode c) (Some (error_text c (msg_bad_header name m)))) with false by (destruct (c_mode c); [reflexivity|reflexivity|congruence]).
    constructor. exact Es.
  - rewrite K in Eo. rewrite Eo. eexists. split; [reflexivity|]. split; [eexists; reflexivity|]. right. cbn. constructor. exact Es.
Qed.

(** The names *)
Lemma add_fields_spec : forall l p, NoDup (p_header p) -> p_name p = name -> p_err p = None ->
  (NoDup (p_header p ++ l) /\ add_fields c l p = Ok tt (pset_header (p_header p ++ l) p)) \/
  exists a f b, p_header p ++ l = a ++ f :: b /\ NoDup a /\ In f a /\ let msg := name ++ S2 ": header contains duplicate: " ++ f in
    add_fields c l p = match c_mode c with EThrow => Throw msg (pset_header a p) | _ => Ok tt (pset_header [] (pset_err (Some (error_text c msg)) p)) end.
Proof.
  induction l as [|x l IH]; intros p N En Ee.
  - left. rewrite app_nil_r. split; [exact N|]. destruct p; reflexivity.
  - assert (EQ : add_fields c (x :: l) p = match find_index x (p_header p) with
      | Some _ => (p_error c (msg_duplicate x) ;; pupd (pset_header [])) p
      | None => (pupd (fun p => pset_header (p_header p ++ [x]) p) ;; add_fields c l) p end) by (cbn [add_fields]; unfold bind at 1, get at 1; destruct (find_index x (p_header p)); reflexivity).
    rewrite EQ. clear EQ. destruct (find_index x (p_header p)) as [i|] eqn:Ei.
    + right. assert (Hx : In x (p_header p)) by (eapply nth_error_In; eapply find_index_some; exact Ei).
      exists (p_header p), x, l. split; [reflexivity|]. split; [exact N|]. split; [exact Hx|]. unfold p_error, bind, get, msg_duplicate. rewrite En. unfold error_text. cbv zeta.
      destruct (c_mode c); try reflexivity.
      * destruct (name ++ S2 ": header contains duplicate: " ++ x) eqn:X; [exfalso; destruct name; discriminate X|]. reflexivity.
      * destruct p; reflexivity.
    + apply find_index_none in Ei. set (q := pset_header (p_header p ++ [x]) p). change ((pupd (fun p => pset_header (p_header p ++ [x]) p) ;; add_fields c l) p) with (add_fields c l q).
      assert (N2 : NoDup (p_header q)).
      { cbn. apply NoDup_rev in N. rewrite <- (rev_involutive (p_header p ++ [x])). apply NoDup_rev. rewrite rev_app_distr. cbn. constructor; [|exact N].
        rewrite <- in_rev. exact Ei. }
      assert (E : p_header p ++ x :: l = p_header q ++ l) by (cbn; rewrite <- app_assoc; reflexivity).
      rewrite E. exact (IH q N2 En Ee).
Qed.

Definition refused {A} (p : prs) (o : res prs A) (p' : prs) : Prop :=
  match c_mode c with EThrow => exists m, o = Throw m p' | _ => (exists a, o = Ok a p') /\ p_valid c p' = false end.
(** What asking gives. *)
Definition asked (p : prs) (o : res prs unit) (kn' : list str) (y : option reply) : Prop :=
  match y with
  | None => o = Ok tt (pset_header kn' p)
  | Some r => exists p', after p o = p' /\ answer c (fun _ => YDone) o = r /\ p' = pset_err (p_err p') (pset_header kn' p) /\ refused p o p'
  end.

(** With header_ still empty. *)
Lemma load_spec p : headed p -> p_header p = [] -> p_err p = None ->
  exists kn' y, asks c hc d name h [] kn' y /\ asked p (split_header_data c hc p) kn' y.
Proof.
  intros H E0 Ee. pose proof (strict_split_spec p H) as K. remember (split_header_data c hc p) as o eqn:Eo. unfold split_header_data in Eo. unfold bind at 1 in Eo.
  destruct sob as [cols|m|m|] eqn:Es; [| | |contradiction].
  - destruct K as (sm & E1 & Et). rewrite E1 in Eo. unfold texts_of in Eo. rewrite Et in Eo. unfold bind at 1, ret at 1 in Eo.
    destruct (add_fields_spec cols p) as [[N E]|(a & f & b & R1 & R2 & R3 & E)]; [rewrite E0; constructor|apply H|exact Ee| |].
    + rewrite E0 in N, E. cbn [app] in N, E. exists cols, None. split; [apply as_names; [exact Es|exact N]|]. cbn. rewrite Eo. exact E.
    + rewrite E0 in R1. cbn [app] in R1. rewrite E in Eo. subst cols.
      exists (match c_mode c with EThrow => a | _ => [] end), (Some (refusal c (name ++ S2 ": header contains duplicate: " ++ f))). split; [eapply as_twice with (b := b); [exact Es|exact R2|exact R3]|]. unfold asked, refusal, error_text in *. rewrite Eo. unfold refused. destruct (c_mode c) eqn:Em.
      * eexists. split; [reflexivity|]. split; [cbn; unfold p_valid; rewrite Em; reflexivity|]. split; [destruct p; reflexivity|]. split; [eexists; reflexivity|]. unfold p_valid. rewrite Em. reflexivity.
      * eexists. split; [reflexivity|]. split; [cbn -[S2]; unfold p_valid; rewrite Em; reflexivity|]. split; [destruct p; reflexivity|]. split; [eexists; reflexivity|]. unfold p_valid. rewrite Em. reflexivity.
      * eexists. split; [reflexivity|]. split; [reflexivity|]. split; [destruct p; reflexivity|]. eexists; reflexivity.
  - rewrite K in Eo. unfold ret in Eo. destruct sob_cases as [(? & X)|[(? & X & Xm)|(? & X & _)]]; try congruence.
    assert (V : p_valid c (pset_err (Some (error_text c (msg_bad_header name m))) p) = false) by (unfold p_valid; destruct (c_mode c); [reflexivity|reflexivity|congruence]).
    eexists [], (Some _). split; [apply as_bad, bh_error; exact Es|]. unfold asked, refused. rewrite Eo. eexists. split; [reflexivity|]. split; [cbn [answer]; rewrite V; reflexivity|]. split; [destruct p; cbn in *; subst; reflexivity|].
    destruct (c_mode c); [split; eauto|split; eauto|congruence].
  - rewrite K in Eo. destruct sob_cases as [(? & X)|[(? & X & Xm)|(? & X & Xm)]]; try congruence.
    eexists [], (Some _). split; [apply as_bad, bh_thrown; exact Es|]. unfold asked, refused. rewrite Eo. eexists. split; [reflexivity|]. split; [reflexivity|]. split; [destruct p; cbn in *; subst; reflexivity|]. rewrite Xm. eauto.
Qed.
Lemma ask_spec p : headed p -> p_err p = None ->
  exists kn' y, asks c hc d name h (p_header p) kn' y /\ asked p ((match p_header p with [] => split_header_data c hc | _ => ret tt end) p) kn' y.
Proof.
  intros H Ee. destruct (p_header p) as [|x l] eqn:E.
  - apply load_spec; auto.
  - exists (x :: l), None. split; [apply as_known; discriminate|]. cbn. unfold ret. rewrite <- E. destruct p; reflexivity.
Qed.
Lemma valid_none p : p_err p = None -> p_valid c p = true.
Proof. intros E. unfold p_valid. rewrite E. destruct (c_mode c); reflexivity. Qed.

Lemma field_spec p f : headed p ->
  exists kn' y, asks c hc d name h (p_header p) kn' y /\ exists p', after p (field_exists c hc f p) = p' /\ p' = pset_err (p_err p') (pset_header kn' p) /\
  match y with
  | None => p_err p' = None /\ field_exists c hc f p = Ok (if in_dec (list_eq_dec ascii_dec) f kn' then true else false) p'
  | Some r => answer c YBool (field_exists c hc f p) = r
  end.
Proof.
  intros H. destruct (ask_spec (pset_err None p) (headed_err _ _ H) eq_refl) as (kn' & y & A & K). exists kn', y. split; [exact A|].
  remember (field_exists c hc f p) as o eqn:Eo. unfold field_exists in Eo. unfold bind at 1, p_clear_error, pupd, modify in Eo. unfold bind at 1, get at 1 in Eo.
  unfold bind at 1 in Eo. set (a := (match p_header (pset_err None p) with [] => split_header_data c hc | _ => ret tt end) (pset_err None p)) in *.
  destruct y as [r|]; cbn [asked] in K.
  - destruct K as (p' & E1 & E2 & E3 & E5). assert (E3' : p' = pset_err (p_err p') (pset_header kn' p)) by (rewrite E3 at 1; reflexivity). clear E3.
    unfold refused in E5. destruct (c_mode c) eqn:Em.
    + destruct E5 as [[u E5] V]. rewrite E5 in Eo, E2. unfold bind at 1, get at 1 in Eo. rewrite V in Eo. cbn [negb] in Eo. unfold ret in Eo. rewrite Eo.
      exists p'. split; [reflexivity|]. split; [exact E3'|]. cbn [answer] in *. rewrite V in *. exact E2.
    + destruct E5 as [[u E5] V]. rewrite E5 in Eo, E2. unfold bind at 1, get at 1 in Eo. rewrite V in Eo. cbn [negb] in Eo. unfold ret in Eo. rewrite Eo.
      exists p'. split; [reflexivity|]. split; [exact E3'|]. cbn [answer] in *. rewrite V in *. exact E2.
    + destruct E5 as [m E5]. rewrite E5 in Eo, E2. rewrite Eo. exists p'. split; [reflexivity|]. split; [exact E3'|]. exact E2.
  - rewrite K in Eo. unfold bind at 1, get at 1 in Eo. rewrite valid_none in Eo by reflexivity. cbn [negb] in Eo. unfold ret, header_index in Eo. cbn [p_header pset_header] in Eo.
    rewrite Eo. eexists. split; [reflexivity|]. split; [reflexivity|]. split; [reflexivity|]. f_equal.
    destruct (find_index f kn') eqn:Ei; destruct (in_dec _ f kn') as [X|X]; try reflexivity.
    + exfalso. apply X. eapply nth_error_In. eapply find_index_some. exact Ei.
    + exfalso. apply find_index_none in Ei. auto.
Qed.

Lemma find_columns_spec all : forall fs pre p, all = pre ++ fs -> p_name p = name ->
  Forall (fun g => In g (p_header p) /\ occurrences all g = 1) pre ->
  (Forall (fun g => In g (p_header p) /\ occurrences all g = 1) fs /\ exists mp, positions (p_header p) fs mp /\ find_columns c all fs p = Ok (Some mp) p) \/
  exists msg, bad_selection name (p_header p) all msg /\ msg <> [] /\
    find_columns c all fs p = match c_mode c with EThrow => Throw msg p | _ => Ok None (pset_err (Some (error_text c msg)) p) end.
Proof.
  induction fs as [|f fs IH]; intros pre p EA EN FP.
  - left. split; [constructor|]. exists []. split; [constructor|reflexivity].
  - assert (PE : forall (g : str -> prs -> str) msg, g f p = msg -> msg <> [] ->
       (p_error c (g f) ;; ret None) p = match c_mode c with EThrow => Throw msg p | _ => Ok (@None (list nat)) (pset_err (Some (error_text c msg)) p) end).
    { intros g msg E Hm. unfold p_error, bind, get. rewrite E. unfold error_text. destruct (c_mode c); try reflexivity. destruct msg; [congruence|reflexivity]. }
    assert (Hocc : 0 < occurrences all f).
    { unfold occurrences. apply count_occ_In. rewrite EA. apply in_or_app. right. left. reflexivity. }
    assert (NE : forall m, m <> [] -> name ++ m <> []) by (intros m Hm X; apply app_eq_nil in X; apply Hm; apply X).
    remember (find_columns c all (f :: fs) p) as o eqn:Eq.
    cbn [find_columns] in Eq. rewrite count_str_occ in Eq. destruct (occurrences all f =? 1) eqn:Eo; cbn [negb] in Eq.
    + apply Nat.eqb_eq in Eo. unfold bind at 1, get at 1 in Eq. unfold header_index in Eq. destruct (find_index f (p_header p)) as [i|] eqn:Ei.
      * assert (HI : In f (p_header p)) by (eapply nth_error_In; eapply find_index_some; exact Ei).
        destruct (IH (pre ++ [f]) p) as [(F & mp & P & E)|(msg & B & Hm & E)]; [rewrite <- app_assoc; exact EA|exact EN|apply Forall_app; split; [exact FP|repeat constructor; auto]| |].
        -- left. split; [constructor; auto|]. exists (i :: mp). split; [constructor; [eapply find_index_some; exact Ei|exact P]|]. rewrite Eq. unfold bind. rewrite E. reflexivity.
        -- right. exists msg. split; [exact B|]. split; [exact Hm|]. rewrite Eq. unfold bind. rewrite E. destruct (c_mode c); reflexivity.
      * right. assert (Em : name ++ S2 ": header does not contain given field: " ++ f <> []) by (apply NE; discriminate).
        eexists. split; [eapply bs_unknown; [exact EA|exact FP|exact Eo|apply find_index_none; exact Ei]|]. split; [exact Em|].
        rewrite Eq. apply (PE (fun f p => msg_invalid_field f p)); [unfold msg_invalid_field; rewrite EN; reflexivity|exact Em].
    + apply Nat.eqb_neq in Eo. right. assert (Em : name ++ S2 ": given field used multiple times: " ++ f <> []) by (apply NE; discriminate).
      eexists. split; [eapply bs_twice; [exact EA|exact FP|lia]|]. split; [exact Em|].
      rewrite Eq. apply (PE (fun f p => msg_field_twice f p)); [unfold msg_field_twice; rewrite EN; reflexivity|exact Em].
Qed.

Definition mapped (mp : list nat) (n : nat) (p : prs) : prs :=
  pset_rdr (rset_nconv (vup_map mp n (r_nconv (p_rdr p))) (rset_conv (vup_map mp n (r_conv (p_rdr p))) (p_rdr p))) p.

Lemma use_spec p fs : headed p ->
  exists kn' y, use_asks c hc d name h (p_eof p) (p_header p) kn' y /\
  ((exists p', after p (use_fields c hc cap fs p) = p' /\ p' = pset_err (p_err p') (pset_header kn' p) /\
     refused p (use_fields c hc cap fs p) p' /\
     match y with
     | Some r => answer c (fun _ => YDone) (use_fields c hc cap fs p) = r
     | None => exists msg, bad_selection name kn' fs msg /\ answer c (fun _ => YDone) (use_fields c hc cap fs p) = refusal c msg
     end) \/
  (y = None /\ exists mp, selection kn' fs /\ positions kn' fs mp /\
     use_fields c hc cap fs p = (if p_line p =? 0 then ignore_next c cap ;; ret tt else ret tt) (mapped mp (length kn') (pset_header kn' (pset_err None p))))).
Proof.
  intros H.
  assert (A0 : exists kn' y, use_asks c hc d name h (p_eof p) (p_header p) kn' y /\ asked (pset_err None p)
     ((match p_header (pset_err None p), p_eof (pset_err None p) with [], false => split_header_data c hc | _, _ => ret tt end) (pset_err None p)) kn' y).
  { unfold use_asks. change (p_eof (pset_err None p)) with (p_eof p). destruct (p_eof p).
    - exists (p_header p), None. split; [auto|]. cbn. change (p_header (pset_err None p)) with (p_header p). unfold ret. destruct p as [? ? ? [|] ? ?]; reflexivity.
    - destruct (ask_spec (pset_err None p) (headed_err _ _ H) eq_refl) as (kn' & y & A & K). exists kn', y. split; [exact A|]. destruct (p_header (pset_err None p)); exact K. }
  destruct A0 as (kn' & y & A & K). exists kn', y. split; [exact A|]. clear A.
  remember (use_fields c hc cap fs p) as o eqn:Eo. unfold use_fields in Eo. unfold bind at 1, p_clear_error, pupd, modify in Eo. unfold bind at 1, get at 1 in Eo.
  unfold bind at 1 in Eo.
  set (a := (match p_header (pset_err None p), p_eof (pset_err None p) with [], false => split_header_data c hc | _, _ => ret tt end) (pset_err None p)) in *.
  destruct y as [r|]; cbn [asked] in K.
  - destruct K as (p' & E1 & E2 & E3 & E5). left. exists p'. assert (E3' : p' = pset_err (p_err p') (pset_header kn' p)) by (rewrite E3 at 1; reflexivity). clear E3.
    unfold refused in *. destruct (c_mode c) eqn:Em.
    + destruct E5 as [[u E5] V]. rewrite E5 in Eo, E2. unfold bind at 1, get at 1 in Eo. rewrite V in Eo. cbn [negb] in Eo. unfold ret in Eo. rewrite Eo.
      split; [reflexivity|]. split; [exact E3'|]. split; [split; eauto|]. cbn [answer] in *. rewrite V in *. exact E2.
    + destruct E5 as [[u E5] V]. rewrite E5 in Eo, E2. unfold bind at 1, get at 1 in Eo. rewrite V in Eo. cbn [negb] in Eo. unfold ret in Eo. rewrite Eo.
      split; [reflexivity|]. split; [exact E3'|]. split; [split; eauto|]. cbn [answer] in *. rewrite V in *. exact E2.
    + destruct E5 as [m E5]. rewrite E5 in Eo, E2. rewrite Eo. split; [reflexivity|]. split; [exact E3'|]. split; [eauto|]. exact E2.
  - rewrite K in Eo. unfold bind at 1, get at 1 in Eo. rewrite valid_none in Eo by reflexivity. cbn [negb] in Eo. set (q := pset_header kn' (pset_err None p)) in *.
    assert (RF : forall msg, bad_selection name kn' fs msg -> msg <> [] ->
       o = match c_mode c with EThrow => Throw msg q | _ => Ok tt (pset_err (Some (error_text c msg)) q) end ->
       exists p', after p o = p' /\ p' = pset_err (p_err p') (pset_header kn' p) /\ refused p o p' /\
       exists msg, bad_selection name kn' fs msg /\ answer c (fun _ => YDone) o = refusal c msg).
    { intros msg B Hm ->. unfold refused, refusal. destruct (c_mode c) eqn:Em.
      - eexists. split; [reflexivity|]. split; [reflexivity|]. unfold p_valid. rewrite Em. split; [split; [eexists; reflexivity|reflexivity]|].
        exists msg. split; [exact B|]. cbn [answer]. unfold p_valid. rewrite Em. reflexivity.
      - eexists. split; [reflexivity|]. split; [reflexivity|]. unfold p_valid. rewrite Em. split; [split; [eexists; reflexivity|reflexivity]|].
        exists msg. split; [exact B|]. cbn [answer]. unfold p_valid. rewrite Em. reflexivity.
      - eexists. split; [reflexivity|]. split; [reflexivity|]. split; [eexists; reflexivity|]. exists msg. split; [exact B|]. reflexivity. }
    destruct fs as [|f fs].
    + left. apply (RF _ (bs_none name kn')); [discriminate|]. rewrite Eo. unfold p_error, bind, get, error_text. destruct (c_mode c); reflexivity.
    + unfold bind at 1 in Eo. destruct (find_columns_spec (f :: fs) (f :: fs) [] q eq_refl) as [(F & mp & P & Ef)|(msg & B & Hm & Ef)].
      * cbn. apply H.
      * constructor.
      * right. split; [reflexivity|]. exists mp. cbn [p_header pset_header q] in F, P. split.
        { split; [discriminate|]. rewrite Forall_forall in F. split.
          - apply (NoDup_count_occ' (list_eq_dec ascii_dec)). intros x Hx. apply (F x Hx).
          - intros x Hx. apply (F x Hx). }
        split; [exact P|]. rewrite Ef in Eo. rewrite Eo. reflexivity.
      * left. rewrite Ef in Eo. apply (RF msg B Hm). rewrite Eo. destruct (c_mode c); reflexivity.
Qed.
End H.
