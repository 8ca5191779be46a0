(** C52.  Exceptions of user code: what conversions and callbacks of the user throw does not damage the parser, and ignore_next
    puts it back in step. *)
From Verif Require Import Base Setup Splitter SplitApi Extract Converter ConvSpec Reader ListFacts LineSpec LineProofs GetLineProofs ReaderBase ReaderInv Parser ConvProofs ParserApi SessionApi SafeProofs PropSafe NoThrow MemBound PropMemory Fault FaultProofs PropFault User UserProofs UserFirst.

(** ** What may be thrown *)
(** [conv] never throws for these types; no user code ever throws. *)
Definition calm (conv : elem -> str -> option thrown) (es : list elem) : Prop := forall e text, In e es -> conv e text = None.
Definition silent (conv : elem -> str -> option thrown) (back : event -> option thrown) : Prop := (forall e text, conv e text = None) /\ forall ev, back ev = None.
(** What the destructor needs (C51), and that nothing got lost. *)
Definition unharmed (p q : prs) : Prop := destroyable q /\ blocks p <= blocks q /\ reads_file q = reads_file p.

(** ** The converter *)
(** An exception out of a conversion leaves a converter that converts the same row as if nothing had happened. *)
Theorem C52_converter : forall conv c es v m s,
  ucv_convert conv c es (v, m) = inr s \/ (exists msg, ucv_convert conv c es (v, m) = inl (Throw msg s) /\ c_mode c <> EThrow) ->
  cv_valid c (fst s) = true /\ forall es', cv_convert c es' s = cv_convert c es' (v, m).
Proof.
  intros conv c es v m s H. assert (E : s = (vup_err None v, m)).
  { destruct (uconvert conv c es v m) as [E|(y & _ & E)]; rewrite E in H.
    - destruct H as [H|(msg & H & Hm)]; [discriminate|]. pose proof (nt_convert c Hm es (v, m)) as N. injection H as H. rewrite H in N. contradiction.
    - destruct y as [w|]; cbn in H; destruct H as [H|(msg & H & _)]; try discriminate; injection H; intros; subst; reflexivity. }
  subst s. split; [unfold cv_valid, err_valid; destruct (c_mode c); reflexivity|]. intros es'. reflexivity.
Qed.
Print Assumptions C52_converter.

(** For every converter that was used in any way, every line that splits into [cols], of which [ps] are asked for: if nothing is
    thrown up to the first text that cannot be converted, the call does what it does anyway; if the texts before one are
    converted and this one throws [y], [y] comes out.  (One of the two is the case: C52_first_total.) *)
Theorem C52_first_throwing_column : forall conv os c d v line rest es cols ps,
  setup os = Some c -> nulfree d -> vreach c v -> nulfree line -> line <> [] -> Forall wfelem es ->
  split_obs c sp_init d line rest = SFields cols -> taken (v_map v) (v_ncols v) cols ps -> length es = length ps ->
  (unthrown conv es ps -> uconvert_call conv c d v line rest es = inl (convert_call c d v line rest es)) /\
  (forall es1 e es2 ps1 s ps2 vs y, es = es1 ++ e :: es2 -> ps = ps1 ++ s :: ps2 -> row_ok es1 ps1 vs -> throws_nothing conv es1 ps1 -> e <> EVoid -> conv e s = Some y ->
     exists st, uconvert_call conv c d v line rest es = match y with XSs m => inl (Throw m st) | XOther => inr st end).
Proof.
  intros conv os c d v line rest es cols ps Hs Hd V HR Hne W E T L.
  destruct (line_columns conv os c Hs d Hd v line rest es cols ps V HR Hne E T L) as (v' & m' & Ve & P & E1 & E2). split.
  - intros N. rewrite E1, E2. apply (first_none conv c es 0 ps); assumption.
  - intros es1 e es2 ps1 s ps2 vs y -> -> R N He Hy. exists (v', m'). rewrite E2.
    rewrite (first_throws conv c es1 ps1 vs 0 e s y es2 ps2 (s_sd (v_sp v')) v' m' Ve); auto; [destruct y; reflexivity|]. apply Forall_app in W. apply W.
Qed.
Print Assumptions C52_first_throwing_column.
Theorem C52_first_total : forall conv es ps, Forall wfelem es -> length es = length ps ->
  unthrown conv es ps \/
  exists es1 e es2 ps1 s ps2 vs y, es = es1 ++ e :: es2 /\ ps = ps1 ++ s :: ps2 /\ row_ok es1 ps1 vs /\ throws_nothing conv es1 ps1 /\ e <> EVoid /\ conv e s = Some y.
Proof.
  intros conv. induction es as [|e es IH]; intros ps W L; (destruct ps as [|s ps]; [|try discriminate]); [left; constructor|discriminate|]. injection L as L. inversion W as [|? ? W1 W2]; subst.
  assert (D : (e = EVoid \/ conv e s = None) \/ (e <> EVoid /\ exists y, conv e s = Some y)) by (destruct e; [left; left; reflexivity| |]; (destruct (conv _ s); [right; split; [discriminate|eauto]|left; right; reflexivity])).
  destruct D as [D|(D1 & y & D2)]; [|right; exists [], e, es, [], s, ps, [], y; repeat (split; [first [reflexivity|constructor|assumption]|]); exact D2].
  assert (O : (exists o, col_ok e s o) \/ (forall o, ~ col_ok e s o)).
  { exact (col_total e s W1). }
  destruct O as [(o & O)|O].
  - destruct (IH ps W2 L) as [U|(es1 & e' & es2 & ps1 & s' & ps2 & vs & y & -> & -> & R & T & H)]; [left; apply un_next; assumption|right].
    destruct o as [x|].
    + exists (e :: es1), e', es2, (s :: ps1), s', ps2, (x :: vs), y. split; [reflexivity|]. split; [reflexivity|]. split; [apply ro_cons; assumption|]. split; [constructor; assumption|exact H].
    + exists (e :: es1), e', es2, (s :: ps1), s', ps2, vs, y. split; [reflexivity|]. split; [reflexivity|]. split; [apply ro_skip; assumption|]. split; [constructor; assumption|exact H].
  - left. apply un_bad; [|exact O|exact L]. destruct D as [->|D]; [|exact D]. exfalso. apply (O None). constructor.
Qed.
Print Assumptions C52_first_total.

(** ** get_next *)
Section Row.
Context (conv : elem -> str -> option thrown) (c hc : cfg) (cap : nat -> nat -> nat).
Lemma row_unharmed d data p0 ks0 p2 : enough cap -> modest cap -> opened_any c cap d data p0 ->
  row_of c cap (later c hc cap p0 ks0) p2 -> unharmed (later c hc cap p0 ks0) (kx None p2).
Proof.
  intros Hcap Hmod O. set (p := later c hc cap p0 ks0). intros (p1 & He & E1 & p2' & E2 & ->).
  set (L := S (fold_right (fun l n => length (fst l) + length (snd l) + n) 0 (lines data))).
  assert (FL : Forall (fun l => length (fst l) + length (snd l) < L) (lines data)).
  { subst L. clear. induction (lines data) as [|l ls IH]; [constructor|]. constructor; [cbn; lia|]. eapply Forall_impl; [|exact IH]. intros a H. cbn in *. lia. }
  pose proof (opened_g c cap d data L p0 Hcap Hmod FL O) as Gp. destruct (bounds c L data FL) as (HLR & Hlim & Hunl & SH). destruct Hmod as [Hm1 Hm2].
  pose proof (later_g c hc cap Hcap Hm1 Hm2 L _ (weight data) HLR Hlim Hunl _ ks0 p0 Gp) as G1. fold p in G1. apply G_now in G1.
  set (fl := (reads_file p, length (owned (p_rdr p)))) in *. destruct G1 as [W1 R1].
  pose proof (parse_w c cap Hcap Hm1 Hm2 L _ (weight data) HLR Hlim Hunl fl (p_rdr p) W1 R1) as W2.
  unfold on_rdr, zoom in E1. destruct (parse c cap (p_rdr p)) as [u r|w r| |]; try discriminate. injection E1 as _ <-. injection E2 as <-. cbn in W2.
  pose proof (update_w c L _ (weight data) fl r W2) as W3. cbn in W3. destruct W3 as [W3 _].
  assert (W4 : MemBound.W c L (longest_row c L data (lines data)) (weight data) fl (p_rdr (kx None (pset_err None (pset_rdr (mkR (r_nl r) (r_buf r) (r_help r) (r_nconv r) (r_conv r) (r_nlsz r) (r_bufsz r) (r_helpsz r) (r_delim r) (r_src r) (r_curr r) (r_crlf r) (r_line r) (r_chars r) (r_nlsize r) (r_fresh r)) p))))) by (destruct W3; constructor; assumption).
  destruct W4. split; [exact w_nd|]. split; [exact w_own|exact w_file].
Qed.
End Row.

(** For every parser that was opened and used in any way: suppose the conversions of this get_next throw nothing and the call
    returns, or throws an ss::exception, and leaves the parser [p1] (in state "after that row").  Now suppose they may throw.  Then
    either nothing changes; or
    - an ss::exception, if throw_on_error is set, is treated as an invalid conversion: it comes out with file and line in front
      of its text, and the parser is [p1];
    - any other exception comes out of get_next as it is.  Nothing is lost or freed, eof() says false, and one call of
      ignore_next() says whether there are more rows, and brings the parser to where it would be: same line(), same position(), and
      the same replies to all further calls. *)
Theorem C52_exception_in_conversion : forall conv c hc cap d data p0 ks0 es p1,
  enough cap -> modest cap -> opened_any c cap d data p0 ->
  let p := later c hc cap p0 ks0 in
  left_in (get_next c cap es p) p1 ->
  uget_next conv c cap es p = inl (get_next c cap es p) \/
  exists y, from_user conv es y /\
    ((exists m, y = XSs m /\ c_mode c = EThrow /\
        uget_next conv c cap es p = inl (Throw (p_name p ++ S2 " " ++ dec (p_line p1) ++ S2 ": " ++ m) p1)) \/
     (exists q, uget_next conv c cap es p = match y with XSs m => inl (Throw m q) | XOther => inr q end /\
        unharmed p q /\ p_eof q = false /\
        exists q', ignore_next c cap q = Ok (negb (p_eof p1)) q' /\ p_line q' = p_line p1 /\ p_position q' = p_position p1 /\
          (p_eof p1 = false -> p_eof q' = false /\ forall ks, replies c hc cap q' ks = replies c hc cap p1 ks))).
Proof.
  intros conv c hc cap d data p0 ks0 es p1 Hcap Hmod O p H.
  destruct (get_user conv c cap es p p1 H) as [E|(y & q & F1 & (p2 & R & ->) & F2 & e & x & F3 & F4)]; [left; exact E|right]. exists y. split; [exact F1|].
  pose proof (row_unharmed c hc cap d data p0 ks0 p2 Hcap Hmod O R) as U. fold p in U. destruct (row_eof c cap p p2 R) as (He & Hn & _).
  assert (Q : exists q', ignore_next c cap (kx None p2) = Ok (negb (p_eof p1)) q' /\ marked e x p1 = pset_eof (p_eof p1) q' /\ p_eof q' = false).
  { unfold read_line, bind in F3. fold (ignore_next c cap) in F3. pose proof (ke_rdr (read_next c cap) (kx None p2)) as K. fold (ignore_next c cap) in K.
    destruct (ignore_next c cap (kx None p2)) as [b q'|w q'| |]; try discriminate. change (Ok tt (pset_eof (negb b) q') = Ok tt (marked e x p1)) in F3.
    pose proof (f_equal (fun o : res prs unit => match o with Ok _ s => s | _ => p1 end) F3) as F5. cbv beta iota in F5. clear F3. rename F5 into F3. exists q'.
    assert (EB : negb b = p_eof p1) by (change (p_eof p1) with (p_eof (marked e x p1)); rewrite <- F3; reflexivity).
    split; [rewrite <- EB, Bool.negb_involutive; reflexivity|]. split; [rewrite <- EB; symmetry; exact F3|]. rewrite K. exact He. }
  destruct Q as (q' & Q1 & Q2 & Q3).
  assert (NM : p_name p1 = p_name p).
  { change (p_name p1) with (p_name (marked e x p1)). rewrite Q2. cbn. unfold ignore_next, on_rdr, zoom in Q1. destruct (read_next c cap _); try discriminate. injection Q1 as _ <-. exact Hn. }
  assert (LN : p_line q' = p_line p1 /\ p_position q' = p_position p1).
  { change (p_line p1) with (p_line (marked e x p1)). change (p_position p1) with (p_position (marked e x p1)). rewrite Q2. split; reflexivity. }
  assert (RE : p_eof p1 = false -> p_eof q' = false /\ forall ks, replies c hc cap q' ks = replies c hc cap p1 ks).
  { intros Hf. split; [exact Q3|]. assert (EQ : q' = marked e x p1) by (rewrite Q2, Hf, <- Q3; destruct q'; reflexivity). intros ks.
    assert (M : c_mode c = EThrow \/ c_mode c <> EThrow) by (destruct (c_mode c); [right|right|left]; congruence).
    destruct M as [M|M]; [rewrite EQ, (F4 M); reflexivity|]. apply replies_near; [exact M|]. right. split; [exact Hf|]. exists e, x. exact EQ. }
  assert (REST : exists q', ignore_next c cap (kx None p2) = Ok (negb (p_eof p1)) q' /\ p_line q' = p_line p1 /\ p_position q' = p_position p1 /\
          (p_eof p1 = false -> p_eof q' = false /\ forall ks, replies c hc cap q' ks = replies c hc cap p1 ks)) by (exists q'; destruct LN; auto).
  destruct (c_mode c) eqn:Em, y as [m|]; try (right; exists (kx None p2); split; [exact F2|]; split; [exact U|]; split; [exact He|exact REST]).
  left. exists m. split; [reflexivity|]. split; [reflexivity|]. rewrite F2, NM. reflexivity.
Qed.
Print Assumptions C52_exception_in_conversion.

(** ** Callbacks *)
(** An exception out of a callback, an error handler or the conversion of an or_else: the row is read, as after a get_next
    with the same types (the parser [p1]), so nothing has to be done before the next call.  The exception that comes out is the
    one of the conversion of an alternative, or of the last call of the user ([l]: the calls so far); these calls are those that
    would have come first without exceptions. *)
Theorem C52_exception_in_callback : forall conv back c hc cap d data p0 ks0 es cb ls p1,
  enough cap -> modest cap -> opened_any c cap d data p0 ->
  let p := later c hc cap p0 ks0 in
  left_in (get_next c cap es p) p1 -> uget_next conv c cap es p = inl (get_next c cap es p) ->
  uchain_call conv back c cap es cb ls (p, []) = inl (chain_call c cap es cb ls (p, [])) \/
  exists y q l, uchain_call conv back c cap es cb ls (p, []) = match y with XSs m => inl (Throw m (q, l)) | XOther => inr (q, l) end /\
    ((exists es' cb', In (LElse es' cb') ls /\ from_user conv es' y) \/ (exists before ev, l = before ++ [ev] /\ back ev = Some y)) /\
    match chain_call c cap es cb ls (p, []) with Ok _ (_, calls) | Throw _ (_, calls) => exists others, calls = l ++ others | _ => True end /\
    unharmed p q /\ p_line q = p_line p1 /\ p_position q = p_position p1 /\ p_eof q = p_eof p1 /\
    (c_mode c = EThrow \/ p_eof p1 = false -> forall ks, replies c hc cap q ks = replies c hc cap p1 ks).
Proof.
  intros conv back c hc cap d data p0 ks0 es cb ls p1 Hcap Hmod O p H E.
  destruct (chain_user conv back c cap p1 ls es cb ls p [] (incl_refl ls) H E) as [A|(y & [q l] & CU & (e & x & E1 & E2) & A & CO)]; [left; exact A|right]. cbn [fst snd] in *.
  exists y, q, l. split; [rewrite A; destruct y; reflexivity|]. split; [exact CU|]. split; [destruct (chain_call c cap es cb ls (p, [])) as [vs [p' calls]|m [p' calls]| |]; exact CO|]. clear A CU CO. split.
  { set (L := S (fold_right (fun l n => length (fst l) + length (snd l) + n) 0 (lines data))).
    assert (FL : Forall (fun l => length (fst l) + length (snd l) < L) (lines data)).
    { subst L. clear. induction (lines data) as [|l ls IH]; [constructor|]. constructor; [cbn; lia|]. eapply Forall_impl; [|exact IH]. intros a H. cbn in *. lia. }
    pose proof (opened_g c cap d data L p0 Hcap Hmod FL O) as Gp. destruct (bounds c L data FL) as (HLR & Hlim & Hunl & SH). destruct Hmod as [Hm1 Hm2].
    pose proof (later_g c hc cap Hcap Hm1 Hm2 L _ (weight data) HLR Hlim Hunl _ ks0 p0 Gp) as G1. fold p in G1. apply G_now in G1.
    pose proof (get_next_g c cap Hcap Hm1 Hm2 L _ (weight data) HLR Hlim Hunl _ es p G1) as G2.
    assert (G3 : G c L (longest_row c L data (lines data)) (weight data) (reads_file p, length (owned (p_rdr p))) p1) by (unfold left_in in H; destruct (get_next c cap es p); try contradiction; subst; exact G2).
    destruct G3 as [[] _]. subst q. split; [exact w_nd|]. split; [exact w_own|exact w_file]. }
  split; [subst q; reflexivity|]. split; [subst q; reflexivity|]. split; [subst q; reflexivity|]. intros M ks.
  assert (M' : c_mode c = EThrow \/ (c_mode c <> EThrow /\ p_eof p1 = false)) by (destruct M as [M|M]; [left; exact M|]; destruct (c_mode c); [right; split; [discriminate|exact M]|right; split; [discriminate|exact M]|left; reflexivity]).
  destruct M' as [M'|[M1 M2]]; [rewrite (E2 M'); reflexivity|]. apply replies_near; [exact M1|]. right. split; [exact M2|]. exists e, x. exact E1.
Qed.
Print Assumptions C52_exception_in_callback.

(** An exception out of the conversion of the row itself: nobody is called, and the parser is left as by get_next. *)
Theorem C52_exception_in_try_next : forall conv back c cap es cb ls p,
  (forall q, uget_next conv c cap es p = inr q -> uchain_call conv back c cap es cb ls (p, []) = inr (q, [])) /\
  (forall m q, uget_next conv c cap es p = inl (Throw m q) -> uchain_call conv back c cap es cb ls (p, []) = inl (Throw m (q, []))).
Proof.
  intros conv back c cap es cb ls p. split; intros; unfold uchain_call, utry_next, fon_p, fzoom, fbind at 1 2; cbn [fst snd]; rewrite H; reflexivity.
Qed.
Print Assumptions C52_exception_in_try_next.

(** ** Nothing thrown *)
(** User code that throws nothing makes no difference. *)
Theorem C52_silent : forall conv back c cap es cb ls p l p1,
  left_in (get_next c cap es p) p1 ->
  (calm conv es -> uget_next conv c cap es p = inl (get_next c cap es p)) /\
  (silent conv back -> uchain_call conv back c cap es cb ls (p, l) = inl (chain_call c cap es cb ls (p, l))).
Proof.
  intros conv back c cap es cb ls p l p1 H. assert (K : calm conv es -> uget_next conv c cap es p = inl (get_next c cap es p)).
  { intros C. destruct (get_user conv c cap es p p1 H) as [E|(y & q & (e & text & I1 & I2) & _)]; [exact E|]. rewrite (C e text I1) in I2. discriminate. }
  split; [exact K|]. intros [S1 S2]. destruct (chain_user conv back c cap p1 ls es cb ls p l (incl_refl ls) H (K (fun e t _ => S1 e t))) as [E|(y & t0 & [(es' & cb' & _ & e & t & _ & X)|(l' & ev & _ & X)] & _)]; [exact E| |].
  - rewrite S1 in X. discriminate.
  - rewrite S2 in X. discriminate.
Qed.
Print Assumptions C52_silent.

(** ** Examples *)
(** A text that cannot be stored (std::bad_alloc), or for which the conversion of the user throws. *)
Definition u_conv (x : thrown) (e : elem) (text : str) : option thrown := if str_eqb text (S2 "b!") then Some x else None.
Definition u_cfg (m : emode) : cfg := mkCfg None [] [] [] false 0 m false false.
Definition u_data : str := S2 "a,1" ++ [LF] ++ S2 "b!,2" ++ [LF] ++ S2 "c,3" ++ [LF] ++ S2 "d,4" ++ [LF].
Definition u_types : list elem := [EVal TString; EVal TString].
Definition u_row (a b : str) : reply := YGet (GValues [VStr a; VStr b]).
(** The parser after [n] rows, and then: what came out of get_next, and the replies to [ks] afterwards. *)
Definition u_run (mode : emode) (data : str) (n : nat) (x : thrown) (ks : list call) : option (option str * list reply) :=
  match parser_buffer (u_cfg mode) tight (S2 ",") (Some data) (length data) with
  | Ok _ p0 =>
      let p := later (u_cfg mode) (u_cfg mode) tight p0 (repeat (CGet u_types) n) in
      match uget_next (u_conv x) (u_cfg mode) tight u_types p with
      | inr q => Some (None, replies (u_cfg mode) (u_cfg mode) tight q ks)
      | inl (Throw m q) => Some (Some m, replies (u_cfg mode) (u_cfg mode) tight q ks)
      | _ => None
      end
  | _ => None
  end.
Definition u_eof : str := S2 "CSV data buffer: read on end of file".
Definition u_back (ev : event) : option thrown := match ev with EvCall 7 _ => Some XOther | EvError 8 _ => Some (XSs (S2 "stop")) | _ => None end.
(** try_next in the same place. *)
Definition u_try (n : nat) (es : list elem) (cb : callback) (ls : list link) (ks : list call) : option (option str * list event * list reply) :=
  match parser_buffer (u_cfg EString) tight (S2 ",") (Some u_data) (length u_data) with
  | Ok _ p0 =>
      let p := later (u_cfg EString) (u_cfg EString) tight p0 (repeat (CGet u_types) n) in
      match uchain_call (fun _ _ => None) u_back (u_cfg EString) tight es cb ls (p, []) with
      | inr (q, l) => Some (None, l, replies (u_cfg EString) (u_cfg EString) tight q ks)
      | inl (Throw m (q, l)) => Some (Some m, l, replies (u_cfg EString) (u_cfg EString) tight q ks)
      | _ => None
      end
  | _ => None
  end.
Example C52_example :
  enough tight /\ modest tight /\
  (exists p, opened_any (u_cfg EString) tight (S2 ",") u_data p /\
     exists p1, left_in (get_next (u_cfg EString) tight u_types (later (u_cfg EString) (u_cfg EString) tight p [CGet u_types])) p1 /\ p_eof p1 = false) /\
  (* std::bad_alloc out of the second row, then ignore_next *)
  u_run EString u_data 1 XOther [CIgnore; CGet u_types; CGet u_types; CGet u_types] =
    Some (None, [YBool true; u_row (S2 "c") (S2 "3"); u_row (S2 "d") (S2 "4"); YGet (GError u_eof)]) /\
  (* an ss::exception: caught if throw_on_error is set, as any other if not *)
  u_run EThrow u_data 1 (XSs (S2 "too long")) [CGet u_types; CGet u_types; CGet u_types] =
    Some (Some (S2 "CSV data buffer 2: too long"), [u_row (S2 "c") (S2 "3"); u_row (S2 "d") (S2 "4"); YGet (GThrown u_eof)]) /\
  u_run EString u_data 1 (XSs (S2 "too long")) [CIgnore; CGet u_types; CGet u_types; CGet u_types] =
    Some (Some (S2 "too long"), [YBool true; u_row (S2 "c") (S2 "3"); u_row (S2 "d") (S2 "4"); YGet (GError u_eof)]) /\
  (* callbacks *)
  u_try 1 u_types (CbVoid 7) [LOnError 8] [CGet u_types] =
    Some (None, [EvCall 7 [Some (VStr (S2 "b!")); Some (VStr (S2 "2"))]], [u_row (S2 "c") (S2 "3")]) /\
  u_try 1 u_types (CbCheck 6 (fun _ => false)) [LOnError 8; LOnError 9] [CGet u_types] =
    Some (Some (S2 "stop"), [EvCall 6 [Some (VStr (S2 "b!")); Some (VStr (S2 "2"))]; EvError 8 (S2 "CSV data buffer: failed check")], [u_row (S2 "c") (S2 "3")]) /\
  u_try 1 [EVal TString] CbNone [LElse u_types (CbVoid 7)] [CGet u_types] =
    Some (None, [EvCall 7 [Some (VStr (S2 "b!")); Some (VStr (S2 "2"))]], [u_row (S2 "c") (S2 "3")]).
Proof.
  destruct C47_example as (_ & HE & HM & _). split; [exact HE|]. split; [exact HM|]. split.
  { eexists. split; [apply oa_buffer; vm_compute; reflexivity|]. eexists. split; [vm_compute; reflexivity|vm_compute; reflexivity]. }
  split; [vm_compute; reflexivity|]. split; [vm_compute; reflexivity|]. split; [vm_compute; reflexivity|]. split; [vm_compute; reflexivity|]. split; vm_compute; reflexivity.
Qed.

(** Two columns convert, the third throws; a text that cannot be converted comes first in the second case. *)
Example C52_first_example :
  let conv := u_conv XOther in let c := u_cfg EString in let es := [EVal TBool; EVoid; EVal TString; EVal TString] in
  setup [OStringError] = Some c /\ vreach c conv_init /\ Forall wfelem es /\
  split_obs c sp_init (S2 ",") (S2 "1,b!,b!,4") [] = SFields [S2 "1"; S2 "b!"; S2 "b!"; S2 "4"] /\
  row_ok [EVal TBool; EVoid] [S2 "1"; S2 "b!"] [VBool true] /\ throws_nothing conv [EVal TBool; EVoid] [S2 "1"; S2 "b!"] /\ conv (EVal TString) (S2 "b!") = Some XOther /\
  (exists st, uconvert_call conv c (S2 ",") conv_init (S2 "1,b!,b!,4") [] es = inr st) /\
  unthrown conv es [S2 "x"; S2 "b!"; S2 "b!"; S2 "4"] /\
  uconvert_call conv c (S2 ",") conv_init (S2 "x,b!,b!,4") [] es = inl (convert_call c (S2 ",") conv_init (S2 "x,b!,b!,4") [] es).
Proof.
  cbv zeta. split; [vm_compute; reflexivity|]. split; [apply vr_init|]. split; [repeat constructor|]. split; [vm_compute; reflexivity|].
  split; [apply ro_cons; [apply co_val; constructor; auto|apply ro_skip; [constructor|constructor]]|].
  split; [constructor; [right; reflexivity|constructor; [left; reflexivity|constructor]]|]. split; [reflexivity|].
  split; [eexists; vm_compute; reflexivity|]. split; [|vm_compute; reflexivity].
  apply un_bad; [reflexivity| |reflexivity]. intros o H. inversion H as [|t s v K|]; subst. inversion K; subst; cbn in *; intuition discriminate.
Qed.

(** ** What does not hold *)
(** Without ignore_next (parser.hpp:139-163 leaves with the line buffers exchanged and no new line read): the next get_next takes the
    row before the one that failed for the next row, and for a failure in the first row it goes through a null pointer. *)
Theorem C52_without_ignore_refuted :
  u_run EString u_data 1 XOther [CGet u_types; CGet u_types] = Some (None, [u_row (S2 "a") (S2 "1"); u_row (S2 "c") (S2 "3")]) /\
  u_run EString (skipn 4 u_data) 0 XOther [CGet u_types] = Some (None, [YGet GCrash]) /\
  u_run EThrow u_data 1 XOther [CGet u_types; CGet u_types] = Some (None, [u_row (S2 "a") (S2 "1"); u_row (S2 "c") (S2 "3")]) /\
  u_run EThrow (skipn 4 u_data) 0 XOther [CGet u_types] = Some (None, [YGet GCrash]).
Proof. split; [vm_compute; reflexivity|]. split; [vm_compute; reflexivity|]. split; vm_compute; reflexivity. Qed.
