(** Proofs about User.v: what an exception of user code leaves behind. *)
From Verif Require Import Base Setup Splitter Extract Converter Reader Parser ConvProofs ParserApi SessionApi NoThrow Fault User.

(** ** A step that does the same whatever [f] changed *)
Definition tag {S A} (f : S -> S) (o : res S A) : res S A :=
  match o with Ok a s => Ok a (f s) | Throw e s => Throw e (f s) | UB w => UB w | OutOfFuel => OutOfFuel end.
Definition fr {S A} (f : S -> S) (m : M S A) : Prop := forall s, m (f s) = tag f (m s).
Lemma fr_bind {S A B} f (m : M S A) (k : A -> M S B) : fr f m -> (forall a, fr f (k a)) -> fr f (bind m k).
Proof. intros H K s. unfold bind. rewrite H. destruct (m s); cbn; auto. apply K. Qed.
Lemma fr_get {S A} f (k : S -> M S A) : (forall s, k (f s) = k s) -> (forall a, fr f (k a)) -> fr f (bind get k).
Proof. intros E K s. unfold bind, get. rewrite E. apply K. Qed.
Lemma fr_ret {S A} f (a : A) : @fr S A f (ret a). Proof. intros s. reflexivity. Qed.
Lemma fr_ub {S A} f w : @fr S A f (ub w). Proof. intros s. reflexivity. Qed.
Lemma fr_fuel {S A} f : @fr S A f (fun _ => OutOfFuel). Proof. intros s. reflexivity. Qed.
Lemma fr_throw {S A} f e : @fr S A f (throw e). Proof. intros s. reflexivity. Qed.
Lemma fr_modify {S} f (g : S -> S) : (forall s, g (f s) = f (g s)) -> fr f (modify g). Proof. intros H s. unfold modify. cbn. rewrite H. reflexivity. Qed.

Section Reader.
Context (c : cfg) (cap : nat -> nat -> nat) (v : conv).
Notation f := (rset_conv v).
Lemma fr_lp {A} w (m : M lp A) : fr f (on_lp w m).
Proof. intros r. unfold on_lp, zoom. replace (lp_of w (f r)) with (lp_of w r) by (destruct w; reflexivity). destruct (m (lp_of w r)); cbn; try reflexivity; destruct w; reflexivity. Qed.
Lemma fr_next {A} (m : nat -> M (conv * list (option ascii)) A) : fr f (on_next m).
Proof. intros r. unfold on_next. cbn [r_nl rset_conv r_nconv]. destruct (r_nl r) as [b|]; [|reflexivity]. destruct (m (b_id b) (r_nconv r, b_cells b)) as [a [w cs]|e [w cs]| |]; reflexivity. Qed.
Lemma fr_nconv {A} (m : M (conv * list (option ascii)) A) : fr f (on_nconv m).
Proof. intros r. unfold on_nconv. cbn [rset_conv r_nconv]. destruct (m (r_nconv r, [])) as [a [w cs]|e [w cs]| |]; reflexivity. Qed.
Lemma fr_rupd g : (forall r, g (f r) = f (g r)) -> fr f (rupd g). Proof. apply fr_modify. Qed.
Ltac go := repeat lazymatch goal with
  | |- forall _, _ => intro
  | |- fr _ (bind get _) => apply fr_get; [intros; reflexivity|]
  | |- fr _ (bind _ _) => apply fr_bind
  | |- fr _ (on_lp _ _) => apply fr_lp
  | |- fr _ (on_next _) => apply fr_next
  | |- fr _ (on_nconv _) => apply fr_nconv
  | |- fr _ (ret _) => apply fr_ret
  | |- fr _ (ub _) => apply fr_ub
  | |- fr _ (fun _ => OutOfFuel) => apply fr_fuel
  | |- fr _ (rupd _) => apply fr_rupd; intros; reflexivity
  | |- fr _ (match ?x with _ => _ end) => case x
  | |- fr _ _ => match goal with H : context [fr _ _] |- _ => apply H end
  end.
Lemma fr_get_line w : fr f (get_line cap w). Proof. unfold get_line. go. Qed.
Lemma fr_remove w n : fr f (remove_eol w n). Proof. unfold remove_eol. go. Qed.
Lemma fr_read_loop : forall n, fr f (read_next_loop c cap n).
Proof. pose proof fr_get_line. pose proof fr_remove. induction n; cbn [read_next_loop]; go. Qed.
Lemma fr_read_next : fr f (read_next c cap). Proof. unfold read_next. pose proof fr_read_loop. go. Qed.
Lemma fr_count : forall n, fr f (count_escapes c n). Proof. induction n; cbn [count_escapes]; go. Qed.
Lemma fr_escaped n : fr f (escaped_eol c n). Proof. unfold escaped_eol. pose proof fr_count. go. Qed.
Lemma fr_undo : fr f undo_remove_eol. Proof. unfold undo_remove_eol. cbv zeta. go. Qed.
Lemma fr_concat n : fr f (realloc_concat n). Proof. unfold realloc_concat. go. Qed.
Lemma fr_append : fr f (append_next_line_to_buffer cap).
Proof. unfold append_next_line_to_buffer. pose proof fr_undo. pose proof fr_get_line. pose proof fr_remove. pose proof fr_concat. go. Qed.
Lemma fr_limit n : fr f (multiline_limit_reached c n). Proof. unfold multiline_limit_reached. go. Qed.
Lemma fr_escape_loop : forall n k, fr f (escape_loop c cap n k).
Proof. pose proof fr_escaped. pose proof fr_limit. pose proof fr_append. induction n; intros k; cbn [escape_loop]; go. Qed.
Lemma fr_escape_part k : fr f (escape_part c cap k). Proof. unfold escape_part. pose proof fr_escape_loop. go. Qed.
Lemma fr_quote_loop : forall n k, fr f (quote_loop c cap n k).
Proof. pose proof fr_limit. pose proof fr_append. pose proof fr_escape_part. induction n; intros k; cbn [quote_loop]; go. Qed.
Lemma fr_parse : fr f (parse c cap). Proof. unfold parse. pose proof fr_escape_part. pose proof fr_quote_loop. go. Qed.
End Reader.

(** ** Parsers that differ in the stored errors only *)
Definition rx (x : err) (r : rdr) : rdr := rset_conv (vup_err x (r_conv r)) r.
Definition kx (x : err) (p : prs) : prs := pset_rdr (rx x (p_rdr p)) p.
(** The error of the parser is [e], that of its converter [x]; everything else is as in [p]. *)
Definition marked (e x : err) (p : prs) : prs := pset_err e (kx x p).
Lemma marked_id p : marked (p_err p) (v_err (r_conv (p_rdr p))) p = p.
Proof. destruct p as [? ? [? ? ? [] ? ? ? ? ? ? ? ? ? ? ? ?] ? ? ?]. reflexivity. Qed.
Lemma fr_rx {A} (m : M rdr A) : (forall v, fr (rset_conv v) m) -> forall x, fr (rx x) m.
Proof.
  intros H x r. unfold rx at 1. rewrite H. pose proof (H (r_conv r) r) as E.
  replace (rset_conv (r_conv r) r) with r in E by (destruct r; reflexivity).
  destruct (m r) as [a s|e s| |]; cbn in *; try reflexivity; injection E as E; unfold rx; f_equal; rewrite E; reflexivity.
Qed.
Section Parser.
Context (c hc : cfg) (cap : nat -> nat -> nat) (x : err).
Notation f := (kx x).
Lemma fr_on_rdr {A} (m : M rdr A) : fr (rx x) m -> fr f (on_rdr m).
Proof. intros H p. unfold on_rdr, zoom. cbn [kx pset_rdr p_rdr]. rewrite H. destruct (m (p_rdr p)); reflexivity. Qed.
Lemma fr_pupd g : (forall p, g (f p) = f (g p)) -> fr f (pupd g). Proof. apply fr_modify. Qed.
Lemma fr_error msg : (forall p, msg (f p) = msg p) -> fr f (p_error c msg).
Proof.
  intros H p. unfold p_error, bind, get. destruct (c_mode c); cbn.
  - reflexivity.
  - unfold pupd, modify. rewrite H. reflexivity.
  - unfold throw. rewrite H. reflexivity.
Qed.
Lemma fr_ignore : fr f (ignore_next c cap). Proof. apply fr_on_rdr, fr_rx. intros v. apply fr_read_next. Qed.
Lemma fr_read_line : fr f (read_line c cap). Proof. apply fr_bind; [apply fr_ignore|]. intros b. apply fr_pupd. intros p. reflexivity. Qed.
Lemma fr_parse_p : fr f (on_rdr (parse c cap)). Proof. apply fr_on_rdr, fr_rx. intros v. apply fr_parse. Qed.
Lemma fr_strict : fr f (strict_split c hc).
Proof.
  intros p. unfold strict_split. cbn [kx pset_rdr p_rdr rx rset_conv r_delim p_raw].
  destruct (sp_split hc 0 (r_delim (p_rdr p)) (sp_init, map Some (p_raw p) ++ [Some NUL])) as [u [s m]|e s| |]; try reflexivity.
  destruct (sp_valid hc s); [reflexivity|]. refine (fr_bind f _ _ (fr_error _ _) _ p); [intros q; reflexivity|intros a; apply fr_ret].
Qed.
Lemma fr_texts sm : fr f (texts_of sm). Proof. unfold texts_of. destruct (texts _ _); [apply fr_ret|apply fr_ub]. Qed.
Ltac go := repeat lazymatch goal with
  | |- forall _, _ => intro
  | |- fr _ (bind get _) => apply fr_get; [intros; reflexivity|]
  | |- fr _ (bind _ _) => apply fr_bind
  | |- fr _ (ret _) => apply fr_ret
  | |- fr _ (ub _) => apply fr_ub
  | |- fr _ (ignore_next _ _) => apply fr_ignore
  | |- fr _ (strict_split _ _) => apply fr_strict
  | |- fr _ (texts_of _) => apply fr_texts
  | |- fr _ (p_error _ _) => apply fr_error; intros; reflexivity
  | |- fr _ (pupd _) => apply fr_pupd; intros; reflexivity
  | |- fr _ (on_rdr (rupd _)) => apply fr_on_rdr, fr_modify; intros; reflexivity
  | |- fr _ (match ?y with _ => _ end) => case y
  | |- fr _ _ => match goal with H : context [fr _ _] |- _ => apply H end
  end.
Lemma fr_add : forall l, fr f (add_fields c l). Proof. induction l; cbn [add_fields]; go. Qed.
Lemma fr_split_header : fr f (split_header_data c hc). Proof. unfold split_header_data. pose proof fr_add. go. Qed.
Lemma fr_columns all : forall fs, fr f (find_columns c all fs). Proof. induction fs; cbn [find_columns]; go. Qed.
Lemma fr_header : fr f (header c hc). Proof. unfold header, p_clear_error. go. Qed.
Lemma fr_field n : fr f (field_exists c hc n). Proof. unfold field_exists, p_clear_error. pose proof fr_split_header. go. Qed.
Lemma fr_use fs : fr f (use_fields c hc cap fs). Proof. unfold use_fields, p_clear_error. pose proof fr_split_header. pose proof fr_columns. cbv zeta. go. Qed.
End Parser.

(** The other converter. *)
Definition nx (x : err) (p : prs) : prs := pset_rdr (rset_nconv (vup_err x (r_nconv (p_rdr p))) (p_rdr p)) p.
Lemma fr_comp {S A} f g (m : M S A) : fr f m -> fr g m -> fr (fun s => g (f s)) m.
Proof. intros F G s. rewrite G, F. destruct (m s); reflexivity. Qed.
Section Get.
Context (c hc : cfg) (cap : nat -> nat -> nat).
Lemma fr_err_rdr {A} e (m : M rdr A) : fr (pset_err e) (on_rdr m).
Proof. intros p. unfold on_rdr, zoom. cbn [pset_err p_rdr]. destruct (m (p_rdr p)); reflexivity. Qed.
Lemma fr_nx_conv {A} x (m : M (conv * list (option ascii)) A) : fr (nx x) (on_rdr (on_conv m)).
Proof.
  intros p. unfold on_rdr, zoom, on_conv, nx. cbn [pset_rdr p_rdr rset_nconv r_conv r_buf].
  destruct (m (r_conv (p_rdr p), seen_by (r_conv (p_rdr p)) (r_buf (p_rdr p)))) as [a [w cs]|e [w cs]| |]; reflexivity.
Qed.
Lemma nx_read x p : read_line c cap (nx x p) = read_line c cap p. Proof. reflexivity. Qed.
(** get_next after update. *)
Definition gconv (es : list elem) : M prs (list slot) :=
  p <- get ;;
  if negb (cv_valid c (r_conv (p_rdr p))) then
    handle_error_invalid_conversion c ;;
    read_line c cap ;;
    ret (defaults es)
  else
    p_clear_error ;;
    if p_eof p then p_error c msg_eof ;; ret (defaults es)
    else
      match c_mode c with
      | EThrow =>
          catch (xs <- on_rdr (on_conv (cv_convert c es)) ;; read_line c cap ;; ret xs)
                (fun e => read_line c cap ;; decorate_rethrow e)
      | _ =>
          xs <- on_rdr (on_conv (cv_convert c es)) ;;
          p <- get ;;
          (if negb (cv_valid c (r_conv (p_rdr p))) then handle_error_invalid_conversion c else ret tt) ;;
          read_line c cap ;;
          ret xs
      end.
Lemma invalid_nx p e x : c_mode c <> EThrow -> handle_error_invalid_conversion c (pset_err e (nx x p)) = tag (nx x) (handle_error_invalid_conversion c p).
Proof. intros Hm. unfold handle_error_invalid_conversion, bind, get. destruct (c_mode c); [reflexivity|reflexivity|congruence]. Qed.
Definition finish {A} (a : A) : M prs A := read_line c cap ;; ret a.
Lemma finish_nx {A} (a : A) x p : finish a (nx x p) = finish a p.
Proof. unfold finish, bind. rewrite nx_read. reflexivity. Qed.
Lemma conv_marked es p e x : c_mode c <> EThrow -> p_eof p = false -> gconv es (pset_err e (nx x p)) = gconv es p.
Proof.
  intros Hm He. unfold gconv. fold (finish (defaults es)). set (G := fun p => if negb (cv_valid c (r_conv (p_rdr p))) then _ else _ : M prs (list slot)).
  assert (E0 : G (pset_err e (nx x p)) = G p) by reflexivity. change (G (pset_err e (nx x p)) (pset_err e (nx x p)) = G p p). rewrite E0. subst G. cbv beta. clear E0.
  destruct (negb _).
  - unfold bind. rewrite invalid_nx by exact Hm. destruct (handle_error_invalid_conversion c p) as [u q|w q| |] eqn:E; cbn [tag]; [apply finish_nx| |reflexivity|reflexivity].
    exfalso. pose proof (nt_invalid c p) as N. rewrite E in N. exact N.
  - unfold bind at 1, p_clear_error at 1, pupd, modify. symmetry. unfold bind at 1. unfold p_clear_error, pupd, modify. rewrite He. symmetry.
    change (pset_err None (pset_err e (nx x p))) with (nx x (pset_err None p)). generalize (pset_err None p). clear p He e. intros p.
    assert (EQ : forall m k : M prs (list slot), (match c_mode c with EThrow => m | _ => k end) = k) by (intros m k; destruct (c_mode c); congruence). rewrite !EQ. clear EQ.
    unfold bind at 1. symmetry. unfold bind at 1. rewrite fr_nx_conv.
    destruct (on_rdr (on_conv (cv_convert c es)) p) as [xs q|w q| |] eqn:E; cbn [tag]; [| |reflexivity|reflexivity].
    + fold (finish xs). unfold bind at 1, get at 1. symmetry. unfold bind at 1, get at 1. change (r_conv (p_rdr (nx x q))) with (r_conv (p_rdr q)).
      destruct (negb _).
      * unfold bind. change (nx x q) with (pset_err (p_err q) (nx x q)). rewrite invalid_nx by exact Hm.
        destruct (handle_error_invalid_conversion c q) as [u q'|w q'| |] eqn:E2; cbn [tag]; [apply finish_nx| |reflexivity|reflexivity].
        exfalso. pose proof (nt_invalid c q) as N. rewrite E2 in N. exact N.
      * apply (finish_nx xs x q).
    + exfalso. pose proof (nt_on_rdr _ (nt_on_conv _ (nt_convert c Hm es)) p) as N. rewrite E in N. exact N.
Qed.
Lemma get_marked es p e x : c_mode c <> EThrow -> p_eof p = false -> get_next c cap es (marked e x p) = get_next c cap es p.
Proof.
  intros Hm He. unfold get_next. fold (gconv es). 
  assert (EQ : forall p0 (m1 m2 m3 k : M prs unit), (if p_eof p0 then m1 else match c_mode c with EThrow => m2 | _ => k end) = if p_eof p0 then m1 else k) by (intros; destruct (c_mode c); congruence).
  unfold bind at 1. symmetry. unfold bind at 1. unfold get at 1 2. rewrite !EQ by exact (ret tt). clear EQ. change (p_eof (marked e x p)) with (p_eof p). rewrite He.
  assert (EP : on_rdr (parse c cap) (marked e x p) = tag (marked e x) (on_rdr (parse c cap) p)).
  { apply (fr_comp (kx x) (pset_err e)); [apply fr_parse_p|apply fr_err_rdr]. }
  unfold bind at 1. symmetry. unfold bind at 1. rewrite EP. destruct (on_rdr (parse c cap) p) as [u p1|w p1| |] eqn:E1; cbn [tag]; [| |reflexivity|reflexivity]; cycle 1.
  { exfalso. pose proof (nt_on_rdr _ (nt_parse c Hm cap) p) as NT. rewrite E1 in NT. exact NT. }
  assert (He1 : p_eof p1 = false) by (unfold on_rdr, zoom in E1; destruct (parse c cap (p_rdr p)); try discriminate; injection E1 as _ <-; exact He).
  unfold bind at 1. symmetry. unfold bind at 1. destruct (on_rdr update p1) as [u2 p2|w p2| |] eqn:U; try discriminate.
  assert (U2 : on_rdr update (marked e x p1) = Ok tt (pset_err e (nx x p2))) by (injection U as _ <-; reflexivity).
  rewrite U2. symmetry. apply conv_marked; [exact Hm|]. injection U as _ <-. exact He1.
Qed.
End Get.

(** ** Calls *)
Section Calls.
Context (c hc : cfg) (cap : nat -> nat -> nat) (Hm : c_mode c <> EThrow).
Definition near (q p : prs) : Prop := q = p \/ (p_eof p = false /\ exists e x, q = marked e x p).
Definition ke {A} (m : M prs A) : Prop := forall p, match m p with Ok _ q | Throw _ q => p_eof q = p_eof p | _ => True end.
Lemma ke_bind {A B} (m : M prs A) (k : A -> M prs B) : ke m -> (forall a, ke (k a)) -> ke (bind m k).
Proof. intros H K p. unfold bind. specialize (H p). destruct (m p) as [a q|e q| |]; auto. specialize (K a q). destruct (k a q); auto; congruence. Qed.
Lemma ke_rdr {A} (m : M rdr A) : ke (on_rdr m). Proof. intros p. unfold on_rdr, zoom. destruct (m (p_rdr p)); auto; reflexivity. Qed.
Lemma ke_ret {A} (a : A) : ke (ret a). Proof. intros p. reflexivity. Qed.
Lemma ke_get : ke get. Proof. intros p. reflexivity. Qed.
Lemma ke_ub {A} w : ke (@ub prs A w). Proof. intros p. exact Logic.I. Qed.
Lemma ke_pupd g : (forall p, p_eof (g p) = p_eof p) -> ke (pupd g). Proof. intros H p. apply H. Qed.
Lemma ke_error msg : ke (p_error c msg). Proof. intros p. unfold p_error, bind, get. destruct (c_mode c); reflexivity. Qed.
Lemma ke_strict : ke (strict_split c hc).
Proof.
  intros p. unfold strict_split. destruct (sp_split _ _ _ _) as [u [s m]|e s| |]; auto; [|reflexivity]. destruct (sp_valid hc s); [reflexivity|].
  apply (ke_bind _ _ (ke_error _)). intros a. apply ke_ret.
Qed.
Ltac go := repeat lazymatch goal with
  | |- forall _, _ => intro
  | |- ke (bind _ _) => apply ke_bind
  | |- ke (ret _) => apply ke_ret
  | |- ke (ub _) => apply ke_ub
  | |- ke get => apply ke_get
  | |- ke (strict_split _ _) => apply ke_strict
  | |- ke (p_error _ _) => apply ke_error
  | |- ke (on_rdr _) => apply ke_rdr
  | |- ke (pupd _) => apply ke_pupd; intros; reflexivity
  | |- ke (match ?y with _ => _ end) => case y
  | |- ke _ => match goal with H : context [ke _] |- _ => apply H end
  end.
Lemma ke_texts sm : ke (texts_of sm). Proof. unfold texts_of. go. Qed.
Lemma ke_add : forall l, ke (add_fields c l). Proof. induction l; cbn [add_fields]; go. Qed.
Lemma ke_split : ke (split_header_data c hc). Proof. unfold split_header_data. pose proof ke_texts. pose proof ke_add. go. Qed.
Lemma ke_header : ke (header c hc). Proof. unfold header, p_clear_error. pose proof ke_texts. go. Qed.
Lemma ke_field f : ke (field_exists c hc f). Proof. unfold field_exists, p_clear_error. pose proof ke_split. go. Qed.
Lemma ke_columns all : forall fs, ke (find_columns c all fs). Proof. induction fs; cbn [find_columns]; go. Qed.
Lemma ke_use fs : ke (use_fields c hc cap fs). Proof. unfold use_fields, p_clear_error, ignore_next. pose proof ke_split. pose proof ke_columns. cbv zeta. go. Qed.

Lemma kx_near x p : p_eof p = false -> near (kx x p) p.
Proof. intros H. right. split; [exact H|]. exists (p_err p), x. destruct p; reflexivity. Qed.
(** A step that starts by clearing the error. *)
Lemma cleared {A} (m : M prs A) p e x : (forall q, m (pset_err e q) = m q) -> fr (kx x) m -> m (marked e x p) = tag (kx x) (m p).
Proof. intros H F. unfold marked. rewrite H. apply F. Qed.
Lemma after_near {A} (o : res prs A) p e x : p_eof p = false -> (match o with Ok _ q | Throw _ q => p_eof q = p_eof p | _ => True end) -> near (after (marked e x p) (tag (kx x) o)) (after p o).
Proof. intros He H. destruct o; cbn [tag after]; try (apply kx_near; congruence); right; eauto. Qed.
Lemma answer_tag {A} (f : A -> reply) x (o : res prs A) : answer c f (tag (kx x) o) = answer c f o. Proof. destruct o; reflexivity. Qed.
Lemma call_near k q p : near q p -> fst (do_call c hc cap q k) = fst (do_call c hc cap p k) /\ near (snd (do_call c hc cap q k)) (snd (do_call c hc cap p k)).
Proof.
  intros [->|(He & e & x & ->)]; [split; [reflexivity|left; reflexivity]|].
  destruct k as [es|es cb ls| | | |f|fs]; cbn [do_call].
  - rewrite (get_marked c cap es p e x Hm He). cbn [fst snd]. split; [reflexivity|]. destruct (get_next c cap es p); cbn [after]; try (left; reflexivity); right; eauto.
  - assert (E : chain_call c cap es cb ls (marked e x p, []) = chain_call c cap es cb ls (p, [])).
    { unfold chain_call, try_next. unfold bind at 1 2. symmetry. unfold bind at 1 2. unfold on_p, zoom at 1. cbn [fst]. symmetry. unfold zoom at 1. cbn [fst].
      rewrite (get_marked c cap es p e x Hm He). destruct (get_next c cap es p); reflexivity. }
    rewrite E. destruct (chain_call c cap es cb ls (p, [])) as [vs [p' l]|m [p' l]| |]; cbn [fst snd]; (split; [reflexivity|]); try (left; reflexivity); right; eauto.
  - assert (E : ignore_next c cap (marked e x p) = tag (marked e x) (ignore_next c cap p)) by (apply (fr_comp (kx x) (pset_err e)); [apply fr_ignore|apply fr_err_rdr]).
    rewrite E. pose proof (ke_rdr (read_next c cap) p) as K. fold (ignore_next c cap) in K.
    destruct (ignore_next c cap p); cbn [tag fst snd plain_answer after]; (split; [reflexivity|right; split; [congruence|eauto]]).
  - split; [reflexivity|]. right. split; [exact He|exists e, x; reflexivity].
  - rewrite (cleared (header c hc) p e x (fun _ => eq_refl) (fr_header c hc x)). cbn [fst snd]. rewrite answer_tag. split; [reflexivity|]. apply after_near; [exact He|apply ke_header].
  - rewrite (cleared (field_exists c hc f) p e x (fun _ => eq_refl) (fr_field c hc x f)). cbn [fst snd]. rewrite answer_tag. split; [reflexivity|]. apply after_near; [exact He|apply ke_field].
  - rewrite (cleared (use_fields c hc cap fs) p e x (fun _ => eq_refl) (fr_use c hc cap x fs)). cbn [fst snd]. rewrite answer_tag. split; [reflexivity|]. apply after_near; [exact He|apply ke_use].
Qed.
Lemma replies_near : forall ks q p, near q p -> replies c hc cap q ks = replies c hc cap p ks.
Proof. induction ks as [|k ks IH]; intros q p H; [reflexivity|]. destruct (call_near k q p H) as [E1 E2]. cbn [replies]. f_equal; [exact E1|apply IH; exact E2]. Qed.
End Calls.

(** ** Converting *)
Section Convert.
Context (conv : elem -> str -> option thrown) (c : cfg).
Definition tidy (v : Converter.conv) : Prop := cv_valid c v = false \/ v_err v = None.
Definition oe {A} (o : res (Converter.conv * list (option ascii)) A) (v : Converter.conv) (m : list (option ascii)) : Prop :=
  match o with Ok _ s | Throw _ s => exists x, s = (vup_err x v, m) /\ tidy (vup_err x v) | _ => True end.
Lemma vup_same v : vup_err (v_err v) v = v. Proof. destruct v; reflexivity. Qed.
Lemma oe_ret {A} (a : A) v m : tidy v -> oe (ret a (v, m)) v m.
Proof. intros H. exists (v_err v). rewrite vup_same. auto. Qed.
Lemma oe_bind {A B} (m1 : M (Converter.conv * list (option ascii)) A) (k : A -> M (Converter.conv * list (option ascii)) B) v m : oe (m1 (v, m)) v m -> (forall a w, tidy w -> oe (k a (w, m)) w m) -> oe (bind m1 k (v, m)) v m.
Proof.
  intros H K. unfold bind. destruct (m1 (v, m)) as [a s|e s| |]; cbn in *; auto. destruct H as (x & -> & T). specialize (K a _ T).
  destruct (k a (vup_err x v, m)) as [b s|e s| |]; cbn in *; auto; destruct K as (y & -> & T2); exists y; auto.
Qed.
Lemma oe_error msg v m : tidy v -> oe (cv_error c msg (v, m)) v m.
Proof.
  intros H. unfold cv_error. case_eq (c_mode c); intros E; cbn.
  - exists (Some []). split; [reflexivity|]. left. unfold cv_valid, err_valid. cbn. rewrite E. reflexivity.
  - destruct msg as [|a l]; [exists None; split; [reflexivity|right; reflexivity]|]. exists (Some (a :: l)). split; [reflexivity|]. left. unfold cv_valid, err_valid. cbn. rewrite E. reflexivity.
  - exists (v_err v). rewrite vup_same. auto.
Qed.
Lemma oe_one e old r n v m : tidy v -> oe (extract_one c e old r n (v, m)) v m.
Proof.
  intros H. unfold extract_one. unfold bind at 1, vget, gets at 1. cbn [fst]. destruct (negb _); [apply oe_ret; exact H|]. unfold bind at 1, gets. cbn [snd].
  assert (K : forall msg new, oe ((cv_error c msg ;; ret (A := slot) new)%monad (v, m)) v m).
  { intros msg new. apply oe_bind; [apply oe_error; exact H|]. intros a w T. apply oe_ret. exact T. }
  destruct e as [|t|t rr]; [apply oe_ret; exact H| |]; destruct (extract m r t) as [[ok stored]|], (range_str m (fst r) (snd r)) as [text|]; try exact Logic.I; cbv zeta.
  - destruct ok; [apply oe_ret; exact H|]. destruct t; try apply K. apply oe_ret; exact H.
  - destruct ok; [|apply K]. destruct stored; [|exact Logic.I]. destruct (ss_valid _ _ _); [apply oe_ret; exact H|apply K].
Qed.
(** One element of the pack that is not void. *)
Definition column {A} (elems : list (nat * nat)) (n : nat) (one : nat * nat -> M (Converter.conv * list (option ascii)) A) : M (Converter.conv * list (option ascii)) A :=
  (v0 <- vget (fun v0 => v0) ;; match column_position v0 n with
          | Some p => match nth_error elems p with Some r => one r | None => ub "converter: elems[] out of range" end
          | None => ub "converter: column_mappings_[] out of range" end)%monad.
Definition ucolumn {A} (elems : list (nat * nat)) (n : nat) (one : nat * nat -> F (Converter.conv * list (option ascii)) A) : F (Converter.conv * list (option ascii)) A :=
  (v0 <~ lift (vget (fun v0 => v0)) ;; match column_position v0 n with
          | Some p => match nth_error elems p with Some r => one r | None => lift (ub "converter: elems[] out of range") end
          | None => lift (ub "converter: column_mappings_[] out of range") end)%monad.
Lemma multiple_cons elems e es n : extract_multiple c n (e :: es) elems =
  match e with EVoid => extract_multiple c (S n) es elems
  | _ => column elems n (fun r => x <- extract_one c e None r n ;; xs <- extract_multiple c (S n) es elems ;; ret (x :: xs))%monad end.
Proof. destruct e; reflexivity. Qed.
Lemma umultiple_cons elems e es n : uextract_multiple conv c n (e :: es) elems =
  match e with EVoid => uextract_multiple conv c (S n) es elems
  | _ => ucolumn elems n (fun r => x <~ uextract_one conv c e None r n ;; xs <~ uextract_multiple conv c (S n) es elems ;; lift (ret (x :: xs)))%monad end.
Proof. destruct e; reflexivity. Qed.
Lemma oe_multiple elems : forall es n v m, tidy v -> oe (extract_multiple c n es elems (v, m)) v m.
Proof.
  induction es as [|e es IH]; intros n v m H; [apply oe_ret; exact H|]. rewrite multiple_cons.
  enough (K : oe (column elems n (fun r => x <- extract_one c e None r n ;; xs <- extract_multiple c (S n) es elems ;; ret (x :: xs))%monad (v, m)) v m) by (destruct e; [apply IH; exact H|exact K|exact K]).
  unfold column. apply oe_bind; [apply oe_ret; exact H|]. intros v0 w T. destruct (column_position v0 n) as [p|]; [|exact Logic.I]. destruct (nth_error elems p) as [r|]; [|exact Logic.I].
  apply oe_bind; [apply oe_one; exact T|]. intros y w2 T2. apply oe_bind; [apply IH; exact T2|]. intros xs w3 T3. apply oe_ret. exact T3.
Qed.
(** [y] is what the user code threw for one of the columns. *)
Definition from_user (es : list elem) (y : thrown) : Prop := exists e text, In e es /\ conv e text = Some y.
Lemma uone e old r n v m : tidy v ->
  uextract_one conv c e old r n (v, m) = inl (extract_one c e old r n (v, m)) \/
  exists y text, conv e text = Some y /\ uextract_one conv c e old r n (v, m) = fraise y (vup_err None v, m).
Proof.
  intros [H|H]; unfold uextract_one; cbn [fst snd].
  - rewrite H. left. reflexivity.
  - destruct (negb _); [left; reflexivity|]. destruct (range_str m (fst r) (snd r)) as [text|]; [|left; reflexivity]. destruct (conv e text) as [y|] eqn:E; [|left; reflexivity].
    right. exists y, text. split; [exact E|]. rewrite <- H, vup_same. reflexivity.
Qed.
Lemma umultiple elems : forall es n v m, tidy v ->
  uextract_multiple conv c n es elems (v, m) = inl (extract_multiple c n es elems (v, m)) \/
  exists y, from_user es y /\ uextract_multiple conv c n es elems (v, m) = fraise y (vup_err None v, m).
Proof.
  induction es as [|e es IH]; intros n v m H; [left; reflexivity|]. rewrite multiple_cons, umultiple_cons.
  assert (MORE : forall y, from_user es y -> from_user (e :: es) y) by (intros y (e1 & t & H1 & H2); exists e1, t; split; [right; exact H1|exact H2]).
  assert (K : ucolumn elems n (fun r => x <~ uextract_one conv c e None r n ;; xs <~ uextract_multiple conv c (S n) es elems ;; lift (ret (x :: xs)))%monad (v, m) =
      inl (column elems n (fun r => x <- extract_one c e None r n ;; xs <- extract_multiple c (S n) es elems ;; ret (x :: xs))%monad (v, m)) \/
      exists y, from_user (e :: es) y /\
        ucolumn elems n (fun r => x <~ uextract_one conv c e None r n ;; xs <~ uextract_multiple conv c (S n) es elems ;; lift (ret (x :: xs)))%monad (v, m) = fraise y (vup_err None v, m)).
  { unfold ucolumn, column. unfold fbind at 1, bind at 1. unfold fbind at 3. cbn [lift vget gets fst].
    destruct (column_position v n) as [p|]; [|left; reflexivity]. destruct (nth_error elems p) as [r|]; [|left; reflexivity].
    unfold fbind at 1, bind at 1. unfold fbind at 2. destruct (uone e None r n v m H) as [->|(y & text & E1 & ->)].
    2:{ right. exists y. split; [exists e, text; split; [left; reflexivity|exact E1]|]. destruct y; reflexivity. }
    pose proof (oe_one e None r n v m H) as O. destruct (extract_one c e None r n (v, m)) as [a s|w s| |]; try (left; reflexivity). cbn in O. destruct O as (x & -> & T).
    unfold fbind, bind. destruct (IH (S n) (vup_err x v) m T) as [->|(y & E1 & ->)].
    - left. destruct (extract_multiple c (S n) es elems (vup_err x v, m)); reflexivity.
    - right. exists y. split; [apply MORE; exact E1|]. destruct y; reflexivity. }
  destruct e; [|exact K|exact K]. destruct (IH (S n) v m H) as [E|(y & E1 & E2)]; [left; exact E|right]. exists y. split; [apply MORE; exact E1|exact E2].
Qed.
Lemma uconvert es v m :
  ucv_convert conv c es (v, m) = inl (cv_convert c es (v, m)) \/
  exists y, from_user es y /\ ucv_convert conv c es (v, m) = fraise y (vup_err None v, m).
Proof.
  unfold ucv_convert, cv_convert, cv_convert_data, uconvert_impl, convert_impl, fbind, bind, lift, vget, gets, cv_clear_error, vupd, modify. cbn [fst snd].
  destruct (negb _); [left; reflexivity|]. assert (T : tidy (vup_err None v)) by (right; reflexivity).
  destruct (negb _); [|destruct (negb _); [left; reflexivity|]]; (destruct (negb _); [left; reflexivity|]); exact (umultiple (s_sd (v_sp v)) es 0 (vup_err None v) m T).
Qed.
(** Conversion changes nothing but the error. *)
Lemma convert_err es v m : match cv_convert c es (v, m) with Ok _ s | Throw _ s => exists x, s = (vup_err x v, m) /\ (c_mode c = EThrow -> x = None) | _ => True end.
Proof.
  assert (O : oe (cv_convert c es (v, m)) (vup_err None v) m \/ exists s, cv_convert c es (v, m) = Ok (defaults es) s /\ exists x, s = (vup_err x v, m) /\ c_mode c <> EThrow).
  { set (o := cv_convert c es (v, m)).
    assert (E : o = (if negb (sp_valid c (v_sp v)) then handle_error_bad_split c ;; ret (defaults es)
      else if negb (columns_mapped v) then
        if negb (length es =? length (s_sd (v_sp v))) then cv_error c (msg_number_of_columns (length es) (length (s_sd (v_sp v)))) ;; ret (defaults es)
        else extract_multiple c 0 es (s_sd (v_sp v))
      else if negb (length es =? length (v_map v)) then cv_error c (msg_incompatible_mapping (length es) (length (v_map v))) ;; ret (defaults es)
      else if negb (length (s_sd (v_sp v)) =? v_ncols v) then cv_error c (msg_number_of_columns (v_ncols v) (length (s_sd (v_sp v)))) ;; ret (defaults es)
      else extract_multiple c 0 es (s_sd (v_sp v)))%monad (vup_err None v, m)) by reflexivity.
    rewrite E. clear E o.
    assert (T : tidy (vup_err None v)) by (right; reflexivity).
    assert (K : forall msg new, oe ((cv_error c msg ;; ret (A := list slot) new)%monad (vup_err None v, m)) (vup_err None v) m).
    { intros msg new. apply oe_bind; [apply oe_error; exact T|]. intros a w T2. apply oe_ret. exact T2. }
    destruct (negb _).
    - unfold handle_error_bad_split, bind. case_eq (c_mode c); intros Em; cbn.
      + right. eexists. split; [reflexivity|]. eexists. split; [reflexivity|discriminate].
      + right. eexists. split; [reflexivity|]. eexists. split; [reflexivity|discriminate].
      + left. exists None. split; [reflexivity|right; reflexivity].
    - left. destruct (negb _); [destruct (negb _); [apply K|apply oe_multiple; exact T]|]. destruct (negb _); [apply K|]. destruct (negb _); [apply K|apply oe_multiple; exact T]. }
  destruct O as [O|(s & -> & x & -> & Em)]; [|exists x; split; [reflexivity|congruence]].
  destruct (cv_convert c es (v, m)) as [a s|e s| |]; cbn in O; auto; destruct O as (x & -> & [T|T]); exists x; (split; [reflexivity|]); intros Em; try exact T; unfold cv_valid, err_valid in T; rewrite Em in T; discriminate.
Qed.
End Convert.

(** ** get_next *)
Section Row.
Context (conv : elem -> str -> option thrown) (c hc : cfg) (cap : nat -> nat -> nat).
Local Open Scope monad_scope.
(** Up to update. *)
Definition parsing (p : prs) : M prs unit :=
  if p_eof p then ret tt
  else
    match c_mode c with
    | EThrow => catch (on_rdr (parse c cap)) (fun e => read_line c cap ;; decorate_rethrow e)
    | _ => on_rdr (parse c cap)
    end.
Definition taking : M prs unit := p <- get ;; parsing p ;; on_rdr update.
Definition row_part (es : list elem) : M prs (list slot) :=
  match c_mode c with
  | EThrow =>
      catch (xs <- on_rdr (on_conv (cv_convert c es)) ;; read_line c cap ;; ret xs)
            (fun e => read_line c cap ;; decorate_rethrow e)
  | _ =>
      xs <- on_rdr (on_conv (cv_convert c es)) ;;
      p <- get ;;
      (if negb (cv_valid c (r_conv (p_rdr p))) then handle_error_invalid_conversion c else ret tt) ;;
      read_line c cap ;;
      ret xs
  end.
Definition urow_part (es : list elem) : F prs (list slot) :=
  match c_mode c with
  | EThrow =>
      fcatch (xs <~ fon_rdr (fon_conv (ucv_convert conv c es)) ;; lift (read_line c cap ;; ret xs))
             (fun e => lift (read_line c cap ;; decorate_rethrow e))
  | _ =>
      xs <~ fon_rdr (fon_conv (ucv_convert conv c es)) ;;
      lift (p <- get ;;
            (if negb (cv_valid c (r_conv (p_rdr p))) then handle_error_invalid_conversion c else ret tt) ;;
            read_line c cap ;;
            ret xs)
  end.
Lemma get_taking es p : get_next c cap es p = match taking p with
  | Ok _ p2 => if negb (cv_valid c (r_conv (p_rdr p2))) then (handle_error_invalid_conversion c ;; read_line c cap ;; ret (defaults es)) p2
      else if p_eof p2 then (p_error c msg_eof ;; ret (defaults es)) (pset_err None p2) else row_part es (pset_err None p2)
  | Throw e q => Throw e q | UB w => UB w | OutOfFuel => OutOfFuel end.
Proof.
  change (get_next c cap es p) with ((p0 <- get ;; parsing p0 ;; on_rdr update ;; gconv c cap es) p). unfold taking. unfold bind at 1, get at 1. unfold bind at 1.
  unfold bind at 2, get at 1. unfold bind at 2. destruct (parsing p p) as [u p1|e p1| |]; try reflexivity.
  unfold bind at 1. destruct (on_rdr update p1) as [u2 p2|e p2| |]; try reflexivity.
  unfold gconv. unfold bind at 1, get at 1. destruct (negb _); [reflexivity|]. unfold bind at 1, p_clear_error, pupd, modify. unfold row_part. destruct (p_eof p2); reflexivity.
Qed.
Lemma uget_taking es p : uget_next conv c cap es p = match taking p with
  | Ok _ p2 => if negb (cv_valid c (r_conv (p_rdr p2))) then inl ((handle_error_invalid_conversion c ;; read_line c cap ;; ret (defaults es)) p2)
      else if p_eof p2 then inl ((p_error c msg_eof ;; ret (defaults es)) (pset_err None p2)) else urow_part es (pset_err None p2)
  | Throw e q => inl (Throw e q) | UB w => inl (UB w) | OutOfFuel => inl OutOfFuel end.
Proof.
  unfold uget_next. unfold fbind at 1, lift at 1, get at 1. fold (parsing p).
  replace (taking p) with (match parsing p p with Ok _ p1 => on_rdr update p1 | Throw e q => Throw e q | UB w => UB w | OutOfFuel => OutOfFuel end) by reflexivity.
  unfold fbind at 1, lift at 1. destruct (parsing p p) as [u p1|e p1| |]; try reflexivity.
  unfold fbind at 1, lift at 1. destruct (on_rdr update p1) as [u2 p2|e p2| |]; try reflexivity.
  unfold fbind at 1, lift at 1, get at 1. destruct (negb _); [reflexivity|]. unfold fbind at 1, lift at 1, p_clear_error, pupd, modify. unfold urow_part. destruct (p_eof p2); reflexivity.
Qed.

Lemma read_line_throws p : match read_line c cap p with Throw _ _ => False | _ => True end.
Proof. apply nt_read_line. Qed.
(** The row is taken, and the conversion is what remains to be done. *)
Definition row_of (p p2 : prs) : Prop :=
  exists p1, p_eof p = false /\ on_rdr (parse c cap) p = Ok tt p1 /\ exists p2', on_rdr update p1 = Ok tt p2' /\ p2 = pset_err None p2'.
Lemma row_cases es p :
  uget_next conv c cap es p = inl (get_next c cap es p) \/
  exists p2, row_of p p2 /\ uget_next conv c cap es p = urow_part es p2 /\ get_next c cap es p = row_part es p2.
Proof.
  rewrite get_taking, uget_taking. destruct (taking p) as [u p2|e q| |] eqn:E; try (left; reflexivity).
  destruct (negb _); [left; reflexivity|]. destruct (p_eof p2) eqn:He; [left; reflexivity|]. right. exists (pset_err None p2). split; [|split; reflexivity].
  unfold taking, bind, get in E. destruct (parsing p p) as [u1 p1|e p1| |] eqn:E1; try discriminate. destruct u, u1.
  assert (EE : p_eof p1 = false) by (injection E as <-; exact He).
  unfold parsing in E1. destruct (p_eof p) eqn:Hp; [injection E1 as <-; congruence|]. exists p1. split; [exact Hp|]. split; [|exists p2; split; [exact E|reflexivity]].
  destruct (c_mode c); [exact E1|exact E1|]. unfold catch in E1. destruct (on_rdr (parse c cap) p) as [u q|e q| |]; try discriminate; [exact E1|].
  exfalso. unfold bind in E1. destruct (read_line c cap q) as [u q2|e2 q2| |]; discriminate.
Qed.
Lemma row_eof p p2 : row_of p p2 -> p_eof p2 = false /\ p_name p2 = p_name p /\ p_err p2 = None.
Proof.
  intros (p1 & He & E1 & p2' & E2 & ->). unfold on_rdr, zoom in E1. destruct (parse c cap (p_rdr p)); try discriminate. injection E1 as _ <-. injection E2 as <-. cbn. auto.
Qed.
Lemma marked_twice e x e' x' p : marked e x (marked e' x' p) = marked e x p. Proof. reflexivity. Qed.
Lemma settle A (xs ys : A) x p2 p1 : c_mode c <> EThrow ->
  (p <- get ;; (if negb (cv_valid c (r_conv (p_rdr p))) then handle_error_invalid_conversion c else ret tt) ;; read_line c cap ;; ret xs) (kx x p2) = Ok ys p1 ->
  exists e y, read_line c cap (kx None p2) = Ok tt (marked e y p1).
Proof.
  intros Hm H. unfold bind at 1, get at 1 in H. unfold bind at 1 in H.
  assert (K : exists e, (if negb (cv_valid c (r_conv (p_rdr (kx x p2)))) then handle_error_invalid_conversion c else ret tt) (kx x p2) = Ok tt (marked e x p2)).
  { destruct (negb _); [|exists (p_err p2); destruct p2; reflexivity]. unfold handle_error_invalid_conversion, bind, get. destruct (c_mode c); [eexists; reflexivity|eexists; reflexivity|congruence]. }
  destruct K as (e & K). rewrite K in H. clear K. unfold bind in H.
  assert (E : read_line c cap (marked e x p2) = tag (marked e x) (read_line c cap p2)).
  { apply (fr_comp (kx x) (pset_err e)); [apply fr_read_line|]. apply fr_bind; [apply fr_err_rdr|]. intros b. apply fr_modify. intros q. reflexivity. }
  rewrite E in H. rewrite (fr_read_line c cap None p2). destruct (read_line c cap p2) as [[] p0|w p0| |]; try discriminate. cbn [tag] in *. injection H as _ <-.
  exists (p_err p0), None. rewrite marked_twice. destruct p0; reflexivity.
Qed.
(** How the conversion ends and how it would have ended. *)
(** A call returned, or threw, and left [p]. *)
Definition left_in {A} (o : res prs A) (p : prs) : Prop := match o with Ok _ q | Throw _ q => q = p | _ => False end.
Lemma row_end es p2 p1 : left_in (row_part es p2) p1 ->
  urow_part es p2 = inl (row_part es p2) \/
  exists y, from_user conv es y /\ urow_part es p2 =
      match c_mode c, y with
      | EThrow, XSs m => inl (Throw (p_name p1 ++ S2 " " ++ dec (p_line p1) ++ S2 ": " ++ m) p1)
      | _, XSs m => inl (Throw m (kx None p2))
      | _, XOther => inr (kx None p2)
      end /\
    exists e x, read_line c cap (kx None p2) = Ok tt (marked e x p1) /\ (c_mode c = EThrow -> marked e x p1 = p1).
Proof.
  intros H.
  assert (U : fon_rdr (fon_conv (ucv_convert conv c es)) p2 = inl (on_rdr (on_conv (cv_convert c es)) p2) \/
     exists y, from_user conv es y /\ fon_rdr (fon_conv (ucv_convert conv c es)) p2 = fraise y (kx None p2)).
  { unfold fon_rdr, fzoom, fon_conv, on_rdr, zoom, on_conv. destruct (uconvert conv c es (r_conv (p_rdr p2)) (seen_by (r_conv (p_rdr p2)) (r_buf (p_rdr p2)))) as [->|(y & E1 & ->)].
    - left. destruct (cv_convert c es _) as [a [w m]|e [w m]| |]; reflexivity.
    - right. exists y. split; [exact E1|]. destruct y; reflexivity. }
  assert (V : match on_rdr (on_conv (cv_convert c es)) p2 with Ok _ q | Throw _ q => exists x, q = kx x p2 /\ (c_mode c = EThrow -> x = None) | _ => True end).
  { unfold on_rdr, zoom, on_conv. pose proof (convert_err c es (r_conv (p_rdr p2)) (seen_by (r_conv (p_rdr p2)) (r_buf (p_rdr p2)))) as V.
    destruct (cv_convert c es _) as [a s|e s| |]; auto; destruct V as (x & -> & V); exists x; (split; [reflexivity|exact V]). }
  case_eq (c_mode c); intros Em.
  1,2: unfold row_part, urow_part in *; rewrite Em in *; cbv iota in *; unfold fbind; destruct U as [->|(y & E1 & ->)];
    [left; unfold bind at 4; destruct (on_rdr (on_conv (cv_convert c es)) p2); reflexivity|];
    right; exists y; (split; [exact E1|]); (split; [destruct y; reflexivity|]);
    pose proof (nt_on_rdr _ (nt_on_conv _ (nt_convert c ltac:(congruence) es)) p2) as N; unfold bind at 1 in H;
    destruct (on_rdr (on_conv (cv_convert c es)) p2) as [xs q|m q| |] eqn:E; try contradiction;
    destruct V as (x & -> & _);
    match type of H with left_in (?k ?q) _ => assert (NK : nt k) by (apply nt_bind; [apply nt_get|]; intros a; apply nt_bind; [destruct (negb _); [apply nt_invalid|apply nt_ret]|]; intros []; apply nt_bind; [apply nt_read_line|]; intros []; apply nt_ret);
      specialize (NK q); destruct (k q) as [ys q1|m q1| |] eqn:EK; try contradiction end;
    cbn in H; subst q1; destruct (settle _ xs ys x p2 p1 ltac:(congruence) EK) as (e & z & S); exists e, z; (split; [exact S|discriminate]).
  unfold row_part, urow_part in *; rewrite Em in *; cbv iota in *. unfold fcatch, catch in *. unfold fbind. destruct U as [->|(y & E1 & ->)].
  { left. unfold bind at 3. destruct (on_rdr (on_conv (cv_convert c es)) p2) as [xs q|m q| |]; try reflexivity. cbn [lift]. destruct ((read_line c cap;; ret xs) q); reflexivity. }
  right. exists y. split; [exact E1|].
  assert (S : read_line c cap (kx None p2) = Ok tt p1).
  { unfold bind at 1 in H. destruct (on_rdr (on_conv (cv_convert c es)) p2) as [xs q|m q| |]; try contradiction; destruct V as (x & -> & V); rewrite (V eq_refl) in H; unfold bind in H.
    - pose proof (nt_read_line c cap (kx None p2)) as N. destruct (read_line c cap (kx None p2)) as [[] q|w q| |]; try contradiction. cbn in H. subst q. reflexivity.
    - pose proof (nt_read_line c cap (kx None p2)) as N. destruct (read_line c cap (kx None p2)) as [[] q|w q| |]; try contradiction. cbn in H. subst q. reflexivity. }
  split.
  - destruct y as [m|]; [|reflexivity]. unfold fraise, lift, throw, bind. cbv beta iota. rewrite S. reflexivity.
  - exists (p_err p1), (v_err (r_conv (p_rdr p1))). rewrite marked_id. auto.
Qed.
Theorem get_user es p p1 : left_in (get_next c cap es p) p1 ->
  uget_next conv c cap es p = inl (get_next c cap es p) \/
  exists y q, from_user conv es y /\ (exists p2, row_of p p2 /\ q = kx None p2) /\ uget_next conv c cap es p =
      match c_mode c, y with
      | EThrow, XSs m => inl (Throw (p_name p1 ++ S2 " " ++ dec (p_line p1) ++ S2 ": " ++ m) p1)
      | _, XSs m => inl (Throw m q)
      | _, XOther => inr q
      end /\
    exists e x, read_line c cap q = Ok tt (marked e x p1) /\ (c_mode c = EThrow -> marked e x p1 = p1).
Proof.
  intros H. destruct (row_cases es p) as [E|(p2 & R & E1 & E2)]; [left; exact E|]. rewrite E1, E2 in *.
  destruct (row_end es p2 p1 H) as [E|(y & F1 & F2 & F3)]; [left; exact E|right]. exists y, (kx None p2). split; [exact F1|]. split; [exists p2; auto|]. split; [exact F2|exact F3].
Qed.
End Row.

(** ** Chains *)
Section Follows.
Context {S : Type} (Q : thrown -> S -> Prop) (P : S -> Prop) (le : S -> S -> Prop) (le_refl : forall t, le t t) (le_trans : forall s t u, le s t -> le t u -> le s u).
Definition stays {A} (o : res S A) : Prop := match o with Ok _ t | Throw _ t => P t | _ => True end.
(** The call would have come to [o], from [t] on. *)
Definition comes {A} (t : S) (o : res S A) : Prop := match o with Ok _ s | Throw _ s => le t s | _ => True end.
Definition grows {A} (m : M S A) : Prop := forall t, comes t (m t).
(** An exception of user code came out, as [Q] says. *)
Definition aborted {A} (r : res S A + S) (o : res S A) : Prop := exists y t, Q y t /\ P t /\ r = fraise y t /\ comes t o.
Definition point {A} (u : F S A) (m : M S A) (t : S) : Prop := (u t = inl (m t) /\ stays (m t)) \/ aborted (u t) (m t).
Definition follows {A} (u : F S A) (m : M S A) : Prop := grows m /\ forall t, P t -> point u m t.
Lemma grows_bind {A B} (m : M S A) (k : A -> M S B) : grows m -> (forall a, grows (k a)) -> grows (bind m k).
Proof. intros H K t. unfold bind. specialize (H t). destruct (m t) as [a t1|w t1| |]; auto. specialize (K a t1). destruct (k a t1); cbn in *; eauto. Qed.
Lemma follows_lift {A} (m : M S A) : grows m -> (forall t, P t -> stays (m t)) -> follows (lift m) m.
Proof. intros G H. split; [exact G|]. intros t T. left. split; [reflexivity|auto]. Qed.
Lemma point_bind {A B} u (m : M S A) (ku : A -> F S B) k t : point u m t -> (forall a, follows (ku a) (k a)) -> point (fbind u ku) (bind m k) t.
Proof.
  intros H K. unfold point, fbind, bind. destruct H as [[-> G]|(y & t' & HQ & T' & -> & C)].
  - destruct (m t) as [a t1|w t1| |]; cbn in G; auto. exact (proj2 (K a) t1 G).
  - right. exists y, t'. split; [exact HQ|]. split; [exact T'|]. split; [destruct y; reflexivity|]. destruct (m t) as [a t1|w t1| |]; auto.
    pose proof (proj1 (K a) t1) as G. destruct (k a t1); cbn in *; eauto.
Qed.
Lemma follows_bind {A B} u (m : M S A) (ku : A -> F S B) k : follows u m -> (forall a, follows (ku a) (k a)) -> follows (fbind u ku) (bind m k).
Proof. intros [G H] K. split; [apply grows_bind; [exact G|intros a; apply K]|]. intros t T. apply point_bind; auto. Qed.
Lemma follows_ret {A} (a : A) : follows (lift (ret a)) (ret a). Proof. apply follows_lift; intros t; [apply le_refl|auto]. Qed.
Lemma follows_get : follows (lift get) get. Proof. apply follows_lift; intros t; [apply le_refl|auto]. Qed.
End Follows.

Section Chains.
Context (conv : elem -> str -> option thrown) (back : event -> option thrown) (c hc : cfg) (cap : nat -> nat -> nat) (p1 : prs) (links : list link).
Local Open Scope monad_scope.
(** Who threw [y]: the conversion of an alternative, or the user, called last of all. *)
Definition from_else (y : thrown) : Prop := exists es cb, In (LElse es cb) links /\ from_user conv es y.
Definition culprit (y : thrown) (calls : list event) : Prop := from_else y \/ exists l ev, calls = l ++ [ev] /\ back ev = Some y.
Definition at1 (q : prs) : Prop := exists e x, q = marked e x p1 /\ (c_mode c = EThrow -> q = p1).
Notation any := (fun _ _ : prs => True).
Notation fol1 := (follows (fun y (_ : prs) => from_else y) at1 any).
Notation at2 := (fun t : chain => at1 (fst t)).
Definition extends (t s : chain) : Prop := exists l, snd s = snd t ++ l.
Notation fol2 := (follows (fun y (t : chain) => culprit y (snd t)) at2 extends).
Lemma ext_refl t : extends t t. Proof. exists []. rewrite app_nil_r. reflexivity. Qed.
Lemma ext_trans s t u : extends s t -> extends t u -> extends s u.
Proof. intros (a & A) (b & B). exists (a ++ b). rewrite B, A, app_assoc. reflexivity. Qed.
Lemma any_grows {A} (m : M prs A) : grows any m. Proof. intros t. destruct (m t); exact Logic.I. Qed.
Lemma grows_p {A} (m : M prs A) : grows extends (on_p m).
Proof. intros [q l]. unfold on_p, zoom. cbn [fst snd]. destruct (m q); cbn; auto; exact (ext_refl (q, l)). Qed.
Lemma follows_p {A} (u : F prs A) m : fol1 u m -> fol2 (fon_p u) (on_p m).
Proof.
  intros [_ H]. split; [apply grows_p|]. intros [q l] T. unfold point. pose proof (grows_p m (q, l)) as G. unfold fon_p, fzoom, on_p, zoom in *. cbn [fst snd] in *. destruct (H q T) as [[-> K]|(y & q' & HQ & T' & -> & _)].
  - left. destruct (m q); cbn in *; auto.
  - right. exists y, (q', l). split; [left; exact HQ|]. split; [exact T'|]. split; [destruct y; reflexivity|]. destruct (m q); cbn in *; auto.
Qed.
Lemma grows_log ev : grows extends (log ev). Proof. intros [q l]. exists [ev]. reflexivity. Qed.
Lemma follows_called ev : fol2 (fcalled back ev) (log ev).
Proof.
  split; [apply grows_log|]. intros t T. unfold point, fcalled, fbind, lift at 1, log at 1, modify. assert (T' : at2 (fst t, snd t ++ [ev])) by exact T.
  destruct (back ev) as [y|] eqn:EB; [right|left; split; [reflexivity|exact T']]. exists y, (fst t, snd t ++ [ev]). split; [right; exists (snd t), ev; auto|]. split; [exact T'|]. split; [destruct y; reflexivity|].
  apply ext_refl.
Qed.
Lemma stays_error msg t : at1 t -> stays at1 (p_error c msg t).
Proof.
  intros (e & x & -> & H). unfold p_error, bind, get. unfold at1, stays. destruct (c_mode c) eqn:Em; cbn.
  - eexists _, _. split; [reflexivity|discriminate].
  - eexists _, _. split; [reflexivity|discriminate].
  - exists e, x. split; [reflexivity|exact H].
Qed.
Lemma f2_bind {A B} u (m : M chain A) (ku : A -> F chain B) k : fol2 u m -> (forall a, fol2 (ku a) (k a)) -> fol2 (fbind u ku) (bind m k).
Proof. apply follows_bind. exact ext_trans. Qed.
Lemma f2_ret {A} (a : A) : fol2 (lift (ret a)) (ret a). Proof. apply follows_ret. exact ext_refl. Qed.
Lemma f2_get : fol2 (lift get) get. Proof. apply follows_get. exact ext_refl. Qed.
Lemma f1_bind {A B} u (m : M prs A) (ku : A -> F prs B) k : fol1 u m -> (forall a, fol1 (ku a) (k a)) -> fol1 (fbind u ku) (bind m k).
Proof. apply follows_bind. auto. Qed.
Lemma f1_lift {A} (m : M prs A) : (forall t, at1 t -> stays at1 (m t)) -> fol1 (lift m) m.
Proof. apply follows_lift, any_grows. Qed.
Lemma follows_invoke xs cb : fol2 (utry_invoke back c xs cb) (try_invoke c xs cb).
Proof.
  destruct cb as [|k|k f]; cbn [utry_invoke try_invoke]; [apply f2_ret|apply follows_called|]. apply f2_bind; [apply follows_called|]. intros _.
  destruct (f xs); [apply f2_ret|]. apply follows_lift; [apply grows_p|]. intros [q l] T. unfold on_p, zoom. cbn [fst snd] in *. pose proof (stays_error msg_failed_check q T) as G. destruct (p_error c msg_failed_check q); exact G.
Qed.
Lemma at1_any e x : c_mode c <> EThrow -> at1 (marked e x p1). Proof. intros H. exists e, x. split; [reflexivity|congruence]. Qed.
Lemma follows_convert es cb : In (LElse es cb) links -> c_mode c <> EThrow -> fol1 (fon_rdr (fon_conv (ucv_convert conv c es))) (on_rdr (on_conv (cv_convert c es))).
Proof.
  intros HL Hm. split; [apply any_grows|]. intros q (e & x & -> & _). unfold point, fon_rdr, fzoom, fon_conv, on_rdr, zoom, on_conv.
  pose proof (convert_err c es (r_conv (p_rdr (marked e x p1))) (seen_by (r_conv (p_rdr (marked e x p1))) (r_buf (p_rdr (marked e x p1))))) as V.
  destruct (uconvert conv c es (r_conv (p_rdr (marked e x p1))) (seen_by (r_conv (p_rdr (marked e x p1))) (r_buf (p_rdr (marked e x p1))))) as [->|(y & FU & ->)].
  - left. destruct (cv_convert c es _) as [a s|w s| |]; try (split; [reflexivity|exact Logic.I]); destruct V as (z & -> & _); (split; [reflexivity|]); exact (at1_any e z Hm).
  - right. exists y, (marked e None p1). split; [exists es, cb; auto|]. split; [apply at1_any; exact Hm|]. split; [destruct y; reflexivity|]. destruct (cv_convert c es _) as [a [? ?]|w [? ?]| |]; exact Logic.I.
Qed.
Lemma follows_same es cb : In (LElse es cb) links -> c_mode c <> EThrow -> fol1 (utry_same conv c es) (try_same c es).
Proof.
  intros HL Hm. unfold utry_same, try_same. apply f1_bind; [apply f1_lift; intros q (e & x & -> & _); exact (at1_any None x Hm)|]. intros _.
  apply f1_bind; [apply (follows_convert es cb HL); exact Hm|]. intros xs. apply f1_lift. intros q (e & x & -> & _). unfold bind at 1, get at 1. unfold bind. destruct (negb _); [|exact (at1_any e x Hm)].
  unfold handle_error_invalid_conversion, bind, get. case_eq (c_mode c); intros Em; cbn; [exact (at1_any _ x Hm)|exact (at1_any _ x Hm)|congruence].
Qed.
Lemma follows_else vs es cb : In (LElse es cb) links -> fol2 (uor_else conv back c vs es cb) (or_else c vs es cb).
Proof.
  intros HL. unfold uor_else, or_else. apply f2_bind; [apply f2_get|]. intros t. apply f2_bind.
  - destruct (p_valid c (fst t)) eqn:E; [apply f2_ret|]. assert (Hm : c_mode c <> EThrow) by (unfold p_valid, err_valid in E; destruct (c_mode c); congruence).
    apply f2_bind; [apply follows_p, (follows_same es cb HL); exact Hm|]. intros xs. apply f2_bind; [apply f2_get|]. intros t2. destruct (negb _); [apply f2_ret|].
    apply f2_bind; [apply follows_invoke|]. intros _. apply f2_ret.
  - intros v. apply f2_bind; [apply f2_get|]. intros t2. apply f2_ret.
Qed.
Lemma follows_on_error k : fol2 (uon_error back c k) (on_error c k).
Proof. unfold uon_error, on_error. apply f2_bind; [apply f2_get|]. intros t. destruct (p_valid c (fst t)); [apply f2_ret|apply follows_called]. Qed.
Lemma follows_links : forall ls vs, incl ls links -> fol2 (ufollow_links conv back c vs ls) (follow_links c vs ls).
Proof.
  induction ls as [|[es cb|k] ls IH]; intros vs HI; cbn [ufollow_links follow_links]; [apply f2_ret| |].
  - apply f2_bind; [apply follows_else, HI; left; reflexivity|]. intros ws. apply IH. intros k K. apply HI. right. exact K.
  - apply f2_bind; [apply follows_on_error|]. intros _. apply IH. intros k0 K. apply HI. right. exact K.
Qed.
(** A chain whose get_next was not interrupted. *)
Lemma chain_user es cb ls p l : incl ls links -> left_in (get_next c cap es p) p1 -> uget_next conv c cap es p = inl (get_next c cap es p) ->
  uchain_call conv back c cap es cb ls (p, l) = inl (chain_call c cap es cb ls (p, l)) \/ aborted (fun y (t : chain) => culprit y (snd t)) at2 extends (uchain_call conv back c cap es cb ls (p, l)) (chain_call c cap es cb ls (p, l)).
Proof.
  intros HI H E.
  assert (AT : at1 p1) by (exists (p_err p1), (v_err (r_conv (p_rdr p1))); rewrite marked_id; auto).
  assert (K : point (fun y (t : chain) => culprit y (snd t)) at2 extends (fon_p (uget_next conv c cap es)) (on_p (get_next c cap es)) (p, l)).
  { left. unfold fon_p, fzoom, on_p, zoom. cbn [fst snd]. rewrite E. unfold left_in in H. destruct (get_next c cap es p); try contradiction; subst; auto. }
  enough (point (fun y (t : chain) => culprit y (snd t)) at2 extends (uchain_call conv back c cap es cb ls) (chain_call c cap es cb ls) (p, l)) as [[-> _]|A]; [left; reflexivity|right; exact A|].
  apply point_bind; [exact ext_trans| |intros vs; apply follows_links; exact HI]. apply point_bind; [exact ext_trans|exact K|]. intros xs.
  apply f2_bind; [apply f2_get|]. intros t. apply f2_bind; [destruct (p_valid c (fst t)); [apply follows_invoke|apply f2_ret]|]. intros _.
  apply f2_bind; [apply f2_get|]. intros t2. apply f2_ret.
Qed.
End Chains.
