(** Without throw_on_error nothing is thrown: a walk over every operation of the splitter, the converter, the reader and
    the parser, from any state. *)
From Verif Require Import Base Setup Splitter Extract Converter Reader Parser ParserApi SessionApi.

(** [nt m]: [m] does not throw, from any state. *)
Definition nt {S A} (m : M S A) : Prop := forall s, match m s with Throw _ _ => False | _ => True end.
Lemma nt_bind {S A B} (m : M S A) (k : A -> M S B) : nt m -> (forall a, nt (k a)) -> nt (bind m k).
Proof. intros H K s. unfold bind. specialize (H s). destruct (m s); auto. apply K. Qed.
Lemma nt_ret {S A} (a : A) : nt (@ret S A a). Proof. intros s. exact I. Qed.
Lemma nt_ub {S A} w : nt (@ub S A w). Proof. intros s. exact I. Qed.
Lemma nt_fuel {S A} : nt (fun _ : S => @OutOfFuel S A). Proof. intros s. exact I. Qed.
Lemma nt_gets {S A} (f : S -> A) : nt (gets f). Proof. intros s. exact I. Qed.
Lemma nt_get {S} : nt (@get S). Proof. intros s. exact I. Qed.
Lemma nt_modify {S} (f : S -> S) : nt (modify f). Proof. intros s. exact I. Qed.
Lemma nt_when {S} b (m : M S unit) : nt m -> nt (when b m). Proof. intros H. destruct b; [exact H|apply nt_ret]. Qed.
Lemma nt_zoom {S T A} (f : S -> T) g (m : M T A) : nt m -> nt (zoom f g m).
Proof. intros H s. unfold zoom. specialize (H (f s)). destruct (m (f s)); auto. Qed.
Lemma nt_load p : nt (load p). Proof. intros s. unfold load. destruct (rd _ _); exact I. Qed.
(** Whatever the handler does. *)
Lemma nt_catch {S A} (m : M S A) h : nt m -> nt (catch m h).
Proof. intros H s. unfold catch. specialize (H s). destruct (m s); auto. contradiction. Qed.
Create HintDb nt discriminated.
#[local] Hint Resolve nt_ret nt_ub nt_fuel nt_gets nt_get nt_modify nt_load : nt.
Ltac walk := repeat (first
  [ match goal with |- forall _, _ => intro end
  | solve [auto with nt]
  | apply nt_bind
  | apply nt_when
  | apply nt_zoom
  | match goal with |- nt (match ?x with _ => _ end) => case x end
  | match goal with |- nt (let '(_, _) := ?x in _) => case x end ]).

Section N.
Context (c : cfg) (Hm : c_mode c <> EThrow).
Lemma nt_error msg : nt (sp_error c msg).
Proof. unfold sp_error, set_error. destruct (c_mode c); [| |congruence]; apply nt_modify. Qed.
Hint Resolve nt_error : nt.
Lemma nt_upd f : nt (upd f). Proof. apply nt_modify. Qed.
Lemma nt_fuel_of : nt fuel_of. Proof. apply nt_gets. Qed.
Hint Resolve nt_upd nt_fuel_of : nt.
Lemma nt_trim_loop cs : forall f p, nt (trim_loop f cs p). Proof. induction f; cbn [trim_loop]; walk. Qed.
Hint Resolve nt_trim_loop : nt.
Lemma nt_trim cs p : nt (trim_if_enabled cs p).
Proof. unfold trim_if_enabled. walk.
Qed.
Hint Resolve nt_trim : nt.
Lemma nt_strncmp : forall d p, nt (strncmp_eq p d). Proof. induction d; intros p; cbn [strncmp_eq]; walk. Qed.
Hint Resolve nt_strncmp : nt.
Lemma nt_match p d : nt (sp_match p d). Proof. unfold sp_match. walk. Qed.
Hint Resolve nt_match : nt.
Lemma nt_shift : nt (shift_and_set_current c).
Proof. unfold shift_and_set_current. apply nt_bind; [apply nt_gets|]. intros s. destruct (_ && _); [|apply nt_upd]. apply nt_bind; [|walk]. intros [s0 m]. cbn. destruct (copyn _ _ _ _); exact I. Qed.
Hint Resolve nt_shift : nt.
Lemma nt_jump : nt (shift_and_jump_escape c). Proof. unfold shift_and_jump_escape. walk. Qed.
Hint Resolve nt_jump : nt.
Lemma nt_push : nt (shift_and_push c). Proof. unfold shift_and_push. walk. Qed.
Hint Resolve nt_push : nt.
Lemma nt_push_next n : nt (shift_push_and_start_next c n). Proof. unfold shift_push_and_start_next. walk. Qed.
Hint Resolve nt_push_next : nt.
Lemma nt_sie p : nt (shift_if_escaped c p). Proof. unfold shift_if_escaped. walk. Qed.
Hint Resolve nt_sie : nt.
Lemma nt_md p d : nt (match_delimiter c p d). Proof. unfold match_delimiter. walk. Qed.
Hint Resolve nt_md : nt.
Lemma nt_normal d : forall f, nt (read_normal c f d). Proof. induction f; cbn [read_normal]; walk. Qed.
Lemma nt_quoted d : forall f, nt (read_quoted c f d). Proof. induction f; cbn [read_quoted]; walk. Qed.
Hint Resolve nt_normal nt_quoted : nt.
Lemma nt_read d : nt (sp_read c d). Proof. unfold sp_read. walk. Qed.
Hint Resolve nt_read : nt.
Lemma nt_loop d : forall f, nt (split_loop c f d). Proof. induction f; cbn [split_loop]; walk. Qed.
Hint Resolve nt_loop : nt.
Lemma nt_impl d : nt (split_impl c d). Proof. unfold split_impl. walk. Qed.
Hint Resolve nt_impl : nt.
Lemma nt_select d : nt (split_impl_select_delim c d). Proof. unfold split_impl_select_delim. walk. Qed.
Hint Resolve nt_select : nt.
Lemma nt_split blk d : nt (sp_split c blk d). Proof. unfold sp_split. walk. Qed.
Lemma nt_resplit blk n d : nt (sp_resplit c blk n d). Proof. unfold sp_resplit. walk. Qed.
Hint Resolve nt_split nt_resplit : nt.

(** Converter. *)
Lemma nt_on_sp {A} (m : M sst A) : nt m -> nt (on_sp m).
Proof. intros H. unfold on_sp. apply nt_zoom. exact H. Qed.
Hint Resolve nt_on_sp : nt.
Lemma nt_vupd f : nt (vupd f). Proof. apply nt_modify. Qed.
Lemma nt_vget {A} (f : conv -> A) : nt (vget f). Proof. apply nt_gets. Qed.
Hint Resolve nt_vupd nt_vget : nt.
Lemma nt_cv_error msg : nt (cv_error c msg). Proof. unfold cv_error. destruct (c_mode c); [apply nt_vupd|apply nt_vupd|congruence]. Qed.
Hint Resolve nt_cv_error : nt.
Lemma nt_bad_split : nt (handle_error_bad_split c). Proof. unfold handle_error_bad_split. walk. Qed.
Lemma nt_ut_escape : nt (handle_error_unterminated_escape c). Proof. unfold handle_error_unterminated_escape. walk. Qed.
Lemma nt_ut_quote : nt (handle_error_unterminated_quote c). Proof. unfold handle_error_unterminated_quote. walk. Qed.
Lemma nt_limit : nt (handle_error_multiline_limit_reached c). Proof. unfold handle_error_multiline_limit_reached. walk. Qed.
Hint Resolve nt_bad_split nt_ut_escape nt_ut_quote nt_limit : nt.
Lemma nt_cv_split blk d : nt (cv_split c blk d). Proof. unfold cv_split. walk. Qed.
Lemma nt_cv_resplit blk n d : nt (cv_resplit c blk n d). Proof. unfold cv_resplit. walk. Qed.
Hint Resolve nt_cv_split nt_cv_resplit : nt.
Lemma nt_extract_one e old r n : nt (extract_one c e old r n). Proof. unfold extract_one. cbv zeta. walk. Qed.
Hint Resolve nt_extract_one : nt.
Lemma nt_extract_multiple elems : forall es n, nt (extract_multiple c n es elems). Proof. induction es; intros n; cbn [extract_multiple]; walk. Qed.
Hint Resolve nt_extract_multiple : nt.
Lemma nt_convert_impl es elems : nt (convert_impl c es elems). Proof. unfold convert_impl, cv_clear_error. walk. Qed.
Hint Resolve nt_convert_impl : nt.
Lemma nt_convert_data es elems : nt (cv_convert_data c es elems). Proof. apply nt_convert_impl. Qed.
Hint Resolve nt_convert_data : nt.
Lemma nt_convert es : nt (cv_convert c es). Proof. unfold cv_convert. walk. Qed.
Lemma nt_convert_line blk d es : nt (cv_convert_line c blk d es). Proof. unfold cv_convert_line. walk. Qed.
Hint Resolve nt_convert nt_convert_line : nt.

(** Reader. *)
Context (cap : nat -> nat -> nat).
Lemma nt_rupd f : nt (rupd f). Proof. apply nt_modify. Qed.
Hint Resolve nt_rupd : nt.
Lemma nt_on_next {A} (m : nat -> M (conv * list (option ascii)) A) : (forall i, nt (m i)) -> nt (on_next m).
Proof. intros H r. unfold on_next. destruct (r_nl r) as [b|]; auto. specialize (H (b_id b) (r_nconv r, b_cells b)). destruct (m _ _) as [a [v cs]|e [v cs]| |]; auto. Qed.
Lemma nt_on_nconv {A} (m : M (conv * list (option ascii)) A) : nt m -> nt (on_nconv m).
Proof. intros H r. unfold on_nconv. specialize (H (r_nconv r, [])). destruct (m _) as [a [v cs]|e [v cs]| |]; auto. Qed.
Lemma nt_on_conv {A} (m : M (conv * list (option ascii)) A) : nt m -> nt (on_conv m).
Proof. intros H r. unfold on_conv. specialize (H (r_conv r, seen_by (r_conv r) (r_buf r))). destruct (m _) as [a [v cs]|e [v cs]| |]; auto. Qed.
Lemma nt_on_lp {A} w (m : M lp A) : nt m -> nt (on_lp w m). Proof. unfold on_lp. apply nt_zoom. Qed.
Hint Resolve nt_on_nconv nt_on_conv nt_on_lp : nt.
Lemma nt_peek i : nt (peek i). Proof. intros l. unfold peek. destruct (rd _ _); exact I. Qed.
Lemma nt_put i x : nt (put i x). Proof. intros l. unfold put. destruct (l_blk l); [|exact I]. destruct (wr _ _ _); exact I. Qed.
Hint Resolve nt_peek nt_put : nt.
Lemma nt_put_all : forall s i, nt (put_all i s). Proof. induction s; intros i; cbn [put_all]; walk. Qed.
Lemma nt_grow n : nt (grow n). Proof. apply nt_modify. Qed.
Hint Resolve nt_put_all nt_grow : nt.
Lemma nt_posix rest : nt (get_line_posix cap rest).
Proof. intros l. unfold get_line_posix. destruct rest; [destruct (l_blk l); [exact I|destruct (cap 0 0); exact I]|]. destruct (cut_line _). destruct (l_blk l); [destruct (_ <=? _)|]; exact I. Qed.
Lemma nt_glb : forall rest u k, nt (glb_loop u k rest). Proof. induction rest; intros u k; cbn [glb_loop]; walk. Qed.
Hint Resolve nt_posix nt_glb : nt.
Lemma nt_buffer rest : nt (get_line_buffer rest). Proof. unfold get_line_buffer. walk. Qed.
Lemma nt_strlen : forall f i, nt (strlen_from f i). Proof. induction f; intros i; cbn [strlen_from]; walk. intros s. exact I. Qed.
Hint Resolve nt_buffer nt_strlen : nt.
Lemma nt_fgets_loop : forall f u rest, nt (fgets_loop f u rest). Proof. induction f; intros u rest; cbn [fgets_loop]; walk. Qed.
Hint Resolve nt_fgets_loop : nt.
Lemma nt_fgets rest : nt (get_line_fgets rest). Proof. unfold get_line_fgets. walk. Qed.
Hint Resolve nt_fgets : nt.
Lemma nt_get_line w : nt (get_line cap w). Proof. unfold get_line. walk. Qed.
Lemma nt_remove_eol w n : nt (remove_eol w n). Proof. unfold remove_eol. walk. Qed.
Hint Resolve nt_get_line nt_remove_eol : nt.
Lemma nt_read_next_loop : forall f, nt (read_next_loop c cap f). Proof. induction f; cbn [read_next_loop]; walk. Qed.
Hint Resolve nt_read_next_loop : nt.
Lemma nt_cv_clear : nt cv_clear_error. Proof. apply nt_vupd. Qed.
Hint Resolve nt_cv_clear : nt.
Lemma nt_read_next : nt (read_next c cap). Proof. unfold read_next. walk. Qed.
Lemma nt_update : nt update. Proof. apply nt_rupd. Qed.
Lemma nt_multiline_limit k : nt (multiline_limit_reached c k). Proof. unfold multiline_limit_reached. walk. Qed.
Lemma nt_count : forall i, nt (count_escapes c i). Proof. induction i; cbn [count_escapes]; walk. Qed.
Hint Resolve nt_read_next nt_update nt_multiline_limit nt_count : nt.
Lemma nt_escaped i : nt (escaped_eol c i). Proof. unfold escaped_eol. walk. Qed.
Lemma nt_undo : nt undo_remove_eol. Proof. unfold undo_remove_eol. cbv zeta. walk. Qed.
Lemma nt_concat n : nt (realloc_concat n). Proof. unfold realloc_concat. walk. Qed.
Hint Resolve nt_escaped nt_undo nt_concat : nt.
Lemma nt_append : nt (append_next_line_to_buffer cap). Proof. unfold append_next_line_to_buffer. walk. Qed.
Hint Resolve nt_append : nt.
Lemma nt_escape_loop : forall f k, nt (escape_loop c cap f k). Proof. induction f; intros k; cbn [escape_loop]; walk. Qed.
Hint Resolve nt_escape_loop : nt.
Lemma nt_escape_part k : nt (escape_part c cap k). Proof. unfold escape_part. walk. Qed.
Hint Resolve nt_escape_part : nt.
Lemma nt_next_split d : nt (on_next (fun i => cv_split c i d)). Proof. apply nt_on_next. intros; apply nt_cv_split. Qed.
Lemma nt_next_resplit n d : nt (on_next (fun i => cv_resplit c i n d)). Proof. apply nt_on_next. intros; apply nt_cv_resplit. Qed.
Hint Resolve nt_next_split nt_next_resplit : nt.
Lemma nt_quote_loop : forall f k, nt (quote_loop c cap f k). Proof. induction f; intros k; cbn [quote_loop]; walk. Qed.
Hint Resolve nt_quote_loop : nt.
Lemma nt_parse : nt (parse c cap). Proof. unfold parse. walk. Qed.
Lemma nt_get_buffer : nt get_buffer. Proof. intros r. unfold get_buffer. destruct (range_str _ _ _); exact I. Qed.
Hint Resolve nt_parse nt_get_buffer : nt.

(** Parser. *)
Lemma nt_on_rdr {A} (m : M rdr A) : nt m -> nt (on_rdr m). Proof. unfold on_rdr. apply nt_zoom. Qed.
Lemma nt_pupd f : nt (pupd f). Proof. apply nt_modify. Qed.
Hint Resolve nt_on_rdr nt_pupd : nt.
Lemma nt_p_error f : nt (p_error c f).
Proof. unfold p_error. apply nt_bind; [apply nt_get|]. intros p. destruct (c_mode c); [apply nt_pupd|apply nt_pupd|congruence]. Qed.
Lemma nt_invalid : nt (handle_error_invalid_conversion c). Proof. unfold handle_error_invalid_conversion. walk. Qed.
Lemma nt_p_clear : nt p_clear_error. Proof. apply nt_pupd. Qed.
Lemma nt_read_line : nt (read_line c cap). Proof. unfold read_line. walk. Qed.
Lemma nt_ignore : nt (ignore_next c cap). Proof. unfold ignore_next. walk. Qed.
Hint Resolve nt_p_error nt_invalid nt_p_clear nt_read_line nt_ignore : nt.
Lemma nt_construct b msg : nt (construct c cap b msg). Proof. unfold construct. walk. Qed.
Lemma nt_get_next es : nt (get_next c cap es).
Proof.
  unfold get_next. apply nt_bind; [apply nt_get|]. intros p. apply nt_bind; [case (p_eof p); [apply nt_ret|]; case (c_mode c); [| |apply nt_catch]; auto with nt|]. intros _. walk.
  apply nt_catch. walk.
Qed.
Hint Resolve nt_get_next : nt.
End N.
#[local] Hint Resolve nt_upd nt_fuel_of nt_vupd nt_vget nt_rupd nt_pupd nt_p_clear nt_p_error nt_on_rdr nt_invalid nt_read_line nt_ignore nt_get_next nt_convert nt_on_conv : nt.

Section P.
Context (c hc : cfg) (cap : nat -> nat -> nat) (Hm : c_mode c <> EThrow) (Hh : c_mode hc = c_mode c).
Lemma nt_strict : nt (strict_split c hc).
Proof.
  intros p. unfold strict_split. assert (H : c_mode hc <> EThrow) by congruence. pose proof (nt_split hc H 0 (r_delim (p_rdr p)) (sp_init, map Some (p_raw p) ++ [Some NUL])) as N.
  destruct (sp_split _ _ _ _) as [a [s m]|e s| |]; auto. destruct (sp_valid hc s); [exact I|]. apply nt_bind; auto with nt.
Qed.
Lemma nt_texts sm : nt (texts_of sm). Proof. unfold texts_of. walk. Qed.
Hint Resolve nt_strict nt_texts : nt.
Lemma nt_header : nt (header c hc). Proof. unfold header. walk. Qed.
Lemma nt_add : forall fs, nt (add_fields c fs). Proof. induction fs; cbn [add_fields]; walk. Qed.
Hint Resolve nt_add : nt.
Lemma nt_split_header : nt (split_header_data c hc). Proof. unfold split_header_data. walk. Qed.
Hint Resolve nt_split_header : nt.
Lemma nt_field f : nt (field_exists c hc f). Proof. unfold field_exists. walk. Qed.
Lemma nt_columns all : forall fs, nt (find_columns c all fs). Proof. induction fs; cbn [find_columns]; walk. Qed.
Hint Resolve nt_columns : nt.
Lemma nt_use fs : nt (use_fields c hc cap fs). Proof. unfold use_fields. cbv zeta. walk. Qed.
Lemma nt_on_p {A} (m : M prs A) : nt m -> nt (on_p m). Proof. unfold on_p. apply nt_zoom. Qed.
Lemma nt_log e : nt (log e). Proof. apply nt_modify. Qed.
Hint Resolve nt_on_p nt_log : nt.
Lemma nt_invoke xs cb : nt (try_invoke c xs cb). Proof. unfold try_invoke. walk. Qed.
Hint Resolve nt_invoke : nt.
Lemma nt_try es cb : nt (try_next c cap es cb). Proof. unfold try_next. walk. Qed.
Lemma nt_same es : nt (try_same c es). Proof. unfold try_same. walk. Qed.
Hint Resolve nt_try nt_same : nt.
Lemma nt_else vs es cb : nt (or_else c vs es cb). Proof. unfold or_else. walk. Qed.
Lemma nt_on_error k : nt (on_error c k). Proof. unfold on_error. walk. Qed.
Hint Resolve nt_else nt_on_error : nt.
Lemma nt_links : forall ls vs, nt (follow_links c vs ls). Proof. induction ls as [|[es cb|k] ls IH]; intros vs; cbn [follow_links]; walk. Qed.
Hint Resolve nt_links : nt.
Lemma nt_chain es cb ls : nt (chain_call c cap es cb ls). Proof. unfold chain_call. walk. Qed.
Lemma nt_get_as ts : nt (get_next_as c cap ts). Proof. unfold get_next_as. walk. Qed.
Hint Resolve nt_get_as : nt.
Lemma nt_object ts : nt (get_object c cap ts). Proof. unfold get_object. walk. Qed.
Section I.
Context {A : Type} (getv : M prs A) (zero : A) (Hg : nt getv) {W : Type} (body : A -> M (prs * W) bool) (Hb : forall a, nt (body a)).
Lemma nt_iter_next it : nt (iter_next getv it). Proof. unfold iter_next. walk. Qed.
Lemma nt_iter_loop : forall f it, nt (iter_loop getv zero body f it).
Proof.
  induction f as [|f IH]; intros it; cbn [iter_loop]; [apply nt_fuel|]. destruct (iter_equal it _); [apply nt_ret|]. apply nt_bind; [apply Hb|]. intros [|]; [|apply nt_ret].
  apply nt_bind; [apply nt_zoom; apply nt_iter_next|]. intros it'. apply IH.
Qed.
Lemma nt_range_for f : nt (range_for getv zero body f).
Proof. unfold range_for. apply nt_bind; [apply nt_zoom; unfold iter_begin; apply nt_iter_next|]. intros it. apply nt_iter_loop. Qed.
End I.
End P.
