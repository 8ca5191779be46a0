(** C57 for everything that can be called on a parser: get_next, try_next chains, ignore_next, the header functions.
    The counted functions are those of Parser.v and SessionApi.v, as in ReadCost.v.  Looking a name up among the names of the
    header is not counted (nor are conversions and callbacks). *)
From Verif Require Import Base Setup Splitter SplitPure ListFacts SetupProofs Extract Converter Reader LineSpec LineProofs GetLineProofs ReaderBase ReaderInv ReaderEscape ReaderParse Parser ParserApi ParserInv ParserOpen SessionApi SessionSpec SessionHeader SafeProofs PropSafe NoThrow SplitCost SplitWork ReadCost ReadWork RowWork PortWork PropReadWork.

(** ** Counting *)
Section Counted.
Context (c hc : cfg) (cap : nat -> nat -> nat).
(** parser.hpp:97-99 *)
Definition n_ignore_next : M (prs * nat) bool := n_on_rdr (n_read_next c cap).
(** parser.hpp:165-168: the copy. *)
Definition n_raw_header : M (prs * nat) str := p <- ask ;; spend (length (p_raw p)) ;; free raw_header.
(** parser.hpp:532-549: the copy of raw_header_ and the split. *)
Definition n_strict_split : M (prs * nat) (option (sp * list (option ascii))) :=
  p <- ask ;; spend (S (length (p_raw p))) ;;
  fun t =>
    match n_split hc 0 (r_delim (p_rdr (fst t))) (sp_init, map Some (p_raw (fst t)) ++ [Some NUL], snd t) with
    | Ok _ (s, m, n) =>
        if sp_valid hc s then Ok (Some (s, m)) (fst t, n)
        else free (p_error c (msg_header_split (match s_err s with Some e => e | None => [] end)) ;; ret None) (fst t, n)
    | Throw e (_, n) => free (fun p => throw (msg_header_split e p) p) (fst t, n)
    | UB w => UB w
    | OutOfFuel => OutOfFuel
    end.
(** The columns are copied: charged as if every byte of the header was. *)
Definition n_texts_of (sm : sp * list (option ascii)) : M (prs * nat) (list str) :=
  p <- ask ;; spend (S (length (p_raw p))) ;; free (texts_of sm).
(** parser.hpp:170-187 *)
Definition n_header : M (prs * nat) (list str) :=
  free (p_clear_error) ;;
  o <- n_strict_split ;;
  match o with
  | Some sm => n_texts_of sm
  | None => ret []
  end.
(** parser.hpp:551-569 *)
Definition n_split_header_data : M (prs * nat) unit :=
  o <- n_strict_split ;;
  match o with
  | Some sm => l <- n_texts_of sm ;; free (add_fields c l)
  | None => ret tt
  end.
(** parser.hpp:189-202 *)
Definition n_field_exists (f : str) : M (prs * nat) bool :=
  free (p_clear_error) ;;
  p <- ask ;;
  (match p_header p with [] => n_split_header_data | _ => ret tt end) ;;
  p <- ask ;;
  if negb (p_valid c p) then ret false
  else ret (match header_index f p with Some _ => true | None => false end).
(** parser.hpp:204-249 *)
Definition n_use_fields (fs : list str) : M (prs * nat) unit :=
  free (p_clear_error) ;;
  p <- ask ;;
  (match p_header p, p_eof p with [], false => n_split_header_data | _, _ => ret tt end) ;;
  p <- ask ;;
  if negb (p_valid c p) then ret tt
  else
    match fs with
    | [] => free (p_error c msg_use_fields)
    | _ =>
        o <- free (find_columns c fs fs) ;;
        match o with
        | None => ret tt
        | Some mapping =>
            let n := length (p_header p) in
            free (on_rdr (rupd (fun r => rset_conv (vup_map mapping n (r_conv r)) r))) ;;
            free (on_rdr (rupd (fun r => rset_nconv (vup_map mapping n (r_nconv r)) r))) ;;
            p <- ask ;;
            if p_line p =? 0 then n_ignore_next ;; ret tt else ret tt
        end
    end.
(** parser.hpp:348-525: of a chain, only try_next reads. *)
Definition n_on_p {A} (m : M (prs * nat) A) : M (chain * nat) A := inside fst (fun p t => (p, snd t)) m.
Definition n_try_next (es : list elem) (cb : callback) : M (chain * nat) (list (option (list slot))) :=
  xs <- n_on_p (n_get_next c cap es) ;;
  t <- ask ;;
  (if p_valid c (fst t) then free (try_invoke c xs cb) else ret tt) ;;
  t <- ask ;;
  ret [if p_valid c (fst t) then Some xs else None].
Definition n_chain_call (es : list elem) (cb : callback) (ls : list link) : M (chain * nat) (list (option (list slot))) :=
  vs <- n_try_next es cb ;; free (follow_links c vs ls).

Lemma ct_ignore : counts n_ignore_next (ignore_next c cap).
Proof. pose proof (ct_read_next c cap). unfold n_ignore_next, ignore_next. ct. Qed.
Lemma ct_raw : counts n_raw_header raw_header. Proof. unfold n_raw_header. ct. Qed.
Lemma ct_strict : counts n_strict_split (strict_split c hc).
Proof.
  unfold n_strict_split. apply ct_look. intros p0. apply ct_spend. clear p0. intros p n. unfold strict_split. cbn [fst snd].
  pose proof (er_split hc 0 (r_delim (p_rdr p)) (sp_init, map Some (p_raw p) ++ [Some NUL]) n) as E. unfold erased in E.
  rewrite <- E. destruct (n_split hc 0 _ _) as [u [[s m] k]|e [[s m] k]|w|]; cbn [forget fst]; try reflexivity.
  destruct (sp_valid hc s); [reflexivity|]. exact (ct_free _ p k).
Qed.
Lemma ct_texts sm : counts (n_texts_of sm) (texts_of sm). Proof. unfold n_texts_of. ct. Qed.
Lemma ct_header : counts n_header (header c hc).
Proof. pose proof ct_strict. pose proof ct_texts. unfold n_header, header. apply ct_bind; [ct|intros _]. apply ct_bind; [ct|intros [sm|]]; ct. Qed.
Lemma ct_split_header : counts n_split_header_data (split_header_data c hc).
Proof. pose proof ct_strict. pose proof ct_texts. unfold n_split_header_data, split_header_data. apply ct_bind; [ct|intros [sm|]]; ct. Qed.
Lemma ct_field f : counts (n_field_exists f) (field_exists c hc f).
Proof. pose proof ct_split_header. unfold n_field_exists, field_exists. ct. Qed.
Lemma ct_use fs : counts (n_use_fields fs) (use_fields c hc cap fs).
Proof.
  pose proof ct_split_header. pose proof ct_ignore. unfold n_use_fields, use_fields. apply ct_bind; [ct|intros _]. apply ct_ask; intros p.
  apply ct_bind; [destruct (p_header p); [destruct (p_eof p)|]; ct|intros _]. apply ct_ask; intros q. destruct (negb _); [ct|]. destruct fs as [|f fs]; [ct|].
  apply ct_bind; [ct|intros [mp|]]; [|ct]. cbv zeta. ct.
Qed.
Lemma ct_on_p {A} (m' : M (prs * nat) A) m : counts m' m -> counts (n_on_p m') (on_p m). Proof. apply ct_inside. Qed.
Lemma ct_chain es cb ls : counts (n_chain_call es cb ls) (chain_call c cap es cb ls).
Proof.
  unfold n_chain_call, chain_call. apply ct_bind; [|intros vs; apply ct_free]. unfold n_try_next, try_next.
  apply ct_bind; [apply ct_on_p, ct_get_next|intros xs]. ct.
Qed.

(** The work of one call from the state [p], and of calls one after another.  [None]: undefined behaviour. *)
Definition spent_by {S A} (o : res (S * nat) A) : option nat := match o with Ok _ (_, n) | Throw _ (_, n) => Some n | _ => None end.
Definition call_work (p : prs) (k : call) : option nat :=
  match k with
  | CGet es => spent_by (n_get_next c cap es (p, 0))
  | CTry es cb ls => spent_by (n_chain_call es cb ls (p, [], 0))
  | CIgnore => spent_by (n_ignore_next (p, 0))
  | CRaw => spent_by (n_raw_header (p, 0))
  | CHeader => spent_by (n_header (p, 0))
  | CField f => spent_by (n_field_exists f (p, 0))
  | CUse fs => spent_by (n_use_fields fs (p, 0))
  end.
Fixpoint session_work (p : prs) (ks : list call) : option nat :=
  match ks with
  | [] => Some 0
  | k :: ks' =>
      match call_work p k, session_work (snd (do_call c hc cap p k)) ks' with
      | Some a, Some b => Some (a + b)
      | _, _ => None
      end
  end.
End Counted.

(** The counters only count. *)
Theorem C57_work_is_of_calls : forall c hc cap es cb ls f fs,
  (forall p n, plain (n_get_next c cap es (p, n)) = get_next c cap es p) /\
  (forall t n, plain (n_chain_call c cap es cb ls (t, n)) = chain_call c cap es cb ls t) /\
  (forall p n, plain (n_ignore_next c cap (p, n)) = ignore_next c cap p) /\
  (forall p n, plain (n_raw_header (p, n)) = raw_header p) /\
  (forall p n, plain (n_header c hc (p, n)) = header c hc p) /\
  (forall p n, plain (n_field_exists c hc f (p, n)) = field_exists c hc f p) /\
  (forall p n, plain (n_use_fields c hc cap fs (p, n)) = use_fields c hc cap fs p).
Proof.
  intros. split; [apply ct_get_next|]. split; [apply ct_chain|]. split; [apply ct_ignore|]. split; [apply ct_raw|].
  split; [apply ct_header|]. split; [apply ct_field|apply ct_use].
Qed.
Print Assumptions C57_work_is_of_calls.

(** ** What stays *)
(** raw_header_ is set by the constructor only. *)
Definition raws {A} (m : M prs A) : Prop := forall p, match m p with Ok _ p' | Throw _ p' => p_raw p' = p_raw p | _ => True end.
Lemma raws_ret {A} (a : A) : raws (ret a). Proof. intros p. reflexivity. Qed.
Lemma raws_bind {A B} (m : M prs A) (k : A -> M prs B) : raws m -> (forall a, raws (k a)) -> raws (bind m k).
Proof.
  intros H K p. unfold bind. specialize (H p). destruct (m p) as [a p'|e p'| |]; auto. specialize (K a p'). destruct (k a p'); auto; congruence.
Qed.
Lemma raws_catch {A} (m : M prs A) h : raws m -> (forall e, raws (h e)) -> raws (catch m h).
Proof.
  intros H K p. unfold catch. specialize (H p). destruct (m p) as [a p'|e p'| |]; auto. specialize (K e p'). destruct (h e p'); auto; congruence.
Qed.
Lemma raws_get : raws get. Proof. intros p. reflexivity. Qed.
Lemma raws_rdr {A} (m : M rdr A) : raws (on_rdr m). Proof. intros p. unfold on_rdr, zoom. destruct (m (p_rdr p)); reflexivity || exact Logic.I. Qed.
Lemma raws_err e : raws (pupd (pset_err e)). Proof. intros p. reflexivity. Qed.
Lemma raws_eof b : raws (pupd (pset_eof b)). Proof. intros p. reflexivity. Qed.
Lemma raws_throw {A} e : raws (throw (A:=A) e). Proof. intros p. reflexivity. Qed.
Lemma raws_p_error c msg : raws (p_error c msg).
Proof. intros p. unfold p_error, bind, get, pupd, modify, throw. destruct (c_mode c); reflexivity. Qed.
Lemma raws_line c cap : raws (read_line c cap). Proof. apply raws_bind; [apply raws_rdr|intros b; apply raws_eof]. Qed.
Lemma raws_handle c : raws (handle_error_invalid_conversion c).
Proof. intros p. unfold handle_error_invalid_conversion, bind, get, pupd, modify, ret. destruct (c_mode c); reflexivity. Qed.
Lemma raws_rethrow {A} e : raws (decorate_rethrow (A:=A) e). Proof. intros p. reflexivity. Qed.
Lemma raws_get_next c cap es : raws (get_next c cap es).
Proof.
  unfold get_next. apply raws_bind; [apply raws_get|intros p]. apply raws_bind.
  { destruct (p_eof p); [apply raws_ret|]. destruct (c_mode c); try apply raws_rdr. apply raws_catch; [apply raws_rdr|intros e]. apply raws_bind; [apply raws_line|intros u; apply raws_rethrow]. }
  intros u. apply raws_bind; [apply raws_rdr|intros u1]. apply raws_bind; [apply raws_get|intros q]. destruct (negb _).
  { apply raws_bind; [apply raws_handle|intros u2]. apply raws_bind; [apply raws_line|intros u3; apply raws_ret]. }
  apply raws_bind; [apply raws_err|intros u2]. destruct (p_eof q).
  { apply raws_bind; [apply raws_p_error|intros u3; apply raws_ret]. }
  assert (PL : raws (xs <- on_rdr (on_conv (cv_convert c es)) ;; p <- get ;; (if negb (cv_valid c (r_conv (p_rdr p))) then handle_error_invalid_conversion c else ret tt) ;; read_line c cap ;; ret xs)).
  { apply raws_bind; [apply raws_rdr|intros xs]. apply raws_bind; [apply raws_get|intros r]. apply raws_bind; [destruct (negb _); [apply raws_handle|apply raws_ret]|intros u3].
    apply raws_bind; [apply raws_line|intros u4; apply raws_ret]. }
  destruct (c_mode c); [exact PL|exact PL|]. apply raws_catch.
  - apply raws_bind; [apply raws_rdr|intros xs]. apply raws_bind; [apply raws_line|intros u3; apply raws_ret].
  - intros e. apply raws_bind; [apply raws_line|intros u3; apply raws_rethrow].
Qed.

(** The rest of a chain neither reads nor moves. *)
Definition stays (p p' : prs) : Prop :=
  p_eof p' = p_eof p /\ p_raw p' = p_raw p /\ unread (p_rdr p') = unread (p_rdr p) /\ r_nlsize (p_rdr p') = r_nlsize (p_rdr p) /\ (direct (p_rdr p) -> direct (p_rdr p')).
Lemma stays_refl p : stays p p. Proof. repeat (apply conj); auto. Qed.
Lemma stays_trans p q r : stays p q -> stays q r -> stays p r.
Proof. intros (A & B & C & D & E) (A1 & B1 & C1 & D1 & E1). repeat (apply conj); try congruence. auto. Qed.
Definition still {A} (m : M prs A) : Prop := forall p, match m p with Ok _ p' | Throw _ p' => stays p p' | _ => True end.
Definition idle {A} (m : M chain A) : Prop := forall t, match m t with Ok _ t' | Throw _ t' => stays (fst t) (fst t') | _ => True end.
Lemma idle_ret {A} (a : A) : idle (ret a). Proof. intros t. apply stays_refl. Qed.
Lemma idle_bind {A B} (m : M chain A) (k : A -> M chain B) : idle m -> (forall a, idle (k a)) -> idle (bind m k).
Proof.
  intros H K t. unfold bind. specialize (H t). destruct (m t) as [a t'|e t'| |]; auto. specialize (K a t'). destruct (k a t'); auto; eapply stays_trans; eassumption.
Qed.
Lemma idle_get : idle get. Proof. intros t. apply stays_refl. Qed.
Lemma idle_log e : idle (log e). Proof. intros t. apply stays_refl. Qed.
Lemma idle_p {A} (m : M prs A) : still m -> idle (on_p m).
Proof. intros H t. unfold on_p, zoom. specialize (H (fst t)). destruct (m (fst t)); exact H || exact Logic.I. Qed.
Lemma still_error c msg : still (p_error c msg).
Proof. intros p. unfold p_error, bind, get, pupd, modify, throw. destruct (c_mode c); repeat (apply conj); auto. Qed.
Lemma still_same c es : still (try_same c es).
Proof.
  intros p. unfold try_same, p_clear_error, bind, pupd, modify, on_rdr, zoom, on_conv, get. cbn [p_rdr pset_err].
  destruct (cv_convert c es _) as [xs [v cs]|e [v cs]|w|]; auto.
  2:{ repeat (apply conj); auto. }
  unfold handle_error_invalid_conversion, bind, get, pupd, modify, ret. destruct (negb _); [destruct (c_mode c)|]; repeat (apply conj); auto.
Qed.
Lemma idle_invoke c xs cb : idle (try_invoke c xs cb).
Proof.
  destruct cb as [|k|k f]; cbn [try_invoke]; [apply idle_ret|apply idle_log|]. apply idle_bind; [apply idle_log|intros u].
  destruct (f xs); [apply idle_ret|apply idle_p, still_error].
Qed.
Lemma idle_else c vs es cb : idle (or_else c vs es cb).
Proof.
  unfold or_else. apply idle_bind; [apply idle_get|intros t]. apply idle_bind.
  { destruct (p_valid _ _); [apply idle_ret|]. apply idle_bind; [apply idle_p, still_same|intros xs]. apply idle_bind; [apply idle_get|intros t1].
    destruct (negb _); [apply idle_ret|]. apply idle_bind; [apply idle_invoke|intros u; apply idle_ret]. }
  intros v. apply idle_bind; [apply idle_get|intros t1; apply idle_ret].
Qed.
Lemma idle_links c : forall ls vs, idle (follow_links c vs ls).
Proof.
  induction ls as [|[es cb|k] ls IH]; intros vs; cbn [follow_links]; [apply idle_ret| |].
  - apply idle_bind; [apply idle_else|intros vs'; apply IH].
  - apply idle_bind; [|intros u; apply IH]. unfold on_error. apply idle_bind; [apply idle_get|intros t]. destruct (p_valid _ _); [apply idle_ret|apply idle_log].
Qed.

(** ** How much *)
Section C.
Context (c hc : cfg) (Hc : cfg_ok c) (HS : header_setup c hc) (d : str) (Hd : nulfree d) (cap : nat -> nat -> nat) (Hcap : forall n need, need <= cap n need).
Notation G p := (2 * (length d + 13) * (length (p_raw p) + 1)).
(** A counted computation that neither reads nor moves. *)
Definition cheap (p : prs) (n K : nat) {A} (o : res (prs * nat) A) : Prop := ob o (fun _ p' n' => alikep p p' /\ n' <= n + K) (fun p' n' => alikep p p' /\ n' <= n + K).
Lemma cheap_free {A} (m : M prs A) p n : ends_as p (m p) -> cheap p n 0 (free m (p, n)).
Proof. intros H. unfold cheap, free, zoom. cbn [fst snd]. destruct (m p); cbn [ob ends_as] in *; try contradiction; split; auto; lia. Qed.
Lemma cheap_ret {A} (a : A) p n K : cheap p n K (ret a (p, n)).
Proof. split; [repeat split|lia]. Qed.
Lemma cheap_bind {A B} (m : M (prs * nat) A) (k : A -> M (prs * nat) B) p n K1 K2 : cheap p n K1 (m (p, n)) ->
  (forall a p' n', m (p, n) = Ok a (p', n') -> alikep p p' -> cheap p' n' K2 (k a (p', n'))) -> cheap p n (K1 + K2) (bind m k (p, n)).
Proof.
  unfold cheap, bind. intros H K. destruct (m (p, n)) as [a [p' n']|e [p' n']|w|]; cbn [ob] in *; auto.
  - destruct H as [H1 H2]. specialize (K a p' n' eq_refl H1). destruct (k a (p', n')) as [b [p2 n2]|e [p2 n2]|w|]; cbn [ob] in *; auto; destruct K as [K1' K2']; (split; [eapply alikep_trans; eassumption|lia]).
  - destruct H as [H1 H2]. split; [exact H1|lia].
Qed.
Lemma cheap_ask {B} (k : prs -> M (prs * nat) B) p n K : cheap p n K (k p (p, n)) -> cheap p n K (bind ask k (p, n)).
Proof. exact (fun x => x). Qed.
Lemma cheap_spend {B} x (k : unit -> M (prs * nat) B) p n K : cheap p (n + x) K (k tt (p, n + x)) -> cheap p n (x + K) (bind (spend x) k (p, n)).
Proof. unfold cheap. intros H. change (bind (spend x) k (p, n)) with (k tt (p, n + x)). destruct (k tt (p, n + x)) as [b [p2 n2]|e [p2 n2]|w|]; cbn [ob] in *; auto; destruct H; (split; [assumption|lia]). Qed.
Lemma cheap_more {A} p n K1 K2 (o : res (prs * nat) A) : K1 <= K2 -> cheap p n K1 o -> cheap p n K2 o.
Proof. unfold cheap. intros L H. destruct o as [a [p' n']|e [p' n']|w|]; cbn [ob] in *; auto; destruct H; (split; [assumption|lia]). Qed.

Notation SP p := (S (length (p_raw p)) + (1 + (length d + 10) * (length (p_raw p) + 1))).
Lemma strict_cheap p n : r_delim (p_rdr p) = d -> cheap p n (SP p) (n_strict_split c hc (p, n)).
Proof.
  intros Ed. unfold n_strict_split. apply cheap_ask, cheap_spend. cbn [fst snd]. rewrite Ed.
  pose proof (split_any hc (hc_ok c hc Hc HS) d Hd 0 sp_init (map Some (p_raw p) ++ [Some NUL]) (n + S (length (p_raw p))) eq_refl) as C.
  rewrite app_length, map_length in C. cbn [length] in C.
  destruct (n_split hc 0 d _) as [u [[s m] k]|e [[s m] k]|w|]; cbn [oc] in C; unfold cheap; auto.
  - destruct (sp_valid hc s).
    + cbn [ob]. split; [repeat split|]. lia.
    + match goal with |- ob (free ?m (p, k)) _ _ => assert (H : cheap p k 0 (free m (p, k))) by (apply cheap_free, ends_bind; [apply p_error_as|intros; apply ends_ret]) end.
      unfold cheap in H. destruct (free _ (p, k)) as [a [p' n']|e [p' n']|w|]; cbn [ob] in *; auto; destruct H; (split; [assumption|lia]).
  - cbn [free zoom fst snd throw ob]. unfold free, zoom, throw. cbn [fst snd ob]. split; [repeat split|]. lia.
Qed.
Lemma strict_texts p n sm p' n' : r_delim (p_rdr p) = d -> n_strict_split c hc (p, n) = Ok (Some sm) (p', n') -> forall q, ends_as q (texts_of sm q).
Proof.
  intros Ed E. pose proof (ct_strict c hc p n) as CT. rewrite E in CT. cbn [plain fst] in CT. symmetry in CT.
  destruct (proj2 (strict_as c hc d Hc Hd HS p Ed) sm p' CT) as (l & El). intros q. unfold texts_of. rewrite El. apply ends_ret.
Qed.
Lemma texts_cheap sm p n : (forall q, ends_as q (texts_of sm q)) -> cheap p n (S (length (p_raw p))) (n_texts_of sm (p, n)).
Proof. intros H. unfold n_texts_of. apply cheap_ask. eapply cheap_more; [|apply cheap_spend, cheap_free, H]. lia. Qed.
Lemma header_cheap p n : r_delim (p_rdr p) = d -> cheap p n (G p) (n_header c hc (p, n)).
Proof.
  intros Ed. unfold n_header. eapply (cheap_more _ _ (0 + (SP p + S (length (p_raw p))))); [nia|].
  apply cheap_bind; [apply cheap_free; repeat split|]. intros u p1 n1 E1 A1. pose proof A1 as (R1 & _ & W1).
  rewrite <- W1. apply cheap_bind; [apply strict_cheap; congruence|]. intros [sm|] p2 n2 E2 A2; [|apply cheap_ret].
  pose proof A2 as (_ & _ & W2). rewrite <- W2. apply texts_cheap. eapply strict_texts; [|exact E2]. congruence.
Qed.
Lemma split_header_cheap p n : r_delim (p_rdr p) = d -> cheap p n (G p) (n_split_header_data c hc (p, n)).
Proof.
  intros Ed. unfold n_split_header_data. eapply (cheap_more _ _ (SP p + (S (length (p_raw p)) + 0))); [nia|].
  apply cheap_bind; [apply strict_cheap; exact Ed|]. intros [sm|] p2 n2 E2 A2; [|apply cheap_ret].
  pose proof A2 as (_ & _ & W2). rewrite <- W2. apply cheap_bind; [apply texts_cheap; eapply strict_texts; eassumption|].
  intros l p3 n3 E3 A3. apply cheap_free, add_fields_as.
Qed.
Lemma field_cheap f p n : r_delim (p_rdr p) = d -> cheap p n (G p) (n_field_exists c hc f (p, n)).
Proof.
  intros Ed. unfold n_field_exists. apply (cheap_bind _ _ p n 0 (G p)); [apply cheap_free; repeat split|]. intros u p1 n1 E1 A1. pose proof A1 as (R1 & _ & W1).
  apply cheap_ask. eapply (cheap_more _ _ (G p + 0)); [lia|]. apply cheap_bind.
  - rewrite <- W1. destruct (p_header p1); [apply split_header_cheap; congruence|apply cheap_ret].
  - intros u2 p2 n2 E2 A2. apply cheap_ask. destruct (negb _); apply cheap_ret.
Qed.

Context (Q L : nat) (HQ : forall q, allowed c q -> q <= L -> q <= Q).
Notation F := ((Q + 1) * (4 * length d + 400)).
Notation U p := (length (unread (p_rdr p))).
(** A call from [p] that leaves [p'], for the work [w]. *)
Definition costs (p : prs) (K : nat) (p' : prs) (w : nat) : Prop :=
  direct (p_rdr p') /\ U p' <= U p /\ p_raw p' = p_raw p /\ w + F * rest p' <= F * (rest p + 2) + K.
Lemma alike_rest p p' : alikep p p' -> rest p' = rest p /\ U p' = U p.
Proof. intros (A & B & _). unfold rest. rewrite A, B. auto. Qed.
Lemma ignore_costs p n : pinv c d p -> direct (p_rdr p) ->
  ob (n_ignore_next c cap (p, n)) (fun _ p' n' => direct (p_rdr p') /\ U p' <= U p /\ p_raw p' = p_raw p /\ n' + F * rest p' <= n + F * (rest p + 1)) (fun _ _ => False).
Proof.
  intros (I & PU & PF) D. unfold n_ignore_next, n_on_rdr. apply ob_inside.
  eapply ob_weaken; [apply (read_next_cost c cap Hcap); apply (rinv_has c d); assumption| |auto].
  intros b r' n' (D' & U' & N' & S'). cbn [p_rdr pset_rdr p_raw]. split; [exact D'|]. split; [exact U'|]. split; [reflexivity|].
  assert (B : 400 <= F) by nia. set (f := F) in *. clearbody f. unfold rest, pot. cbn [p_rdr pset_rdr p_eof]. clear - B N' S' U'.
  destruct (p_eof p).
  - nia.
  - destruct b; nia.
Qed.
Lemma sinv_pinv NB p : sinv c d NB p -> pinv c d p. Proof. intros (P & _). exact P. Qed.

Lemma paid_costs p n p' n' : paid d Q p n p' n' -> n = 0 -> p_raw p' = p_raw p -> costs p 0 p' n'.
Proof. intros (A & B & C) -> R. unfold costs. split; [exact A|]. split; [exact B|]. split; [exact R|lia]. Qed.
Lemma cheap_costs {A} p K (o : res (prs * nat) A) : direct (p_rdr p) -> cheap p 0 K o -> ob o (fun _ => costs p K) (costs p K).
Proof.
  intros D. unfold cheap. destruct o as [a [p' n']|e [p' n']|w|]; cbn [ob]; auto; intros [A1 A2]; pose proof (alike_rest _ _ A1) as (R1 & R2); destruct A1 as (A3 & A4 & A5);
    (split; [rewrite A3; exact D|]; split; [lia|]; split; [exact A5|]; rewrite R1; nia).
Qed.
Lemma get_costs es p : pinv c d p -> direct (p_rdr p) -> U p <= L -> ob (n_get_next c cap es (p, 0)) (fun _ => costs p 0) (costs p 0).
Proof.
  intros P D UL. pose proof (get_next_cost c Hc d Hd cap Hcap Q L HQ es p 0 P D UL) as H. pose proof (ct_get_next c cap es p 0) as CT. pose proof (raws_get_next c cap es p) as RW.
  destruct (n_get_next c cap es (p, 0)) as [a [p' n']|e [p' n']|w|]; cbn [ob plain fst] in *; auto; rewrite <- CT in RW; eapply paid_costs; eauto.
Qed.
Lemma chain_costs es cb ls p : pinv c d p -> direct (p_rdr p) -> U p <= L ->
  ob (n_chain_call c cap es cb ls (p, [], 0)) (fun _ t => costs p 0 (fst t)) (fun t => costs p 0 (fst t)).
Proof.
  intros P D UL. pose proof (get_costs es p P D UL) as H.
  assert (K : forall {A B} (m : M (chain * nat) A) (k : A -> M chain B), ob (m (p, [], 0)) (fun _ t => costs p 0 (fst t)) (fun t => costs p 0 (fst t)) -> (forall a, idle (k a)) ->
    ob (bind m (fun a => free (k a)) (p, [], 0)) (fun _ t => costs p 0 (fst t)) (fun t => costs p 0 (fst t))).
  { intros A B m k H1 I. apply ob_bind. eapply ob_weaken; [exact H1| |auto]. intros a [q l] n0 C. specialize (I a (q, l)). unfold free, zoom. cbn [fst snd] in *.
    destruct (k a (q, l)) as [b t'|e t'|w|]; cbn [ob] in *; auto; destruct I as (S1 & S2 & S3 & S4 & S5); destruct C as (C1 & C2 & C3 & C4);
      (split; [apply S5; exact C1|]; split; [rewrite S3; exact C2|]; split; [congruence|]; unfold rest, pot in *; rewrite S1, S3, S4; exact C4). }
  unfold n_chain_call. apply K; [|apply idle_links].
  assert (X : n_try_next c cap es cb (p, [], 0) = bind (n_on_p (n_get_next c cap es)) (fun xs => free (t <- get ;; (if p_valid c (fst t) then try_invoke c xs cb else ret tt) ;; t <- get ;; ret [if p_valid c (fst t) then Some xs else None])) (p, [], 0)).
  { unfold n_try_next, bind. destruct (n_on_p _ _) as [xs [t n]|e s|w|]; try reflexivity. unfold free, zoom, ask, gets, get, ret. cbn [fst snd].
    destruct (p_valid c (fst t)); cbn [fst snd]; [destruct (try_invoke c xs cb t)|]; reflexivity. }
  rewrite X. apply K.
  - unfold n_on_p. apply ob_inside. cbn [fst snd]. exact H.
  - intros xs. apply idle_bind; [apply idle_get|intros t]. apply idle_bind; [destruct (p_valid _ _); [apply idle_invoke|apply idle_ret]|intros u]. apply idle_bind; [apply idle_get|intros t1; apply idle_ret].
Qed.
Lemma use_costs NB fs p : sinv c d NB p -> direct (p_rdr p) -> ob (n_use_fields c hc cap fs (p, 0)) (fun _ => costs p (G p)) (costs p (G p)).
Proof.
  intros SI D. pose proof (sinv_delim c d NB p SI) as Ed. unfold n_use_fields.
  assert (H1 : cheap p 0 (G p) (bind (free p_clear_error) (fun _ => p0 <- ask ;; (match p_header p0, p_eof p0 with [], false => n_split_header_data c hc | _, _ => ret tt end)) (p, 0))).
  { apply (cheap_bind _ _ p 0 0 (G p)); [apply cheap_free; repeat split|]. intros u p1 n1 E1 A1. pose proof A1 as (R1 & _ & W1). apply cheap_ask.
    rewrite <- W1. destruct (p_header p1); [destruct (p_eof p1)|]; try apply cheap_ret. apply split_header_cheap. congruence. }
  match goal with |- ob (bind ?m ?k (p, 0)) _ _ => set (kk := k) end.
  assert (E : forall x, bind (free p_clear_error) kk (p, x) = bind (bind (free p_clear_error) (fun _ => p0 <- ask ;; (match p_header p0, p_eof p0 with [], false => n_split_header_data c hc | _, _ => ret tt end)))
     (fun _ => p <- ask ;; if negb (p_valid c p) then ret tt else match fs with
       | [] => free (p_error c msg_use_fields)
       | _ => o <- free (find_columns c fs fs) ;; match o with None => ret tt | Some mapping =>
            free (on_rdr (rupd (fun r => rset_conv (vup_map mapping (length (p_header p)) (r_conv r)) r))) ;;
            free (on_rdr (rupd (fun r => rset_nconv (vup_map mapping (length (p_header p)) (r_nconv r)) r))) ;;
            p <- ask ;; if p_line p =? 0 then n_ignore_next c cap ;; ret tt else ret tt end end) (p, x)).
  { intros x. unfold kk, bind, ask, gets. destruct (free p_clear_error (p, x)) as [u [q y]|e s|w|]; try reflexivity. }
  rewrite E. clear E kk. apply ob_bind. unfold cheap in H1. eapply ob_weaken; [exact H1| |].
  2:{ intros p1 n1 H. pose proof (cheap_costs p (G p) (Throw (A:=unit) [] (p1, n1)) D H) as K. exact K. }
  intros u p1 n1 H. pose proof (cheap_costs p (G p) (Ok tt (p1, n1)) D H) as C1. cbn [ob] in C1. destruct H as [A1 N1].
  assert (SI1 : sinv c d NB p1) by (destruct A1 as (A & B & _); eapply sinv_eq; eauto).
  apply ob_bind, ob_ask. destruct (negb _); [apply ob_ret; exact C1|].
  assert (FR : forall {A} (m : M prs A), ends_as p1 (m p1) -> ob (free m (p1, n1)) (fun _ p' n' => alikep p1 p' /\ n' = n1) (fun p' n' => costs p (G p) p' n')).
  { intros A m H. unfold free, zoom. cbn [fst snd]. destruct (m p1) as [a p'|e p'|w|]; cbn [ob ends_as] in *; try contradiction; [auto|].
    exact (cheap_costs p (G p) (Throw (A:=unit) [] (p', n1)) D (conj (alikep_trans _ _ _ A1 H) N1)). }
  destruct fs as [|f fs].
  { eapply ob_weaken; [apply FR, p_error_as| |auto]. intros a p' n' [A2 ->]. exact (cheap_costs p (G p) (Ok tt (p', n1)) D (conj (alikep_trans _ _ _ A1 A2) N1)). }
  destruct (find_columns_as c (f :: fs) (f :: fs) p1) as [FC1 FC2]. apply ob_bind. eapply ob_with; [apply ct_free|]. eapply ob_weaken; [apply FR; exact FC1| |auto].
  intros [mp|] p2 n2 [A2 ->] E2.
  2:{ apply ob_ret. exact (cheap_costs p (G p) (Ok tt (p2, n1)) D (conj (alikep_trans _ _ _ A1 A2) N1)). }
  destruct (FC2 mp p2 E2) as [-> FM]. apply ob_bind, ob_free; [|discriminate]. intros [] p3 E3. injection E3 as <-. apply ob_bind, ob_free; [|discriminate]. intros [] p4 E4. injection E4 as <-.
  pose proof (sinv_map c d NB mp (length (p_header p1)) p1 FM SI1) as SI4.
  match goal with |- ob _ _ _ => idtac end.
  set (p4 := pset_rdr (rset_nconv _ _) _). assert (SI4' : sinv c d NB p4) by exact SI4. assert (C4 : costs p (G p) p4 n1) by exact C1.
  assert (R4 : rest p4 = rest p /\ U p4 = U p /\ p_raw p4 = p_raw p).
  { destruct (alike_rest _ _ A1) as [X1 X2]. split; [exact X1|]. split; [exact X2|apply A1]. }
  clearbody p4. apply ob_bind, ob_ask. destruct (p_line p4 =? 0); [|apply ob_ret; exact C4].
  apply ob_bind. eapply ob_weaken; [apply ignore_costs; [eapply sinv_pinv; exact SI4'|apply C4]| |contradiction].
  intros b p5 n5 (D5 & U5 & W5 & N5). apply ob_ret. destruct R4 as (R4 & R5 & R6). rewrite R4 in N5. split; [exact D5|]. split; [lia|]. split; [congruence|]. lia.
Qed.
End C.

(** The calls that split the header. *)
Definition asks_header (k : call) : bool := match k with CRaw | CHeader | CField _ | CUse _ => true | _ => false end.

Section D.
Context (c hc : cfg) (Hc : cfg_ok c) (HS : header_setup c hc) (d : str) (Hd : nulfree d) (cap : nat -> nat -> nat) (Hcap : enough cap).
Context (Q L : nat) (HQ : forall q, allowed c q -> q <= L -> q <= Q).
Notation F := ((Q + 1) * (4 * length d + 400)).
Notation G p := (2 * (length d + 13) * (length (p_raw p) + 1)).
Definition stay_for (k : call) (p : prs) : nat := if asks_header k then G p else 0.
Lemma spent_state {A} (o : res (prs * nat) A) (m : res prs A) p K : plain o = m -> m <> OutOfFuel -> (forall w, m <> UB w) -> ob o (fun _ => costs d Q p K) (costs d Q p K) ->
  exists w, spent_by o = Some w /\ costs d Q p K (after p m) w.
Proof.
  intros E N1 N2 H. destruct o as [a [p' n']|e [p' n']|w|]; cbn [plain ob spent_by fst] in *; subst m; cbn [after]; try congruence; eauto.
Qed.
Lemma call_costs k p : permitted c cap p k -> call_ok k -> sinv c d (S L) p -> direct (p_rdr p) -> length (unread (p_rdr p)) <= L ->
  exists w, call_work c hc cap p k = Some w /\ costs d Q p (stay_for k p) (snd (do_call c hc cap p k)) w.
Proof.
  intros PM KO SI D UL. pose proof (sinv_pinv c d _ _ SI) as P. pose proof (sinv_delim c d _ _ SI) as Ed.
  destruct (call_safe c hc d cap (S L) Hc Hd Hcap HS k p PM KO SI) as [NC _]. unfold crashed in NC.
  destruct k as [es|es cb ls| | | |f|fs]; cbn [do_call call_work asks_header snd fst stay_for] in *.
  - eapply spent_state; [apply ct_get_next| | |apply (get_costs c Hc d Hd cap Hcap Q L HQ); assumption]; [intros X|intros w X]; apply NC; right; rewrite X; reflexivity.
  - pose proof (chain_costs c Hc d Hd cap Hcap Q L HQ es cb ls p P D UL) as H. assert (CT : plain (n_chain_call c cap es cb ls (p, [], 0)) = chain_call c cap es cb ls (p, [])) by apply ct_chain.
    destruct (n_chain_call c cap es cb ls (p, [], 0)) as [vs [[p' l] n']|e [[p' l] n']|w|]; cbn [plain ob spent_by fst] in *; rewrite <- CT in NC |- *; cbn [fst snd] in NC |- *; eauto; exfalso; apply NC; left; reflexivity.
  - eapply spent_state; [apply ct_ignore| | |]; [intros X; apply NC; left; rewrite X; reflexivity|intros w X; apply NC; left; rewrite X; reflexivity|].
    eapply ob_weaken; [apply (ignore_costs c d cap Hcap Q); assumption| |contradiction]. intros b p' n' (A & B & C & E). unfold costs. split; [exact A|]. split; [exact B|]. split; [exact C|]. cbn in E. lia.
  - exists (length (p_raw p)). split; [reflexivity|]. change (after p (raw_header p)) with p. unfold costs, stay_for. cbn [asks_header]. split; [exact D|]. split; [lia|]. split; [reflexivity|].
    set (f := F). clearbody f. rewrite Nat.mul_add_distr_l. assert (length (p_raw p) <= G p) by nia. lia.
  - eapply spent_state; [apply ct_header| | |eapply cheap_costs; [exact D|apply (header_cheap c hc Hc HS d Hd); exact Ed]]; [intros X|intros w X]; apply NC; left; rewrite X; reflexivity.
  - eapply spent_state; [apply ct_field| | |eapply cheap_costs; [exact D|apply (field_cheap c hc Hc HS d Hd); exact Ed]]; [intros X|intros w X]; apply NC; left; rewrite X; reflexivity.
  - eapply spent_state; [apply ct_use| | |eapply (use_costs c hc Hc HS d Hd cap Hcap Q); eassumption]; [intros X|intros w X]; apply NC; left; rewrite X; reflexivity.
Qed.
Lemma calls_costs : forall ks p, all_covered c hc cap p ks -> Forall call_ok ks -> sinv c d (S L) p -> direct (p_rdr p) -> length (unread (p_rdr p)) <= L ->
  exists w, session_work c hc cap p ks = Some w /\ w <= F * (rest p + 2 * length ks) + length (filter asks_header ks) * G p.
Proof.
  induction ks as [|k ks IH]; intros p AC KO SI D UL; [exists 0; split; [reflexivity|lia]|]. destruct AC as [A1 A2]. inversion KO; subst. apply now_permitted in A1.
  destruct (call_costs k p A1 ltac:(assumption) SI D UL) as (w & E & D' & U' & R' & N'). destruct (call_safe c hc d cap (S L) Hc Hd Hcap HS k p A1 ltac:(assumption) SI) as [_ SI'].
  cbn [session_work]. rewrite E. set (p' := snd (do_call c hc cap p k)) in *.
  destruct (IH p' A2 ltac:(assumption) SI' D' ltac:(lia)) as (w2 & E2 & L2). rewrite E2. exists (w + w2). split; [reflexivity|]. rewrite R' in L2. cbn [length filter].
  unfold stay_for in N'. destruct (asks_header k); cbn [length]; nia.
Qed.
End D.

(** Opening a parser and making any calls takes work in proportion to the size of the data, the number of calls and, for every
    call that looks at the header, the size of the header (if a row is a line, or the number of its lines is limited).
    The hypotheses are those of C41 (nothing crashes); reading by POSIX getline or from memory. *)
Theorem C57_calls_are_linear : forall c hc cap name d (mem : bool) data ks,
  cfg_ok c -> header_setup c hc -> ~ In NUL d -> enough cap -> header_ok c data -> Forall call_ok ks ->
  (forall p, opened_any c cap d data p -> all_covered c hc cap p ks) ->
  exists p n w, open_counted c cap (if mem then S2 "CSV data buffer" else name) d mem data = Ok tt (p, n) /\ opened_any c cap d data p /\
    session_work c hc cap p ks = Some w /\
    n + w <= 16 * (length d + 100) * (row_lines c data + 1) * (length data + length ks + 1 + length (filter asks_header ks) * length (p_raw p)).
Proof.
  intros c hc cap name d mem data ks Hc HS Hd Hcap Hh KO AC. assert (Hd' : nulfree d) by (intros X; apply Hd; exact X).
  set (src := if mem then SMem data else SFile data). set (nm := if mem then S2 "CSV data buffer" else name).
  assert (SO : src_okz src 0) by (unfold src; destruct mem; cbn; [lia|exact Logic.I]).
  assert (ED : unread (rdr_init d src) = data) by (unfold src; destruct mem; reflexivity).
  assert (DI : direct (rdr_init d src)) by (unfold src; destruct mem; exact Logic.I).
  pose proof (construct_cost c d cap Hcap src nm SO DI data ED) as CO.
  destruct (construct_safe c d cap (S (length data)) Hcap src nm (if mem then msg_null_buffer else msg_not_open) SO) as (p & E & SI & _); [rewrite ED; lia|rewrite ED; apply (header_skips _ _ Hh)|].
  assert (OP : opened_any c cap d data p) by (unfold src, nm in E; destruct mem; [apply oa_buffer; exact E|eapply oa_file; exact E]).
  unfold open_counted. fold src. pose proof (ct_construct c cap (if mem then msg_null_buffer else msg_not_open) (p_init nm d src) 0) as CT. rewrite E in CT.
  destruct (n_construct c cap (p_init nm d src, 0)) as [[] [p' n]| | |] eqn:EN; try discriminate. cbn in CT. injection CT as ->. cbn [ob] in CO. destruct CO as (D & U & R & N).
  assert (HQ : forall q, allowed c q -> q <= length data -> q <= row_lines c data).
  { intros q A L. unfold allowed, row_lines in *. destruct (c_ml c); [|lia]. destruct (c_mlsize c =? 0) eqn:Z; [exact L|]. apply Nat.eqb_neq in Z. apply A. lia. }
  destruct (calls_costs c hc Hc HS d Hd' cap Hcap (row_lines c data) (length data) HQ ks p (AC p OP) KO SI D U) as (w & EW & LW).
  exists p, n, w. split; [reflexivity|]. split; [exact OP|]. split; [exact EW|].
  assert (FL : length (filter asks_header ks) <= length ks) by (clear; induction ks as [|k ks IH]; cbn; [lia|destruct (asks_header k); cbn; lia]).
  remember (row_lines c data) as Q. remember (length d) as x. remember (length data) as L. remember (length ks) as k. remember (length (p_raw p)) as r. remember (length (filter asks_header ks)) as h. remember (rest p) as rp. clear - R N LW FL.
  set (f := (Q + 1) * (4 * x + 400)) in *. assert (B : 400 <= f) by (unfold f; nia).
  assert (B2 : 2 * (x + 13) * (r + 1) <= f * r + f) by (assert (2 * (x + 13) <= f) by (unfold f; nia); nia).
  replace (16 * (x + 100) * (Q + 1)) with (4 * f) by (unfold f; lia). clearbody f.
  assert (B3 : h * (2 * (x + 13) * (r + 1)) <= f * (h * r) + f * k) by nia.
  assert (B4 : f * (rp + 2 * k) <= f * (3 * L) + f * (2 * k)) by nia. nia.
Qed.
Print Assumptions C57_calls_are_linear.

(** ** A case: a chain whose first alternative fails, the header functions, ignore_next, to the end of the data. *)
Definition cw_cfg : cfg := mkCfg (Some """"%char) [] [] [] false 0 EString false false.
Definition cw_data : str := S2 "a,b" ++ LF :: S2 "1,x" ++ LF :: S2 "2,""y""" ++ LF :: S2 "3,z".
Definition cw_calls : list call :=
  [CRaw; CHeader; CUse [S2 "b"]; CTry [EVal (TInt (mkIty true 32))] CbNone [LElse [EVal TString] (CbVoid 1); LOnError 2]; CIgnore; CField (S2 "a"); CGet [EVal TString]; CGet [EVal TString]].
Example C57_calls_case :
  setup [OQuote """"%char; OStringError] = Some cw_cfg /\ cfg_ok cw_cfg /\ header_setup cw_cfg cw_cfg /\ ~ In NUL (S2 ",") /\ enough w_cap /\ header_ok cw_cfg cw_data /\ Forall call_ok cw_calls /\
  (forall p, opened_any cw_cfg w_cap (S2 ",") cw_data p -> all_covered cw_cfg cw_cfg w_cap p cw_calls) /\
  exists p n, open_counted cw_cfg w_cap (S2 "f.csv") (S2 ",") false cw_data = Ok tt (p, n) /\
    replies cw_cfg cw_cfg w_cap p cw_calls = [YText (S2 "a,b"); YNames [S2 "a"; S2 "b"]; YDone; YTry [None; Some [VStr (S2 "x")]] [EvCall 1 [Some (VStr (S2 "x"))]] true; YBool true; YBool true;
      YGet (GValues [VStr (S2 "z")]); YGet (GError (S2 "f.csv: read on end of file"))] /\
    session_work cw_cfg cw_cfg w_cap p cw_calls = Some 85.
Proof.
  split; [reflexivity|]. split; [apply (setup_ok [OQuote """"%char; OStringError]); reflexivity|]. split; [right; reflexivity|]. split; [intros [X|[]]; discriminate|].
  split; [intros n need; unfold w_cap; lia|]. split; [intros X; discriminate|]. split; [unfold cw_calls; repeat first [exact Logic.I|discriminate|apply Forall_nil|apply Forall_cons|apply conj|progress cbn|unfold ExtractProofs.wf; cbn; lia]|].
  split; [intros p _; apply always_covered; repeat (apply Forall_cons || apply Forall_nil); cbn; auto; try (intros _; right; split; reflexivity); intros X; discriminate X|].
  eexists. eexists. split; [vm_compute; reflexivity|]. split; vm_compute; reflexivity.
Qed.
Print Assumptions C57_calls_case.
