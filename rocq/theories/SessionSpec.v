(** Specification (not a model): what a session with a parser shows, call by call.  Rows and lines are specified in
    ParserSpec.v, one line's columns in SplitSpec.v, conversions in ConvSpec.v. *)
From Coq Require Import Ascii List Arith ZArith.
From Verif Require Import Base Setup Splitter SplitApi Extract Converter ConvSpec LineSpec Parser ParserSpec ParserApi SessionApi.
Import ListNotations.

(** The line the header is taken from: the first one that counts; empty if there is none. *)
Inductive header_line (c : cfg) (data : str) : str -> Prop :=
| hl_line ls j t e ls' : physical data ls -> blanks c ls j ((t, e) :: ls') -> header_line c data t
| hl_none ls j : physical data ls -> blanks c ls j [] -> header_line c data [].
(** The setup the header is split with: no multiline, or the parser's own (see Parser.v). *)
Definition header_setup (c hc : cfg) : Prop := hc = header_cfg c \/ hc = c.

(** A valid selection of the names [cols], and the columns it stands for. *)
Definition selection (cols fs : list str) : Prop := fs <> [] /\ NoDup fs /\ incl fs cols.
Definition positions (cols fs : list str) (mp : list nat) : Prop := Forall2 (fun f i => nth_error cols i = Some f) fs mp.

Section Session.
(** [hc] splits the header, [name] is used in messages, [h] is the header line. *)
Context (c hc : cfg) (d name h : str).

(** Where the parser is: [w_line] lines are behind it; the next row begins with [w_lines]; is eof() true (it can be false
    although no row is left, after the last row was skipped); the selection of columns in force; the names that
    field_exists and use_fields have learned so far. *)
Record view := mkView { w_line : nat; w_lines : list (str * str); w_over : bool; w_map : list nat; w_ncols : nat; w_known : list str }.
Definition over (ls : list (str * str)) : bool := match ls with [] => true | _ => false end.
(** Line ends can be escaped.  Then a skip that finds no row, but blank lines, is left open: it leaves pieces of lines
    behind, which are taken for the beginning of a row. *)
Definition escapes_lines : Prop := c_ml c = true /\ c_escape c <> [].

Definition error_text (msg : str) : str := match c_mode c with EString => msg | _ => [] end.
Definition refusal (msg : str) : reply := match c_mode c with EThrow => YThrown msg | _ => YError (error_text msg) end.

(** ** The header *)
Definition msg_bad_header (m : str) : str := name ++ S2 ": failed header parsing: " ++ m.
(** [names cols]: the header's columns; [bad_header r]: it is refused with [r]. *)
Definition names (cols : list str) : Prop := split_obs hc sp_init d (c_string h) [] = SFields cols.
Inductive bad_header : reply -> Prop :=
| bh_error m : split_obs hc sp_init d (c_string h) [] = SErr m -> bad_header (YError (error_text (msg_bad_header m)))
| bh_thrown m : split_obs hc sp_init d (c_string h) [] = SThrown m -> bad_header (YThrown (msg_bad_header m)).
(** The first name that occurs for the second time. *)
Inductive first_repeated : list str -> str -> Prop :=
| fr a f b : NoDup a -> In f a -> first_repeated (a ++ f :: b) f.
(** Asking for names, when [kn] are known: afterwards [kn'] are known; a refusal, or none.  Once names are known, the header
    is not looked at again.  (With throw_on_error, the names before a repeated one stay known.) *)
Inductive asks : list str -> list str -> option reply -> Prop :=
| as_known kn : kn <> [] -> asks kn kn None
| as_names cols : names cols -> NoDup cols -> asks [] cols None
| as_bad r : bad_header r -> asks [] [] (Some r)
| as_twice a f b : names (a ++ f :: b) -> NoDup a -> In f a ->
    asks [] (match c_mode c with EThrow => a | _ => [] end) (Some (refusal (name ++ S2 ": header contains duplicate: " ++ f))).
(** use_fields does not ask when eof() is true. *)
Definition use_asks (o : bool) (kn kn' : list str) (r : option reply) : Prop := if o then kn' = kn /\ r = None else asks kn kn' r.

(** Why a selection is refused: it is empty, or for its first name that is given twice or is not in the header. *)
Definition occurrences (fs : list str) (f : str) : nat := count_occ (list_eq_dec ascii_dec) fs f.
Inductive bad_selection (cols : list str) : list str -> str -> Prop :=
| bs_none : bad_selection cols [] (S2 "received invalid argument for 'use_fields'")
| bs_twice fs fs1 f fs2 : fs = fs1 ++ f :: fs2 -> Forall (fun g => In g cols /\ occurrences fs g = 1) fs1 -> 1 < occurrences fs f ->
    bad_selection cols fs (name ++ S2 ": given field used multiple times: " ++ f)
| bs_unknown fs fs1 f fs2 : fs = fs1 ++ f :: fs2 -> Forall (fun g => In g cols /\ occurrences fs g = 1) fs1 -> occurrences fs f = 1 -> ~ In f cols ->
    bad_selection cols fs (name ++ S2 ": header does not contain given field: " ++ f).

(** ** Chains *)
Inductive status := Found | Failed (msg : str).
Definition at_line (k : nat) (m : str) : str := name ++ S2 " " ++ dec k ++ S2 ": " ++ m.
(** Does the callback accept the values, and what is called? *)
Inductive invoked : callback -> list val -> list event -> bool -> Prop :=
| in_none vs : invoked CbNone vs [] true
| in_void i vs : invoked (CbVoid i) vs [EvCall i (map Some vs)] true
| in_check i f vs : invoked (CbCheck i f) vs [EvCall i (map Some vs)] (f (map Some vs)).
(** One alternative, on the row [out]; [k] is the line number in its message. *)
Inductive alternative (mp : list nat) (n k : nat) (out : outcome) (es : list elem) (cb : callback) : option (list val) -> list event -> status -> Prop :=
| al_bad m : row_reading c d mp n es out (inr m) -> alternative mp n k out es cb None [] (Failed (error_text (at_line k m)))
| al_good vs ev : row_reading c d mp n es out (inl vs) -> invoked cb vs ev true -> alternative mp n k out es cb (Some vs) ev Found
| al_refused vs ev : row_reading c d mp n es out (inl vs) -> invoked cb vs ev false ->
    alternative mp n k out es cb None ev (Failed (error_text (name ++ S2 ": failed check"))).
(** The rest of the chain: alternatives are tried as long as none was found; on_error handlers run just then. *)
Inductive followed (mp : list nat) (n k : nat) (out : outcome) : status -> list link -> list (option (list val)) -> list event -> status -> Prop :=
| fo_nil s : followed mp n k out s [] [] [] s
| fo_found_else es cb ls vs ev s : followed mp n k out Found ls vs ev s -> followed mp n k out Found (LElse es cb :: ls) (None :: vs) ev s
| fo_found_error i ls vs ev s : followed mp n k out Found ls vs ev s -> followed mp n k out Found (LOnError i :: ls) vs ev s
| fo_else m es cb v ev0 s0 ls vs ev s : alternative mp n k out es cb v ev0 s0 -> followed mp n k out s0 ls vs ev s ->
    followed mp n k out (Failed m) (LElse es cb :: ls) (v :: vs) (ev0 ++ ev) s
| fo_error m i ls vs ev s : followed mp n k out (Failed m) ls vs ev s -> followed mp n k out (Failed m) (LOnError i :: ls) vs (EvError i m :: ev) s.
Definition has_else (ls : list link) : Prop := exists es cb, In (LElse es cb) ls.
Definition found (s : status) : bool := match s with Found => true | Failed _ => false end.

(** ** The calls *)
Inductive does : view -> call -> reply -> view -> Prop :=
| do_get k t e ls mp n kn es out m rest j ls' o g :
    row c d 0 t t e ls out m rest -> blanks c rest j ls' -> row_reading c d mp n es out o ->
    shown c name (k + S m) (k + S m + j) o g ->
    does (mkView k ((t, e) :: ls) false mp n kn) (CGet es) (YGet g) (mkView (k + S m + j) ls' (over ls') mp n kn)
| do_get_none k mp n kn es m g : shown c name (S k) (S k) (inr m) g ->
    does (mkView k [] false mp n kn) (CGet es) (YGet g) (mkView (S k) [] true mp n kn)
| do_get_end k mp n kn es msg :
    does (mkView k [] true mp n kn) (CGet es) (YGet (match c_mode c with EThrow => GThrown (name ++ S2 ": read on end of file") | _ => GError (error_text msg) end)) (mkView k [] true mp n kn)
| do_try k t e ls mp n kn es cb lks out m rest j ls' v ev0 s0 vs ev s :
    row c d 0 t t e ls out m rest -> blanks c rest j ls' ->
    alternative mp n (k + S m) out es cb v ev0 s0 -> followed mp n (S (k + S m + j)) out s0 lks vs ev s ->
    does (mkView k ((t, e) :: ls) false mp n kn) (CTry es cb lks) (YTry (v :: vs) (ev0 ++ ev) (found s)) (mkView (k + S m + j) ls' (over ls') mp n kn)
| do_try_none k mp n kn es cb lks m vs ev s : ~ has_else lks -> followed mp n k (Complete []) (Failed (error_text (at_line (S k) m))) lks vs ev s ->
    does (mkView k [] false mp n kn) (CTry es cb lks) (YTry (None :: vs) ev false) (mkView (S k) [] true mp n kn)
| do_try_end k mp n kn es cb lks msg vs ev s : ~ has_else lks -> followed mp n k (Complete []) (Failed (error_text msg)) lks vs ev s ->
    does (mkView k [] true mp n kn) (CTry es cb lks) (YTry (None :: vs) ev false) (mkView k [] true mp n kn)
| do_ignore k t e ls mp n kn j ls' : blanks c ls j ls' -> ls' <> [] \/ j = 0 \/ ~ escapes_lines ->
    does (mkView k ((t, e) :: ls) false mp n kn) CIgnore (YBool (negb (over ls'))) (mkView (k + S j) ls' false mp n kn)
| do_ignore_end k o mp n kn : does (mkView k [] o mp n kn) CIgnore (YBool false) (mkView (S k) [] o mp n kn)
| do_raw v : does v CRaw (YText h) v
| do_header v cols : names cols -> does v CHeader (YNames cols) v
| do_header_bad v r : bad_header r -> does v CHeader r v
| do_field k L o mp n kn kn' f : asks kn kn' None ->
    does (mkView k L o mp n kn) (CField f) (YBool (if in_dec (list_eq_dec ascii_dec) f kn' then true else false)) (mkView k L o mp n kn')
| do_field_bad k L o mp n kn kn' f r : asks kn kn' (Some r) -> does (mkView k L o mp n kn) (CField f) r (mkView k L o mp n kn')
| do_use_refused k L o mp n kn kn' fs r : use_asks o kn kn' (Some r) -> does (mkView k L o mp n kn) (CUse fs) r (mkView k L o mp n kn')
| do_use_bad k L o mp n kn kn' fs msg : use_asks o kn kn' None -> bad_selection kn' fs msg ->
    does (mkView k L o mp n kn) (CUse fs) (refusal msg) (mkView k L o mp n kn')
| do_use_first t e ls mp0 n0 kn kn' fs mp j ls' : asks kn kn' None -> selection kn' fs -> positions kn' fs mp ->
    blanks c ls j ls' -> ls' <> [] \/ j = 0 \/ ~ escapes_lines ->
    does (mkView 0 ((t, e) :: ls) false mp0 n0 kn) (CUse fs) YDone (mkView (S j) ls' false mp (length kn') kn')
| do_use_later k L o mp0 n0 kn kn' fs mp : k <> 0 \/ o = true -> use_asks o kn kn' None -> selection kn' fs -> positions kn' fs mp ->
    does (mkView k L o mp0 n0 kn) (CUse fs) YDone (mkView k L o mp (length kn') kn').

(** Calls this specification says nothing about: the ones that do not compile (try_next with throw_on_error, asking for the
    header with ignore_header); alternatives when no row is left or on an incomplete row (C41_or_else_refuted); skipping the
    last row over blank lines, with escaped line ends (C41_failed_skip_refuted). *)
Inductive outside : view -> call -> Prop :=
| ou_try v es cb lks : c_mode c = EThrow -> outside v (CTry es cb lks)
| ou_header v k : c_ignhdr c = true -> (k = CRaw \/ k = CHeader \/ (exists f, k = CField f) \/ exists fs, k = CUse fs) -> outside v k
| ou_try_end k o mp n kn es cb lks : has_else lks -> outside (mkView k [] o mp n kn) (CTry es cb lks)
| ou_try_incomplete k t e ls o mp n kn es cb lks w m rest : row c d 0 t t e ls (Incomplete w) m rest -> has_else lks ->
    outside (mkView k ((t, e) :: ls) o mp n kn) (CTry es cb lks)
| ou_ignore k t e ls o mp n kn j : blanks c ls (S j) [] -> escapes_lines -> outside (mkView k ((t, e) :: ls) o mp n kn) CIgnore
| ou_use_last t e ls mp n kn kn' fs j : blanks c ls (S j) [] -> escapes_lines -> asks kn kn' None -> selection kn' fs ->
    outside (mkView 0 ((t, e) :: ls) false mp n kn) (CUse fs).

(** The replies [ys] to the calls [ks] are as specified, up to the first call outside. *)
Inductive conforms : view -> list call -> list reply -> Prop :=
| cf_nil v : conforms v [] []
| cf_step v k y v' ks ys : does v k y v' -> conforms v' ks ys -> conforms v (k :: ks) (y :: ys)
| cf_outside v k ks ys : outside v k -> conforms v (k :: ks) ys.

(** From one view to another by calls that are all specified; histories that contain no other call. *)
Inductive leads : view -> list call -> list reply -> view -> Prop :=
| le_nil v : leads v [] [] v
| le_step v k y v' ks ys v'' : does v k y v' -> leads v' ks ys v'' -> leads v (k :: ks) (y :: ys) v''.
Fixpoint covered (v : view) (ks : list call) : Prop :=
  match ks with
  | [] => True
  | k :: ks' => ~ outside v k /\ forall y v', does v k y v' -> covered v' ks'
  end.
End Session.

(** The session begins: the parser was constructed on [data], [h] is its header line, [v] where it is.  With ignore_header,
    eof() is not true after construction if there is a header and nothing else; it is if there is no header. *)
Inductive session (c : cfg) (cap : nat -> nat -> nat) (d data name h : str) (p : prs) : view -> Prop :=
| se k L : opened c cap d data name p -> nuls_ok c data -> starts c data k L -> (c_ignhdr c = true -> L <> []) -> header_line c data h ->
    session c cap d data name h p (mkView k L (over L) [] 0 [])
| se_header_only ls j t e ls1 j' : opened c cap d data name p -> nuls_ok c data -> c_ignhdr c = true -> physical data ls ->
    blanks c ls j ((t, e) :: ls1) -> blanks c ls1 j' [] -> j' = 0 \/ ~ escapes_lines c -> header_line c data h ->
    session c cap d data name h p (mkView (j + S j') [] false [] 0 [])
| se_nothing ls j : opened c cap d data name p -> nuls_ok c data -> c_ignhdr c = true -> physical data ls -> blanks c ls j [] -> header_line c data h ->
    session c cap d data name h p (mkView j [] true [] 0 []).

(** What is expected of a row after use_fields(fs...), when the header is [cols]: its values are the conversions of the
    columns with these names. *)
Inductive selected (c : cfg) (d : str) (cols fs : list str) (es : list elem) : outcome -> list val + str -> Prop :=
| sl_row t xs ys o : c_string t <> [] -> split_obs c sp_init d (c_string t) [] = SFields xs -> length xs = length cols -> length es = length fs ->
    Forall2 (fun f y => exists i, nth_error cols i = Some f /\ nth_error xs i = Some y) fs ys -> converted [] 0 es ys o ->
    selected c d cols fs es (Complete t) o
| sl_count t xs : c_string t <> [] -> split_obs c sp_init d (c_string t) [] = SFields xs -> length es = length fs -> length xs <> length cols ->
    selected c d cols fs es (Complete t) (inr (wrong_count (length cols) (length xs)))
| sl_arguments t xs : c_string t <> [] -> split_obs c sp_init d (c_string t) [] = SFields xs -> length es <> length fs ->
    selected c d cols fs es (Complete t) (inr (wrong_arguments (length fs) (length es)))
| sl_bad t msg msg' : c_string t <> [] -> split_obs c sp_init d (c_string t) [] = SErr msg \/ split_obs c sp_init d (c_string t) [] = SThrown msg -> same_text msg msg' ->
    (c_ml c = false -> msg = msg') ->
    selected c d cols fs es (Complete t) (inr msg')
| sl_empty t msg : c_string t = [] -> selected c d cols fs es (Complete t) (inr msg)
| sl_incomplete w : selected c d cols fs es (Incomplete w) (inr (defect_text w)).

(** ** Chains, seen as a whole: the alternatives of a chain, and which of them succeed on the row [out]. *)
Definition alternatives (lks : list link) : list (list elem * callback) := flat_map (fun l => match l with LElse es cb => [(es, cb)] | LOnError _ => [] end) lks.
Definition accepts (cb : callback) (vs : list val) : Prop := match cb with CbCheck _ f => f (map Some vs) = true | _ => True end.
Definition succeeds (c : cfg) (d : str) (mp : list nat) (n : nat) (out : outcome) (a : list elem * callback) (vs : list val) : Prop :=
  row_reading c d mp n (fst a) out (inl vs) /\ accepts (snd a) vs.
Definition fails (c : cfg) (d : str) (mp : list nat) (n : nat) (out : outcome) (a : list elem * callback) : Prop :=
  (exists m, row_reading c d mp n (fst a) out (inr m)) \/ exists vs, row_reading c d mp n (fst a) out (inl vs) /\ ~ accepts (snd a) vs.
(** The call of an alternative's callback: it has one, and the conversion succeeds. *)
Inductive called (c : cfg) (d : str) (mp : list nat) (n : nat) (out : outcome) (a : list elem * callback) : list event -> Prop :=
| ca_bad m : row_reading c d mp n (fst a) out (inr m) -> called c d mp n out a []
| ca_none vs : row_reading c d mp n (fst a) out (inl vs) -> snd a = CbNone -> called c d mp n out a []
| ca_void vs i : row_reading c d mp n (fst a) out (inl vs) -> snd a = CbVoid i -> called c d mp n out a [EvCall i (map Some vs)]
| ca_check vs i f : row_reading c d mp n (fst a) out (inl vs) -> snd a = CbCheck i f -> called c d mp n out a [EvCall i (map Some vs)].
Definition is_call (e : event) : bool := match e with EvCall _ _ => true | EvError _ _ => false end.
(** [chosen alts vals]: the values of the alternatives: those of the first that succeeds, or none. *)
Inductive chosen (c : cfg) (d : str) (mp : list nat) (n : nat) (out : outcome) (alts : list (list elem * callback)) :
  list (option (list val)) -> list event -> bool -> Prop :=
| ch_none evs : Forall (fails c d mp n out) alts -> Forall2 (called c d mp n out) alts evs ->
    chosen c d mp n out alts (repeat None (length alts)) (concat evs) false
| ch_first pre a post vs evs : alts = pre ++ a :: post -> Forall (fails c d mp n out) pre -> succeeds c d mp n out a vs ->
    Forall2 (called c d mp n out) (pre ++ [a]) evs ->
    chosen c d mp n out alts (repeat None (length pre) ++ Some vs :: repeat None (length post)) (concat evs) true.
