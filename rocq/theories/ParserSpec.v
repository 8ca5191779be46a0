(** Specification (not a model): the rows of a document and what reading one of them gives.
    A document is given by its physical lines, see LineSpec.v; splitting and converting one row are specified in
    SplitSpec.v and ConvSpec.v. *)
From Coq Require Import Ascii List Arith ZArith.
From Verif Require Import Base Setup Splitter SplitApi Extract Converter ConvSpec LineSpec.
Import ListNotations.

(** The text ends in an odd number of escape characters. *)
Definition ends_escaped (escapes : list ascii) (t : str) : Prop :=
  exists a es, t = a ++ es /\ Forall (fun x => In x escapes) es /\ (forall a' x, a = a' ++ [x] -> ~ In x escapes) /\
    exists k, length es = 2 * k + 1.

(** A splitter with this setup, given the text [t], says unterminated_quote(). *)
Definition leaves_quote_open (c : cfg) (d t : str) : Prop :=
  exists s m, split_call c sp_init d t [] = Ok tt (s, m) /\ s_uq s = true.

(** Why a row could not be completed. *)
Inductive defect := TooManyLines | EscapeAtEnd | QuoteAtEnd.
Definition defect_text (w : defect) : str :=
  match w with
  | TooManyLines => S2 "multiline limit reached"
  | EscapeAtEnd => S2 "unterminated escape at the end of the line"
  | QuoteAtEnd => S2 "unterminated quote"
  end.
Inductive outcome := Complete (text : str) | Incomplete (why : defect).

Section Doc.
Context (c : cfg) (d : str).

(** Does the row go on in the next line?  [text]: the row so far; [last]: its last physical line. *)
Inductive why_more := ByEscape | ByQuote.
Inductive goes_on (text last : str) : why_more -> Prop :=
| go_escape : c_ml c = true -> ends_escaped (c_escape c) last -> goes_on text last ByEscape
| go_quote : c_ml c = true -> ~ ends_escaped (c_escape c) last -> c_quote c <> None -> leaves_quote_open c d text ->
    goes_on text last ByQuote.
(** May [n] further lines have been added already, and one more still? (0: no limit) *)
Definition may_add (n : nat) : Prop := c_mlsize c = 0 \/ n < c_mlsize c.

(** [row n text last e more out m rest]: [n] further lines were added so far, giving [text]; the last line is [last] and
    ended in [e]; the lines [more] follow.  Then the outcome is [out], [m] further lines are used in all, and [rest] is
    left. *)
Inductive row : nat -> str -> str -> str -> list (str * str) -> outcome -> nat -> list (str * str) -> Prop :=
| row_done n text last e more : (forall w, ~ goes_on text last w) -> row n text last e more (Complete text) n more
| row_more n text last e w t e' more out m rest :
    goes_on text last w -> may_add n -> row (S n) (text ++ e ++ t) t e' more out m rest ->
    row n text last e ((t, e') :: more) out m rest
| row_limit n text last e w more : goes_on text last w -> ~ may_add n -> row n text last e more (Incomplete TooManyLines) n more
| row_eof_escape n text last e : goes_on text last ByEscape -> may_add n -> row n text last e [] (Incomplete EscapeAtEnd) n []
| row_eof_quote n text last e : goes_on text last ByQuote -> may_add n -> row n text last e [] (Incomplete QuoteAtEnd) n [].

(** Lines without contents do not count as rows if ignore_empty is set: [blanks ls j ls']: after [j] such lines
    [ls'] is left. *)
Inductive blanks : list (str * str) -> nat -> list (str * str) -> Prop :=
| bl_none ls : (forall e ls', c_ignempty c = true -> ls <> ([], e) :: ls') -> blanks ls 0 ls
| bl_skip e ls j ls' : c_ignempty c = true -> blanks ls j ls' -> blanks (([], e) :: ls) (S j) ls'.

(** An item of a document: the outcome of a row; the number of its last line (from 1); the number of lines before the
    next row; the lines left from there. *)
Record item := mkItem { it_out : outcome; it_line : nat; it_next : nat; it_rest : list (str * str) }.
(** [document k ls its]: the lines [ls], after [k] lines, begin with a row or are none; they are the rows [its]. *)
Inductive document : nat -> list (str * str) -> list item -> Prop :=
| doc_end k : document k [] []
| doc_row k t e ls out m rest j ls' its :
    row 0 t t e ls out m rest -> blanks rest j ls' -> document (k + S m + j) ls' its ->
    document k ((t, e) :: ls) (mkItem out (k + S m) (k + S m + j) ls' :: its).

(** [starts data k ls]: the first row to be delivered from [data] begins after [k] lines, with the lines [ls]: all of
    them, or those after the first one that counts if ignore_header is set. *)
Inductive starts (data : str) : nat -> list (str * str) -> Prop :=
| st_all ls j ls' : c_ignhdr c = false -> physical data ls -> blanks ls j ls' -> starts data j ls'
| st_header ls j t e ls1 j' ls' : c_ignhdr c = true -> physical data ls -> blanks ls j ((t, e) :: ls1) -> blanks ls1 j' ls' ->
    starts data (j + S j') ls'.
(** The rows of a document. *)
Definition rows_of (data : str) (its : list item) : Prop := exists k ls, starts data k ls /\ document k ls its.

(** Equal but for numbers. *)
Definition is_digit (x : ascii) : bool := let n := nat_of_ascii x in (48 <=? n) && (n <=? 57).
Definition same_text (a b : str) : Prop := filter (fun x => negb (is_digit x)) a = filter (fun x => negb (is_digit x)) b.

(** The text of a row counts up to its first NUL. *)
Fixpoint c_string (t : str) : str := match t with [] => [] | x :: t' => if Ascii.eqb x NUL then [] else x :: c_string t' end.
Definition empty_row (out : outcome) : Prop := exists t, out = Complete t /\ c_string t = [].
(** [row_reading mp n es out o]: converting the row to the types [es] gives the values or the error [o]; [mp], [n] as in
    ConvSpec.  An empty row is an error. *)
Inductive row_reading (mp : list nat) (n : nat) (es : list elem) : outcome -> list val + str -> Prop :=
| rd_incomplete w : row_reading mp n es (Incomplete w) (inr (defect_text w))
| rd_empty t msg : c_string t = [] -> row_reading mp n es (Complete t) (inr msg)
| rd_row t cols o : c_string t <> [] -> split_obs c sp_init d (c_string t) [] = SFields cols -> converted mp n es cols o ->
    row_reading mp n es (Complete t) o
| rd_bad t msg msg' : c_string t <> [] -> split_obs c sp_init d (c_string t) [] = SErr msg \/ split_obs c sp_init d (c_string t) [] = SThrown msg ->
    same_text msg msg' -> (c_ml c = false -> msg = msg') -> row_reading mp n es (Complete t) (inr msg').
End Doc.

(** Bytes of some lines. *)
Definition bytes (ls : list (str * str)) : nat := length (concat (map (fun l => fst l ++ snd l) ls)).
