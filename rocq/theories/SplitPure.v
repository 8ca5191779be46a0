(** L1: what the splitter computes, as pure functions on the text of the line.
    Nothing here is a specification: it follows the code (including its
    quirks) and is proved equal to Splitter.v in SplitRefine.v. *)
From Verif Require Import Base Setup Splitter.

(** [strip d s]: the rest of [s] after the prefix [d]. *)
Fixpoint strip (d s : str) : option str :=
  match d, s with
  | [], _ => Some s
  | x :: d', y :: s' => if Ascii.eqb y x then strip d' s' else None
  | _ :: _, [] => None
  end.

(** Leading characters from [cs], and the rest. *)
Fixpoint span (cs : list ascii) (s : str) : str * str :=
  match s with
  | x :: s' => if mem x cs then let '(a, b) := span cs s' in (x :: a, b) else ([], s)
  | [] => ([], [])
  end.
Definition dropc (cs : list ascii) (s : str) : str := snd (span cs s).

Section WithCfg.
Context (c : cfg) (d : str).

(** match_delimiter (splitter.hpp:235-258). *)
Inductive mdres :=
| MEol
| MDelim (rest : str)
| MOther (t : str) (x : ascii) (r : str).
Definition md (s : str) : mdres :=
  let '(t, u) := span (c_trimr c) s in
  match u with
  | [] => MEol
  | x :: r =>
      match strip d u with
      | Some rest => MDelim (dropc (c_triml c) rest)
      | None => MOther t x r
      end
  end.

(** End of a field. *)
Inductive fres :=
| FNext (acc rest : str)       (* field, delimiter found, text of the next field *)
| FLast (acc : str)            (* field, end of line *)
| FLastEsc (acc : str)         (* same, but the line ended in a lone escape *)
| FUnterm (acc : str)          (* quoted: end of line reached *)
| FEscEnd                      (* quoted: lone escape at the end of the line *)
| FMismatch (pos : nat) (esc : bool). (* quoted: junk after the closing quote *)

(** read_normal: [keep] = number of following characters taken over unexamined. *)
Fixpoint normal (keep : nat) (flag : bool) (acc s : str) : fres :=
  match s with
  | [] => if flag then FLastEsc acc else FLast acc
  | h :: s' =>
      match keep with
      | S k => normal k flag (acc ++ [h]) s'
      | 0 =>
          match md s with
          | MEol => if flag then FLastEsc acc else FLast acc
          | MDelim rest => FNext acc rest
          | MOther t x r =>
              if escape_match c x then
                match r with
                | [] => normal (length t) true (acc ++ [h]) s'
                | _ => normal (S (length t)) flag acc s'
                end
              else normal (length t) flag (acc ++ [h]) s'
          end
      end
  end.

(** read_quoted: [drop] characters are skipped, then [keep] taken over; [pos] is the offset. *)
Fixpoint quoted (drop keep pos : nat) (acc s : str) : fres :=
  match s with
  | [] => FUnterm acc
  | h :: r =>
      match drop, keep with
      | S n, _ => quoted n keep (S pos) acc r
      | 0, S n => quoted 0 n (S pos) (acc ++ [h]) r
      | 0, 0 =>
          if quote_match c h then
            match md r with
            | MDelim rest => FNext acc rest
            | MEol => FLast acc
            | MOther t x r' =>
                if escape_match c x then
                  match r' with
                  | [] => FMismatch pos true
                  | y :: _ =>
                      if (length t =? 0) && quote_match c y
                      then quoted 1 1 (S pos) acc r
                      else FMismatch (S pos) false
                  end
                else if (length t =? 0) && quote_match c x
                     then quoted 0 1 (S pos) acc r
                     else FMismatch pos false
            end
          else if escape_match c h then
            match r with
            | [] => FEscEnd
            | _ => quoted 0 1 (S pos) acc r
            end
          else quoted 0 0 (S pos) (acc ++ [h]) r
      end
  end.

(** One field, [s] starting at offset [pos]. *)
Definition field (pos : nat) (s : str) : fres :=
  match s with
  | h :: r => if quote_match c h then quoted 0 0 (S pos) [] r else normal 0 false [] s
  | [] => FLast []
  end.

Inductive ptail :=
| TOk
| TEsc                          (* unterminated escape in an unquoted field (field kept) *)
| TEscQ                         (* unterminated escape in a quoted field (field lost) *)
| TUnterm (pos : nat) (acc : str)  (* unterminated quote; offset of the field's first character *)
| TMismatch (pos : nat) (esc : bool) (begin : nat)
| TFuel.

(** All fields of a line; [total] is the length of the whole line, so that the
    offset of [s] is [total - length s]. *)
Fixpoint fields (fuel total : nat) (s : str) : list str * ptail :=
  match fuel with
  | 0 => ([], TFuel)
  | S f =>
      let pos := total - length s in
      match field pos s with
      | FNext a rest => let '(l, t) := fields f total rest in (a :: l, t)
      | FLast a => ([a], TOk)
      | FLastEsc a => ([a], TEsc)
      | FUnterm a => ([], TUnterm (S pos) a)
      | FEscEnd => ([], TEscQ)
      | FMismatch p e => ([], TMismatch p e (S pos))
      end
  end.

Definition psplit (s : str) : list str * ptail :=
  fields (S (length s)) (length s) (dropc (c_triml c) s).

End WithCfg.
