(** Model of to_num for floating point types in a build with SSP_DISABLE_FAST_FLOAT (extract.hpp:40-80). *)
From Verif Require Import Base.

(** Not code: the C string at the beginning of a block, what strtod is given; [None] when no terminator comes before the
    end of the block or an uninitialised byte. *)
Fixpoint c_string (m : list (option ascii)) : option str :=
  match m with
  | Some x :: m' => if Ascii.eqb x NUL then Some [] else option_map (cons x) (c_string m')
  | _ => None
  end.
(** std::copy_n(begin, n, buff) between two blocks: extract.hpp:61. *)
Definition copy_in (s : str) (buff : list (option ascii)) : option (list (option ascii)) :=
  if length s <=? length buff then Some (map Some s ++ skipn (length s) buff) else None.

(** extract.hpp:45-78.  [strtod s]: the value and the number of characters consumed, on the C string [s] (std::strtod or
    std::strtof; parse_end = buff + that number).  [None]: undefined behaviour.  The two buffers: short_buff, 64
    uninitialised characters (:48-49), and long_buff, a std::string, whose data() is followed by a NUL (:54, 57-58). *)
Definition buff_max := 64.
Definition to_num_strtod (strtod : str -> Z * nat) (m : list (option ascii)) (b e : nat) : option (option Z) :=
  match range_str m b e with
  | None => None
  | Some s =>
      let string_range := e - b in
      let buff :=
        if buff_max <? string_range then Some (map Some s ++ [Some NUL])
        else match wr (repeat None buff_max) string_range NUL with      (* buff[string_range] = '\0' :60 *)
             | Some short_buff => copy_in s short_buff                  (* :61 *)
             | None => None
             end in
      match buff with
      | None => None
      | Some buff =>
          match c_string buff with
          | None => None
          | Some t => let '(ret, parse_end) := strtod t in
                      Some (if negb (Nat.eqb parse_end string_range) then None else Some ret)   (* :73-77 *)
          end
      end
  end.
