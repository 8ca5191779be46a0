(** Reading all lines, one after the other, with each of the three line readers. *)
From Verif Require Import Base Setup Splitter Extract Converter Reader ListFacts LineSpec LineProofs GetLineProofs.

(** get_line_buffer, POSIX getline and its portable replacement as functions of what is left to read. *)
Inductive line_reader := InMemory | Posix | Portable.
Definition one_line (cap : nat -> nat -> nat) (k : line_reader) (rest : str) : M lp (option nat * str) :=
  match k with
  | InMemory => '(o, n) <- get_line_buffer rest ;; ret (o, skipn n rest)
  | Posix => get_line_posix cap rest
  | Portable => get_line_fgets rest
  end.
(** Until the end: each line is what the buffer then holds; it must be followed by a NUL there. *)
Fixpoint all_lines (cap : nat -> nat -> nat) (k : line_reader) (fuel : nat) (rest : str) : M lp (list str) :=
  match fuel with
  | 0 => fun _ => OutOfFuel
  | S f =>
      '(o, rest') <- one_line cap k rest ;;
      match o with
      | None => ret []
      | Some n =>
          l <- get ;;
          match range_str (cells_of (l_blk l)) 0 n, rd (cells_of (l_blk l)) n with
          | Some s, Some x =>
              if Ascii.eqb x NUL then ls <- all_lines cap k f rest' ;; ret (s :: ls) else ub "not terminated"
          | _, _ => ub "line not readable"
          end
      end
  end.

Lemma range_line l s : holds_line l s -> range_str (cells_of (l_blk l)) 0 (length s) = Some s /\ rd (cells_of (l_blk l)) (length s) = Some NUL.
Proof.
  intros (b & X & Hb & Hc). rewrite Hb. cbn [cells_of]. rewrite Hc. split.
  - unfold range_str. rewrite app_length, map_length. cbn.
    replace (length s <=? length s + S (length X)) with true by (symmetry; apply Nat.leb_le; lia).
    rewrite Nat.sub_0_r, firstn_app, map_length, Nat.sub_diag, firstn_O, app_nil_r, firstn_all2 by (rewrite map_length; lia).
    clear. induction s as [|x t IH]; [reflexivity|]. cbn. rewrite IH. reflexivity.
  - rewrite rd_at by (rewrite map_length; reflexivity). reflexivity.
Qed.

Lemma all_lines_spec cap k : (forall n need, need <= cap n need) -> forall fuel rest l, lp_ok l -> length rest < fuel -> (k = Portable -> nulfree rest) ->
  exists l', all_lines cap k fuel rest l = Ok (map (fun t => fst t ++ snd t) (lines rest)) l' /\ lp_ok l'.
Proof.
  intros Hcap. induction fuel as [|f IH]; intros rest l Hl Hf Hn; [lia|]. cbn [all_lines]. unfold bind at 1.
  destruct rest as [|x rest0] eqn:Er.
  - assert (E : exists l', one_line cap k [] l = Ok (None, []) l' /\ lp_ok l').
    { destruct k; cbn.
      - exists l. auto.
      - destruct (get_line_posix_eof cap l Hl) as (l' & E & A & _). exists l'. auto.
      - destruct (get_line_fgets_eof l Hl) as (l' & E & A & _). exists l'. auto. }
    destruct E as (l' & E & A). rewrite E. exists l'. auto.
  - rewrite <- Er in *. assert (Hne : rest <> []) by (rewrite Er; discriminate). clear x rest0 Er.
    assert (E : exists l', one_line cap k rest l = Ok (Some (length (fst (cut_line rest))), snd (cut_line rest)) l' /\ lp_ok l' /\ holds_line l' (fst (cut_line rest))).
    { destruct k; cbn.
      - destruct (get_line_buffer_spec rest l Hl Hne) as (l' & E & A & _ & B). exists l'. unfold bind. rewrite E. split; [|auto]. unfold ret.
        do 2 f_equal.
        transitivity (skipn (length (fst (cut_line rest))) (fst (cut_line rest) ++ snd (cut_line rest))); [rewrite cut_line_app; reflexivity|].
        rewrite skipn_app, skipn_all, Nat.sub_diag. reflexivity.
      - destruct (get_line_posix_spec cap Hcap rest l Hl Hne) as (l' & E & A & _ & B). exists l'. auto.
      - destruct (get_line_fgets_spec rest l Hl (Hn eq_refl) Hne) as (l' & E & A & _ & B). exists l'. auto. }
    destruct E as (l' & E & A & B). rewrite E. unfold bind at 1, get at 1. destruct (range_line _ _ B) as [-> ->]. cbn [Ascii.eqb NUL Bool.eqb].
    rewrite (lines_cons rest Hne). cbn [map]. rewrite chomp_app.
    destruct (IH (snd (cut_line rest)) l' A) as (l2 & E2 & A2).
    + pose proof (cut_line_len rest Hne). lia.
    + intros K. specialize (Hn K). rewrite <- (cut_line_app rest) in Hn. apply nulfree_app in Hn. apply Hn.
    + unfold bind. change (Ascii.eqb NUL NUL) with true. cbn iota. rewrite E2. exists l2. auto.
Qed.
