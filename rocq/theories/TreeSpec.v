(** * What a tree of programs is to contain, independently of the code *)
From Verif Require Import Base TM ProgModel.

(** Slots and instructions of a table with [states] states and [colors] colours. *)
Definition slot_in (states colors : Z) (s : slot) : Prop := 0 <= fst s < states /\ 0 <= snd s < colors.
Definition instr_in (states colors : Z) (i : instr) : Prop :=
  let '(pr, _, tr) := i in 0 <= pr < colors /\ 0 <= tr < states.

(** Every slot and every instruction of the map is in range. *)
Definition in_range (states colors : Z) (p : comp_prog) : Prop :=
  forall s i, comp_get p s = Some i -> slot_in states colors s /\ instr_in states colors i.

(** Two maps that are not the same program. *)
Definition differ (p q : comp_prog) : Prop := exists s, comp_get p s <> comp_get q s.

(** [p] is part of [M]. *)
Definition part_of (p : comp_prog) (M : program) : Prop :=
  forall s c i, comp_get p (s, c) = Some i -> M s c = Some i.

(** The slot a configuration is about to use. *)
Definition at_slot (c : config) : slot := (c_state c, c_tape c (c_pos c)).

(** [M] introduces its states and its colours in order: an instruction used in the run from blank
    goes to state 0 or 1 or to one whose predecessor has been visited, and prints 0 or 1 or a colour
    whose predecessor has been printed before. *)
Definition in_order (M : program) : Prop :=
  forall n c pr sh tr, steps M n init = Some c -> M (c_state c) (c_tape c (c_pos c)) = Some (pr, sh, tr) ->
    (tr <= 1 \/ exists m c', (m <= n)%nat /\ steps M m init = Some c' /\ c_state c' = tr - 1)
    /\ (pr <= 1 \/ exists m c' sh' tr', (m < n)%nat /\ steps M m init = Some c'
          /\ M (c_state c') (c_tape c' (c_pos c')) = Some (pr - 1, sh', tr')).

(** [M] does not halt before it has used every slot but the one it halts at; if [halt] is not set it
    does not halt at all. *)
Definition uses_all (states colors : Z) (halt : bool) (M : program) : Prop :=
  forall n s, halts_at M n s ->
    halt = true /\ forall s', slot_in states colors s' -> s' <> s ->
      exists m c, (m < n)%nat /\ steps M m init = Some c /\ at_slot c = s'.

(** Nothing more is to be learnt about the partial program [p] by running it for [lim] moves: it has
    all its slots, or does not halt, or has cleared the tape, or is still running after [lim] moves. *)
Definition settled (states colors : Z) (halt : bool) (lim : nat) (p : comp_prog) : Prop :=
  Z.of_nat (length p) = states * colors - (if halt then 1 else 0)
  \/ never_halts (machine_of p)
  \/ (exists n c, (0 < n)%nat /\ steps (machine_of p) n init = Some c /\ is_blank c)
  \/ exists c, steps (machine_of p) lim init = Some c.

(** [p] never goes to the last state, or never prints the last colour. *)
Definition misses_last (states colors : Z) (p : comp_prog) : Prop :=
  (forall s pr sh tr, comp_get p s = Some (pr, sh, tr) -> tr <> states - 1)
  \/ (forall s pr sh tr, comp_get p s = Some (pr, sh, tr) -> pr <> colors - 1).
