(** * Specification: what the lines of a watched run should tell (C101) *)
From Verif Require Import Base TM TapeModel TapeSpec WatchModel.
Local Open Scope Z_scope.

(** The line tells what the machine is like after [n] moves from the blank tape; a number of moves, if it gives one,
    is [n]. *)
Definition true_line (M : program) (l : shown) (n : nat) : Prop :=
  exists c, steps M n init = Some c /\ c_state c = sh_state l /\ represents (sh_tape l) c
  /\ (sh_step l <> -1 -> sh_step l = Z.of_nat n).

(** Lines that are not abbreviated: the number of moves is one or missing, the state is one byte. *)
Definition full_line (l : shown) : Prop := -1 <= sh_step l /\ 0 <= sh_state l < 256.
