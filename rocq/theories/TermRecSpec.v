(** * Specification: cyclers and translated cyclers *)
From Verif Require Import Base TM.

(** From some moment on the machine repeats itself, in place or drifting in one direction: after [m] more
    moves it is in the same state, [k] cells further; the tape is the same if [k = 0], and otherwise
    it is the same from the rearmost cell visited meanwhile onwards. *)
Definition recurs (M : program) : Prop :=
  exists n m c d k, (0 < m)%nat /\ steps M n init = Some c /\ steps M m c = Some d
    /\ c_state d = c_state c /\ c_pos d = c_pos c + k
    /\ ((k = 0 /\ forall p, c_tape d p = c_tape c p)
        \/ (0 < k /\ forall j e p, (j < m)%nat -> steps M j c = Some e -> c_pos e <= p -> c_tape d (p + k) = c_tape c p)
        \/ (k < 0 /\ forall j e p, (j < m)%nat -> steps M j c = Some e -> p <= c_pos e -> c_tape d (p + k) = c_tape c p)).
