(** * Specification: from when on, and how often, a machine repeats itself; quasihalting *)
From Verif Require Import Base TM.

(** From the [n]th move on the machine repeats itself every [m] moves, in place or drifting in one direction: after [m]
    more moves it is in the same state, [k] cells further; the tape is the same if [k = 0], and otherwise it is the
    same from the rearmost cell visited meanwhile onwards. *)
Definition recurs_at (M : program) (n m : nat) : Prop :=
  exists c d k, (0 < m)%nat /\ steps M n init = Some c /\ steps M m c = Some d
    /\ c_state d = c_state c /\ c_pos d = c_pos c + k
    /\ ((k = 0 /\ forall p, c_tape d p = c_tape c p)
        \/ (0 < k /\ forall j e p, (j < m)%nat -> steps M j c = Some e -> c_pos e <= p -> c_tape d (p + k) = c_tape c p)
        \/ (k < 0 /\ forall j e p, (j < m)%nat -> steps M j c = Some e -> p <= c_pos e -> c_tape d (p + k) = c_tape c p)).

(** Some state that the machine was in is never entered again. *)
Definition quasihalts (M : program) : Prop :=
  exists s, (exists n c, steps M n init = Some c /\ c_state c = s)
    /\ exists N, forall n c, (N <= n)%nat -> steps M n init = Some c -> c_state c <> s.

(** The machine's tape is blank in state [s] after [n] moves, and it was not at an earlier moment after the start. *)
Definition first_blank (M : program) (s : Z) (n : nat) : Prop :=
  (0 < n)%nat /\ exists c, steps M n init = Some c /\ c_state c = s /\ is_blank c
    /\ forall j d, (0 < j < n)%nat -> steps M j init = Some d -> c_state d = s -> ~ is_blank d.
