(** * What the backward reasoner is about *)
From Verif Require Import Base TM GraphSpec.

(** The start state can be entered again: it lies in a set of states each of which is entered from
    the set. *)
Definition restartable (M : program) : Prop :=
  exists K : Z -> Prop, K 0 /\ forall s, K s -> exists s', K s' /\ edge M s' s.

(** The start slot is defined, states and colours are not negative, and some instruction is listed for
    a state at least as high as every state entered and for a colour at least as high as every colour
    printed. *)
Definition named (M : program) : Prop :=
  M 0 0 <> None /\
  forall s c pr sh t, M s c = Some (pr, sh, t) ->
    0 <= t /\ 0 <= pr /\
    (exists s' c', t <= s' /\ M s' c' <> None) /\ (exists s' c', pr <= c' /\ M s' c' <> None).

(** Once the tape has been marked it is never blank again. *)
Definition never_erases (M : program) : Prop :=
  forall m n c d, (m <= n)%nat -> steps M m init = Some c -> (exists p, c_tape c p <> 0) ->
  steps M n init = Some d -> ~ is_blank d.

Definition never_spins_out (M : program) : Prop :=
  forall n c, steps M n init = Some c -> ~ spins_out_from M c.
