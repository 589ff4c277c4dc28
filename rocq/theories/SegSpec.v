(** * What the segment decider assumes of its parameters *)
From Verif Require Import Base TM.

(** The states and colours met lie below the parameters. *)
Definition fits (M : program) (params : Z * Z) : Prop :=
  0 < fst params /\ 0 < snd params /\
  forall s c pr sh t, 0 <= s < fst params -> 0 <= c < snd params -> M s c = Some (pr, sh, t) -> 0 <= pr < snd params /\ 0 <= t < fst params.
