(** * What the offsets and edges of an EnumTape are relied on for *)
From Verif Require Import Base TM TapeModel EnumModel.

(** Cells covered by the first [k] blocks of a span. *)
Fixpoint reach (s : span) (k : nat) {struct k} : Z :=
  match k, s with
  | S k, b :: s => b_count b + reach s k
  | _, _ => 0
  end.

(** The cell [p] lies in the part of the tape that offsets [lo], [ro] and edges [le], [re] of a run
    started from tape [t] with the head at [pos] stand for: a set edge stands for the whole side. *)
Definition window (t : tape) (pos : Z) (lo ro : nat) (le re : bool) (p : Z) : Prop :=
  (le = true \/ pos - reach (t_lspan t) lo <= p)
  /\ (re = true \/ p <= pos + reach (t_rspan t) ro).

(** The first [k] moves from [c] read and write cells of [W] only, and depend on them only: from
    any configuration that agrees with [c] on [W] the same moves are made, the head takes the same
    path through [W], and the cells outside [W] stay as they are. *)
Definition depends_only_on (M : program) (W : Z -> Prop) (k : nat) (c : config) : Prop :=
  forall d, c_state d = c_state c -> c_pos d = c_pos c ->
    (forall p, W p -> c_tape d p = c_tape c p) ->
    forall j, (j <= k)%nat -> exists cj dj,
      steps M j c = Some cj /\ steps M j d = Some dj
      /\ c_state dj = c_state cj /\ c_pos dj = c_pos cj /\ W (c_pos cj)
      /\ (forall p, W p -> c_tape dj p = c_tape cj p)
      /\ (forall p, ~ W p -> c_tape dj p = c_tape d p).
