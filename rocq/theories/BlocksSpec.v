(** * What opt_block is to choose, independently of the code *)
From Verif Require Import Base TM.

(** Cells of the word [w], blank outside. *)
Definition word_cell (w : list Z) (i : Z) : Z := if i <? 0 then 0 else nth (Z.to_nat i) w 0.

(** The tape of [c] is the word [w] starting at some place, and blank outside it. *)
Definition tape_is_word (c : config) (w : list Z) : Prop :=
  exists lo, forall p, c_tape c p = word_cell w (p - lo).

(** In [w], the [k] cells from [i] on are repeated in the next [k] cells. *)
Definition repeats_at (w : list Z) (k i : nat) : Prop :=
  forall j, (j < k)%nat -> nth (i + j) w 0 = nth (i + k + j) w 0.

(** [n] of the aligned places 0, k, 2k, ... below |w| - 2k are followed by a repeated word of
    length [k]. *)
Definition repeats (w : list Z) (k n : nat) : Prop :=
  exists l, NoDup l /\ length l = n /\
    forall i, In i l <-> (Nat.divide k i /\ i + 2 * k < length w /\ repeats_at w k i)%nat.
