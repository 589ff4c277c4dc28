(** * What a signature is to tell of a tape *)
From Verif Require Import Base TapeModel.

(** The same colour; and besides both or neither of the blocks with one cell. *)
Definition like_color (b b' : block) : Prop := b_color b = b_color b'.
Definition like_block (b b' : block) : Prop := b_color b = b_color b' /\ (b_count b = 1 <-> b_count b' = 1).
(** The same scanned colour and like blocks. *)
Definition like_tape (like : block -> block -> Prop) (t t' : tape) : Prop :=
  t_scan t = t_scan t' /\ Forall2 like (t_lspan t) (t_lspan t') /\ Forall2 like (t_rspan t) (t_rspan t').
(** The tape cut off after [n] blocks on the left and [m] on the right. *)
Definition cut_off (n m : nat) (t : tape) : tape := Tape (firstn n (t_lspan t)) (t_scan t) (firstn m (t_rspan t)).
(** Around the head, as far as the second tape goes, the first has the same colours. *)
Definition covers (t t' : tape) : Prop :=
  (length (t_lspan t') <= length (t_lspan t))%nat /\ (length (t_rspan t') <= length (t_rspan t))%nat
  /\ like_tape like_color (cut_off (length (t_lspan t')) (length (t_rspan t')) t) t'.
(** The entry at a place of a side. *)
Definition block_at (t : tape) (side : bool) (pos : nat) : option block := nth_error (if side then t_rspan t else t_lspan t) pos.
