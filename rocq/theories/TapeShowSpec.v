(** * Tapes whose counts Python prints in full (C90) *)
From Verif Require Import Base TapeModel.
Local Open Scope Z_scope.

(** Counts that are printed in full. *)
Definition full_counts (t : tape) : Prop := Forall (fun b => Z.abs (b_count b) < 10 ^ 12) (t_lspan t ++ t_rspan t).
