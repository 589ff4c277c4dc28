(** * What towers are worth (C89) *)
From Verif Require Import Base TetModel.
Local Open Scope Z_scope.

(** b to the b to the b ..., h times. *)
Fixpoint tower (b : Z) (h : nat) : Z := match h with O => 1 | S h => b ^ tower b h end.
Definition worth (a : twr) : Z :=
  match a with TI n => n | TE b x => b ^ x | TT b h => tower b (Z.to_nat h) | TP b c h => b ^ tower c (Z.to_nat h) end.
(** Bases from 2, exponents and heights from 1. *)
Definition sound (a : twr) : Prop :=
  match a with TI _ => True | TE b x => 2 <= b /\ 1 <= x | TT b h => 2 <= b /\ 1 <= h | TP b c h => 2 <= b /\ 2 <= c /\ 1 <= h end.
(** How high the kind of number is supposed to be. *)
Definition kind (a : twr) : Z := match a with TI _ => 0 | TE _ _ => 1 | TT _ _ | TP _ _ _ => 2 end.
(** Where the kinds differ, the number of the lower kind is the smaller one. *)
Definition in_kind (a b : twr) : Prop := (kind a < kind b -> worth a < worth b) /\ (kind b < kind a -> worth b < worth a).
