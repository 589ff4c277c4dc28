(** * Texts and the machines written there *)
From Verif Require Import Base TM ParseModel ParseSpec.

(** Blank, tab, line feed, carriage return. *)
Definition white (c : Z) : Prop := c = 32 \/ c = 9 \/ c = 10 \/ c = 13.

(** The text is a table of instructions, with white space around it or not, and [M] has just these instructions. *)
Definition writes (t : text) (M : program) : Prop :=
  exists a s b g, t = a ++ s ++ b /\ Forall white a /\ Forall white b /\ prog_text g s
  /\ forall state color, M state color = table_get g (state, color).
