(** * White space around a program text (C24) *)
From Verif Require Import Base TM ProgModel ParseModel ParseSpec ParseTrim.

(** C24.  White space before and after a program text, such as the end of the line it stands in, makes no difference:
    the same program is read, or none is. *)
Theorem C24_white_space_around : forall w s w', Forall white w -> Forall white w' -> from_str (w ++ s ++ w') = from_str s.
Proof. exact read_around. Qed.
Print Assumptions C24_white_space_around.

(** Two spaces and a tab before "1RB ...", a carriage return and a line feed after it. *)
Example C24_white_space_case : Forall white [32; 32; 9] /\ Forall white [13; 10]
  /\ from_str ([32; 32; 9] ++ [49; 82; 66; 32; 46; 46; 46] ++ [13; 10]) = Some [((0, 0), (1, true, 1))].
Proof. split; [|split]; [unfold white; repeat constructor; lia..|vm_compute; reflexivity]. Qed.
