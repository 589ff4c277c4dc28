(** * Properties of run_quick_machine (C06 - C09) *)
From Verif Require Import Base TM ProgModel TapeModel QuickModel QuickProofs.

(** A two-state program that halts after 5 moves, slot (1, 1) being undefined. *)
Definition bb2 : comp_prog :=
  [((0, 0), (1, true, 1)); ((0, 1), (1, false, 1)); ((1, 0), (1, false, 0))].

(** Spins out: B moves right over blanks forever. *)
Definition spin : comp_prog := [((0, 0), (1, true, 1)); ((1, 0), (0, true, 1))].

(** Marks a cell, comes back, erases it and starts again. *)
Definition blinker : comp_prog :=
  [((0, 0), (1, true, 1)); ((1, 0), (0, false, 2)); ((2, 1), (0, true, 0))].

(** C06 *)
Theorem C06_undfnd_exact : forall comp lim n s,
  mr_undfnd (run_quick_machine comp lim) = Some (n, s) ->
  0 <= n /\ halts_at (machine_of comp) (Z.to_nat n) s
  /\ exists c, steps (machine_of comp) (Z.to_nat n) init = Some c
     /\ marks_are (c_tape c) (mr_marks (run_quick_machine comp lim)).
Proof. exact quick_undfnd. Qed.
Print Assumptions C06_undfnd_exact.

Example C06_case : let r := run_quick_machine bb2 100 in
  mr_undfnd r = Some (5, (1, 1)) /\ mr_marks r = 4.
Proof. vm_compute. auto. Qed.

(** C07 *)
Theorem C07_spnout_never_halts : forall comp lim,
  mr_result (run_quick_machine comp lim) = spnout ->
  never_halts (machine_of comp)
  /\ exists c, steps (machine_of comp) (Z.to_nat (mr_steps (run_quick_machine comp lim))) init = Some c
     /\ spins_out_from (machine_of comp) c
     /\ marks_are (c_tape c) (mr_marks (run_quick_machine comp lim)).
Proof. exact quick_spnout. Qed.
Print Assumptions C07_spnout_never_halts.

Example C07_case : mr_result (run_quick_machine spin 100) = spnout.
Proof. reflexivity. Qed.

(** C08 *)
Theorem C08_blanks_truthful : forall comp lim s n,
  In (s, n) (mr_blanks (run_quick_machine comp lim)) ->
  0 <= n /\ exists c, steps (machine_of comp) (Z.to_nat n) init = Some c /\ c_state c = s /\ is_blank c.
Proof. exact quick_blanks. Qed.
Print Assumptions C08_blanks_truthful.

Theorem C08_infrul_never_halts : forall comp lim,
  mr_result (run_quick_machine comp lim) = infrul -> never_halts (machine_of comp).
Proof. exact quick_infrul. Qed.
Print Assumptions C08_infrul_never_halts.

Example C08_case : let r := run_quick_machine blinker 100 in
  mr_result r = infrul /\ mr_blanks r = [(0, 3)].
Proof. vm_compute. auto. Qed.

(** C09 *)
Theorem C09_complete_below_limit : forall comp lim n s,
  halts_at (machine_of comp) n s -> (n < lim)%nat ->
  mr_undfnd (run_quick_machine comp lim) = Some (Z.of_nat n, s).
Proof. exact quick_complete. Qed.
Print Assumptions C09_complete_below_limit.

Example C09_case : halts_at (machine_of bb2) 5 (1, 1).
Proof. eexists. repeat split. Qed.
