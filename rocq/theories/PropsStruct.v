(** * Properties of the programs of machines/structured (C78) *)
From Verif Require Import Base TM ParseModel CSpec LinModel LinSpec StructModel StructSpec StructRunProofs StructFilesProofs.
From Verif Require CProofs StructProofs.

(** C78: each program comes to its check where its machine first halts, has a blank tape, or, in the states where that
    is checked for, spins out; STEPS is then the number of moves, MARKS the number of marks, and the array holds the
    tape.  It runs for ever if the machine never stops.  This is so as long as the head stays in the array and the
    machine has instructions.  For 3932964.c the colours of the marks may differ; see below for three programs that
    return before all this. *)
Theorem C78_simulates_partial : forall e, In e structured ->
  simulates (e_file e) (machine_of (e_text e)) (e_spins e) agrees.
Proof. exact structured_simulates. Qed.
Print Assumptions C78_simulates_partial.

(** It comes to the check nowhere else. *)
Theorem C78_only_partial : forall e, In e structured ->
  only_there (e_file e) (machine_of (e_text e)) (e_spins e) agrees.
Proof. exact structured_only. Qed.
Print Assumptions C78_only_partial.

Theorem C78_color_partial :
  simulates file_3932964 (machine_of (e_text entry_3932964)) [] agrees_up_to_color
  /\ only_there file_3932964 (machine_of (e_text entry_3932964)) [] agrees_up_to_color.
Proof. exact simulates_3932964. Qed.
Print Assumptions C78_color_partial.

(** There is but one check that a program comes to. *)
Theorem C78_once : forall F f f' m m', c_main F f = Checks m -> c_main F f' = Checks m' -> m = m'.
Proof. exact StructProofs.checks_unique. Qed.
Print Assumptions C78_once.

(** Nine of the programs pass their check, and stop with so many marks: those that do check and stay in their arrays. *)
Theorem C78_passes : forall e k, In (e, k) passing ->
  exists fuel m, c_main (e_file e) fuel = Checks m /\ m_steps m = e_limit e /\ m_marks m = k.
Proof. exact passing_pass. Qed.
Print Assumptions C78_passes.

(** What the hypotheses of the first theorem say of one of them: the machine of 66345.c first stops with a blank tape. *)
Example C78_case : exists c, first_stop (machine_of (e_text entry_66345)) [] (Pos.to_nat 66345) c /\ is_blank c
  /\ forall j d, (j <= Pos.to_nat 66345)%nat -> steps (machine_of (e_text entry_66345)) j init = Some d -> inside file_66345 d.
Proof.
  assert (Z : z_check file_66345 (e_text entry_66345) [] 66345 3 0 = true) by (vm_compute; reflexivity).
  destruct (z_check_right _ _ _ _ _ _ Z) as (c & F & _ & M & I). exists c. split; [exact F|]. split; [|exact I].
  exact (proj1 (CProofs.marks_zero _ _ M) eq_refl).
Qed.
(** And 2819.c by spinning out, 21.c by halting. *)
Example C78_case_spin : exists c, first_stop (machine_of (e_text entry_2819)) [3] (Pos.to_nat 2819) c /\ c_state c = 3 /\ marks_are (c_tape c) 69.
Proof.
  assert (Z : z_check file_2819 (e_text entry_2819) [3] 2819 3 69 = true) by (vm_compute; reflexivity).
  destruct (z_check_right _ _ _ _ _ _ Z) as (c & F & S & M & _). exists c. auto.
Qed.
Example C78_case_halt : exists c, first_stop (machine_of (e_text entry_21)) [] (Pos.to_nat 21) c /\ c_state c = -1.
Proof.
  assert (Z : z_check file_21 (e_text entry_21) [] 21 (-1) 5 = true) by (vm_compute; reflexivity).
  destruct (z_check_right _ _ _ _ _ _ Z) as (c & F & S & _ & _). exists c. auto.
Qed.

(** Where the head of the machine leaves the array, four of the programs read outside of it. *)
Theorem C78_overrun : forall e, In e [entry_2315619; entry_2333909; entry_3932964; entry_32779477] ->
  overrun_undefined (e_file e) (machine_of (e_text e)) (e_spins e).
Proof. exact overruns_four. Qed.
Print Assumptions C78_overrun.

(** And for each of them it does: they do not come to their check in any defined way. *)
Theorem C78_array_refuted : forall e, In e [entry_2315619; entry_2333909; entry_3932964; entry_32779477] ->
  exists fuel, c_main (e_file e) fuel = Undefined.
Proof. exact undefined_four. Qed.
Print Assumptions C78_array_refuted.

(** Three programs return without a check. *)
Theorem C78_unchecked_refuted : forall F fuel m,
  In F [file_455790469742; file_455790469746; file_7021292621] -> c_main F fuel <> Checks m.
Proof. exact returns. Qed.
Print Assumptions C78_unchecked_refuted.

(** The machine of PROGRAM in 9340.c never stops; the program does, since it begins with five moves that are not in
    PROGRAM. *)
Theorem C78_program_refuted :
  (exists fuel m, c_main file_9340 fuel = Checks m /\ m_steps m = 9340)
  /\ forall n c, steps (machine_of program_9340) n init = Some c -> ~ stops (machine_of program_9340) [] n c.
Proof. exact program_9340_refuted. Qed.
Print Assumptions C78_program_refuted.

(** The machine that the repository lists for 21 steps (idris/BB.idr 24) makes its last move to the right, 21.c to the
    left. *)
Theorem C78_listed_refuted : ~ simulates file_21 (machine_of listed_21) [] agrees.
Proof. exact listed_21_refuted. Qed.
Print Assumptions C78_listed_refuted.
