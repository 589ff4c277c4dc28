(** * Properties of the machines with a prover (C44, C45, C55 - C57) *)
From Verif Require Import Base TM ProgModel TapeModel QuickModel QuickProofs ProverModel MachineProofs.

(** C44: whatever the prover recorded or tried, a run that applied no rule is an exact simulation. *)
Theorem C44_undfnd_exact : forall M lim n s,
  m_rulapp (py_machine_run (plain M) lim) = 0 ->
  m_undfnd (py_machine_run (plain M) lim) = Some (n, s) ->
  0 <= n /\ halts_at M (Z.to_nat n) s
  /\ exists c, steps M (Z.to_nat n) init = Some c
     /\ marks_are (c_tape c) (t_marks (m_tape (py_machine_run (plain M) lim))).
Proof. exact machine_undfnd. Qed.
Print Assumptions C44_undfnd_exact.

Theorem C44_spnout_never_halts : forall M lim,
  m_rulapp (py_machine_run (plain M) lim) = 0 ->
  m_end (py_machine_run (plain M) lim) = MSpnout ->
  never_halts M
  /\ exists c, steps M (Z.to_nat (m_steps (py_machine_run (plain M) lim))) init = Some c
     /\ spins_out_from M c
     /\ marks_are (c_tape c) (t_marks (m_tape (py_machine_run (plain M) lim))).
Proof. exact machine_spnout. Qed.
Print Assumptions C44_spnout_never_halts.

Theorem C44_steps_made : forall M lim,
  let m := py_machine_run (plain M) lim in
  m_rulapp m = 0 ->
  0 <= m_steps m
  /\ (exists c, steps M (Z.to_nat (m_steps m)) init = Some c /\ marks_are (c_tape c) (t_marks (m_tape m)))
  /\ (forall s j, In (s, j) (m_blanks m) -> 0 <= j <= m_steps m
        /\ exists c, steps M (Z.to_nat j) init = Some c /\ c_state c = s /\ is_blank c)
  /\ (m_end m = MXlimit -> Z.of_nat lim <= m_steps m).
Proof. exact machine_steps. Qed.
Print Assumptions C44_steps_made.

(** The same of Rust's run_prover below 2^33 moves (beyond that, apply_rule may change the tape
    and still answer None, see C11_rust_none_untouched_refuted). *)
Theorem C44_rust_undfnd_exact : forall M lim r n s,
  rs_run_prover M lim = Some r -> mr_rulapp r = 0 -> mr_steps r < 2 ^ 33 ->
  mr_undfnd r = Some (n, s) ->
  0 <= n /\ halts_at M (Z.to_nat n) s
  /\ exists c, steps M (Z.to_nat n) init = Some c /\ marks_are (c_tape c) (mr_marks r).
Proof. exact run_prover_undfnd. Qed.
Print Assumptions C44_rust_undfnd_exact.

Theorem C44_rust_spnout_never_halts : forall M lim r,
  rs_run_prover M lim = Some r -> mr_rulapp r = 0 -> mr_steps r < 2 ^ 33 ->
  mr_result r = spnout ->
  never_halts M
  /\ exists c, steps M (Z.to_nat (mr_steps r)) init = Some c /\ spins_out_from M c /\ marks_are (c_tape c) (mr_marks r).
Proof. exact run_prover_spnout. Qed.
Print Assumptions C44_rust_spnout_never_halts.

Theorem C44_rust_steps_made : forall M lim r,
  rs_run_prover M lim = Some r -> mr_rulapp r = 0 -> mr_steps r < 2 ^ 33 ->
  0 <= mr_steps r
  /\ (exists c, steps M (Z.to_nat (mr_steps r)) init = Some c /\ marks_are (c_tape c) (mr_marks r))
  /\ (forall s j, In (s, j) (mr_blanks r) -> 0 <= j <= mr_steps r
        /\ exists c, steps M (Z.to_nat j) init = Some c /\ c_state c = s /\ is_blank c)
  /\ (mr_result r = xlimit -> Z.of_nat lim <= mr_steps r).
Proof. exact run_prover_steps. Qed.
Print Assumptions C44_rust_steps_made.

(** The four-state champion, without its halting instruction: stops after 106 moves with 12 marks. *)
Definition bb4 : comp_prog :=
  [((0, 0), (1, true, 1)); ((0, 1), (1, false, 1)); ((1, 0), (1, false, 0)); ((1, 1), (0, false, 2));
   ((2, 1), (1, false, 3)); ((3, 0), (1, true, 3)); ((3, 1), (0, true, 0))].
Example C44_case :
  let m := py_machine_run (plain (machine_of bb4)) 1000 in
  m_rulapp m = 0 /\ m_undfnd m = Some (106, (2, 0))
  /\ exists r, rs_run_prover (machine_of bb4) 1000 = Some r /\ mr_rulapp r = 0 /\ mr_undfnd r = Some (106, (2, 0)).
Proof.
  cbv zeta. split; [vm_compute; reflexivity|]. split; [vm_compute; reflexivity|].
  eexists. split; [vm_compute; reflexivity|split; reflexivity].
Qed.
Example C44_spnout_case :
  let p := machine_of [((0, 0), (1, true, 1)); ((1, 0), (0, true, 1))] in
  m_end (py_machine_run (plain p) 100) = MSpnout /\ m_rulapp (py_machine_run (plain p) 100) = 0.
Proof. vm_compute. auto. Qed.

(** C45 is false: [sweep 10] grows a block of 1s by one per turn, goes over it to the right counting
    modulo 10, and halts when the count is 9.  Before that the prover has concluded that the block
    grows for ever. *)
Theorem C45_infrul_refuted : exists M lim,
  m_end (py_machine_run (plain M) lim) = MInfrul /\ m_rulapp (py_machine_run (plain M) lim) = 0 /\ halts M.
Proof. exact infrul_wrong. Qed.
Print Assumptions C45_infrul_refuted.

Theorem C45_rust_infrul_refuted : exists M lim r,
  rs_run_prover M lim = Some r /\ mr_result r = infrul /\ rs_run_for_infrul M lim = Some true /\ halts M.
Proof. exact rs_infrul_wrong. Qed.
Print Assumptions C45_rust_infrul_refuted.

(** What is true: an infrul that comes from the blank tape recurring. *)
Theorem C45_blank_start_partial : forall M lim j,
  m_rulapp (py_machine_run (plain M) lim) = 0 ->
  In (0, j) (m_blanks (py_machine_run (plain M) lim)) -> 0 < j -> never_halts M.
Proof. exact blank_start. Qed.
Print Assumptions C45_blank_start_partial.

Example C45_case :
  let p := machine_of [((0, 0), (1, true, 1)); ((1, 0), (0, false, 2)); ((2, 1), (0, true, 0))] in
  let m := py_machine_run (plain p) 100 in m_rulapp m = 0 /\ m_blanks m = [(0, 3)] /\ m_end m = MInfrul.
Proof. vm_compute. auto. Qed.

(** C55 is false: [leap 13 9] writes thirteen 2s and consumes them one by one while a block of 1s grows by
    two per turn; it halts early when the block has a certain length modulo 9.  The proved rule
    leaps over that. *)
Theorem C55_undfnd_after_rules_refuted : exists M lim n s s',
  0 < m_rulapp (py_machine_run (plain M) lim)
  /\ m_end (py_machine_run (plain M) lim) = MUndfnd s /\ halts_at M n s' /\ s <> s'
  /\ exists c, steps M n init = Some c /\ ~ marks_are (c_tape c) (t_marks (m_tape (py_machine_run (plain M) lim))).
Proof. exact undfnd_wrong. Qed.
Print Assumptions C55_undfnd_after_rules_refuted.

Theorem C55_rust_undfnd_after_rules_refuted : exists M lim r n s s',
  rs_run_prover M lim = Some r /\ 0 < mr_rulapp r
  /\ mr_last_slot r = Some s /\ mr_result r = undfnd /\ halts_at M n s' /\ s <> s'
  /\ exists c, steps M n init = Some c /\ ~ marks_are (c_tape c) (mr_marks r).
Proof. exact rs_undfnd_wrong. Qed.
Print Assumptions C55_rust_undfnd_after_rules_refuted.

(** C56 is false: on [squeeze 12 12], whose rule makes two blocks shrink, the two machines end in the same
    slot with different numbers of marks; Python's is right. *)
Theorem C56_python_rust_marks_refuted : exists M lim n s r,
  rs_run_prover M lim = Some r /\ mr_result r = undfnd /\ mr_last_slot r = Some s
  /\ m_end (py_machine_run (plain M) lim) = MUndfnd s /\ halts_at M n s
  /\ exists c, steps M n init = Some c
     /\ marks_are (c_tape c) (t_marks (m_tape (py_machine_run (plain M) lim))) /\ ~ marks_are (c_tape c) (mr_marks r).
Proof. exact marks_differ. Qed.
Print Assumptions C56_python_rust_marks_refuted.

(** They agree when neither applied a rule. *)
Theorem C56_agree_without_rules_partial : forall M lim r,
  rs_run_prover M lim = Some r -> mr_rulapp r = 0 -> mr_steps r < 2 ^ 33 ->
  m_rulapp (py_machine_run (plain M) lim) = 0 ->
  (forall n s n' s', m_undfnd (py_machine_run (plain M) lim) = Some (n, s) -> mr_undfnd r = Some (n', s') ->
     n = n' /\ s = s' /\ t_marks (m_tape (py_machine_run (plain M) lim)) = mr_marks r)
  /\ ~ (m_end (py_machine_run (plain M) lim) = MSpnout /\ mr_result r = undfnd)
  /\ ~ (mr_result r = spnout /\ exists s, m_end (py_machine_run (plain M) lim) = MUndfnd s).
Proof. exact agree_without_rules. Qed.
Print Assumptions C56_agree_without_rules_partial.

Example C56_case : exists r, rs_run_prover (machine_of bb4) 1000 = Some r /\ mr_rulapp r = 0 /\ mr_steps r < 2 ^ 33
  /\ m_rulapp (py_machine_run (plain (machine_of bb4)) 1000) = 0 /\ mr_marks r = 12.
Proof. eexists. split; [vm_compute; reflexivity|]. split; [reflexivity|]. split; [reflexivity|]. split; [vm_compute; reflexivity|reflexivity]. Qed.

(** C57 is false: once a rule was applied, run_prover's step count is too small, though
    everything else it reports is right. *)
Theorem C57_run_prover_steps_refuted : exists M lim r n s,
  rs_run_prover M lim = Some r /\ mr_undfnd r = Some (n, s)
  /\ exists n', halts_at M (Z.to_nat n') s /\ n < n'
     /\ exists c, steps M (Z.to_nat n') init = Some c /\ marks_are (c_tape c) (mr_marks r).
Proof. exact steps_wrong. Qed.
Print Assumptions C57_run_prover_steps_refuted.
