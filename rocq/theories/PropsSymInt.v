(** * Machine runs whose counts stay integers (C85)

    [py_machine_run comp lim] is Machine(prog).run(lim) computed with integers alone; it ends in [MErr] as soon as a
    count would become a symbolic expression (or an exception leaves run).  [s_machine_run] is the same run with the
    counts that tm/num.py provides. *)
From Verif Require Import Base TM ProgModel TapeModel RulesModel QuickModel ProverModel NumModel NumSpec SymModel SymMachModel
  SymIntSpec SymIntProofs SymMachCase.
Local Open Scope Z_scope.

(** C85.  For every program, macro or plain, whatever the floating point functions give and however deep the operators
    may nest: a run that needs no symbolic count reports with symbolic counts what it reports with integers: the same
    end, steps, cycles, rule applications, blank tapes, suspected rules, tape and marks, and the same rules. *)
Theorem C85_int_runs : forall fl n comp lim, let m := py_machine_run comp lim in
  m_end m <> MErr ->
  let s := s_machine_run fl (ops_at fl (S n)) comp lim in
  same_run m s /\ s_marks (ops_at fl (S n)) (sm_tape s) = Got (I (t_marks (m_tape m))).
Proof. exact int_runs. Qed.
Print Assumptions C85_int_runs.

(** The champion of two states and four colours, without its halting instruction, as test/prog_data.py 44 has it: rules
    are applied 987 times, no count becomes symbolic, 2050 marks are left. *)
Definition bb24 : comp_prog :=
  [((0, 0), (1, true, 1)); ((0, 1), (2, false, 0)); ((0, 2), (1, true, 0)); ((0, 3), (1, true, 0));
   ((1, 0), (1, false, 1)); ((1, 1), (1, false, 0)); ((1, 2), (3, true, 1))].
Example C85_case : let m := py_machine_run (plain (machine_of bb24)) 1000 in
  m_end m <> MErr /\ m_end m = MUndfnd (1, 3) /\ m_rulapp m = 987 /\ m_cycles m = 397 /\ t_marks (m_tape m) = 2050.
Proof.
  cbv zeta. assert (E : m_end (py_machine_run (plain (machine_of bb24)) 1000) = MUndfnd (1, 3)) by (vm_compute; reflexivity).
  split; [rewrite E; discriminate|]. split; [exact E|]. split; [vm_compute; reflexivity|]. split; vm_compute; reflexivity.
Qed.
