(** * Limits are only limits (C84) *)
From Verif Require Import Base TM ProgModel ParseModel ParseSpec NormModel NormSpec QuickModel TermRecModel TermRecSpec RulesModel ProverModel
  SegModel RecurModel IdrisModel IdrisParseModel InstrSeqModel MacroModel RsMacroModel NumModel SymModel SymMachModel LimitProofs PropsMachine PropsSeg RecurCases.

(** C84: run_quick_machine. *)
Theorem C84_quick : forall comp n m, (n <= m)%nat -> mr_result (run_quick_machine comp n) <> xlimit ->
  run_quick_machine comp m = run_quick_machine comp n.
Proof. exact run_quick_more. Qed.
Print Assumptions C84_quick.
(** The four-state champion stops in the 107th turn of the loop. *)
Example C84_quick_case : mr_result (run_quick_machine bb4 106) = xlimit /\ mr_undfnd (run_quick_machine bb4 107) = Some (106, (2, 0)).
Proof. vm_compute. auto. Qed.

(** C84: quick_term_or_rec. *)
Theorem C84_term_or_rec : forall comp drop_halt n m, (n <= m)%nat -> quick_term_or_rec comp n drop_halt = true ->
  quick_term_or_rec comp m drop_halt = true.
Proof. exact term_or_rec_more. Qed.
Print Assumptions C84_term_or_rec.
Example C84_term_or_rec_case : quick_term_or_rec drifter 11 false = false /\ quick_term_or_rec drifter 12 false = true.
Proof. vm_compute. auto. Qed.

(** C84: run_prover; a panic stays a panic. *)
Theorem C84_run_prover : forall M n m r, (n <= m)%nat -> rs_run_prover M n = r ->
  (forall x, r = Some x -> mr_result x <> xlimit) -> rs_run_prover M m = r.
Proof. exact run_prover_more. Qed.
Print Assumptions C84_run_prover.
(** C84: run_for_infrul, on plain programs and on macros with their caches. *)
Theorem C84_run_for_infrul : forall M n m, (n <= m)%nat -> rs_run_for_infrul M n = Some true -> rs_run_for_infrul M m = Some true.
Proof. exact infrul_more. Qed.
Print Assumptions C84_run_for_infrul.
Theorem C84_run_for_infrul_macro : forall St (look : St -> Z -> Z -> St * rlook) x n m, (n <= m)%nat ->
  sf_run_for_infrul look x n = Some true -> sf_run_for_infrul look x m = Some true.
Proof. exact @sf_infrul_more. Qed.
Print Assumptions C84_run_for_infrul_macro.

(** C84: run of a Machine, with integer counts and with symbolic ones: the whole result, tape and rules included. *)
Theorem C84_machine : forall comp n m, (n <= m)%nat -> m_end (py_machine_run comp n) <> MXlimit ->
  py_machine_run comp m = py_machine_run comp n.
Proof. exact py_run_more. Qed.
Print Assumptions C84_machine.
Theorem C84_symbolic_machine : forall fl o comp n m, (n <= m)%nat -> sm_end (s_machine_run fl o comp n) <> YXlimit ->
  s_machine_run fl o comp m = s_machine_run fl o comp n.
Proof. exact s_run_more. Qed.
Print Assumptions C84_symbolic_machine.

(** C84: segment_cant_halt. *)
Theorem C84_segments : forall prog params rfuel fuel a b s, a <= b -> segment_cant_halt prog params a rfuel fuel = SegSome s ->
  segment_cant_halt prog params b rfuel fuel = SegSome s.
Proof. exact segment_more. Qed.
Print Assumptions C84_segments.
Example C84_segments_case : segment_cant_halt C35_prog (3, 2) 3 100 200 = SegNone /\ segment_cant_halt C35_prog (3, 2) 4 100 200 = SegSome 4.
Proof. vm_compute. auto. Qed.

(** C84: the recurrence checkers of the tests. *)
Theorem C84_strict : forall comp check n m, (n <= m)%nat -> (forall k, sr_end (strict_run comp n check) <> SXlimit k) ->
  strict_run comp m check = strict_run comp n check.
Proof. exact strict_more. Qed.
Print Assumptions C84_strict.
Theorem C84_loose : forall comp n m, (n <= m)%nat -> mr_result (run_loose_linrec_machine comp n) <> xlimit ->
  run_loose_linrec_machine comp m = run_loose_linrec_machine comp n.
Proof. exact loose_more. Qed.
Print Assumptions C84_loose.

(** C84: the Idris machines. *)
Theorem C84_idris : forall fuel mc prog n m, (n <= m)%nat -> run_single fuel mc n prog <> HitsLimit ->
  run_single fuel mc m prog = run_single fuel mc n prog.
Proof. exact run_single_more. Qed.
Print Assumptions C84_idris.
Theorem C84_idris_double : forall fuel mc prog n m, (n <= m)%nat -> run_double_rec fuel mc n prog <> HitsLimit ->
  run_double_rec fuel mc m prog = run_double_rec fuel mc n prog.
Proof. exact run_double_rec_more. Qed.
Print Assumptions C84_idris_double.

(** C84: with more turns instr_seq can only go on. *)
Theorem C84_instr_seq : forall n m s l, (n <= m)%nat -> instr_seq n s = Some l -> exists l', instr_seq m s = Some (l ++ l').
Proof. exact instr_seq_more. Qed.
Print Assumptions C84_instr_seq.

Example C84_runs_case :
  mr_result (run_loose_linrec_machine drifter 9) = xlimit /\ mr_result (run_loose_linrec_machine drifter 10) = infrul
  /\ sr_end (strict_run drifter 5 0) = SXlimit 7 /\ sr_end (strict_run drifter 100 0) = SLin 7 7 None false
  /\ m_end (py_machine_run (plain (machine_of bb4)) 20) = MXlimit /\ m_undfnd (py_machine_run (plain (machine_of bb4)) 200) = Some (106, (2, 0))
  /\ instr_seq 2 (text_of "1RB 1LB  1LA ...") = Some [(text_of "1RB ...  ... ...", 1, (1, 0))].
Proof. vm_compute. repeat split; reflexivity. Qed.
