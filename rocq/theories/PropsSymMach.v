(** * Properties of Machine runs with symbolic counts (C80)

    [s_machine_run fl (ops_at fl n) (plain M) lim] is Machine(prog).run(lim) with counts that may be expressions;
    [fl] gives the floating point roots and logarithms, the operators may be nested [n] deep, for any [n]. *)
From Coq Require Import QArith Znumtheory.
From Verif Require Import Base TM ProgModel TapeModel TapeSpec RulesModel ProverModel LawSpec NumModel NumSpec NumMod NumMore
  SymModel SymSpec SymMachModel SymMachSpec QuickModel QuickProofs MachineProofs LawCase SymMachProofs SymMachCase.
Local Open Scope Z_scope.

(** C80 is false in general, already for the reason of C55: a rule checked on samples leaps over the halting point. *)
Theorem C80_undfnd_refuted : exists M lim n s s' x q, let m := s_machine_run exact_fl ops6 (plain M) lim in
  sm_end m = YUndfnd s /\ halts_at M n s' /\ s <> s' /\ s_marks ops6 (sm_tape m) = Got x /\ zval x q
  /\ exists c, steps M n init = Some c /\ ~ marks_are (c_tape c) q.
Proof. exact s_undfnd_wrong. Qed.
Print Assumptions C80_undfnd_refuted.

(** What is true: if each rule that the prover holds at the end is a law of the machine, and no tape on the way was
    misleading, then whatever the run reports has really happened, after some number [k] of moves, which is the number
    of steps reported, if one is; and the symbolic tape and the symbolic number of marks have the values of the real
    ones. *)
Theorem C80_lawful_partial : forall p, prime p -> forall fl, exact_roots fl -> exact_log2 fl -> forall n M lim,
  let run := s_machine_run fl (ops_at fl n) (plain M) in let m := run lim in
  s_lawful p M (sm_prover m) -> (forall j, (j <= lim)%nat -> clear (sm_prover m) (sm_tape (run j))) ->
  exists k c, steps M k init = Some c
  /\ (sm_steps m <> -1 -> sm_steps m = Z.of_nat k)
  /\ (fine (sm_end m) -> exists t, worth (sm_tape m) t /\ represents t c /\ canon t
        /\ forall x, s_marks (ops_at fl n) (sm_tape m) = Got x -> val x (inject_Z (t_marks t)) /\ marks_are (c_tape c) (t_marks t))
  /\ (forall s, sm_end m = YUndfnd s -> halts_at M k s)
  /\ (sm_end m = YSpnout -> never_halts M /\ spins_out_from M c)
  /\ (sm_end m = YXlimit -> (lim <= k)%nat)
  /\ (forall s j, In (s, j) (sm_blanks m) -> exists i d, (1 <= i <= k)%nat /\ (j <> -1 -> j = Z.of_nat i)
       /\ steps M i init = Some d /\ c_state d = s /\ is_blank d).
Proof. exact s_run_lawful. Qed.
Print Assumptions C80_lawful_partial.

(** A machine of 63 states that doubles a block sixty times; the rule of the inner loop gives the number of marks as
    a symbolic expression, the rule of the outer loop uses it.  The hypotheses are met, and the machine halts with
    2^62 - 2 marks after a number of moves that no simulator could make. *)
Example C80_lawful_case :
  let m := s_machine_run exact_fl ops6 (plain D) 300 in
  prime 3 /\ exact_roots exact_fl /\ exact_log2 exact_fl
  /\ s_lawful 3 D (sm_prover m) /\ (forall j, (j <= 300)%nat -> clear (sm_prover m) (sm_tape (s_machine_run exact_fl ops6 (plain D) j)))
  /\ sm_end m = YUndfnd (61, 0) /\ sm_cycles m = 216 /\ s_marks ops6 (sm_tape m) = Got (Add (I (-2)) (Exp 2 (I 62)))
  /\ exists k c, halts_at D k (61, 0) /\ steps D k init = Some c /\ marks_are (c_tape c) (2 ^ 62 - 2).
Proof. exact doubler_case. Qed.
