(** * Properties of runs whose rules are laws (C55 - C57, C45) *)
From Verif Require Import Base TM ProgModel TapeModel TapeSpec RulesModel QuickModel ProverModel LawSpec LawProofs RsLawProofs RsGrowProofs LawCase.

(** C55: what is true of Python's machine when rules are applied.  If each rule that the prover holds at
    the end is a law of the machine, then whatever was leapt over really happens: the run stands for [n] moves. *)
Theorem C55_lawful_rules_partial : forall M lim, let m := py_machine_run (plain M) lim in lawful M (m_prover m) ->
  exists n c, steps M n init = Some c
  /\ (m_steps m <> -1 -> m_steps m = Z.of_nat n)
  /\ represents (m_tape m) c /\ marks_are (c_tape c) (t_marks (m_tape m))
  /\ (forall s, m_end m = MUndfnd s -> halts_at M n s)
  /\ (m_end m = MSpnout -> never_halts M /\ spins_out_from M c)
  /\ (m_end m = MXlimit -> (lim <= n)%nat)
  /\ (forall s j, In (s, j) (m_blanks m) -> exists k d, (1 <= k <= n)%nat /\ (j <> -1 -> j = Z.of_nat k)
       /\ steps M k init = Some d /\ c_state d = s /\ is_blank d).
Proof. exact run_lawful. Qed.
Print Assumptions C55_lawful_rules_partial.

(** C45: an infrul then means that the machine never halts, or that it was seen to grow; and if
    the growth seen is a law, too, it never halts either. *)
Theorem C45_lawful_growth_partial : forall M lim, let m := py_machine_run (plain M) lim in
  lawful M (m_prover m) -> m_end m = MInfrul ->
  never_halts M
  \/ exists n c r, steps M n init = Some c /\ represents (m_tape m) c
      /\ grows M (c_state c) (m_tape m) r /\ (law M (c_state c) r (m_tape m) -> never_halts M).
Proof. exact run_lawful_infrul. Qed.
Print Assumptions C45_lawful_growth_partial.

(** A machine with a rule, applied six times at once, that is a law of it. *)
Example C55_lawful_case :
  let m := py_machine_run (plain (machine_of (shuttle 12))) 1000 in
  lawful (machine_of (shuttle 12)) (m_prover m)
  /\ m_end m = MUndfnd (13, 0) /\ m_rulapp m = 6 /\ m_steps m = -1 /\ t_marks (m_tape m) = 25
  /\ exists n, halts_at (machine_of (shuttle 12)) n (13, 0).
Proof.
  cbv zeta. split; [exact shuttle_lawful|]. split; [vm_compute; reflexivity|]. split; [vm_compute; reflexivity|].
  split; [vm_compute; reflexivity|]. split; [vm_compute; reflexivity|].
  destruct (run_lawful (machine_of (shuttle 12)) 1000 shuttle_lawful) as (n & c & _ & _ & _ & _ & H & _).
  exists n. apply H. vm_compute. reflexivity.
Qed.

(** A block of 1s that grows at both ends: an infrul before any rule was made. *)
Definition grower : comp_prog := [((0, 0), (1, true, 1)); ((1, 1), (1, true, 1)); ((1, 0), (1, false, 0)); ((0, 1), (1, false, 0))].
Example C45_lawful_case :
  let m := py_machine_run (plain (machine_of grower)) 100 in
  lawful (machine_of grower) (m_prover m) /\ m_end m = MInfrul /\ m_blanks m = [].
Proof.
  cbv zeta. split; [|vm_compute; auto].
  intros state scan ms r t (v & X & _). vm_compute in X. destruct X.
Qed.

(** C45, Rust: the same of run_prover, if in each rule at most one count goes down, and unless the machine
    makes 2^31 moves. *)
Theorem C45_rust_lawful_growth_partial : forall M lim r pv, rs_run_prover M lim = Some r -> rs_run_prover_end M lim = Some pv ->
  lawful M pv -> (forall s ms ru, holds_rule pv s ms ru -> one_goes_down ru) -> mr_result r = infrul ->
  lasts M (2 ^ 31) \/ never_halts M
  \/ exists n c t ru, steps M n init = Some c /\ represents t c /\ mr_marks r = t_marks t
      /\ grows M (c_state c) t ru /\ (law M (c_state c) ru t -> never_halts M).
Proof. exact rs_run_lawful_infrul. Qed.
Print Assumptions C45_rust_lawful_growth_partial.

(** What run_for_infrul says yes to, run_prover calls infrul; so it means as much. *)
Theorem C45_run_for_infrul_partial : forall M lim, rs_run_for_infrul M lim = Some true ->
  exists r pv, rs_run_prover M lim = Some r /\ rs_run_prover_end M lim = Some pv /\ mr_result r = infrul.
Proof. exact rs_run_for_infrul_prover. Qed.
Print Assumptions C45_run_for_infrul_partial.

Example C45_rust_lawful_case : exists r pv,
  rs_run_prover (machine_of grower) 100 = Some r /\ rs_run_prover_end (machine_of grower) 100 = Some pv
  /\ lawful (machine_of grower) pv /\ (forall s ms ru, holds_rule pv s ms ru -> one_goes_down ru)
  /\ mr_result r = infrul /\ mr_blanks r = [] /\ mr_marks r = 10
  /\ rs_run_for_infrul (machine_of grower) 100 = Some true.
Proof.
  assert (A : option_map (fun r => (mr_result r, mr_blanks r, mr_marks r)) (rs_run_prover (machine_of grower) 100)
    = Some (infrul, [], 10)) by (vm_compute; reflexivity).
  assert (B : option_map pv_rules (rs_run_prover_end (machine_of grower) 100) = Some []) by (vm_compute; reflexivity).
  assert (C : rs_run_for_infrul (machine_of grower) 100 = Some true) by (vm_compute; reflexivity).
  revert A B C. generalize (rs_run_prover (machine_of grower) 100), (rs_run_prover_end (machine_of grower) 100), (rs_run_for_infrul (machine_of grower) 100).
  intros [r|] [pv|] b A B ->; try discriminate A; try discriminate B. cbn [option_map] in A, B. injection A as A1 A2 A3. injection B as B.
  exists r, pv. split; [reflexivity|]. split; [reflexivity|].
  split; [intros st sc ms ru t (v & X & _); rewrite B in X; destruct X|].
  split; [intros s ms ru (v & X & _); rewrite B in X; destruct X|]. auto.
Qed.

(** C55, Rust: the same of run_prover, if in each rule at most one count goes down, and unless the machine
    makes 2^64 moves.  Its step count is short by at least one move for each time that a rule was applied. *)
Theorem C55_rust_lawful_rules_partial : forall M lim r pv, rs_run_prover M lim = Some r -> rs_run_prover_end M lim = Some pv ->
  lawful M pv -> (forall s ms ru, holds_rule pv s ms ru -> one_goes_down ru) ->
  lasts M (2 ^ 64)
  \/ exists n c, steps M n init = Some c
  /\ (0 <= mr_steps r /\ 0 <= mr_rulapp r /\ mr_steps r + mr_rulapp r <= Z.of_nat n)
  /\ marks_are (c_tape c) (mr_marks r)
  /\ (mr_result r = undfnd -> exists s, mr_last_slot r = Some s /\ halts_at M n s)
  /\ (mr_result r = spnout -> never_halts M /\ spins_out_from M c)
  /\ (mr_result r = xlimit -> (lim <= n)%nat)
  /\ (forall s j, In (s, j) (mr_blanks r) -> exists k d, (1 <= k <= n)%nat /\ j <= Z.of_nat k
       /\ steps M k init = Some d /\ c_state d = s /\ is_blank d).
Proof. exact rs_run_lawful. Qed.
Print Assumptions C55_rust_lawful_rules_partial.

(** C56: so the two machines agree when both report an undefined instruction. *)
Theorem C56_lawful_agree_partial : forall M lim r pv, let m := py_machine_run (plain M) lim in
  lawful M (m_prover m) ->
  rs_run_prover M lim = Some r -> rs_run_prover_end M lim = Some pv ->
  lawful M pv -> (forall s ms ru, holds_rule pv s ms ru -> one_goes_down ru) ->
  forall s s', m_end m = MUndfnd s -> mr_result r = undfnd -> mr_last_slot r = Some s' ->
  lasts M (2 ^ 64) \/ (s' = s /\ mr_marks r = t_marks (m_tape m)).
Proof. exact lawful_agree. Qed.
Print Assumptions C56_lawful_agree_partial.

(** C57: the count reported is a lower bound only. *)
Theorem C57_lower_bound_partial : forall M lim r pv n s, rs_run_prover M lim = Some r -> rs_run_prover_end M lim = Some pv ->
  lawful M pv -> (forall s ms ru, holds_rule pv s ms ru -> one_goes_down ru) ->
  mr_undfnd r = Some (n, s) ->
  lasts M (2 ^ 64) \/ exists n', halts_at M (Z.to_nat n') s /\ n + mr_rulapp r <= n'.
Proof. exact lawful_steps_short. Qed.
Print Assumptions C57_lower_bound_partial.

(** The machine above again: 139 reported; and it does not last. *)
Example C57_lower_bound_case : exists r pv,
  rs_run_prover (machine_of (shuttle 12)) 1000 = Some r /\ rs_run_prover_end (machine_of (shuttle 12)) 1000 = Some pv
  /\ lawful (machine_of (shuttle 12)) pv /\ (forall s ms ru, holds_rule pv s ms ru -> one_goes_down ru)
  /\ mr_undfnd r = Some (139, (13, 0)) /\ mr_rulapp r = 6 /\ mr_marks r = 25
  /\ ~ lasts (machine_of (shuttle 12)) (2 ^ 64).
Proof.
  assert (A : option_map (fun r => (mr_undfnd r, mr_rulapp r, mr_marks r)) (rs_run_prover (machine_of (shuttle 12)) 1000)
    = Some (Some (139, (13, 0)), 6, 25)) by (vm_compute; reflexivity).
  assert (B : option_map pv_rules (rs_run_prover_end (machine_of (shuttle 12)) 1000) = Some shuttle_rules) by (vm_compute; reflexivity).
  revert A B. generalize (rs_run_prover (machine_of (shuttle 12)) 1000), (rs_run_prover_end (machine_of (shuttle 12)) 1000).
  intros [r|] [pv|] A B; try discriminate A; try discriminate B. cbn [option_map] in A, B. injection A as A1 A2 A3. injection B as B.
  exists r, pv. split; [reflexivity|]. split; [reflexivity|]. split; [apply shuttle_rules_lawful; exact B|].
  split; [apply shuttle_one_goes_down; exact B|]. split; [exact A1|]. split; [exact A2|]. split; [exact A3|].
  intros Y. destruct (Y 400%nat) as (c & E); [lia|].
  assert (X : steps (machine_of (shuttle 12)) 400 init = None) by (vm_compute; reflexivity).
  rewrite X in E. discriminate E.
Qed.
