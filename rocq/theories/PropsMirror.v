(** * Left and right are treated alike (C91) *)
From Verif Require Import Base TM ProgModel TapeModel QuickModel ProverModel ReasonModel SegModel LawSpec LawCase MirrorSpec MirrorProofs MirrorMach PropsReason.

(** The machine with all moves turned around makes the same run, seen in a mirror. *)
Theorem C91_same_run : forall M n,
  match steps M n init, steps (mirror M) n init with
  | Some c, Some d => ceq d (mirror_config c)
  | None, None => True
  | _, _ => False
  end.
Proof. exact mirror_run. Qed.
Print Assumptions C91_same_run.

(** run_quick_machine reports the same for it: result, steps, cycles, marks, blanks and last slot. *)
Theorem C91_quick : forall p lim, run_quick_machine (mirrored p) lim = run_quick_machine p lim.
Proof. exact quick_mirror. Qed.
Print Assumptions C91_quick.

(** The backward reasoners give the same answers, whatever the depth: the same number of rounds, no answer, or a panic. *)
Theorem C91_cant_halt : forall p depth, cant_halt (mirrored p) depth = cant_halt p depth.
Proof. exact halt_mirror. Qed.
Print Assumptions C91_cant_halt.
Theorem C91_cant_blank : forall p depth, cant_blank (mirrored p) depth = cant_blank p depth.
Proof. exact blank_mirror. Qed.
Print Assumptions C91_cant_blank.
Theorem C91_cant_spin_out : forall p depth, cant_spin_out (mirrored p) depth = cant_spin_out p depth.
Proof. exact spin_mirror. Qed.
Print Assumptions C91_cant_spin_out.

(** The number of segments that segment_cant_halt answers with differs: 3 for "1RB 0RA  1LA 1LC  0LB ...", 2 for
    "1LB 0LA  1RA 1RC  0RB ...". *)
Definition C91_uneven : comp_prog :=
  [((0,0),(1,true,1)); ((0,1),(0,true,0)); ((1,0),(1,false,0)); ((1,1),(1,false,2)); ((2,0),(0,false,1))].
Theorem C91_segments_refuted : exists p segs rfuel fuel n m,
  py_segment_cant_halt p segs rfuel fuel = SegSome n /\ py_segment_cant_halt (mirrored p) segs rfuel fuel = SegSome m /\ n <> m.
Proof. exists C91_uneven, 8, 1000%nat, 1000%nat, 3, 2. split; [vm_compute; reflexivity|]. split; [vm_compute; reflexivity|discriminate]. Qed.
Print Assumptions C91_segments_refuted.

(** run_prover comes to different tapes when a count grows too large for a u64: by then the entries of the rule for the
    left side have been applied, those for the right side have not (C11). *)
Definition C91_huge : comp_prog :=
  [((0,0),(1,true,1)); ((0,1),(0,true,4)); ((1,0),(0,true,2)); ((1,1),(0,true,1)); ((2,0),(0,true,3)); ((2,1),(0,true,4));
   ((3,0),(1,false,3)); ((3,1),(0,false,0)); ((4,0),(0,true,1)); ((4,1),(1,true,4))].
Theorem C91_run_prover_refuted : exists p lim r r',
  rs_run_prover (machine_of p) lim = Some r /\ rs_run_prover (machine_of (mirrored p)) lim = Some r'
  /\ mr_marks r = 18 /\ mr_marks r' = 10622385497342972069.
Proof.
  exists C91_huge, 740%nat. eexists. eexists.
  split; [vm_compute; reflexivity|]. split; [vm_compute; reflexivity|]. split; reflexivity.
Qed.
Print Assumptions C91_run_prover_refuted.

(** Machine reports the same, the tape turned around, if at most one count goes down in each rule that it holds at the
    end and neither run breaks off with an exception or for want of symbolic counts.  (With two such counts the offsets
    recorded while a rule is made stop at the first count, from left to right, that is too small.) *)
Theorem C91_machine : forall M lim,
  let m := py_machine_run (plain M) lim in let m' := py_machine_run (plain (mirror M)) lim in
  (forall s ms r, holds_rule (m_prover m) s ms r -> one_goes_down r) -> m_end m <> MErr -> m_end m' <> MErr ->
  mirror_report m m'.
Proof. exact machine_mirror. Qed.
Print Assumptions C91_machine.

(** The machine of C55_lawful_case, with its rule applied six times at once. *)
Example C91_machine_case :
  let m := py_machine_run (plain (machine_of (shuttle 12))) 1000 in
  let m' := py_machine_run (plain (mirror (machine_of (shuttle 12)))) 1000 in
  (forall s ms r, holds_rule (m_prover m) s ms r -> one_goes_down r) /\ m_end m <> MErr /\ m_end m' <> MErr
  /\ m_rulapp m' = 6 /\ t_marks (m_tape m') = 25 /\ m_tape m' <> m_tape m.
Proof.
  cbv zeta. split; [apply rules_downb; vm_compute; reflexivity|]. repeat split; vm_compute; congruence.
Qed.

(** "1LB 1RB  1RA 0RC  ... 1RD  1LD 0LA", the mirror image of the champion with four states, halts as it does after 106
    moves with 12 marks; "1LB 0RA  0LC 1LC  1RA ...", that of the program of C32, is settled after 12 rounds, and so on. *)
Definition C91_bb4 : comp_prog :=
  [((0,0),(1,true,1)); ((0,1),(1,false,1)); ((1,0),(1,false,0)); ((1,1),(0,false,2)); ((2,1),(1,false,3)); ((3,0),(1,true,3)); ((3,1),(0,true,0))].
Example C91_case :
  (let r := run_quick_machine (mirrored C91_bb4) 200 in mr_result r = undfnd /\ mr_steps r = 106 /\ mr_marks r = 12)
  /\ cant_halt (mirrored C32_prog) 20 = OSome 12
  /\ cant_blank (mirrored C33_prog) 20 = OSome 8
  /\ cant_spin_out (mirrored C34_prog) 20 = OSome 4.
Proof. vm_compute. repeat split. Qed.
