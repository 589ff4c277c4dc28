(** * Mirror images and the choice of a block size (C91) *)
From Verif Require Import Base TM ProgModel TapeModel BlocksModel MirrorSpec BlockMirror.

(** opt_block measures both images at the same step, and what it looks at then is the same tape, in reverse. *)
Theorem C91_measured : forall p steps, measure_blocks (mirrored p) steps = measure_blocks p steps
  /\ forall k, unroll_tape (mirrored p) k = option_map (@rev Z) (unroll_tape p k).
Proof. exact (fun p steps => conj (measure_mirror p steps) (unroll_mirror p)). Qed.
Print Assumptions C91_measured.

(** The block size differs all the same, as the tape is cut into blocks from its left end: for
    "1RB 0LA  0LC 0RA  1RA 1LB" after 20 cycles it is 2, for its mirror image 1.  So Machine(prog, opt_macro = 20) works
    with a macro for the one and without for the other. *)
Definition C91_lopsided : comp_prog :=
  [((0,0),(1,true,1)); ((0,1),(0,false,0)); ((1,0),(0,false,2)); ((1,1),(0,true,0)); ((2,0),(1,true,0)); ((2,1),(1,false,1))].
Theorem C91_opt_block_refuted : exists p steps, opt_block p steps = Some 2%nat /\ opt_block (mirrored p) steps = Some 1%nat.
Proof. exists C91_lopsided, 20%nat. split; vm_compute; reflexivity. Qed.
Print Assumptions C91_opt_block_refuted.

(** Its tape at the cycle that both are measured at. *)
Example C91_measured_case : exists k t, measure_blocks C91_lopsided 20 = Some k /\ unroll_tape C91_lopsided k = Some t
  /\ (4 <= length t)%nat /\ rev t <> t.
Proof. eexists. eexists. split; [vm_compute; reflexivity|]. split; [vm_compute; reflexivity|]. split; [cbn; lia|discriminate]. Qed.
