(** * Properties of opt_block (C49, C53) *)
From Verif Require Import Base TM ProgModel TapeModel BlocksModel BlocksSpec BlocksProofs.

(** Writes 110110110... to the right. *)
Definition stripes : comp_prog :=
  [((0, 0), (1, true, 1)); ((1, 0), (1, true, 2)); ((2, 0), (0, true, 0))].

(** C49: no panic, and a size of at least 1 ... *)
Theorem C49_opt_block_total : forall comp steps, exists b, opt_block comp steps = Some b /\ (1 <= b)%nat.
Proof. exact opt_block_total. Qed.
Print Assumptions C49_opt_block_total.

(** ... and a size other than 1 is the smallest one that saves most, among all sizes below half the
    tape, on a tape the machine really has at some time. *)
Theorem C49_opt_block_best : forall comp steps b,
  opt_block comp steps = Some b -> b <> 1%nat ->
  exists n c w, TM.steps (machine_of comp) n init = Some c /\ tape_is_word c w
    /\ (1 < b < length w / 2)%nat
    /\ forall j nj nb, (1 <= j < length w / 2)%nat -> repeats w j nj -> repeats w b nb ->
         (j * nj <= b * nb)%nat /\ (j < b -> j * nj < b * nb)%nat.
Proof. exact opt_block_best. Qed.
Print Assumptions C49_opt_block_best.

Example C49_case : opt_block stripes 12 = Some 3%nat /\ repeats [1; 1; 0; 1; 1; 0; 1; 1; 0; 1; 1; 0] 3 2.
Proof.
  split; [vm_compute; reflexivity|]. exists [0; 3]%nat. split; [repeat constructor; cbn; intuition lia|].
  split; auto. intros i. split.
  - intros [<-|[<-|[]]]; (split; [first [exists 0%nat; reflexivity|exists 1%nat; reflexivity]|]);
      (split; [cbn; lia|]); intros j Hj; destruct j as [|[|[|j]]]; try lia; reflexivity.
  - intros ((q & ->) & L & _). cbn [length] in L. destruct q as [|[|q]]; cbn; auto. lia.
Qed.

(** C53: the tape analysed need not be one with the most blocks. *)
Theorem C53_measured_tape_refuted : exists comp steps m j t t',
  measure_blocks comp steps = Some m /\ unroll_loop comp m 0 init_tape = Some t
  /\ (j <= steps)%nat /\ unroll_loop comp j 0 init_tape = Some t' /\ (t_blocks t < t_blocks t')%nat.
Proof. exact measured_not_largest. Qed.
Print Assumptions C53_measured_tape_refuted.

(** C53, what does hold of the step found: it is one more than the first cycle, among those
    simulated, whose tape has the most blocks; or 0, if no tape has any. *)
Theorem C53_measured_cycle_partial : forall comp steps m, measure_blocks comp steps = Some m ->
  (m = 0%nat /\ forall j t, (j < steps)%nat -> unroll_loop comp j 0 init_tape = Some t -> t_blocks t = 0%nat)
  \/ exists k t, m = S k /\ (k < steps)%nat /\ unroll_loop comp k 0 init_tape = Some t
     /\ forall j t', (j < steps)%nat -> unroll_loop comp j 0 init_tape = Some t' ->
          (t_blocks t' <= t_blocks t)%nat /\ (j < k -> t_blocks t' < t_blocks t)%nat.
Proof. exact measured_cycle. Qed.
Print Assumptions C53_measured_cycle_partial.

Example C53_case : measure_blocks stripes 12 = Some 11%nat
  /\ exists t, unroll_loop stripes 10 0 init_tape = Some t /\ t_blocks t = 7%nat.
Proof. split; [vm_compute; reflexivity|]. eexists. split; vm_compute; reflexivity. Qed.
