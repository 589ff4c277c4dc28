(** * Block sizes and mirror images: proofs (C91) *)
From Verif Require Import Base TM ProgModel TapeModel BlocksModel MirrorSpec MirrorProofs.

Definition mb (b : block_measure) : block_measure := BM (mt (bm_tape b)) (bm_steps b) (bm_max b) (bm_max_step b).

Lemma mb_step b sh c sk : bm_step (mb b) (negb sh) c sk = mb (bm_step b sh c sk).
Proof.
  unfold bm_step. cbn [mb bm_tape bm_steps bm_max bm_max_step]. rewrite mt_step. cbn [fst].
  assert (B : t_blocks (mt (bm_tape b)) = t_blocks (bm_tape b)) by (unfold t_blocks, mt; cbn; lia). rewrite B.
  destruct (bm_max b <? t_blocks (bm_tape b))%nat; reflexivity.
Qed.

Lemma measure_mirrored p fuel : forall state b, measure_loop (mirrored p) fuel state (mb b) = measure_loop p fuel state b.
Proof.
  induction fuel as [|fuel IH]; intros state b; cbn [measure_loop]; [reflexivity|].
  rewrite get_mirrored. cbn [mb bm_tape mt t_scan].
  destruct (comp_get p (state, t_scan (bm_tape b))) as [[[color sh] next]|]; cbn [option_map turned]; [|reflexivity].
  change (Tape (t_rspan (bm_tape b)) (t_scan (bm_tape b)) (t_lspan (bm_tape b))) with (mt (bm_tape b)). rewrite mt_edge.
  destruct ((state =? next) && t_at_edge (bm_tape b) sh); [reflexivity|].
  change (BM (mt (bm_tape b)) (bm_steps b) (bm_max b) (bm_max_step b)) with (mb b). rewrite mb_step. apply IH.
Qed.

Lemma measure_mirror p steps : measure_blocks (mirrored p) steps = measure_blocks p steps.
Proof. exact (measure_mirrored p steps 0 bm_new). Qed.

Lemma unroll_mirrored p fuel : forall state t, unroll_loop (mirrored p) fuel state (mt t) = option_map mt (unroll_loop p fuel state t).
Proof.
  induction fuel as [|fuel IH]; intros state t; cbn [unroll_loop]; [reflexivity|].
  rewrite get_mirrored. cbn [mt t_scan].
  destruct (comp_get p (state, t_scan t)) as [[[color sh] next]|]; cbn [option_map turned]; [|reflexivity].
  change (Tape (t_rspan t) (t_scan t) (t_lspan t)) with (mt t). rewrite mt_step. cbn [fst]. apply IH.
Qed.

Lemma unroll_mirror p steps : unroll_tape (mirrored p) steps = option_map (@rev Z) (unroll_tape p steps).
Proof.
  unfold unroll_tape. change init_tape with (mt init_tape) at 1. rewrite unroll_mirrored.
  destruct (unroll_loop p steps 0 init_tape) as [t|]; [|reflexivity]. cbn [option_map]. f_equal.
  unfold t_unroll, mt. cbn [t_lspan t_scan t_rspan]. rewrite !rev_app_distr, rev_involutive. cbn [rev app]. rewrite <- app_assoc. reflexivity.
Qed.
