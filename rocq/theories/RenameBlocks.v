(** * The block size and renamed programs: proofs (C92) *)
From Verif Require Import Base TM ProgModel TapeModel BlocksModel RenameSpec RenameProofs.

Section Names.
Variables f g : Z -> Z.
Hypothesis Hf : renaming f.
Hypothesis Hg : renaming g.
Variables p p' : comp_prog.
Hypothesis Hp : renamed f g (machine_of p) (machine_of p').

Definition nb (b : block_measure) : block_measure := BM (named_tape g (bm_tape b)) (bm_steps b) (bm_max b) (bm_max_step b).

Lemma get_rn s c : comp_get p' (f s, g c) = option_map (named_instr f g) (comp_get p (s, c)).
Proof. exact (Hp s c). Qed.

Lemma nb_step b sh c sk : bm_step (nb b) sh (g c) sk = nb (bm_step b sh c sk).
Proof.
  unfold bm_step. cbn [nb bm_tape bm_steps bm_max bm_max_step]. rewrite (rs_step_rn g Hg). cbn [fst].
  assert (B : t_blocks (named_tape g (bm_tape b)) = t_blocks (bm_tape b)).
  { unfold t_blocks, named_tape, named_span. cbn [t_lspan t_rspan]. rewrite !map_length. reflexivity. }
  rewrite B. destruct (bm_max b <? t_blocks (bm_tape b))%nat; reflexivity.
Qed.

Lemma measure_rn fuel : forall state b, measure_loop p' fuel (f state) (nb b) = measure_loop p fuel state b.
Proof.
  induction fuel as [|fuel IH]; intros state b; cbn [measure_loop]; [reflexivity|].
  replace (t_scan (bm_tape (nb b))) with (g (t_scan (bm_tape b))) by reflexivity. rewrite get_rn.
  destruct (comp_get p (state, t_scan (bm_tape b))) as [[[color sh] next]|]; cbn [option_map named_instr]; [|reflexivity].
  rewrite (eqf f Hf). replace (t_at_edge (bm_tape (nb b)) sh) with (t_at_edge (bm_tape b) sh) by (symmetry; apply (t_edge_rn g Hg)).
  destruct ((state =? next) && t_at_edge (bm_tape b) sh); [reflexivity|]. rewrite nb_step. apply IH.
Qed.

Lemma init_rn : named_tape g init_tape = init_tape.
Proof. unfold named_tape, init_tape. cbn. rewrite (proj1 Hg). reflexivity. Qed.

Lemma measure_named steps : measure_blocks p' steps = measure_blocks p steps.
Proof.
  unfold measure_blocks. rewrite <- (measure_rn steps 0 bm_new). unfold nb, bm_new. cbn [bm_tape bm_steps bm_max bm_max_step].
  rewrite init_rn, (proj1 Hf). reflexivity.
Qed.

Lemma unroll_rn fuel : forall state t, unroll_loop p' fuel (f state) (named_tape g t) = option_map (named_tape g) (unroll_loop p fuel state t).
Proof.
  induction fuel as [|fuel IH]; intros state t; cbn [unroll_loop]; [reflexivity|].
  replace (t_scan (named_tape g t)) with (g (t_scan t)) by reflexivity. rewrite get_rn.
  destruct (comp_get p (state, t_scan t)) as [[[color sh] next]|]; cbn [option_map named_instr]; [|reflexivity].
  rewrite (eqf f Hf), (rs_step_rn g Hg). cbn [fst]. apply IH.
Qed.

Lemma span_rn s : unroll_span (named_span g s) = map g (unroll_span s).
Proof.
  unfold unroll_span. induction s as [|b s IH]; [reflexivity|]. cbn. rewrite map_app. f_equal; [|exact IH].
  induction (Z.to_nat (b_count b)) as [|n IHn]; [reflexivity|]. cbn. f_equal. exact IHn.
Qed.

Lemma tape_named steps : unroll_tape p' steps = option_map (map g) (unroll_tape p steps).
Proof.
  unfold unroll_tape. rewrite <- init_rn at 1. rewrite <- (proj1 Hf) at 1. rewrite unroll_rn.
  destruct (unroll_loop p steps 0 init_tape) as [t|]; [|reflexivity]. cbn [option_map]. f_equal.
  unfold t_unroll, named_tape. cbn [t_lspan t_scan t_rspan]. rewrite !span_rn, !map_app, map_rev. reflexivity.
Qed.

Lemma list_rn a : forall b, list_eqb (map g a) (map g b) = list_eqb a b.
Proof.
  induction a as [|x a IH]; intros [|y b]; cbn; try reflexivity. rewrite (eqg g Hg), IH. reflexivity.
Qed.

Lemma slice_rn l i j : slice (map g l) i j = option_map (map g) (slice l i j).
Proof.
  unfold slice. rewrite map_length. destruct ((i <=? j) && (j <=? length l))%nat; [|reflexivity].
  cbn [option_map]. rewrite skipn_map, firstn_map. reflexivity.
Qed.

Lemma compr_loop_rn l k is : forall size, compr_loop (map g l) k is size = compr_loop l k is size.
Proof.
  induction is as [|i is IH]; intro size; cbn [compr_loop]; [reflexivity|]. rewrite !slice_rn.
  destruct (slice l i (i + k)) as [a|]; cbn [option_map]; [|reflexivity].
  destruct (slice l (i + k) (i + 2 * k)) as [b|]; cbn [option_map]; [|reflexivity].
  rewrite list_rn. destruct (list_eqb a b); [destruct (usub size k); auto|apply IH].
Qed.

Lemma compr_rn l k : compr_eff (map g l) k = compr_eff l k.
Proof.
  unfold compr_eff. rewrite map_length. destruct (usub (length l) (2 * k)) as [n|]; [|reflexivity].
  destruct k; [reflexivity|apply compr_loop_rn].
Qed.

Lemma opt_loop_rn l sizes : forall o m, opt_loop (map g l) sizes o m = opt_loop l sizes o m.
Proof.
  induction sizes as [|k sizes IH]; intros o m; cbn [opt_loop]; [reflexivity|]. rewrite compr_rn.
  destruct (compr_eff l k) as [c|]; [|reflexivity]. destruct (c <? m)%nat; apply IH.
Qed.

Lemma opt_named steps : opt_block p' steps = opt_block p steps.
Proof.
  unfold opt_block. rewrite measure_named. destruct (measure_blocks p steps) as [k|]; [|reflexivity].
  rewrite tape_named. destruct (unroll_tape p k) as [t|]; [|reflexivity]. cbn [option_map].
  rewrite map_length. apply opt_loop_rn.
Qed.
End Names.
