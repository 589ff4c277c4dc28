(** * The names of states and colours do not matter to the choice of a block size (C92) *)
From Verif Require Import Base TM ProgModel TapeModel BlocksModel NormSpec RenameSpec RenameBlocks.

(** opt_block chooses the same size for a program and the same program under new names. *)
Theorem C92_opt_block : forall f g p p' steps, renaming f -> renaming g -> renamed f g (machine_of p) (machine_of p') ->
  opt_block p' steps = opt_block p steps.
Proof. intros f g p p' steps F G H. exact (opt_named f g F G p p' H steps). Qed.
Print Assumptions C92_opt_block.

(** "1RB 0LA  0LC 0RA  1RA 1LB" with B and C exchanged: after 20 cycles the size is 2 for both. *)
Definition C92_blocks : comp_prog :=
  [((0,0),(1,true,1)); ((0,1),(0,false,0)); ((1,0),(0,false,2)); ((1,1),(0,true,0)); ((2,0),(1,true,0)); ((2,1),(1,false,1))].
Example C92_opt_block_case : renaming (sw 1 2) /\ named_prog (sw 1 2) (fun c => c) C92_blocks <> C92_blocks
  /\ opt_block C92_blocks 20 = Some 2%nat /\ opt_block (named_prog (sw 1 2) (fun c => c) C92_blocks) 20 = Some 2%nat.
Proof.
  split; [|split; [vm_compute; discriminate|split; vm_compute; reflexivity]]. split; [reflexivity|]. intros a b. unfold sw.
  destruct (Z.eqb_spec a 1), (Z.eqb_spec a 2), (Z.eqb_spec b 1), (Z.eqb_spec b 2); intros; subst; congruence.
Qed.
