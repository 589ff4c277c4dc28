(** * The segment decider and mirror images: proofs *)
From Verif Require Import Base TM ProgModel ReasonSpec SegModel SegSpec SegSound MirrorSpec MirrorProofs.

Lemma mirrored_steps p n : forall c, steps (machine_of (mirrored p)) n c = steps (mirror (machine_of p)) n c.
Proof.
  induction n as [|n IH]; intro c; [reflexivity|]. cbn [steps]. unfold step. rewrite mirrored_machine.
  destruct (mirror (machine_of p) (c_state c) (c_tape c (c_pos c))) as [[[pr sh] t]|]; [apply IH|reflexivity].
Qed.

Lemma never_mirrored p : never_halts (machine_of p) <-> never_halts (machine_of (mirrored p)).
Proof.
  split; intros H n; specialize (H n); pose proof (mirror_run (machine_of p) n) as R; rewrite <- mirrored_steps in R.
  - destruct H as (c & E). rewrite E in R. destruct (steps (machine_of (mirrored p)) n init) as [d|]; [exists d; reflexivity|contradiction].
  - destruct H as (c & E). rewrite E in R. destruct (steps (machine_of p) n init) as [d|]; [exists d; reflexivity|contradiction].
Qed.

Lemma segment_mirror p q segs rfuel fuel r : NoDup (map fst p) -> named (machine_of p) -> q = p \/ q = mirrored p ->
  py_segment_cant_halt q segs rfuel fuel = SegSome r -> never_halts (machine_of p) /\ never_halts (machine_of (mirrored p)).
Proof.
  intros ND Nm W E. enough (never_halts (machine_of q)) as N.
  { destruct W as [-> | ->]; [split; [exact N|exact (proj1 (never_mirrored p) N)]|split; [exact (proj2 (never_mirrored p) N)|exact N]]. }
  destruct W as [-> | ->]; [exact (py_segment_sound _ _ _ _ _ ND Nm E)|].
  refine (py_segment_sound _ _ _ _ _ _ _ E).
  - unfold mirrored. rewrite map_map. exact ND.
  - destruct Nm as (A & B). split.
    + rewrite mirrored_machine. unfold mirror. intro C. apply A. destruct (machine_of p 0 0); [discriminate|reflexivity].
    + intros s c pr sh t F. rewrite mirrored_machine in F. unfold mirror in F.
      destruct (machine_of p s c) as [[[pr' sh'] t']|] eqn:G; [|discriminate]. cbn in F. inv F.
      destruct (B _ _ _ _ _ G) as (P1 & P2 & (s1 & c1 & L1 & N1) & (s2 & c2 & L2 & N2)).
      assert (K : forall x y, machine_of p x y <> None -> machine_of (mirrored p) x y <> None).
      { intros x y Hx. rewrite mirrored_machine. unfold mirror. destruct (machine_of p x y); [discriminate|contradiction]. }
      split; [exact P1|]. split; [exact P2|]. split; [exists s1, c1|exists s2, c2]; split; auto.
Qed.
