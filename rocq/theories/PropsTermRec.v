(** * Properties of quick_term_or_rec (C10, C61) *)
From Verif Require Import Base TM ProgModel TermRecModel TermRecSpec TermRecProofs TermRecComplete.

(** C10 *)
Theorem C10_yes_means_never_halts : forall comp lim,
  comp_get comp (0, 0) = Some (1, true, 1) ->
  quick_term_or_rec comp lim false = true -> never_halts (machine_of comp).
Proof. exact quick_term_or_rec_sound. Qed.
Print Assumptions C10_yes_means_never_halts.

(** A translated cycler that moves left while the slice to its right is compared. *)
Definition cycler : comp_prog :=
  [((0, 0), (1, true, 1)); ((1, 0), (0, false, 2)); ((2, 1), (0, false, 2)); ((2, 0), (1, true, 0));
   ((0, 1), (1, true, 1)); ((1, 1), (1, false, 0))].

Example C10_case : comp_get cycler (0, 0) = Some (1, true, 1) /\ quick_term_or_rec cycler 100 false = true.
Proof. vm_compute. auto. Qed.

(** Without the condition on the first instruction the answer is wrong: this program halts
    at once, yet the answer is yes. *)
Theorem C10_other_first_instr_refuted : exists comp lim,
  halts (machine_of comp) /\ quick_term_or_rec comp lim false = true.
Proof.
  exists [((1, 0), (1, true, 1))], 10%nat. split; [|reflexivity].
  exists 0%nat, (0, 0). eexists. repeat split.
Qed.
Print Assumptions C10_other_first_instr_refuted.

(** C61: the answer turns yes at some limit exactly for the programs whose run comes to repeat
    itself, in place or displaced. *)
Theorem C61_finds_exactly_the_cyclers : forall comp,
  comp_get comp (0, 0) = Some (1, true, 1) ->
  (exists lim, quick_term_or_rec comp lim false = true) <-> recurs (machine_of comp).
Proof. exact quick_term_or_rec_cyclers. Qed.
Print Assumptions C61_finds_exactly_the_cyclers.

(** C61: every limit from some point on gives that answer. *)
Theorem C61_found_at_every_large_limit : forall comp,
  comp_get comp (0, 0) = Some (1, true, 1) -> recurs (machine_of comp) ->
  exists L, forall lim drop_halt, (L <= lim)%nat -> quick_term_or_rec comp lim drop_halt = true.
Proof. exact recurs_found. Qed.
Print Assumptions C61_found_at_every_large_limit.

(** C61: with halting programs dropped, yes exactly for the cyclers and the halting programs. *)
Theorem C61_drop_halt_settles : forall comp,
  comp_get comp (0, 0) = Some (1, true, 1) ->
  (exists lim, quick_term_or_rec comp lim true = true)
  <-> recurs (machine_of comp) \/ halts (machine_of comp).
Proof. exact quick_term_or_rec_settled. Qed.
Print Assumptions C61_drop_halt_settles.

(** C61: a larger limit never loses a yes. *)
Theorem C61_larger_limit_keeps_yes : forall comp drop_halt lim lim', (lim <= lim')%nat ->
  quick_term_or_rec comp lim drop_halt = true -> quick_term_or_rec comp lim' drop_halt = true.
Proof. exact quick_term_or_rec_mono. Qed.
Print Assumptions C61_larger_limit_keeps_yes.

(** "1RB 0RB  1LA 1LA": from step 2 on it repeats every four steps, in place. *)
Definition in_place : comp_prog :=
  [((0, 0), (1, true, 1)); ((0, 1), (0, true, 1)); ((1, 0), (1, false, 0)); ((1, 1), (1, false, 0))].

Example C61_case_in_place : comp_get in_place (0, 0) = Some (1, true, 1) /\ recurs (machine_of in_place)
  /\ quick_term_or_rec in_place 4 false = false /\ quick_term_or_rec in_place 10 false = true.
Proof.
  split; [reflexivity|]. split; [|split; reflexivity].
  exists 2%nat, 4%nat. eexists. eexists. exists 0.
  split; [lia|]. split; [reflexivity|]. split; [reflexivity|]. split; [reflexivity|]. split; [reflexivity|].
  left. split; [reflexivity|]. intros p. cbn. unfold write, blank_tape. bdestr; lia.
Qed.

(** "1RB ...  1LB 0RC  1LC 1LA": halts after 20 steps, which only the answer that drops
    halting programs notices. *)
Definition stops : comp_prog :=
  [((0, 0), (1, true, 1)); ((1, 0), (1, false, 1)); ((1, 1), (0, true, 2)); ((2, 0), (1, false, 2)); ((2, 1), (1, false, 0))].

Example C61_case_halts : halts (machine_of stops) /\ quick_term_or_rec stops 100 false = false
  /\ quick_term_or_rec stops 100 true = true.
Proof.
  split; [|split; vm_compute; reflexivity].
  assert (H : exists n, let c := steps (machine_of stops) n init in
    match c with Some c => machine_of stops (c_state c) (c_tape c (c_pos c)) = None | None => False end)
    by (exists 20%nat; vm_compute; reflexivity).
  destruct H as (n & H). cbn zeta in H. destruct (steps (machine_of stops) n init) as [c|] eqn:E; [|contradiction].
  exists n, (c_state c, c_tape c (c_pos c)), c. auto.
Qed.
