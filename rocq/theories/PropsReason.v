(** * Properties of the backward reasoner (C32 - C34, C50) *)
From Verif Require Import Base TM ProgModel ReasonModel ReasonSpec GraphSpec ReasonProofs ReasonKinds.

(** C32.  The full statement is false: cant_halt says 1 of "1RB 0LB  ... 1LC  1RB 1RB", which halts after
    one step, and 0 of the program "1RB 1RA" (one state listed), which does too. *)
Theorem C32_cant_halt_refuted :
  ~ (forall p depth r, NoDup (map fst p) -> named (machine_of p) -> cant_halt p depth = OSome r -> never_halts (machine_of p)).
Proof. exact (fun H => let '(conj a (conj b (conj c d))) := cant_halt_wrong in TMFacts.halts_not_never _ d (H _ _ _ a b c)). Qed.
Print Assumptions C32_cant_halt_refuted.

Theorem C32_unlisted_refuted :
  ~ (forall p depth r, NoDup (map fst p) -> restartable (machine_of p) -> cant_halt p depth = OSome r -> never_halts (machine_of p)).
Proof. exact (fun H => let '(conj a (conj b (conj c d))) := cant_halt_uncovered in TMFacts.halts_not_never _ d (H _ _ _ a b c)). Qed.
Print Assumptions C32_unlisted_refuted.

(** It holds of the programs whose start state is entered again and whose states and colours are listed. *)
Theorem C32_cant_halt_partial : forall p depth r, NoDup (map fst p) -> restartable (machine_of p) -> named (machine_of p) ->
  cant_halt p depth = OSome r -> never_halts (machine_of p).
Proof. exact cant_halt_sound. Qed.
Print Assumptions C32_cant_halt_partial.

(** "1RB 0LA  0RC 1RC  1LA ...": the backward search ends after 12 steps. *)
Definition C32_prog : comp_prog := [((0,0),(1,true,1)); ((0,1),(0,false,0)); ((1,0),(0,true,2)); ((1,1),(1,true,2)); ((2,0),(1,false,0))].
Example C32_case : NoDup (map fst C32_prog) /\ restartable (machine_of C32_prog) /\ named (machine_of C32_prog) /\ cant_halt C32_prog 20 = OSome 12.
Proof.
  assert (ND : NoDup (map fst C32_prog)) by (repeat constructor; cbn; intuition congruence).
  split; [exact ND|]. split; [|split; [|vm_compute; reflexivity]].
  - exists (fun s => s = 0). split; [auto|]. intros s ->. exists 0. split; [auto|]. exists 1, 0, false. reflexivity.
  - split; [vm_compute; discriminate|]. intros s c pr sh t E. unfold machine_of in E.
    apply (proj2 (GraphProofs.comp_get_in C32_prog (s, c) _ ND)) in E. cbn in E.
    repeat (destruct E as [E|E]; [inv E; split; [lia|]; split; [lia|]; split;
      [exists 2, 0; split; [lia|vm_compute; discriminate]|exists 1, 1; split; [lia|vm_compute; discriminate]]|]). contradiction.
Qed.

(** C33.  False in general: cant_blank says 2 of "1RB 0RC  0LD 1RB  1RC ...  0LC 0LC", blank again after 3 steps. *)
Theorem C33_cant_blank_refuted :
  ~ (forall p depth r, NoDup (map fst p) -> cant_blank p depth = OSome r -> never_erases (machine_of p)).
Proof. exact (fun H => let '(conj a (conj b c)) := cant_blank_wrong in c (H _ _ _ a b)). Qed.
Print Assumptions C33_cant_blank_refuted.

Theorem C33_cant_blank_partial : forall p depth r, NoDup (map fst p) -> restartable (machine_of p) ->
  cant_blank p depth = OSome r -> never_erases (machine_of p).
Proof. exact cant_blank_sound. Qed.
Print Assumptions C33_cant_blank_partial.

(** "1RB 0LC  1RC 0RA  0LB ..." *)
Definition C33_prog : comp_prog := [((0,0),(1,true,1)); ((0,1),(0,false,2)); ((1,0),(1,true,2)); ((1,1),(0,true,0)); ((2,0),(0,false,1))].
Example C33_case : NoDup (map fst C33_prog) /\ restartable (machine_of C33_prog) /\ cant_blank C33_prog 20 = OSome 8.
Proof.
  split; [repeat constructor; cbn; intuition congruence|]. split; [|vm_compute; reflexivity].
  exists (fun s => s = 0 \/ s = 1). split; [auto|]. intros s [->| ->]; [exists 1|exists 0]; (split; [auto|]).
  - exists 1, 0, true. reflexivity.
  - exists 0, 1, true. reflexivity.
Qed.

(** C34.  False in general: cant_spin_out says 1 of "1RB ...  1RB 0RC  ... 1LB", which spins out after one step. *)
Theorem C34_cant_spin_out_refuted :
  ~ (forall p depth r, NoDup (map fst p) -> cant_spin_out p depth = OSome r -> never_spins_out (machine_of p)).
Proof. exact (fun H => let '(conj a (conj b c)) := cant_spin_out_wrong in c (H _ _ _ a b)). Qed.
Print Assumptions C34_cant_spin_out_refuted.

Theorem C34_cant_spin_out_partial : forall p depth r, NoDup (map fst p) -> restartable (machine_of p) ->
  cant_spin_out p depth = OSome r -> never_spins_out (machine_of p).
Proof. exact cant_spin_out_sound. Qed.
Print Assumptions C34_cant_spin_out_partial.

(** "1RB 0RB  0RC 0LA  0LC ..." *)
Definition C34_prog : comp_prog := [((0,0),(1,true,1)); ((0,1),(0,true,1)); ((1,0),(0,true,2)); ((1,1),(0,false,0)); ((2,0),(0,false,2))].
Example C34_case : NoDup (map fst C34_prog) /\ restartable (machine_of C34_prog) /\ cant_spin_out C34_prog 20 = OSome 4.
Proof.
  split; [repeat constructor; cbn; intuition congruence|]. split; [|vm_compute; reflexivity].
  exists (fun s => s = 0 \/ s = 1). split; [auto|]. intros s [->| ->]; [exists 1|exists 0]; (split; [auto|]).
  - exists 1, 0, false. reflexivity.
  - exists 0, 1, true. reflexivity.
Qed.

(** C50: no panic, for any program whatever; depth is only a limit. *)
Theorem C50_no_panic : forall p depth,
  cant_halt p depth <> OPanic /\ cant_blank p depth <> OPanic /\ cant_spin_out p depth <> OPanic.
Proof. exact reason_total. Qed.
Print Assumptions C50_no_panic.

Theorem C50_depth : forall p d d' f r, In f [cant_halt; cant_blank; cant_spin_out] -> (d <= d')%nat -> f p d = OSome r ->
  f p d' = OSome r /\ (r = 0 \/ 0 <= r < Z.of_nat d).
Proof. exact reason_depth. Qed.
Print Assumptions C50_depth.

Example C50_case : cant_halt C32_prog 12 = ONone /\ cant_halt C32_prog 13 = OSome 12 /\ cant_halt C32_prog 14 = OSome 12.
Proof. vm_compute; auto. Qed.
