(** * Properties of the segment decider (C35, C51) *)
From Verif Require Import Base TM ProgModel ReasonSpec SegModel SegSpec SegSound.

(** C35.  The full statement is false for programs that meet a colour no instruction is listed for:
    of "0RB ...  0RC ...  1LD ...  0RC ..." segment_cant_halt says 2, and it halts after 4 steps. *)
Theorem C35_segment_cant_halt_refuted :
  ~ (forall p segs rfuel fuel r, NoDup (map fst p) -> py_segment_cant_halt p segs rfuel fuel = SegSome r -> never_halts (machine_of p)).
Proof. exact (fun H => let '(conj a (conj b c)) := seg_bad_wrong in TMFacts.halts_not_never _ c (H _ _ _ _ _ a b)). Qed.
Print Assumptions C35_segment_cant_halt_refuted.

(** It holds of the programs whose states and colours are listed. *)
Theorem C35_py_segment_cant_halt_partial : forall p segs rfuel fuel r, NoDup (map fst p) -> named (machine_of p) ->
  py_segment_cant_halt p segs rfuel fuel = SegSome r -> never_halts (machine_of p).
Proof. exact py_segment_sound. Qed.
Print Assumptions C35_py_segment_cant_halt_partial.

(** With explicit parameters it is enough that these bound the states and colours met. *)
Theorem C35_segment_cant_halt_params : forall p params segs rfuel fuel r, fits (machine_of p) params ->
  segment_cant_halt p params segs rfuel fuel = SegSome r -> never_halts (machine_of p).
Proof. exact segment_says. Qed.
Print Assumptions C35_segment_cant_halt_params.

(** "1RB 0LA  0RC 1RC  1LA ...": decided with 4 segments. *)
Definition C35_prog : comp_prog := [((0,0),(1,true,1)); ((0,1),(0,false,0)); ((1,0),(0,true,2)); ((1,1),(1,true,2)); ((2,0),(1,false,0))].
Example C35_case : NoDup (map fst C35_prog) /\ named (machine_of C35_prog) /\ fits (machine_of C35_prog) (3, 2) /\
  py_segment_cant_halt C35_prog 5 100 200 = SegSome 4 /\ segment_cant_halt C35_prog (3, 2) 5 100 200 = SegSome 4.
Proof.
  assert (ND : NoDup (map fst C35_prog)) by (repeat constructor; cbn; intuition congruence).
  assert (Nm : named (machine_of C35_prog)).
  { split; [vm_compute; discriminate|]. intros s c pr sh t E. unfold machine_of in E.
    apply (proj2 (GraphProofs.comp_get_in C35_prog (s, c) _ ND)) in E. cbn in E.
    repeat (destruct E as [E|E]; [inv E; split; [lia|]; split; [lia|]; split;
      [exists 2, 0; split; [lia|vm_compute; discriminate]|exists 1, 1; split; [lia|vm_compute; discriminate]]|]). contradiction. }
  split; [exact ND|]. split; [exact Nm|]. split; [exact (named_fits C35_prog ND Nm)|]. split; vm_compute; reflexivity.
Qed.

(** C51. *)
Theorem C51_segment_answers : forall p params segs, fits (machine_of p) params -> 2 <= segs ->
  exists f0, forall rfuel fuel, (f0 <= rfuel)%nat -> (f0 <= fuel)%nat ->
    segment_cant_halt p params segs rfuel fuel = SegNone \/ exists r, segment_cant_halt p params segs rfuel fuel = SegSome r.
Proof. exact segment_answers. Qed.
Print Assumptions C51_segment_answers.

(** "1RB 1LC  1RC 1RB  1RD 0LE  1LA 1LD  ... 0LA" *)
Definition C51_prog : comp_prog := [((0,0),(1,true,1)); ((0,1),(1,false,2)); ((1,0),(1,true,2)); ((1,1),(1,true,1)); ((2,0),(1,true,3));
  ((2,1),(0,false,4)); ((3,0),(1,false,0)); ((3,1),(1,false,3)); ((4,1),(0,false,0))].
Example C51_case : fits (machine_of C51_prog) (5, 2) /\ segment_cant_halt C51_prog (5, 2) 5 2000 3000 = SegNone.
Proof.
  split; [|vm_compute; reflexivity]. split; [cbn; lia|]. split; [cbn; lia|]. intros s c pr sh t _ _ E. unfold machine_of in E.
  apply (proj2 (GraphProofs.comp_get_in C51_prog (s, c) _ ltac:(repeat constructor; cbn; intuition congruence))) in E. cbn in E.
  repeat (destruct E as [E|E]; [inv E; cbn; lia|]). contradiction.
Qed.
