(** * Mirror images and the segment decider (C91) *)
From Verif Require Import Base TM ProgModel ReasonSpec SegModel SegSpec SegSound MirrorSpec SegMirror PropsMirror.

(** An answer of segment_cant_halt about a program or about its mirror image settles both (for programs whose states and
    colours are listed, as in C35), though the number in the answer may differ (C91_segments_refuted). *)
Theorem C91_segments_partial : forall p q segs rfuel fuel r, NoDup (map fst p) -> named (machine_of p) -> q = p \/ q = mirrored p ->
  py_segment_cant_halt q segs rfuel fuel = SegSome r -> never_halts (machine_of p) /\ never_halts (machine_of (mirrored p)).
Proof. exact segment_mirror. Qed.
Print Assumptions C91_segments_partial.

(** "1RB 0RA  1LA 1LC  0LB ...": its mirror image is settled with two segments only. *)
Example C91_segments_case : NoDup (map fst C91_uneven) /\ named (machine_of C91_uneven)
  /\ py_segment_cant_halt (mirrored C91_uneven) 3 100 200 = SegSome 2 /\ py_segment_cant_halt C91_uneven 2 100 200 = SegNone.
Proof.
  assert (ND : NoDup (map fst C91_uneven)) by (repeat constructor; cbn; intuition congruence).
  split; [exact ND|]. split.
  { split; [vm_compute; discriminate|]. intros s c pr sh t E. unfold machine_of in E.
    apply (proj2 (GraphProofs.comp_get_in C91_uneven (s, c) _ ND)) in E. cbn in E.
    repeat (destruct E as [E|E]; [inv E; split; [lia|]; split; [lia|]; split;
      [exists 2, 0; split; [lia|vm_compute; discriminate]|exists 1, 1; split; [lia|vm_compute; discriminate]]|]). contradiction. }
  split; vm_compute; reflexivity.
Qed.
