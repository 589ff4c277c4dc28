(** * Block objects are never shared (C05) *)
From Verif Require Import Base TapeModel HeapModel HeapSpec HeapProofs.

(** C05: in every interleaving of new, step, clone, set_count and drop on any number of tapes, and
    whatever identities the allocator picks, no Block object occurs twice in the live tapes, and
    all numbers returned and all contents are those of tapes that are plain values. *)
Theorem C05_no_sharing : forall h os ns w,
  wops (World h []) os ns w ->
  NoDup (live w)
  /\ vops [] os = Some (ns, map (denote (w_heap w)) (w_tapes w)).
Proof. exact wops_start. Qed.
Print Assumptions C05_no_sharing.

(** Every such sequence that makes sense on values can be carried out on objects. *)
Theorem C05_progress : forall h os ns ts,
  vops [] os = Some (ns, ts) -> exists w, wops (World h []) os ns w.
Proof. exact wops_start_progress. Qed.
Print Assumptions C05_progress.

(** A tape is cloned; the original goes on, re-uses its popped block and is then dropped, and the
    next Block of the clone may take over any of its identities. *)
Example C05_case :
  let os := [ONew; OStep 0 true 1 false; OStep 0 true 2 false; OClone 0; OStep 0 false 1 false;
             OStep 0 false 1 true; OSetCount 1 false 0 7; ODrop 0; OStep 0 true 3 false] in
  exists ns, vops [] os = Some (ns, [Tape [Blk 3 1; Blk 2 7; Blk 1 1] 0 []])
  /\ exists w, wops (World (fun _ => Blk 0 0) []) os ns w /\ live w = [1; 3; 2]%nat.
Proof.
  eexists. split; [vm_compute; reflexivity|].
  eexists. split.
  - eapply wops_cons; [apply WNew|].
    eapply wops_cons; [eapply (WStep _ _ 0 _ _ _ _ 0%nat); [reflexivity|intros []|vm_compute; reflexivity]|].
    eapply wops_cons; [eapply (WStep _ _ 0 _ _ _ _ 1%nat); [reflexivity|cbn; lia|vm_compute; reflexivity]|].
    eapply wops_cons; [eapply (WClone _ _ 0 _ [3; 2]%nat []); [reflexivity|reflexivity|reflexivity| | |reflexivity]|].
    { repeat constructor; cbn; lia. }
    { intros r; cbn; lia. }
    eapply wops_cons; [eapply (WStep _ _ 0 _ _ _ _ 5%nat); [reflexivity|cbn; lia|vm_compute; reflexivity]|].
    eapply wops_cons; [eapply (WStep _ _ 0 _ _ _ _ 6%nat); [reflexivity|cbn; lia|vm_compute; reflexivity]|].
    eapply wops_cons; [eapply (WSetCount _ _ 1); reflexivity|].
    eapply wops_cons; [eapply (WDrop _ _ 0); reflexivity|].
    eapply wops_cons; [eapply (WStep _ _ 0 _ _ _ _ 1%nat); [reflexivity|cbn; lia|vm_compute; reflexivity]|].
    apply wops_nil.
  - reflexivity.
Qed.
