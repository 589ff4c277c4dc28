(** * Properties of the enumerating tapes (C46) *)
From Verif Require Import Base TM TapeModel TapeSpec EnumModel EnumSpec EnumProofs.

(** C46, Python: whatever tape the run starts from and whatever a new Block object is found to be
    in [enums], the moves made touch and depend on the cells of the blocks within the reported
    offsets only (the whole of a side whose edge flag is set). *)
Theorem C46_py_offsets_bound_run : forall M fresh rounds t c q e,
  wf_tape t -> represents t c ->
  py_enum_run M fresh rounds (c_state c) (to_enum t) = Some (q, e) ->
  let W := window t (c_pos c) (et_loff e) (et_roff e) (et_ledge e) (et_redge e) in
  exists k c', steps M k c = Some c' /\ c_state c' = q /\ represents (erase e) c'
    /\ (forall p, ~ W p -> c_tape c' p = c_tape c p)
    /\ depends_only_on M W k c.
Proof. exact py_enum_lemma. Qed.
Print Assumptions C46_py_offsets_bound_run.

(** The same for src/tape.rs. *)
Theorem C46_rs_offsets_bound_run : forall M rounds t c q e,
  wf_tape t -> represents t c ->
  rs_enum_run M rounds (c_state c) (to_enum t) = Some (q, e) ->
  let W := window t (c_pos c) (et_loff e) (et_roff e) (et_ledge e) (et_redge e) in
  exists k c', steps M k c = Some c' /\ c_state c' = q /\ represents (erase e) c'
    /\ (forall p, ~ W p -> c_tape c' p = c_tape c p)
    /\ depends_only_on M W k c.
Proof. exact rs_enum_lemma. Qed.
Print Assumptions C46_rs_offsets_bound_run.

(** The offsets never exceed the lengths of the spans, so slicing the signature by them
    (src/prover.rs 139-140) never panics. *)
Theorem C46_rs_offsets_in_range : forall M rounds t q q' e,
  rs_enum_run M rounds q (to_enum t) = Some (q', e) ->
  (et_loff e <= length (t_lspan t))%nat /\ (et_roff e <= length (t_rspan t))%nat.
Proof. exact rs_enum_offsets. Qed.
Print Assumptions C46_rs_offsets_in_range.

Theorem C46_py_offsets_in_range : forall M (fresh : nat -> option enums) rounds t q q' e,
  (forall n (side : bool) k, fresh n = Some (side, k) -> (k <= length (if side then t_rspan t else t_lspan t))%nat) ->
  py_enum_run M fresh rounds q (to_enum t) = Some (q', e) ->
  (et_loff e <= length (t_lspan t))%nat /\ (et_roff e <= length (t_rspan t))%nat.
Proof. exact py_enum_offsets. Qed.
Print Assumptions C46_py_offsets_in_range.

(** After two rounds the run has used two of three blocks on the left and none on the right: the
    window is 4 cells wide on the left, out of 9.  After five it has run off the right edge. *)
Definition ex_prog : program := fun q s =>
  if (q =? 0) then (if s =? 1 then Some (1, false, 0) else Some (3, true, 1))
  else if s =? 2 then Some (2, true, 1) else if s =? 1 then Some (2, true, 1) else Some (1, true, 2).
Definition ex_tape : tape := Tape [Blk 1 3; Blk 0 1; Blk 2 5] 1 [Blk 2 2; Blk 1 5].

Example C46_case :
  (exists q e, py_enum_run ex_prog (fun _ => None) 2 0 (to_enum ex_tape) = Some (q, e)
     /\ (et_loff e, et_roff e, et_ledge e, et_redge e) = (2%nat, 0%nat, false, false)
     /\ reach (t_lspan ex_tape) (et_loff e) = 4)
  /\ (exists q e, rs_enum_run ex_prog 2 0 (to_enum ex_tape) = Some (q, e)
     /\ (et_loff e, et_roff e, et_ledge e, et_redge e) = (2%nat, 0%nat, false, false))
  /\ (exists q e, rs_enum_run ex_prog 5 0 (to_enum ex_tape) = Some (q, e)
     /\ (et_loff e, et_roff e, et_ledge e, et_redge e) = (2%nat, 2%nat, false, true))
  /\ wf_tape ex_tape
  /\ represents ex_tape (Cfg 0 0 (tape_cell ex_tape)).
Proof.
  split; [|split; [|split; [|split]]].
  - eexists. eexists. split; [vm_compute; reflexivity|]. split; reflexivity.
  - eexists. eexists. split; [vm_compute; reflexivity|]. reflexivity.
  - eexists. eexists. split; [vm_compute; reflexivity|]. reflexivity.
  - split; repeat constructor; cbn; lia.
  - intros i. cbn. f_equal.
Qed.
