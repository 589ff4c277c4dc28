(** * Properties of the run-length tapes (C01 - C04) *)
From Verif Require Import Base TM TapeModel TapeSpec TapeProofs.

(** C01: one Python [Tape.step] is exactly [n] moves of the plain machine. *)
Theorem C01_py_step_refines_machine : forall M t c shift color next skip,
  wf_tape t -> represents t c ->
  M (c_state c) (t_scan t) = Some (color, shift, next) ->
  (skip = true -> next = c_state c) ->
  let '(t', n) := py_step t shift color skip in
  1 <= n /\ wf_tape t' /\ (skip = false -> n = 1) /\
  exists d, steps M (Z.to_nat n) c = Some d /\ represents t' d
    /\ c_state d = next
    /\ c_pos d = (if shift then c_pos c + n else c_pos c - n).
Proof. exact py_step_refines_lemma. Qed.
Print Assumptions C01_py_step_refines_machine.

(** C01, Rust version. *)
Theorem C01_rs_step_refines_machine : forall M t c shift color next skip,
  wf_tape t -> represents t c ->
  M (c_state c) (t_scan t) = Some (color, shift, next) ->
  (skip = true -> next = c_state c) ->
  let '(t', n) := rs_step t shift color skip in
  1 <= n /\ wf_tape t' /\ (skip = false -> n = 1) /\
  exists d, steps M (Z.to_nat n) c = Some d /\ represents t' d
    /\ c_state d = next
    /\ c_pos d = (if shift then c_pos c + n else c_pos c - n).
Proof. exact rs_step_refines_lemma. Qed.
Print Assumptions C01_rs_step_refines_machine.

(** C01: with [skip] the number of moves is exactly the length of the run of cells
    holding the scanned colour (unless the head would run off over blanks forever). *)
Theorem C01_skip_length : forall t shift color,
  canon t ->
  let n := snd (py_step t shift color true) in
  (forall i, 0 <= i < n -> tape_cell t (if shift then i else - i) = t_scan t)
  /\ (t_at_edge t shift = false -> tape_cell t (if shift then n else - n) <> t_scan t).
Proof. exact py_step_maximal_lemma. Qed.
Print Assumptions C01_skip_length.

(** The hypotheses of C01 are met by a tape with three blocks and a skipping step. *)
Example C01_case :
  let t := Tape [Blk 2 3] 1 [Blk 1 4; Blk 2 1] in
  let c := Cfg 5 7 (fun p => tape_cell t (p - 7)) in
  let M := fun s co => if (s =? 5) && (co =? 1) then Some (2, true, 5) else None in
  wf_tape t /\ canon t /\ represents t c
  /\ M (c_state c) (t_scan t) = Some (2, true, 5)
  /\ py_step t true 2 true = (Tape [Blk 2 8] 2 [], 5).
Proof.
  cbn zeta. split; [split; repeat constructor; cbn; lia|].
  split; [split; cbn; lia|]. split; [intro i; cbn; f_equal; lia|]. split; vm_compute; reflexivity.
Qed.

(** C02: canonical form along every history; blank, at_edge and equality are exact. *)
Theorem C02_history_canonical : forall t, py_history t ->
  canon t
  /\ (t_blank t = true <-> forall i, tape_cell t i = 0)
  /\ (forall dir : bool, t_at_edge t dir = true <-> forall i, 0 <= i -> tape_cell t (if dir then i else - i) = 0)
  /\ (forall t', py_history t' -> (t = t' <-> forall i, tape_cell t i = tape_cell t' i)).
Proof. exact canon_facts_lemma. Qed.
Print Assumptions C02_history_canonical.

(** A history that erases everything again. *)
Example C02_case : exists t, py_history t /\ t_blank t = true /\ t <> fst (py_step init_tape true 1 false).
Proof.
  exists (fst (py_step (fst (py_step (fst (py_step init_tape true 1 false)) false 0 false)) true 0 true)).
  split; [repeat constructor|]. split; [reflexivity|discriminate].
Qed.

(** C03: marks counts the non-blank cells. *)
Theorem C03_marks : forall t, wf_tape t -> marks_are (tape_cell t) (t_marks t).
Proof. exact marks_spec. Qed.
Print Assumptions C03_marks.

Example C03_case : wf_tape (Tape [Blk 1 2; Blk 0 3; Blk 2 1] 0 [Blk 3 5])
  /\ t_marks (Tape [Blk 1 2; Blk 0 3; Blk 2 1] 0 [Blk 3 5]) = 8.
Proof. split; [split; repeat constructor; cbn; lia|reflexivity]. Qed.

(** C04: the Python and the Rust step functions agree. *)
Theorem C04_python_rust_same_step : forall t shift color skip,
  wf_tape t -> py_step t shift color skip = rs_step t shift color skip.
Proof. exact py_rs_step. Qed.
Print Assumptions C04_python_rust_same_step.

(** C04 for histories: both simulators reach exactly the same tapes. *)
Theorem C04_python_rust_same_histories : forall t, py_history t <-> rs_history t.
Proof. exact py_rs_history. Qed.
Print Assumptions C04_python_rust_same_histories.

(** The two functions really are different programs: they disagree on a tape with a
    zero count, which [wf_tape] excludes. *)
Example C04_case :
  py_step (Tape [] 1 [Blk 1 0]) true 2 false <> rs_step (Tape [] 1 [Blk 1 0]) true 2 false
  /\ wf_tape (Tape [] 1 [Blk 1 2; Blk 3 1])
  /\ py_step (Tape [] 1 [Blk 1 2; Blk 3 1]) true 2 true = (Tape [Blk 2 3] 3 [], 3).
Proof. split; [vm_compute; discriminate|]. split; [split; repeat constructor; cbn; lia|reflexivity]. Qed.
