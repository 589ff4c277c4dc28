(** * Properties of the program tree (C48, C54) *)
From Verif Require Import Base TM TMFacts ProgModel TapeModel ParseModel TreeModel TreeSpec TreeProofs TreeFull.

(** C48: nothing panics, and in every schedule every program produced starts with 1RB, is in range,
    leaves one slot open if [halt] is set, uses the last state and the last colour, and is different
    from all the others. *)
Theorem C48_tree_programs : forall states colors halt lim, 2 <= states -> 2 <= colors ->
  (exists tasks lists, build_tree (states, colors) halt lim = Some tasks /\ all_some tasks = Some lists)
  /\ forall out, harvested (states, colors) halt lim out ->
       Forall (fun p => comp_get p (0, 0) = Some (1, true, 1)
                /\ in_range states colors p
                /\ NoDup (map fst p)
                /\ Z.of_nat (length p) <= states * colors - (if halt then 1 else 0)
                /\ ~ misses_last states colors p) out
       /\ ForallOrdPairs differ out.
Proof. exact harvested_ok. Qed.
Print Assumptions C48_tree_programs.

(** The texts returned by tree_progs are all different, as long as every state and colour has its
    own character. *)
Theorem C48_tree_progs_nodup : forall states colors halt lim res,
  2 <= states <= 26 -> 2 <= colors <= 10 ->
  tree_progs (states, colors) halt lim res -> NoDup res.
Proof. exact tree_progs_nodup. Qed.
Print Assumptions C48_tree_progs_nodup.

(** The numbers are those of the project's own tests. *)
Example C48_case :
  (exists out, harvested (2, 2) true 100 out /\ length out = 36%nat)
  /\ (exists out, harvested (2, 2) false 100 out /\ length out = 106%nat)
  /\ (exists out, harvested (2, 3) true 200 out /\ length out = 2447%nat).
Proof.
  assert (G : forall params halt lim n,
    match build_tree params halt lim with
    | Some t => match all_some t with Some l => Nat.eqb (length (concat l)) n | None => false end
    | None => false end = true -> exists out, harvested params halt lim out /\ length out = n).
  { intros params halt lim n H. destruct (build_tree params halt lim) as [t|] eqn:E1; [|discriminate].
    destruct (all_some t) as [l|] eqn:E2; [|discriminate]. exists (concat l). split; [|apply Nat.eqb_eq; auto].
    exists t, l. split; auto. split; auto. apply shuffle_seq. }
  split; [|split]; apply G; vm_compute; reflexivity.
Qed.

(** C54: a program in normal order is not missed: part of it is among the programs produced, a part on
    which nothing more is learnt within the limit; or that part never goes to the last state or never
    prints the last colour. *)
Theorem C54_tree_complete : forall states colors halt lim M out,
  2 <= states -> 2 <= colors ->
  harvested (states, colors) halt lim out ->
  M 0 0 = Some (1, true, 1) ->
  (forall s c i, M s c = Some i -> slot_in states colors (s, c) /\ instr_in states colors i) ->
  in_order M -> uses_all states colors halt M ->
  exists p, part_of p M /\ settled states colors halt lim p /\ (In p out \/ misses_last states colors p).
Proof. exact harvested_complete. Qed.
Print Assumptions C54_tree_complete.

(** The three-state champion that makes 20 moves before it halts meets the hypotheses. *)
Definition bb3 : comp_prog :=
  [((0, 0), (1, true, 1)); ((1, 0), (1, false, 1)); ((1, 1), (0, true, 2)); ((2, 0), (1, false, 2)); ((2, 1), (1, false, 0))].

Example C54_case :
  machine_of bb3 0 0 = Some (1, true, 1)
  /\ (forall s c i, machine_of bb3 s c = Some i -> slot_in 3 2 (s, c) /\ instr_in 3 2 i)
  /\ in_order (machine_of bb3) /\ uses_all 3 2 true (machine_of bb3).
Proof.
  assert (T : forall s c i, machine_of bb3 s c = Some i -> In ((s, c), i) bb3).
  { intros s c i. apply comp_get_in. }
  split; [reflexivity|]. split; [|split].
  - intros s c i H. apply T in H. cbn in H. unfold slot_in, instr_in.
    repeat (destruct H as [H|H]; [inv H; cbn; lia|]). destruct H.
  - intros n c pr sh tr E H. apply T in H. cbn in H. split.
    + destruct (Z.le_gt_cases tr 1); [auto|]. right.
      assert (tr = 2) as -> by (repeat (destruct H as [H|H]; [inv H; lia|]); destruct H).
      exists 1%nat. eexists. split; [|split; reflexivity].
      destruct n as [|n]; [|lia]. exfalso. inv E. cbn in H. change (blank_tape 0) with 0 in H.
      repeat (destruct H as [H|H]; [inv H; lia|]). destruct H.
    + left. repeat (destruct H as [H|H]; [inv H; lia|]). destruct H.
  - intros n s H. split; auto.
    assert (H20 : halts_at (machine_of bb3) 20 (0, 1)).
    { assert (E : match steps (machine_of bb3) 20 init with Some c => slot_eqb (at_slot c) (0, 1) | None => false end = true)
        by (vm_compute; reflexivity).
      destruct (steps (machine_of bb3) 20 init) as [c|] eqn:ES; [|discriminate]. apply slot_eqb_eq in E.
      exists c. split; auto. injection E as E1 E2. split; [exact E1|]. split; [exact E2|reflexivity]. }
    destruct (halts_at_unique _ _ _ _ _ H H20) as (-> & ->).
    assert (G : forall m s', match steps (machine_of bb3) m init with Some c => slot_eqb (at_slot c) s' | None => false end = true ->
      (m < 20)%nat -> exists m c, (m < 20)%nat /\ steps (machine_of bb3) m init = Some c /\ at_slot c = s').
    { intros m s' E L. destruct (steps (machine_of bb3) m init) as [c|] eqn:ES; [|discriminate].
      exists m, c. split; auto. split; auto. apply slot_eqb_eq. auto. }
    intros [a b] (R1 & R2) N. cbn [fst snd] in *.
    assert (a = 0 \/ a = 1 \/ a = 2) as [->|[->| ->]] by lia;
      assert (b = 0 \/ b = 1) as [->| ->] by lia.
    + apply (G 0%nat); [vm_compute; reflexivity|lia].
    + congruence.
    + apply (G 1%nat); [vm_compute; reflexivity|lia].
    + apply (G 2%nat); [vm_compute; reflexivity|lia].
    + apply (G 6%nat); [vm_compute; reflexivity|lia].
    + apply (G 3%nat); [vm_compute; reflexivity|lia].
Qed.
