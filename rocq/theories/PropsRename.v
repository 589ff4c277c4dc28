(** * The names of states and colours do not matter (C92) *)
From Coq Require Import Permutation.
From Verif Require Import Base TM ProgModel TapeModel QuickModel ProverModel TermRecModel NormSpec ReasonModel RenameSpec RenameProofs RenameReason PropsReason.

(** The program written with the new names makes the same run under the new names. *)
Theorem C92_same_run : forall f g p, renaming f -> renaming g ->
  renamed f g (machine_of p) (machine_of (named_prog f g p)) /\ runs_renamed f g (machine_of p) (machine_of (named_prog f g p)).
Proof. intros f g p F G. split; [exact (named_prog_ok f g F G p)|exact (runs_named f g F G _ _ (named_prog_ok f g F G p))]. Qed.
Print Assumptions C92_same_run.

(** run_quick_machine reports the same, the blanks and the last slot under their new names. *)
Theorem C92_quick : forall f g p p' lim, renaming f -> renaming g -> renamed f g (machine_of p) (machine_of p') ->
  run_quick_machine p' lim = named_result f g (run_quick_machine p lim).
Proof. intros f g p p' lim F G. exact (quick_named f g F G p p' lim). Qed.
Print Assumptions C92_quick.

(** quick_term_or_rec takes the first instruction to be 1RB; if these names are kept, it gives the same answer. *)
Theorem C92_term_or_rec : forall f g p p' lim drop_halt, renaming f -> renaming g -> renamed f g (machine_of p) (machine_of p') ->
  f 1 = 1 -> g 1 = 1 -> quick_term_or_rec p' lim drop_halt = quick_term_or_rec p lim drop_halt.
Proof. intros f g p p' lim d F G. exact (term_named f g F G p p' lim d). Qed.
Print Assumptions C92_term_or_rec.

(** Otherwise it may not: "1RB ... ...  1LB ... 2LB" halts, and so does "2RB ... ...  2LB 1LB ..." with colours 1 and 2
    exchanged, but of the latter it is claimed that it does not. *)
Definition C92_first : comp_prog := [((0,0),(1,true,1)); ((1,0),(1,false,1)); ((1,2),(2,false,1))].
Theorem C92_term_or_rec_refuted : exists f g p lim, renaming f /\ renaming g
  /\ quick_term_or_rec p lim false = false /\ quick_term_or_rec (named_prog f g p) lim false = true
  /\ mr_result (run_quick_machine p lim) = undfnd /\ mr_result (run_quick_machine (named_prog f g p) lim) = undfnd.
Proof.
  exists (fun x => x), (sw 1 2), C92_first, 10%nat. split; [split; auto|]. split; [|vm_compute; repeat split].
  split; [reflexivity|]. intros a b. unfold sw.
  destruct (Z.eqb_spec a 1), (Z.eqb_spec a 2), (Z.eqb_spec b 1), (Z.eqb_spec b 2); intros; subst; congruence.
Qed.
Print Assumptions C92_term_or_rec_refuted.

(** The Machine, with all the rules it finds and applies, ends alike: on plain programs and on any other lookup. *)
Theorem C92_machine : forall f g comp comp' lim, renaming f -> renaming g -> renamed_lookups f g comp comp' ->
  same_report f g (py_machine_run comp lim) (py_machine_run comp' lim).
Proof. intros f g c c' lim F G H. exact (py_named f g F G c c' H lim). Qed.
Print Assumptions C92_machine.
Theorem C92_plain_machine : forall f g M M' lim, renaming f -> renaming g -> renamed f g M M' ->
  same_report f g (py_machine_run (plain M) lim) (py_machine_run (plain M') lim).
Proof. intros f g M M' lim F G H. exact (py_named f g F G _ _ (plain_named f g M M' H) lim). Qed.
Print Assumptions C92_plain_machine.

(** run_prover reports the same and panics alike; run_for_infrul gives the same answer. *)
Theorem C92_run_prover : forall f g M M' lim, renaming f -> renaming g -> renamed f g M M' ->
  rs_run_prover M' lim = option_map (named_result f g) (rs_run_prover M lim).
Proof. intros f g M M' lim F G H. exact (rs_named f g F G M M' H lim). Qed.
Print Assumptions C92_run_prover.
Theorem C92_run_for_infrul : forall f g M M' lim, renaming f -> renaming g -> renamed f g M M' ->
  rs_run_for_infrul M' lim = rs_run_for_infrul M lim.
Proof. intros f g M M' lim F G H. exact (infrul_named f g F G M M' H lim). Qed.
Print Assumptions C92_run_for_infrul.

(** The backward reasoners give the same answer at every depth, whatever the order in which the new table lists its
    instructions.  For halting the tables have to be of one size: every slot of the old one is a slot of the new one. *)
Theorem C92_cant_blank : forall f g p p' depth, renaming f -> renaming g -> NoDup (map fst p) -> Permutation p' (named_prog f g p) ->
  cant_blank p' depth = cant_blank p depth.
Proof. intros f g p p' depth F G N P. exact (blank_named f g F G p p' N P depth). Qed.
Print Assumptions C92_cant_blank.
Theorem C92_cant_spin_out : forall f g p p' depth, renaming f -> renaming g -> NoDup (map fst p) -> Permutation p' (named_prog f g p) ->
  cant_spin_out p' depth = cant_spin_out p depth.
Proof. intros f g p p' depth F G N P. exact (spin_named f g F G p p' N P depth). Qed.
Print Assumptions C92_cant_spin_out.
Theorem C92_cant_halt : forall f g p p' depth, renaming f -> renaming g -> NoDup (map fst p) -> Permutation p' (named_prog f g p) ->
  max_key p' = max_key p ->
  (forall s, 0 <= s <= fst (max_key p) -> 0 <= f s <= fst (max_key p)) ->
  (forall c, 0 <= c <= snd (max_key p) -> 0 <= g c <= snd (max_key p)) ->
  cant_halt p' depth = cant_halt p depth.
Proof. intros f g p p' depth F G N P K Kf Kg. exact (halt_named f g F G p p' N P K Kf Kg depth). Qed.
Print Assumptions C92_cant_halt.

(** A name left out counts as a colour that could be read: of "1RB 0LA  0RC 1RC  1LA ..." it is shown in 12 rounds that it
    does not halt, of "2RB ... 0LA  0RC ... 2RC  2LA ... ..." it is not. *)
Theorem C92_cant_halt_refuted : exists f g p depth, renaming f /\ renaming g /\ NoDup (map fst p)
  /\ cant_halt p depth = OSome 12 /\ cant_halt (named_prog f g p) depth = ONone.
Proof.
  exists (fun x => x), (sw 1 2), C32_prog, 40%nat. split; [split; auto|]. split.
  { split; [reflexivity|]. intros a b. unfold sw.
    destruct (Z.eqb_spec a 1), (Z.eqb_spec a 2), (Z.eqb_spec b 1), (Z.eqb_spec b 2); intros; subst; congruence. }
  split; [|vm_compute; split; reflexivity].
  repeat (constructor; [cbn; intuition discriminate|]). constructor.
Qed.
Print Assumptions C92_cant_halt_refuted.

(** The order alone does not matter either. *)
Theorem C92_order : forall p p' depth, NoDup (map fst p) -> Permutation p' p ->
  cant_halt p' depth = cant_halt p depth /\ cant_blank p' depth = cant_blank p depth /\ cant_spin_out p' depth = cant_spin_out p depth.
Proof. intros p p' depth N P. exact (conj (order_halt p p' depth N P) (conj (order_blank p p' depth N P) (order_spin p p' depth N P))). Qed.
Print Assumptions C92_order.

(** The champion of two states and four colours, "1RB 2LA 1RA 1RA  1LB 1LA 3RB ...",
    with colours 1 and 3 exchanged, "3RB 3RA 2LA 3RA  3LB ... 1RB 3LA": rules are applied 987 times, and it stops
    before the slot of state B and colour 1 where the champion stops before that of B and 3. *)
Definition C92_bb24 : comp_prog :=
  [((0, 0), (1, true, 1)); ((0, 1), (2, false, 0)); ((0, 2), (1, true, 0)); ((0, 3), (1, true, 0));
   ((1, 0), (1, false, 1)); ((1, 1), (1, false, 0)); ((1, 2), (3, true, 1))].
Definition C92_other : comp_prog :=
  [((0, 0), (3, true, 1)); ((0, 1), (3, true, 0)); ((0, 2), (3, true, 0)); ((0, 3), (2, false, 0));
   ((1, 0), (3, false, 1)); ((1, 2), (1, true, 1)); ((1, 3), (3, false, 0))].
Example C92_case : let f := fun x : Z => x in let g := sw 1 3 in
  renaming f /\ renaming g
  /\ (forall s c, In s [0; 1] -> In c [0; 1; 2; 3] -> machine_of C92_other s c = machine_of (named_prog f g C92_bb24) s c)
  /\ (let m := py_machine_run (plain (machine_of C92_other)) 1000 in
      m_end m = MUndfnd (1, 1) /\ m_rulapp m = 987 /\ m_cycles m = 397 /\ t_marks (m_tape m) = 2050)
  /\ m_end (py_machine_run (plain (machine_of C92_bb24)) 1000) = MUndfnd (1, 3).
Proof.
  cbv zeta. split; [split; auto|]. split.
  { split; [reflexivity|]. intros a b. unfold sw.
    destruct (Z.eqb_spec a 1), (Z.eqb_spec a 3), (Z.eqb_spec b 1), (Z.eqb_spec b 3); intros; subst; congruence. }
  split.
  { intros s c [<-|[<-|[]]] [<-|[<-|[<-|[<-|[]]]]]; reflexivity. }
  split; [|vm_compute; reflexivity].
  split; [vm_compute; reflexivity|]. split; [vm_compute; reflexivity|]. split; vm_compute; reflexivity.
Qed.

(** The programs of C32, C33 and C34 with B and C exchanged, listed in the order of the new names: "1RC 0LA  1LA ...  0RB 1RB",
    "1RC 0LB  0LC ...  1RB 0RA" and "1RC 0RC  0LB ...  0RB 0LA". *)
Definition C92_halt : comp_prog := [((0,0),(1,true,2)); ((0,1),(0,false,0)); ((1,0),(1,false,0)); ((2,0),(0,true,1)); ((2,1),(1,true,1))].
Definition C92_blank : comp_prog := [((0,0),(1,true,2)); ((0,1),(0,false,1)); ((1,0),(0,false,2)); ((2,0),(1,true,1)); ((2,1),(0,true,0))].
Definition C92_spin : comp_prog := [((0,0),(1,true,2)); ((0,1),(0,true,2)); ((1,0),(0,false,1)); ((2,0),(0,true,1)); ((2,1),(0,false,0))].
Example C92_reason_case : let f := sw 1 2 in let g := fun x : Z => x in
  renaming f /\ Permutation C92_halt (named_prog f g C32_prog) /\ Permutation C92_blank (named_prog f g C33_prog)
  /\ Permutation C92_spin (named_prog f g C34_prog) /\ max_key C92_halt = max_key C32_prog /\ max_key C32_prog = (2, 1)
  /\ (forall s, 0 <= s <= 2 -> 0 <= f s <= 2)
  /\ cant_halt C92_halt 20 = OSome 12 /\ cant_blank C92_blank 20 = OSome 8 /\ cant_spin_out C92_spin 20 = OSome 4.
Proof.
  cbv zeta. split.
  { split; [reflexivity|]. intros a b. unfold sw.
    destruct (Z.eqb_spec a 1), (Z.eqb_spec a 2), (Z.eqb_spec b 1), (Z.eqb_spec b 2); intros; subst; congruence. }
  assert (X : forall (a b c d e : slot * instr), Permutation [a; b; e; c; d] [a; b; c; d; e]).
  { intros a b c d e. do 2 apply perm_skip. apply (Permutation_cons_app [c; d] [] e). rewrite app_nil_r. apply Permutation_refl. }
  split; [apply X|]. split; [apply X|]. split; [apply X|]. split; [reflexivity|]. split; [reflexivity|].
  split; [|vm_compute; repeat split].
  intros s H. unfold sw. destruct (Z.eqb_spec s 1); [lia|]. destruct (Z.eqb_spec s 2); lia.
Qed.
