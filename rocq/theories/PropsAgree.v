(** * C99: the tools do not contradict each other *)
From Verif Require Import Base TM ProgModel ParseModel ParseSpec ApiSpec ApiModel AgreeSpec.
From Verif Require Import TapeModel QuickModel ProverModel ReasonModel ReasonSpec SegModel MacroModel MakeMacroModel.
From Verif Require Import ApiProofs AgreeProofs ReasonKinds PropsReason PropsApi.

(** Runs that say that the program halts say the same of when, where and with how many marks, whatever their limits, and then
    no run says that it spins out or that it comes back to the blank tape for good. *)
Theorem C99_runs_agree : forall t M, writes t M ->
  (forall n s k n' s' k', says_halts t n s k -> says_halts t n' s' k' -> n = n' /\ s = s' /\ k = k')
  /\ (forall n s k n' k', says_halts t n s k -> ~ says_spins t n' k')
  /\ (forall n s k lim r, says_halts t n s k -> py_run_quick_machine t lim = Some r -> mr_result r <> infrul).
Proof. exact runs_agree. Qed.
Print Assumptions C99_runs_agree.

(** Under the conditions of C10 and C32-C35 no decider contradicts a run. *)
Theorem C99_deciders_agree_partial : forall t M, writes t M -> M 0 0 = Some (1, true, 1) -> restartable M -> named M ->
  (forall n s k, says_halts t n s k -> ~ says_never t)
  /\ (forall n k d r, says_spins t n k -> py_cant_spin_out t d <> Some (OSome r))
  /\ (forall s n d r, says_blank t s n -> 0 < n -> py_cant_blank t d <> Some (OSome r)).
Proof. exact deciders_agree. Qed.
Print Assumptions C99_deciders_agree_partial.

(** Without them one does: of "1RB 0LB  ... 1LC  1RB 1RB" one run says that it halts after one step and cant_halt that it never does. *)
Theorem C99_contradiction_refuted : exists t M n s k, writes t M /\ M 0 0 = Some (1, true, 1) /\ says_halts t n s k /\ says_never t.
Proof.
  exists (py_show_comp halt_bug (Some (3, 2))), (machine_of halt_bug), 1, (1, 0), 1.
  split; [apply shown_of; [repeat constructor; cbn; intuition congruence|intros s c pr sh tr E; in_range E|lia|lia]|].
  split; [reflexivity|]. split; [|apply (never_cant _ 2%nat 1); vm_compute; reflexivity].
  assert (X : exists r, py_run_quick_machine (py_show_comp halt_bug (Some (3, 2))) 10 = Some r /\ mr_undfnd r = Some (1, (1, 0)) /\ mr_marks r = 1)
    by (eexists; split; [vm_compute; reflexivity|split; reflexivity]).
  destruct X as (r & A & B & C). pose proof (halts_quick _ 10%nat r 1 (1, 0) A B) as D. rewrite C in D. exact D.
Qed.
Print Assumptions C99_contradiction_refuted.

(** "1RB 1LB  1LA ..." meets the hypotheses; the three kinds of runs say that it halts. *)
Definition C99_prog : comp_prog := [((0, 0), (1, true, 1)); ((0, 1), (1, false, 1)); ((1, 0), (1, false, 0))].
Definition C99_text : text := py_show_comp C99_prog (Some (2, 2)).
Example C99_case : writes C99_text (machine_of C99_prog) /\ machine_of C99_prog 0 0 = Some (1, true, 1) /\ restartable (machine_of C99_prog)
  /\ named (machine_of C99_prog)
  /\ (exists r, py_run_quick_machine C99_text 100 = Some r /\ mr_undfnd r = Some (5, (1, 1)) /\ mr_marks r = 4)
  /\ (exists m, machine_on_text C99_text None None None None 100 = Some m /\ m_rulapp m = 0 /\ m_undfnd m = Some (5, (1, 1)) /\ t_marks (m_tape m) = 4)
  /\ (exists r, py_run_prover C99_text 100 = Some r /\ mr_rulapp r = 0 /\ mr_undfnd r = Some (5, (1, 1)) /\ mr_marks r = 4)
  /\ py_cant_halt C99_text 20 = Some ONone.
Proof.
  split; [apply shown_of; [repeat constructor; cbn; intuition congruence|intros s c pr sh tr E; in_range E|lia|lia]|].
  split; [reflexivity|]. split; [|split].
  - exists (fun s => s = 0 \/ s = 1). split; [auto|]. intros s [->| ->].
    + exists 1. split; auto. exists 0, 1, false. reflexivity.
    + exists 0. split; auto. exists 0, 1, true. reflexivity.
  - split; [vm_compute; discriminate|]. intros s c pr sh t E. unfold machine_of in E.
    apply (GraphProofs.comp_get_in C99_prog (s, c)) in E; [|repeat constructor; cbn; intuition congruence]. cbn in E.
    repeat (destruct E as [E|E]; [inv E; split; [lia|]; split; [lia|]; split;
      [exists 1, 0; split; [lia|vm_compute; discriminate]|exists 0, 1; split; [lia|vm_compute; discriminate]]|]). contradiction.
  - split; [|split; [|split]].
    1-3: eexists; split; [vm_compute; reflexivity|repeat split].
    vm_compute. reflexivity.
Qed.
