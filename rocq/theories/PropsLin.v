(** * Properties of the simulators of machines/ (C74) *)
From Verif Require Import Base TM TMFacts ParseModel ParseSpec CSpec LinModel LinSpec LinRunProofs.
Local Open Scope string_scope.

(** C74: for each line of the input, in order, the simulator prints the line with the program's number, its text, the
    steps and the marks, if the program stops with fewer steps than the limit, and nothing if it does not; whatever ran
    before.  At the end it says so.  This is so for all programs whose heads do not run off the array. *)
Theorem C74_report_partial : forall X ps,
  sim_ok X -> Forall (fun p => lin_table X (fst p) /\ lin_text (fst p) (snd p)) ps ->
  Forall (fun p => ~ overruns X (lin_machine (fst p))) ps ->
  exists out, prints X 0 ps out
    /\ simulate X (concat (map (fun p => fed (snd p)) ps)) = ((out ++ str "done" ++ [10])%list, Exited).
Proof. exact simulate_right. Qed.
Print Assumptions C74_report_partial.

(** The bounds are met by the six simulators. *)
Example C74_sims : Forall sim_ok [sim_2_2; sim_2_3; sim_2_4; sim_3_2; sim_4_2; sim_5_2].
Proof. repeat constructor; cbn; try lia; try discriminate. Qed.

(** What is reported is so: the machine makes that many moves and then, for the first time, is in state H or has a blank
    tape; or it spins out from there on and never halts, one move less being made than reported, except where the check
    for it comes early. *)
Theorem C74_truth : forall X M n w, reported X M n w ->
  exists m c, steps M m init = Some c /\ marks_are (c_tape c) w
  /\ (forall j d, (1 <= j < m)%nat -> steps M j init = Some d -> c_state d <> 7 /\ ~ is_blank d)
  /\ (n = Z.of_nat m /\ (c_state c = 7 \/ ((1 <= m)%nat /\ is_blank c))
      \/ n = Z.of_nat m + (if sm_early X (c_state c) then 0 else 1) /\ spins_out_from M c /\ never_halts M).
Proof. exact reported_true. Qed.
Print Assumptions C74_truth.

(** So the steps are the moves in 2-4.c, and in the others but for spin-outs. *)
Theorem C74_steps_2_4 : forall g n w, lin_table sim_2_4 g -> reported sim_2_4 (lin_machine g) n w ->
  exists m c, steps (lin_machine g) m init = Some c /\ n = Z.of_nat m
  /\ (c_state c = 7 \/ ((1 <= m)%nat /\ is_blank c) \/ spins_out_from (lin_machine g) c).
Proof. exact reported_2_4. Qed.
Print Assumptions C74_steps_2_4.

(** A machine with four colours that spins out: it is in B after the first move and stays there. *)
Definition four_colors : list (list instr) :=
  [[(1, true, 1); (1, true, 0); (1, true, 0); (1, true, 0)]; [(3, true, 1); (1, true, 0); (1, true, 0); (1, true, 0)]].
Example C74_steps_2_4_case : lin_table sim_2_4 four_colors /\ reported sim_2_4 (lin_machine four_colors) 1 1.
Proof.
  split.
  - split; [reflexivity|]. split; [|eexists; eexists; reflexivity].
    repeat (constructor; [split; [reflexivity|]; repeat (constructor; [cbn; lia|]); constructor|]). constructor.
  - exists 1%nat. eexists. split; [reflexivity|]. cbn [c_tape c_state c_pos].
    split. { exists [0]. split; [repeat constructor; intros []|]. split; [|reflexivity]. intros p. cbn. unfold write.
             destruct (Z.eqb_spec p 0) as [Q|Q]; [subst; split; [intros _; discriminate|left; reflexivity]|].
             split; [intros [Q'|[]]; lia|intros Q'; elim Q'; reflexivity]. }
    assert (NB : ~ is_blank (Cfg 1 1 (write blank_tape 0 1))) by (intros B; discriminate (B 0)).
    split. { right. right. split; [reflexivity|]. exists 3, true. split; [reflexivity|]. cbn [c_pos].
             intros j d J F. destruct j as [|[|j]]; [injection F as <-; cbn; lia|injection F as <-; cbn; lia|lia]. }
    split. { intros j d J F. replace j with 0%nat in * by lia. injection F as <-.
             intros [Q|[(Q & _)|(_ & pr & dir & Q & _)]]; [discriminate Q|lia|discriminate Q]. }
    right. split; [|reflexivity]. intros [Q|(_ & Q)]; [discriminate Q|exact (NB Q)].
Qed.

(** Three lines of machines/2-2.test and one program that does not stop. *)
Definition two_state (a b c : instr) : list (list instr) := [[(1, true, 1); a]; [b; c]].
Definition two_state_lines : list (list (list instr) * text) :=
  [(two_state (1, false, 1) (1, false, 0) (1, true, 7), str "1RB 1LB  1LA 1RH");
   (two_state (1, false, 0) (0, false, 0) (0, true, 1), str "1RB 1LA  0LA 0RB");
   (two_state (1, true, 7) (1, false, 1) (1, false, 0), str "1RB 1RH  1LB 1LA");
   (two_state (1, false, 1) (0, false, 1) (1, false, 0), str "1RB 1LB  0LB 1LA")].

(** That a machine keeps inside is seen by running it. *)
Fixpoint leaves (M : program) (n : nat) (c : config) (lim : Z) : bool :=
  match n with
  | O => c_pos c =? lim
  | S n => match step M c with Some c => leaves M n c lim | None => false end
  end.
Lemma leaves_right M n : forall c d lim, leaves M n c lim = false -> steps M n c = Some d -> c_pos d <> lim.
Proof.
  induction n as [|n IH]; intros c d lim L E.
  - injection E as <-. cbn in L. lia.
  - cbn in L, E. destruct (step M c) as [c'|]; [eauto|discriminate].
Qed.

Example C74_case : Forall (fun p => lin_table sim_2_2 (fst p) /\ lin_text (fst p) (snd p)) two_state_lines
  /\ Forall (fun p => ~ overruns sim_2_2 (lin_machine (fst p))) two_state_lines
  /\ simulate sim_2_2 (concat (map (fun p => fed (snd p)) two_state_lines))
     = ((str "1 | 1RB 1LB  1LA 1RH | 6 | 4" ++ [10] ++ str "3 | 1RB 1RH  1LB 1LA | 6 | 3" ++ [10]
         ++ str "4 | 1RB 1LB  0LB 1LA | 7 | 2" ++ [10] ++ str "done" ++ [10])%list, Exited).
Proof.
  split; [|split].
  - repeat (constructor; [split; [split; [reflexivity|split; [|eexists; eexists; reflexivity]];
      repeat (constructor; [split; [reflexivity|]; repeat (constructor; [cbn; lia|]); constructor|]); constructor|
      cbn [fst snd]; unfold lin_text;
      apply (prog_cons [Some _; Some _] [_; _; _; _; _; _; _]);
        [apply (row_cons (Some _) [_; _; _] [_] [_; _; _]); [|apply row_one]|
         apply prog_one; apply (row_cons (Some _) [_; _; _] [_] [_; _; _]); [|apply row_one]];
      (split; [lia|split; [lia|reflexivity]])]|]).
    constructor.
  - repeat constructor; intros (c & E & P & _); cbn [fst] in E;
      revert E P; apply leaves_right; vm_compute; reflexivity.
  - vm_compute. reflexivity.
Qed.

(** The array is two limits long and the head starts in the middle: as many moves to the right as the limit allows lead to
    the place after its end, which is then cleared.  Then anything may happen. *)
Theorem C74_overrun : forall X ps,
  sim_ok X -> Forall (fun p => lin_table X (fst p) /\ lin_text (fst p) (snd p)) ps ->
  Exists (fun p => overruns X (lin_machine (fst p))) ps ->
  snd (simulate X (concat (map (fun p => fed (snd p)) ps))) = Crashed.
Proof. exact simulate_overrun. Qed.
Print Assumptions C74_overrun.

(** There is such a program for each simulator. *)
Theorem C74_overrun_refuted : forall X, sim_ok X ->
  exists g s, lin_table X g /\ lin_text g s /\ snd (simulate X (fed s)) = Crashed.
Proof. exact overrun_there. Qed.
Print Assumptions C74_overrun_refuted.

(** The steps printed for a machine that spins out are not those before which it spins out: this one, 6 steps in
    test/prog_data.py, is given 7. *)
Theorem C74_spin_steps_refuted : exists g s,
  lin_table sim_2_2 g /\ lin_text g s
  /\ simulate sim_2_2 (fed s) = ((str "1 | 1RB 1LB  0LB 1LA | 7 | 2" ++ [10] ++ str "done" ++ [10])%list, Exited)
  /\ exists c, steps (lin_machine g) 6 init = Some c /\ spins_out_from (lin_machine g) c.
Proof.
  exists (two_state (1, false, 1) (0, false, 1) (1, false, 0)), (str "1RB 1LB  0LB 1LA").
  destruct C74_case as (F & _). rewrite Forall_forall in F. destruct (F _ (or_intror (or_intror (or_intror (or_introl eq_refl))))) as (A & B).
  split; [exact A|]. split; [exact B|]. split; [vm_compute; reflexivity|].
  eexists. split; [reflexivity|]. eapply (spin_out_lemma _ _ false); [reflexivity|].
  intros i I. cbn. unfold write. repeat match goal with |- context [?a =? ?b] => destruct (Z.eqb_spec a b); [try lia; try reflexivity|] end.
  all: try reflexivity; cbn in *; lia.
Qed.
Print Assumptions C74_spin_steps_refuted.

(** A last line without a newline is not run. *)
Theorem C74_last_line_refuted : exists g s,
  lin_table sim_2_2 g /\ lin_text g s
  /\ simulate sim_2_2 (fed s) = ((str "1 | 1RB 1LB  1LA 1RH | 6 | 4" ++ [10] ++ str "done" ++ [10])%list, Exited)
  /\ simulate sim_2_2 (removelast (fed s)) = ((str "done" ++ [10])%list, Exited).
Proof.
  exists (two_state (1, false, 1) (1, false, 0) (1, true, 7)), (str "1RB 1LB  1LA 1RH").
  destruct C74_case as (F & _). rewrite Forall_forall in F. destruct (F _ (or_introl eq_refl)) as (A & B).
  split; [exact A|]. split; [exact B|]. split; vm_compute; reflexivity.
Qed.
Print Assumptions C74_last_line_refuted.

(** Programs outside the table: going to a state that the simulator does not have ends the whole run, quietly, and halting
    as written elsewhere in the project goes astray. *)
Theorem C74_foreign_state_refuted :
  simulate sim_2_2 (fed (str "1RB 1RC  1LA 1RA") ++ fed (str "1RB 1LB  1LA 1RH"))%list = ((str "done" ++ [10])%list, Exited)
  /\ snd (simulate sim_2_2 (fed (str "1RB 1LB  1LA 1R_"))) = Crashed.
Proof. split; vm_compute; reflexivity. Qed.
Print Assumptions C74_foreign_state_refuted.
