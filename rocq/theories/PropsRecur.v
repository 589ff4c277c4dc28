(** * Properties of the recurrence checkers of the tests (C81-C83) *)
From Verif Require Import Base TM ProgModel TapeModel QuickModel TermRecModel TermRecSpec RecurModel RecurSpec RecurStrict RecurComplete
  RecurSample RecurLoose RecurCases.

(** C81: what StrictLinRecMachine reports as a recurrence is one, its period is the least one, and the machine never
    halts. *)
Theorem C81_reported_recurrence : forall comp lim check a b sp q,
  sr_end (strict_run comp lim check) = SLin a b sp q ->
  0 <= a /\ 0 < b /\ recurs_at (machine_of comp) (Z.to_nat a) (Z.to_nat b)
  /\ (forall n m, recurs_at (machine_of comp) n m -> b <= Z.of_nat m)
  /\ never_halts (machine_of comp).
Proof. exact strict_right. Qed.
Print Assumptions C81_reported_recurrence.

(** "1RB 1RB  1RC 1LB  1LA 1RA" drifts to the right. *)
Example C81_case : sr_end (strict_run drifter 100 0) = SLin 7 7 None false.
Proof. vm_compute. reflexivity. Qed.

(** C81: every recurrence is found, whatever [check] is. *)
Theorem C81_every_recurrence_found : forall comp check,
  recurs (machine_of comp) -> exists L, forall lim, (L <= lim)%nat ->
  exists a b sp q, sr_end (strict_run comp lim check) = SLin a b sp q.
Proof. exact strict_finds. Qed.
Print Assumptions C81_every_recurrence_found.

Example C81_found_case : recurs (machine_of drifter).
Proof. exact (recurs_at_recurs _ _ _ drifter_recurs). Qed.

(** C81: if a recurrence starts earlier than the reported start then up to the reported start the machine only sweeps: it
    stays in the same state and reads the same colour. *)
Theorem C81_start_up_to_a_sweep : forall comp check lim a b sp q n m t c d,
  sr_end (strict_run comp lim check) = SLin a b sp q ->
  recurs_at (machine_of comp) n m -> check <= Z.of_nat n -> (n <= t)%nat -> Z.of_nat t < a ->
  steps (machine_of comp) n init = Some c -> steps (machine_of comp) t init = Some d ->
  c_state d = c_state c /\ c_tape d (c_pos d) = c_tape c (c_pos c).
Proof. exact strict_start. Qed.
Print Assumptions C81_start_up_to_a_sweep.

(** The start itself need not be the first one. *)
Theorem C81_first_start_refuted : exists comp lim a b sp q n m,
  sr_end (strict_run comp lim 0) = SLin a b sp q /\ recurs_at (machine_of comp) n m /\ Z.of_nat n < a.
Proof.
  exists drifter, 100%nat, 7, 7, None, false, 4%nat, 7%nat. split; [vm_compute; reflexivity|]. split; [exact drifter_recurs|lia].
Qed.
Print Assumptions C81_first_start_refuted.

(** C81: spnout is set exactly for the machines that spin out, to a step from which on they do. *)
Theorem C81_spnout : forall comp lim check a b sp q,
  sr_end (strict_run comp lim check) = SLin a b sp q ->
  (sp <> None <-> exists n c, steps (machine_of comp) n init = Some c /\ spins_out_from (machine_of comp) c)
  /\ (forall n, sp = Some n -> n = a /\ exists c, steps (machine_of comp) (Z.to_nat n) init = Some c
                                                /\ spins_out_from (machine_of comp) c).
Proof. exact strict_spins. Qed.
Print Assumptions C81_spnout.

(** "1RB ...  1RB ..." spins out to the right. *)
Example C81_spnout_case : sr_end (strict_run away 50 0) = SLin 1 1 (Some 1) true.
Proof. vm_compute. reflexivity. Qed.

(** C81: qsihlt is only set for machines that quasihalt, and for all of them if every step was checked. *)
Theorem C81_qsihlt_partial : forall comp lim check a b sp q,
  sr_end (strict_run comp lim check) = SLin a b sp q ->
  (q = true -> quasihalts (machine_of comp)) /\ (check <= 0 -> quasihalts (machine_of comp) -> q = true).
Proof. exact strict_quasi. Qed.
Print Assumptions C81_qsihlt_partial.

(** With the first steps unchecked a quasihalting machine may be missed: the state it leaves for good may be left before
    the first check. *)
Theorem C81_late_check_qsihlt_refuted : exists comp lim a b sp,
  quasihalts (machine_of comp) /\ sr_end (strict_run comp lim 1) = SLin a b sp false.
Proof. exists away, 50%nat, 1, 1, (Some 1). split; [exact away_quasihalts|]. vm_compute. reflexivity. Qed.
Print Assumptions C81_late_check_qsihlt_refuted.

(** C81: undfnd is where the machine halts, xlimit is a step it reached, and no run ends in an exception. *)
Theorem C81_ends : forall comp lim check, match sr_end (strict_run comp lim check) with
  | SLin _ _ _ _ => recurs (machine_of comp)
  | SUndfnd n s => 0 <= n /\ halts_at (machine_of comp) (Z.to_nat n) s
  | SXlimit n => Z.of_nat lim <= n /\ exists c, steps (machine_of comp) (Z.to_nat n) init = Some c
  | SErr => False
  end.
Proof. exact strict_ends. Qed.
Print Assumptions C81_ends.

(** C81: a halting machine is reported to halt. *)
Theorem C81_halting_reported : forall comp lim check n s,
  halts_at (machine_of comp) n s -> (n < lim)%nat -> sr_end (strict_run comp lim check) = SUndfnd (Z.of_nat n) s.
Proof. exact strict_halts. Qed.
Print Assumptions C81_halting_reported.

Example C81_halting_case : halts_at (machine_of pretender) 20 (2, 0).
Proof. exact pretender_halts. Qed.

(** C81: blanks holds, for each state in which the tape was blank after the start of the run and until its end, the first
    step at which it was. *)
Theorem C81_blanks : forall comp lim check s k, let r := strict_run comp lim check in
  let last := match sr_end r with SLin a b _ _ => a + b | SUndfnd n _ => n | SXlimit n => n | SErr => 0 end in
  In (s, k) (sr_blanks r) <-> 0 <= k <= last /\ first_blank (machine_of comp) s (Z.to_nat k).
Proof. exact strict_blanks. Qed.
Print Assumptions C81_blanks.

(** "1RB ...  0LC ...  ... 0RA" clears its tape. *)
Example C81_blanks_case : let r := strict_run cleaner 100 0 in sr_end r = SLin 0 3 None false /\ sr_blanks r = [(0, 3)].
Proof. vm_compute. auto. Qed.

(** C81: to repeat itself, as [recurs_at] says it, is to meet the same states and colours again and again. *)
Theorem C81_recurrence_in_the_trace : forall comp n m, (0 < m)%nat -> (recurs_at (machine_of comp) n m <->
  forall t, (n <= t)%nat -> exists c d, steps (machine_of comp) t init = Some c /\ steps (machine_of comp) (t + m) init = Some d
    /\ c_state d = c_state c /\ c_tape d (c_pos d) = c_tape c (c_pos c)).
Proof. exact recurs_at_trace. Qed.
Print Assumptions C81_recurrence_in_the_trace.

(** C82: a recurrence between two samples is confirmed, whatever else was sampled, ... *)
Theorem C82_recurrence_confirmed : forall comp lim samples a b,
  (a < b < lim)%nat -> In (Z.of_nat a) samples -> In (Z.of_nat b) samples -> recurs_at (machine_of comp) a (b - a) ->
  assert_lin_rec (sampler_run comp lim samples) (Z.of_nat a) (Z.of_nat b) = true.
Proof. exact sample_finds. Qed.
Print Assumptions C82_recurrence_confirmed.

Example C82_confirmed_case : (4 < 11 < 12)%nat /\ In (Z.of_nat 4) [4; 11] /\ In (Z.of_nat 11) [4; 11] /\ recurs_at (machine_of drifter) 4 (11 - 4).
Proof. split; [lia|]. split; [cbn; auto|]. split; [cbn; auto|]. exact drifter_recurs. Qed.

(** ... so a denial is right. *)
Theorem C82_denial_right : forall comp lim samples a b,
  (a < b < lim)%nat -> In (Z.of_nat a) samples -> In (Z.of_nat b) samples ->
  deny_lin_rec (sampler_run comp lim samples) (Z.of_nat a) (Z.of_nat b) = true -> ~ recurs_at (machine_of comp) a (b - a).
Proof. exact sample_denies. Qed.
Print Assumptions C82_denial_right.

Example C82_denial_case : deny_lin_rec (sampler_run drifter 20 [3; 10]) (Z.of_nat 3) (Z.of_nat 10) = true.
Proof. vm_compute. reflexivity. Qed.

(** C82: a confirmation is right if every step between the two was sampled. *)
Theorem C82_confirmation_partial : forall comp lim samples a b,
  (a < b)%nat -> (forall t, (a <= t <= b)%nat -> In (Z.of_nat t) samples) ->
  assert_lin_rec (sampler_run comp lim samples) (Z.of_nat a) (Z.of_nat b) = true -> recurs_at (machine_of comp) a (b - a).
Proof. exact sample_right. Qed.
Print Assumptions C82_confirmation_partial.

Example C82_confirmation_case : (forall t, (4 <= t <= 11)%nat -> In (Z.of_nat t) (map Z.of_nat (seq 4 8)))
  /\ assert_lin_rec (sampler_run drifter 12 (map Z.of_nat (seq 4 8))) (Z.of_nat 4) (Z.of_nat 11) = true.
Proof. split; [intros t T; apply in_map, in_seq; lia|vm_compute; reflexivity]. Qed.

(** The samples that the tests take are too few: a program that halts passes the whole check, ... *)
Theorem C82_tests_pass_halting_refuted : exists comp n p s h,
  test_lin_rec comp n p = true /\ halts_at (machine_of comp) h s.
Proof. exists pretender, 2, 7, (2, 0), 20%nat. split; [vm_compute; reflexivity|exact pretender_halts]. Qed.
Print Assumptions C82_tests_pass_halting_refuted.

(** ... and a recurrence with its least period, from its first start on, fails it. *)
Theorem C82_tests_fail_recurrence_refuted : exists comp n p,
  recurs_at (machine_of comp) n p /\ (forall n' p', recurs_at (machine_of comp) n' p' -> (n <= n')%nat /\ (p <= p')%nat)
  /\ (1 < p)%nat /\ test_lin_rec comp (Z.of_nat n) (Z.of_nat p) = false.
Proof.
  exists drifter, 4%nat, 7%nat. split; [exact drifter_recurs|]. split; [exact drifter_least|]. split; [lia|vm_compute; reflexivity].
Qed.
Print Assumptions C82_tests_fail_recurrence_refuted.

(** C83: what run_loose_linrec_machine reports of a program that starts with 1RB: the step was reached; undfnd is the
    halt; spnout means that the machine spins out from there; infrul that it comes to repeat itself; xlimit that it is
    still running. *)
Theorem C83_reports : forall comp lim, comp_get comp (0, 0) = Some (1, true, 1) ->
  let r := run_loose_linrec_machine comp lim in
  0 <= mr_steps r /\ exists c, steps (machine_of comp) (Z.to_nat (mr_steps r)) init = Some c
  /\ match mr_result r with
     | undfnd => exists s, mr_last_slot r = Some s /\ halts_at (machine_of comp) (Z.to_nat (mr_steps r)) s
     | spnout => spins_out_from (machine_of comp) c
     | infrul => recurs (machine_of comp)
     | xlimit => Z.of_nat lim <= mr_steps r
     | _ => False
     end.
Proof. exact loose_says. Qed.
Print Assumptions C83_reports.

Example C83_case : comp_get drifter (0, 0) = Some (1, true, 1) /\ mr_result (run_loose_linrec_machine drifter 100) = infrul
  /\ mr_result (run_loose_linrec_machine away 100) = spnout /\ mr_result (run_loose_linrec_machine pretender 100) = undfnd
  /\ mr_result (run_loose_linrec_machine cleaner 100) = infrul /\ mr_result (run_loose_linrec_machine drifter 5) = xlimit.
Proof. vm_compute. repeat split. Qed.

(** C83: infrul and spnout are reported, from some limit on, exactly for the machines that come to repeat themselves. *)
Theorem C83_finds_exactly_the_cyclers : forall comp, comp_get comp (0, 0) = Some (1, true, 1) ->
  (exists lim, mr_result (run_loose_linrec_machine comp lim) = infrul \/ mr_result (run_loose_linrec_machine comp lim) = spnout)
  <-> recurs (machine_of comp).
Proof. exact loose_cyclers. Qed.
Print Assumptions C83_finds_exactly_the_cyclers.

(** C83: and once reported, the report is the same at every larger limit. *)
Theorem C83_report_settles : forall comp, comp_get comp (0, 0) = Some (1, true, 1) -> recurs (machine_of comp) ->
  exists r L, (mr_result r = infrul \/ mr_result r = spnout) /\ forall lim, (L <= lim)%nat -> run_loose_linrec_machine comp lim = r.
Proof. exact loose_finds. Qed.
Print Assumptions C83_report_settles.

(** C83: so it agrees with quick_term_or_rec of src/machine.rs, although the two take their references at different
    moments. *)
Theorem C83_agrees_with_quick_term_or_rec : forall comp, comp_get comp (0, 0) = Some (1, true, 1) ->
  (exists lim, mr_result (run_loose_linrec_machine comp lim) = infrul \/ mr_result (run_loose_linrec_machine comp lim) = spnout)
  <-> (exists lim, quick_term_or_rec comp lim false = true).
Proof. exact loose_quick. Qed.
Print Assumptions C83_agrees_with_quick_term_or_rec.

(** C83: a halting program is reported to halt, at its step and slot. *)
Theorem C83_halting_reported : forall comp lim n s,
  comp_get comp (0, 0) = Some (1, true, 1) -> halts_at (machine_of comp) n s -> (n < lim)%nat ->
  let r := run_loose_linrec_machine comp lim in mr_result r = undfnd /\ mr_steps r = Z.of_nat n /\ mr_last_slot r = Some s.
Proof. exact loose_halts. Qed.
Print Assumptions C83_halting_reported.

Example C83_halting_case : comp_get pretender (0, 0) = Some (1, true, 1) /\ halts_at (machine_of pretender) 20 (2, 0).
Proof. split; [reflexivity|exact pretender_halts]. Qed.

(** C83: blanks holds the first step of each state at which the tape was blank, until the end of the run. *)
Theorem C83_blanks : forall comp lim s k, comp_get comp (0, 0) = Some (1, true, 1) ->
  let r := run_loose_linrec_machine comp lim in
  In (s, k) (mr_blanks r) <-> 0 <= k <= mr_steps r /\ first_blank (machine_of comp) s (Z.to_nat k).
Proof. exact loose_blanks. Qed.
Print Assumptions C83_blanks.

Example C83_blanks_case : mr_blanks (run_loose_linrec_machine cleaner 100) = [(0, 3)].
Proof. vm_compute. reflexivity. Qed.

(** The first instruction is not looked at: a program that halts at once is reported to recur. *)
Theorem C83_other_first_instr_refuted : exists comp lim s,
  halts_at (machine_of comp) 0 s /\ mr_result (run_loose_linrec_machine comp lim) = spnout.
Proof.
  exists [((1, 0), (1, true, 1))], 10%nat, (0, 0). split; [|vm_compute; reflexivity].
  exists init. repeat split.
Qed.
Print Assumptions C83_other_first_instr_refuted.
