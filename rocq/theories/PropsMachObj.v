(** * What a Machine object says (C87, C88)

    [mo_run fl o comp msg ob lim] is ob.run(lim) of a Machine over a plain program, with the object after it and whether
    it came back without an exception; [mo_new] is an object that has not run. *)
From Coq Require Import String.
From Verif Require Import Base TM ProgModel TapeModel QuickModel ProverModel NumModel SymModel SymMachModel ParseModel NumShowModel
  MachObjModel MachObjSpec MachObjProofs MachLineProofs NumSpec SymMachCase PropsSymInt.
Local Open Scope Z_scope.

(** C87.  After one run of a new object exactly one of undfnd, spnout, xlimit, infrul, cfglim and limrul is set, and
    simple_termination is the number of steps if and only if that is undfnd or spnout. *)
Theorem C87_one_outcome : forall fl o comp msg lim ob, mo_run fl o comp msg mo_new lim = (ob, true) ->
  exists x, says ob x /\ mo_simple ob = stops_at x /\ (forall k, stops_at x = Some k -> mo_steps ob = Some k).
Proof. exact one_outcome. Qed.
Print Assumptions C87_one_outcome.

(** The same of the results of the Rust simulators: the getters never contradict each other, none panics, and exactly one
    of them is there (none for [mulrul]). *)
Theorem C87_rust_one_outcome : (forall comp lim, one_of (run_quick_machine comp lim))
  /\ forall M lim r, rs_run_prover M lim = Some r -> one_of r.
Proof. exact rust_one_of. Qed.
Print Assumptions C87_rust_one_outcome.

(** It is false that running an object again leaves it like a new object after that run: the xlimit of an earlier run
    stays, beside the undfnd of the later one, and the rule applications are added up. *)
Theorem C87_rerun_refuted : exists comp lim1 lim2 ob1 ob2 new,
  let run ob lim := mo_run exact_fl ops6 comp [] ob lim in
  run mo_new lim2 = (new, true)
  /\ (exists old, run mo_new lim1 = (old, true) /\ run old lim2 = (ob1, true)) /\ mo_undfnd ob1 <> None /\ mo_xlimit ob1 <> None /\ mo_xlimit new = None
  /\ run new lim2 = (ob2, true) /\ mo_rulapp new = I 987 /\ mo_rulapp ob2 = I 1974.
Proof.
  exists bb24, 10%nat, 1000%nat, (fst (mo_run exact_fl ops6 bb24 [] (fst (mo_run exact_fl ops6 bb24 [] mo_new 10)) 1000)),
    (fst (mo_run exact_fl ops6 bb24 [] (fst (mo_run exact_fl ops6 bb24 [] mo_new 1000)) 1000)), (fst (mo_run exact_fl ops6 bb24 [] mo_new 1000)).
  cbv zeta. split; [vm_compute; reflexivity|].
  split; [exists (fst (mo_run exact_fl ops6 bb24 [] mo_new 10)); split; vm_compute; reflexivity|].
  split; [vm_compute; discriminate|]. split; [vm_compute; discriminate|]. split; [vm_compute; reflexivity|].
  split; [vm_compute; reflexivity|]. split; vm_compute; reflexivity.
Qed.
Print Assumptions C87_rerun_refuted.

(** What holds of an object that is run several times.  undfnd, spnout, infrul, cfglim, limrul and simple_termination are
    those of a new object run with the largest of the limits; steps, cycles, tape, blanks and prover those of a new
    object run with the last.  Missing for the full claim: xlimit, susrul and rulapp, which are as refuted above. *)
Theorem C87_reruns_partial : forall fl o comp msg lims ob, lims <> [] -> mo_runs fl o comp msg mo_new lims = Some ob ->
  (forall l, In l lims -> snd (mo_run fl o comp msg mo_new l) = true) ->
  (exists big, In big lims /\ (forall l, In l lims -> (l <= big)%nat) /\ settled_alike ob (fst (mo_run fl o comp msg mo_new big))
     /\ mo_simple ob = mo_simple (fst (mo_run fl o comp msg mo_new big)))
  /\ left_alike ob (fst (mo_run fl o comp msg mo_new (last lims 0%nat))).
Proof. exact reruns. Qed.
Print Assumptions C87_reruns_partial.

(** The champion of two states and four colours, run with limits 1000 and then 10: it keeps its undfnd, has the cycles of the last
    run, and an xlimit beside. *)
Example C87_case : snd (mo_run exact_fl ops6 bb24 [] mo_new 10) = true /\ snd (mo_run exact_fl ops6 bb24 [] mo_new 1000) = true
  /\ exists ob, mo_runs exact_fl ops6 bb24 [] mo_new [1000; 10]%nat = Some ob /\ option_map snd (mo_undfnd ob) = Some (1, 3)
     /\ mo_cycles ob = Some 9 /\ mo_xlimit ob <> None.
Proof.
  split; [vm_compute; reflexivity|]. split; [vm_compute; reflexivity|].
  exists (fst (mo_run exact_fl ops6 bb24 [] (fst (mo_run exact_fl ops6 bb24 [] mo_new 1000)) 10)).
  split; [vm_compute; reflexivity|]. split; [vm_compute; reflexivity|]. split; [vm_compute; reflexivity|vm_compute; discriminate].
Qed.
Example C87_rust_case : one_of (run_quick_machine bb24 100) /\ mr_xlimit (run_quick_machine bb24 100) <> None.
Proof. split; [apply rust_one_of|vm_compute; discriminate]. Qed.

(** C88.  The line that print(machine) shows tells what the run came to: two machines that print the same line have the
    same program, marks, cycles, number of configurations and rule applications, and the same outcome, as long as the
    marks and rule applications are integers below 10^12 (from there on only their order of magnitude is printed). *)
Theorem C88_line_tells : forall o1 o2 order comp1 comp2 ob1 ob2 n1 n2 line,
  printable comp1 -> printable comp2 -> plain_limrul ob1 -> plain_limrul ob2 -> marks_are o1 ob1 n1 -> marks_are o2 ob2 n2 ->
  mo_str o1 comp1 order ob1 = Some line -> mo_str o2 comp2 order ob2 = Some line ->
  (forall sl, comp_get comp1 sl = comp_get comp2 sl) /\ n1 = n2 /\ told_alike ob1 ob2.
Proof. exact line_tells. Qed.
Print Assumptions C88_line_tells.

(** The machine of test/test_coverage.py 45-47 and the line that the test expects. *)
Definition bb22 : comp_prog := [((0, 0), (1, true, 1)); ((0, 1), (1, true, 1)); ((1, 0), (1, false, 0))].
Example C88_case : let ob := fst (mo_run exact_fl ops6 bb22 [] mo_new 1000) in
  printable bb22 /\ plain_limrul ob /\ marks_are ops6 ob 2
  /\ mo_str ops6 bb22 (fun n => n) ob = Some (quoted "1RB 1RB  1LA ... || CYCLES: 3 | MARKS: 2 | UNDFND: (3, (1, 1)) | TPCFGS: 4"%string).
Proof.
  cbv zeta. split; [|split; [|split; [|vm_compute; reflexivity]]].
  - intros s c pr sh tr. unfold comp_get, bb22. cbn [find fst snd]. unfold slot_eqb. cbn [fst snd].
    repeat match goal with |- context [Z.eqb ?a ?b] => destruct (Z.eqb_spec a b) end; cbn; intros E; inv E; lia.
  - intros w E. vm_compute in E. discriminate E.
  - split; [reflexivity|]. intros t E.
    assert (T : t = match mo_tape (fst (mo_run exact_fl ops6 bb22 [] mo_new 1000)) with Some t => t | None => t end) by (rewrite E; reflexivity).
    rewrite T. vm_compute. reflexivity.
Qed.
