(** * The filter of the tree search: what it drops is settled (C79) *)
From Verif Require Import Base TM ProgModel GraphSpec ReasonSpec BlocksModel TermRecModel ProverModel MacroModel RsMacroModel RsMacroProofs
  FilterModel FilterSpec FilterProofs FilterCases.

(** The full statement, that a complete and connected program dropped either ends within 300 stretches or
    never does what is looked for, is false: this one halts after 591 moves ... *)
Theorem C79_dropped_halts_refuted : exists comp params n sl,
  table_of params comp /\ comp_get comp (0, 0) = Some (1, true, 1) /\ complete params true (machine_of comp)
  /\ ~ 4 <= fst params /\ ~ ends_within (machine_of comp) 300 /\ halts_at (machine_of comp) n sl
  /\ skip_all 1000 1000 comp params true = Some true.
Proof. exact drops_halting. Qed.
Print Assumptions C79_dropped_halts_refuted.

(** ... and this one spins out. *)
Theorem C79_dropped_spins_refuted : exists comp params n c,
  table_of params comp /\ comp_get comp (0, 0) = Some (1, true, 1) /\ complete params false (machine_of comp)
  /\ connected (machine_of comp) (fst params) /\ ~ ends_within (machine_of comp) 300
  /\ steps (machine_of comp) n init = Some c /\ spins_out_from (machine_of comp) c
  /\ skip_all 1000 1000 comp params false = Some true.
Proof. exact drops_spinning. Qed.
Print Assumptions C79_dropped_spins_refuted.

(** The answers that rest on the runs with rules excepted, it is true. *)
Theorem C79_dropped_settled_partial : forall comp params rfuel fuel halt,
  table_of params comp -> comp_get comp (0, 0) = Some (1, true, 1) ->
  skip_all rfuel fuel comp params halt = Some true ->
  (quick_term_or_rec comp 301 true = false ->
   forall blocks, opt_block comp 300 = Some blocks -> check_inf comp params blocks 306 <> Some true) ->
  ~ complete params halt (machine_of comp) \/ (4 <= fst params /\ ~ connected (machine_of comp) (fst params))
  \/ ends_within (machine_of comp) 300 \/ hopeless halt (machine_of comp).
Proof. exact skip_all_yes. Qed.
Print Assumptions C79_dropped_settled_partial.

(** What is kept is complete and connected and does not end within 300 stretches. *)
Theorem C79_kept_is_open : forall comp params rfuel fuel halt,
  table_of params comp -> comp_get comp (0, 0) = Some (1, true, 1) ->
  skip_all rfuel fuel comp params halt = Some false ->
  complete params halt (machine_of comp) /\ (4 <= fst params -> connected (machine_of comp) (fst params))
  /\ ~ ends_within (machine_of comp) 300.
Proof. exact skip_all_no. Qed.
Print Assumptions C79_kept_is_open.

(** The fault: for the two programs above the run over the macro with one back cell proves an infinite rule;
    cut as tm/macro.py cuts the window, the same run does not; nor do the runs of the programs themselves. *)
Theorem C79_back_cell_refuted :
  (let l := rs_back_logic (2, 4) 1 in
   sf_run_for_infrul (rs_macro_get drop_halt l) (rs_macro_new l) 306 = Some true
   /\ sf_run_for_infrul (py_macro_get drop_halt l) (MS [] (conv_init 1)) 306 = Some false)
  /\ (let l := rs_back_logic (4, 2) 1 in
   sf_run_for_infrul (rs_macro_get drop_spin l) (rs_macro_new l) 306 = Some true
   /\ sf_run_for_infrul (py_macro_get drop_spin l) (MS [] (conv_init 1)) 306 = Some false)
  /\ sf_run_for_infrul (rs_plain_get drop_halt) tt 306 = Some false
  /\ sf_run_for_infrul (rs_plain_get drop_spin) tt 306 = Some false.
Proof. exact split_errs. Qed.
Print Assumptions C79_back_cell_refuted.

(** Lookups whose answers do not depend on what they have cached give the answer that C45 is about. *)
Theorem C79_caches_dont_matter : forall St (look : St -> Z -> Z -> St * rlook) M (Inv : St -> Prop) m lim,
  (forall m s c, Inv m -> Inv (fst (look m s c)) /\ snd (look m s c) = match M s c with Some i => RlSome i | None => RlNone end) ->
  Inv m -> sf_run_for_infrul look m lim = rs_run_for_infrul M lim.
Proof. exact (fun St look M Inv m lim H => sf_run_pure look M Inv H m lim). Qed.
Print Assumptions C79_caches_dont_matter.

(** Those of a plain program are such lookups: without blocks the filter's run with rules is that of C45. *)
Theorem C79_plain_lookups : forall comp lim,
  sf_run_for_infrul (rs_plain_get comp) tt lim = rs_run_for_infrul (machine_of comp) lim.
Proof. exact plain_run. Qed.
Print Assumptions C79_plain_lookups.

(** "1RB 0RB  1LA 1LA", a cycler, dropped for the right reason; "1RB 0LC  1LD 0LA  1RC 1RD  1LA 0LD", which spins
    out after 66349 moves, is kept; the lookups of a plain program. *)
Definition C79_cycler : comp_prog :=
  [((0,0),(1,true,1)); ((0,1),(0,true,1)); ((1,0),(1,false,0)); ((1,1),(1,false,0))].
Definition C79_kept : comp_prog :=
  [((0,0),(1,true,1)); ((0,1),(0,false,2)); ((1,0),(1,false,3)); ((1,1),(0,false,0));
   ((2,0),(1,true,2)); ((2,1),(1,true,3)); ((3,0),(1,false,0)); ((3,1),(0,false,3))].
Example C79_case :
  table_of (2, 2) C79_cycler /\ skip_all 1000 1000 C79_cycler (2, 2) false = Some true
  /\ complete (2, 2) false (machine_of C79_cycler)
  /\ quick_term_or_rec C79_cycler 301 true = true
  /\ table_of (4, 2) C79_kept /\ skip_all 1000 1000 C79_kept (4, 2) false = Some false
  /\ (forall m s c, True /\ snd (rs_plain_get C79_kept m s c) = match machine_of C79_kept s c with Some i => RlSome i | None => RlNone end)
  /\ sf_run_for_infrul (rs_plain_get C79_kept) tt 100 = Some false.
Proof.
  assert (T : table_of (2, 2) C79_cycler).
  { split; [cbn; lia|]. split; [cbn; lia|]. split; [repeat constructor; cbn; intuition congruence|]. in_table. }
  split; [exact T|]. split; [vm_compute; reflexivity|].
  split; [apply (incomplete_iff C79_cycler (2, 2) T false); vm_compute; reflexivity|].
  split; [vm_compute; reflexivity|].
  split; [split; [cbn; lia|]; split; [cbn; lia|]; split; [repeat constructor; cbn; intuition congruence|]; in_table|].
  split; [vm_compute; reflexivity|]. split; [auto|]. vm_compute. reflexivity.
Qed.
