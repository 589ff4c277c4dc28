(** * Properties of the simulators in idris/ (C69 to C73) *)
From Verif Require Import Base TM ProgModel ParseModel ParseSpec NormModel CSpec IdrisModel IdrisSpec IdrisProofs IdrisRunProofs IdrisDoubleProofs
  IdrisParseModel IdrisParseSpec IdrisParseProofs IdrisMachines.
Local Open Scope string_scope.

(** ** C69: each of the tapes is a tape *)

(** Under any colours, read as the cells around the head ([around], [ptr_cell]). *)
Theorem C69_cell_tape : tape_right cell_ops any_color (both (fun _ => True)) (around cells_den)
  /\ tape_sharp cell_ops any_color (both (fun _ => True)) (around cells_den).
Proof. exact cell_tape_right. Qed.
Print Assumptions C69_cell_tape.

Theorem C69_block_tape : tape_right block_ops any_color (both blocks_ok) (around blocks_den)
  /\ tape_sharp block_ops any_color (both blocks_ok) (around blocks_den).
Proof. exact block_tape_right. Qed.
Print Assumptions C69_block_tape.

Theorem C69_split_tape : tape_right split_ops any_color (both split_ok) (around split_den)
  /\ tape_sharp split_ops any_color (both split_ok) (around split_den).
Proof. exact split_tape_right. Qed.
Print Assumptions C69_split_tape.

(** Digits only here. *)
Theorem C69_num_tape : tape_right num_ops digit (both (fun z => 0 <= z)) (around num_den)
  /\ tape_sharp num_ops digit (both (fun z => 0 <= z)) (around num_den).
Proof. exact num_tape_right. Qed.
Print Assumptions C69_num_tape.

Theorem C69_cell_vect_tape : tape_right cvect_ops any_color (both (fun _ => True)) (around cells_den)
  /\ tape_sharp cvect_ops any_color (both (fun _ => True)) (around cells_den).
Proof. exact cvect_tape_right. Qed.
Print Assumptions C69_cell_vect_tape.

Theorem C69_block_vect_tape : tape_right bvect_ops any_color (both blocks_ok) (around blocks_den)
  /\ tape_sharp bvect_ops any_color (both blocks_ok) (around blocks_den).
Proof. exact bvect_tape_right. Qed.
Print Assumptions C69_block_vect_tape.

(** However deep a skip may go; edges may be overlooked and skips may stop early. *)
Theorem C69_ptr_tape : forall fuel, tape_right (ptr_ops fuel) any_color ptr_ok ptr_cell.
Proof. exact ptr_tape_right. Qed.
Print Assumptions C69_ptr_tape.

(** The same cells in three of them; a skip to the left over three cells. *)
Example C69_case : exists k b n p,
  (tp_skip block_ops false ([(2, 2%nat); (1, 1%nat)], 2, [(1, 2%nat)]) 0 = Some (k, b) /\ k = 3%nat)
  /\ (tp_skip num_ops false (122, 2, 11) 0 = Some (k, n))
  /\ (tp_skip (ptr_ops 5) false (3%nat, [1; 2; 2; 2; 1; 1]) 0 = Some (k, p))
  /\ blocks_ok [(2, 2%nat); (1, 1%nat)] /\ ptr_ok (3%nat, [1; 2; 2; 2; 1; 1])
  /\ map (around blocks_den b) [-1; 0; 1; 2; 3; 4; 5; 6] = [0; 1; 0; 0; 0; 1; 1; 0]
  /\ map (around num_den n) [-1; 0; 1; 2; 3; 4; 5; 6] = [0; 1; 0; 0; 0; 1; 1; 0]
  /\ map (ptr_cell p) [-1; 0; 1; 2; 3; 4; 5; 6] = [0; 1; 0; 0; 0; 1; 1; 0].
Proof.
  do 4 eexists. split; [split; vm_compute; reflexivity|]. split; [vm_compute; reflexivity|]. split; [vm_compute; reflexivity|].
  split; [repeat (constructor; [cbn; lia|]); constructor|]. split; [unfold ptr_ok; cbn; lia|].
  split; [vm_compute; reflexivity|]. split; vm_compute; reflexivity.
Qed.

(** ** C70: a report of a run is true *)

Theorem C70_report : forall fuel m sim_lim P, fits_tape m P ->
  match run_single fuel m sim_lim P with
  | Hangs => True
  | HitsLimit => limit_truth (machine_of_idris P) sim_lim
  | Reports s _ k => run_truth (machine_of_idris P) s k
  end.
Proof. exact run_single_truth. Qed.
Print Assumptions C70_report.

(** From the text of the program to the report. *)
Theorem C70_text : forall k n g s, iprog_text k n g s -> exists P, iparse n k s = Some P /\ forall fuel m sim_lim,
  match run_single fuel m sim_lim P with
  | Hangs => m = PtrMachine
  | HitsLimit => limit_truth (itable_machine g) sim_lim
  | Reports steps_ _ marks => run_truth (itable_machine g) steps_ marks
  end.
Proof. exact text_runs. Qed.
Print Assumptions C70_text.

Example C70_case : exists g P, iprog_text 2 3 g (str "1RB 1R_  1LB 0RC  1LC 1LA") /\ iparse 3 2 (str "1RB 1R_  1LB 0RC  1LC 1LA") = Some P
  /\ run_single 9 BlockMachine 100 P = Reports 21 19 5 /\ run_single 9 PtrMachine 100 P = Reports 21 21 5
  /\ run_single 9 NumMachine 18 P = HitsLimit.
Proof.
  exists [[Some (1, true, 1); Some (1, true, -1)]; [Some (1, false, 1); Some (0, true, 2)]; [Some (1, false, 2); Some (1, false, 0)]].
  eexists. split; [|split; [reflexivity|vm_compute; auto]].
  assert (R : forall a b sa sb, icell_text a sa -> icell_text b sb -> irow_text [a; b] (sa ++ 32 :: sb)%list).
  { intros a b sa sb A B. apply (irow_cons a sa [b] sb A). constructor. exact B. }
  eapply (iprog_text_cons 2 _ _ (str "1RB 1R_") _ (str "1LB 0RC  1LC 1LA")); [reflexivity| | |reflexivity].
  - apply (R _ _ (str "1RB") (str "1R_")); (split; [lia|split; [lia|reflexivity]]).
  - eapply (iprog_text_cons 2 _ _ (str "1LB 0RC") _ (str "1LC 1LA")); [reflexivity| | |reflexivity].
    + apply (R _ _ (str "1LB") (str "0RC")); (split; [lia|split; [lia|reflexivity]]).
    + constructor; [reflexivity|]. apply (R _ _ (str "1LC") (str "1LA")); (split; [lia|split; [lia|reflexivity]]).
Qed.

(** ** C71: the machines agree *)

(** All but the pointer machine give the same report: moves, cycles, marks. *)
Theorem C71_agree_partial : forall fuel m1 m2 sim_lim P, fits_tape m1 P -> fits_tape m2 P -> m1 <> PtrMachine -> m2 <> PtrMachine ->
  run_single fuel m1 sim_lim P = run_single fuel m2 sim_lim P /\ run_single fuel m1 sim_lim P <> Hangs.
Proof. exact six_agree. Qed.
Print Assumptions C71_agree_partial.

Example C71_case : exists P, iparse 3 2 (str "1RB 1R_  1LB 0RC  1LC 1LA") = Some P /\ fits_tape NumMachine P
  /\ run_single 9 NumMachine 100 P = Reports 21 19 5 /\ run_single 9 SplitMachine 100 P = Reports 21 19 5.
Proof.
  eexists. split; [reflexivity|]. split; [intros _; apply (iparse_digits 3 2 (str "1RB 1R_  1LB 0RC  1LC 1LA")); reflexivity|vm_compute; auto].
Qed.

(** The pointer machine does not: "0RA" makes it hang, whatever the limit, ... *)
Theorem C71_ptr_hangs_refuted : exists P, prints_digits P /\ forall fuel lim,
  run_single fuel PtrMachine (S lim) P = Hangs /\ run_single fuel CellMachine (S lim) P = Reports 1 1 0.
Proof. exists blanks_right. split; [intros s c; cbn; lia|]. exact ptr_hangs. Qed.
Print Assumptions C71_ptr_hangs_refuted.

(** ... and a spin-out over cells that were erased it notices late. *)
Theorem C71_ptr_steps_refuted : exists P, prints_digits P
  /\ run_single 9 PtrMachine 100 P = Reports 6 7 1 /\ run_single 9 CellMachine 100 P = Reports 5 6 1.
Proof.
  exists erases. split; [|vm_compute; auto]. intros s c. unfold erases.
  destruct (c =? 0); repeat match goal with |- context [if ?b then _ else _] => destruct b end; lia.
Qed.
Print Assumptions C71_ptr_steps_refuted.

(** ** C72: recurrence *)

(** A report of runDouble means that the machine recurs, if it does not stop; and the number is one of its moves. *)
Theorem C72_double_partial : forall fuel m sim_lim P s cy k, fits_tape m P -> run_double_rec fuel m sim_lim P = Reports s cy k ->
  stops (machine_of_idris P) \/ (recurs (machine_of_idris P)
    /\ exists c, steps (machine_of_idris P) s init = Some c /\ marks_are (c_tape c) (Z.of_nat k)).
Proof. exact run_double_truth. Qed.
Print Assumptions C72_double_partial.

(** Machines that recur never halt. *)
Theorem C72_recurs_never_halts : forall M, recurs M -> never_halts M.
Proof. exact recurs_never_halts. Qed.
Print Assumptions C72_recurs_never_halts.

Example C72_case : exists P, iparse 3 2 (str "1RB 1RC  1LC 1RA  1RA 1LA") = Some P /\ run_double_rec 20 BlockMachine 100 P = Reports 9 19 6
  /\ never_halts (machine_of_idris P).
Proof.
  eexists. split; [reflexivity|]. split; [vm_compute; reflexivity|].
  match goal with |- never_halts (machine_of_idris ?P) => destruct (C72_double_partial 20 BlockMachine 100 P 9 19 6) as [(n & c & E & Q)|(R & _)] end;
    [intros X; discriminate X|vm_compute; reflexivity| |apply C72_recurs_never_halts; exact R].
  exfalso. apply (stays_in _ (fun s => s = 0 \/ s = 1 \/ s = 2) (fun c => c = 0 \/ c = 1)) in E; [rewrite Q in E; lia| |auto|auto].
  intros s x [->|[->| ->]] [->| ->]; do 3 eexists; (split; [reflexivity|]); split; vm_compute; auto.
Qed.

(** A machine that halts is reported too: [halt] is looked up as A is. *)
Theorem C72_halting_refuted : exists P, stops (machine_of_idris P)
  /\ iparse 1 2 (str "1R_ 1R_") = Some P /\ run_double_rec 9 CellMachine 9 P = Reports 0 2 0.
Proof. exists halts_at_once. split; [exact halts_at_once_stops|]. split; [reflexivity|vm_compute; reflexivity]. Qed.
Print Assumptions C72_halting_refuted.

(** A machine that spins out after an even number of moves is never reported, whatever the limit, ... *)
Theorem C72_missed_refuted : exists P, recurs (machine_of_idris P)
  /\ forall fuel sim_lim, run_double_rec fuel CellMachine sim_lim P = HitsLimit.
Proof. exists spins_at_two. split; [exact spins_at_two_recurs|]. intros fuel k. apply spins_at_two_missed. Qed.
Print Assumptions C72_missed_refuted.

(** ... and what one machine reports, another may miss. *)
Theorem C72_disagree_refuted : exists P, prints_digits P
  /\ run_double_rec 9 NumMachine 100 P = Reports 0 1 0 /\ run_double_rec 9 CellMachine 100 P = HitsLimit.
Proof. exists blanks_right. split; [intros s c; cbn; lia|]. split; vm_compute; reflexivity. Qed.
Print Assumptions C72_disagree_refuted.

(** ** C73: reading programs *)

(** Of up to twelve states, a program in the usual form is read as what its table says. *)
Theorem C73_read_partial : forall k n g s, iprog_text k n g s -> exists P, iparse n k s = Some P
  /\ forall st c, machine_of_idris P st c = itable_machine g st c.
Proof. exact iparse_right. Qed.
Print Assumptions C73_read_partial.

(** Whatever is read, only digits are printed. *)
Theorem C73_digits : forall n k s P, iparse n k s = Some P -> prints_digits P.
Proof. exact iparse_digits. Qed.
Print Assumptions C73_digits.

(** What is accepted at all: so many rows of so many cells, and nothing more. *)
Theorem C73_accepts : forall n k s, iparse (S n) (S k) s <> None <-> iprog_ok (S k) (S n) s.
Proof. exact iparse_accepts. Qed.
Print Assumptions C73_accepts.

Example C73_accepts_case : iparse 1 1 (str "1RB") <> None /\ iparse 1 1 (str "1RB ") = None /\ iparse 2 1 (str "1RB 1LA") = None
  /\ iparse 1 1 (str "2.Z") <> None.
Proof. repeat split; vm_compute; discriminate. Qed.

Example C73_case : iprog_text 2 2 [[Some (1, true, 1); None]; [Some (1, false, 0); Some (1, true, -1)]] (str "1RB ...  1LA 1R_")
  /\ exists P, iparse 2 2 (str "1RB ...  1LA 1R_") = Some P /\ machine_of_idris P 0 1 = Some (0, true, -1) /\ machine_of_idris P 1 0 = Some (1, false, 0).
Proof.
  split; [|eexists; split; [reflexivity|]; vm_compute; auto].
  eapply (iprog_text_cons 2 _ _ (str "1RB ...") _ (str "1LA 1R_")); [reflexivity| | |reflexivity].
  - eapply (irow_text_cons _ (str "1RB") _ (str "...")); [split; [lia|split; [lia|reflexivity]]|constructor; reflexivity|reflexivity].
  - constructor; [reflexivity|]. eapply (irow_text_cons _ (str "1LA") _ (str "1R_")); [split; [lia|split; [lia|reflexivity]]| |reflexivity].
    constructor. split; [lia|split; [lia|reflexivity]].
Qed.

(** The thirteenth letter is read as halting, without complaint: the reader of src/instrs.rs finds another program. *)
Theorem C73_thirteen_states_refuted : exists s g P, prog_text g s /\ length g = 13%nat /\ iparse 13 1 s = Some P
  /\ run_single 9 CellMachine 100 P = Reports 12 12 12
  /\ exists p, from_str s = Some p /\ comp_get p (11, 0) = Some (1, true, 12) /\ comp_get p (12, 0) = Some (1, true, 0).
Proof.
  exists (str "1RB  1RC  1RD  1RE  1RF  1RG  1RH  1RI  1RJ  1RK  1RL  1RM  1RA").
  exists (map (fun t => [Some (1, true, t)]) [1; 2; 3; 4; 5; 6; 7; 8; 9; 10; 11; 12; 0]).
  eexists. split; [|split; [reflexivity|]; split; [reflexivity|]; split; [vm_compute; reflexivity|]; eexists; split; [vm_compute; reflexivity|]; vm_compute; auto].
  assert (R : forall t, 0 <= t < 26 -> row_text [Some (1, true, t)] [49; 82; 65 + t]).
  { intros t Ht. constructor. split; [lia|]. split; [exact Ht|reflexivity]. }
  assert (C : forall t g s, 0 <= t < 26 -> prog_text g s -> prog_text ([Some (1, true, t)] :: g) (49 :: 82 :: 65 + t :: 32 :: 32 :: s)).
  { intros t g s Ht G. apply (prog_cons _ _ _ _ (R t Ht) G). }
  cbn [map].
  refine (C 1 _ _ _ (C 2 _ _ _ (C 3 _ _ _ (C 4 _ _ _ (C 5 _ _ _ (C 6 _ _ _ (C 7 _ _ _ (C 8 _ _ _ (C 9 _ _ _ (C 10 _ _ _ (C 11 _ _ _ (C 12 _ _ _ (prog_one _ _ (R 0 _))))))))))))));
    lia.
Qed.
Print Assumptions C73_thirteen_states_refuted.
