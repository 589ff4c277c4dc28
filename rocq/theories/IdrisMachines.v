(** * The seven machines of idris/, from the proofs about tapes and runs *)
From Verif Require Import Base TM TMFacts TapeProofs ProgModel ParseModel IdrisModel IdrisSpec IdrisProofs IdrisRunProofs IdrisDoubleProofs
  IdrisParseModel IdrisParseSpec IdrisParseProofs.

Lemma report_truth {T} (o : tape_ops T) good ok cell P sim_lim : tape_right o good ok cell -> prints good P ->
  match report_of o (run_on_blank o sim_lim P) with
  | Hangs => True
  | HitsLimit => limit_truth (machine_of_idris P) sim_lim
  | Reports s _ m => run_truth (machine_of_idris P) s m
  end.
Proof.
  intros TR PG. pose proof (run_right o good ok cell TR P PG sim_lim) as X. destruct (run_on_blank o sim_lim P); exact X.
Qed.

Lemma run_single_truth fuel m sim_lim P : fits_tape m P ->
  match run_single fuel m sim_lim P with
  | Hangs => True
  | HitsLimit => limit_truth (machine_of_idris P) sim_lim
  | Reports s _ k => run_truth (machine_of_idris P) s k
  end.
Proof.
  intros F. destruct m; cbn [run_single]; eapply report_truth;
    first [apply cell_tape_right|apply block_tape_right|apply split_tape_right|apply ptr_tape_right|apply num_tape_right
          |apply cvect_tape_right|apply bvect_tape_right|apply prints_any|apply prints_digit, F; reflexivity].
Qed.

Lemma agree_with_cell fuel m sim_lim P : fits_tape m P -> m <> PtrMachine ->
  run_single fuel CellMachine sim_lim P = run_single fuel m sim_lim P /\ run_single fuel CellMachine sim_lim P <> Hangs.
Proof.
  intros F N. destruct cell_tape_right as (R & S). destruct m; cbn [run_single]; try congruence.
  - destruct cell_tape_right as (R' & S'). exact (run_alike _ _ _ _ _ _ _ _ R S R' S' P (prints_any P) (prints_any P) sim_lim).
  - destruct block_tape_right as (R' & S'). exact (run_alike _ _ _ _ _ _ _ _ R S R' S' P (prints_any P) (prints_any P) sim_lim).
  - destruct split_tape_right as (R' & S'). exact (run_alike _ _ _ _ _ _ _ _ R S R' S' P (prints_any P) (prints_any P) sim_lim).
  - destruct num_tape_right as (R' & S'). exact (run_alike _ _ _ _ _ _ _ _ R S R' S' P (prints_any P) (prints_digit P (F eq_refl)) sim_lim).
  - destruct cvect_tape_right as (R' & S'). exact (run_alike _ _ _ _ _ _ _ _ R S R' S' P (prints_any P) (prints_any P) sim_lim).
  - destruct bvect_tape_right as (R' & S'). exact (run_alike _ _ _ _ _ _ _ _ R S R' S' P (prints_any P) (prints_any P) sim_lim).
Qed.

Lemma six_agree fuel m1 m2 sim_lim P : fits_tape m1 P -> fits_tape m2 P -> m1 <> PtrMachine -> m2 <> PtrMachine ->
  run_single fuel m1 sim_lim P = run_single fuel m2 sim_lim P /\ run_single fuel m1 sim_lim P <> Hangs.
Proof.
  intros F1 F2 N1 N2. destruct (agree_with_cell fuel m1 sim_lim P F1 N1) as (A & B), (agree_with_cell fuel m2 sim_lim P F2 N2) as (C & D).
  rewrite <- A, <- C. auto.
Qed.

Lemma report_double {T} (o : tape_ops T) good ok cell P sim_lim s cy m : tape_right o good ok cell -> eqb_right o ok cell -> prints good P ->
  report_of o (run_double_on_blank o sim_lim P) = Reports s cy m ->
  stops (machine_of_idris P) \/ (recurs (machine_of_idris P)
    /\ exists c, steps (machine_of_idris P) s init = Some c /\ marks_are (c_tape c) (Z.of_nat m)).
Proof.
  intros TR EQ PG E. destruct (run_double_on_blank o sim_lim P) as [| |s' cy' t] eqn:R; try discriminate E. injection E as <- <- <-.
  exact (double_right o good ok cell TR EQ P PG sim_lim _ _ _ R).
Qed.

Lemma run_double_truth fuel m sim_lim P s cy k : fits_tape m P -> run_double_rec fuel m sim_lim P = Reports s cy k ->
  stops (machine_of_idris P) \/ (recurs (machine_of_idris P)
    /\ exists c, steps (machine_of_idris P) s init = Some c /\ marks_are (c_tape c) (Z.of_nat k)).
Proof.
  intros F E. destruct m; cbn [run_double_rec] in E; revert E; eapply report_double;
    first [apply cell_tape_right|apply block_tape_right|apply split_tape_right|apply ptr_tape_right|apply num_tape_right
          |apply cvect_tape_right|apply bvect_tape_right|apply cell_eqb_right|apply block_eqb_right|apply split_eqb_right|apply ptr_eqb_right
          |apply num_eqb_right|apply cvect_eqb_right|apply bvect_eqb_right|apply prints_any|apply prints_digit, F; reflexivity].
Qed.

Lemma recurs_never_halts M : recurs M -> never_halts M.
Proof.
  intros (n & c & E & [S|(p & k & d & Hp & Ed & Sh)]); [eapply spins_out_never_halts; eauto|].
  eapply never_halts_from; [exact E|]. eapply shifted_loop_forever; eauto.
Qed.

(** ** Where the pointer tape differs *)

(** Prints blanks to the right for ever. *)
Definition blanks_right : iprogram := fun _ _ => (0, true, 1).

Lemma ptr_hangs fuel lim : run_single fuel PtrMachine (S lim) blanks_right = Hangs /\ run_single fuel CellMachine (S lim) blanks_right = Reports 1 1 0.
Proof.
  split.
  - cbn [run_single]. unfold run_on_blank, irun_loop, exec. cbn [tp_init tp_read ptr_ops ptr_read blanks_right].
    change (0 =? 0) with true. change (1 =? 1) with true. cbn [fst snd check_edge Bool.eqb andb tp_skip tp_skip_right ptr_ops].
    change (0%nat, [0]) with (0%nat, repeat 0 1). rewrite ptr_skip_hangs by lia. reflexivity.
  - change (Reports 1 (S lim - lim) 0 = Reports 1 1 0). replace (S lim - lim)%nat with 1%nat by lia. reflexivity.
Qed.

(** Two marks, one erased, and then to the right for ever: "1RB 1R_  1RC 1R_  0LD 1R_  1R_ 0LE  1R_ 1RF  0RF 1R_". *)
Definition erases : iprogram := fun s c =>
  if c =? 0 then (if s =? 1 then (1, true, 2) else if s =? 2 then (1, true, 3) else if s =? 3 then (0, false, 4)
                  else if s =? 6 then (0, true, 6) else (1, true, 0))
  else (if s =? 4 then (0, false, 5) else if s =? 5 then (1, true, 6) else (1, true, 0)).

(** ** Where runDouble goes wrong *)

(** "1R_ 1R_": halts after its first move. *)
Definition halts_at_once : iprogram := cast_prog [[(1, true, 0); (1, true, 0)]].
(** "1RB 1RB  1RC 1RC  1RC 1RC": spins out after two moves. *)
Definition spins_at_two : iprogram := fun s c => if s =? 1 then (1, true, 2) else (1, true, 3).

Lemma halts_at_once_stops : stops (machine_of_idris halts_at_once).
Proof. exists 1%nat. eexists. split; [vm_compute; reflexivity|reflexivity]. Qed.

Lemma spins_at_two_recurs : recurs (machine_of_idris spins_at_two).
Proof.
  exists 2%nat, (Cfg 2 2 (write (write blank_tape 0 1) 1 1)). split; [reflexivity|]. left. apply (spin_out_lemma _ _ true 1); [reflexivity|].
  cbn [c_state c_pos c_tape]. unfold write, blank_tape. intros i Hi. bdestr; auto; lia.
Qed.

Lemma spins_at_two_missed k : forall fuel, run_double_rec fuel CellMachine k spins_at_two = HitsLimit.
Proof.
  intros fuel. cbn [run_double_rec]. unfold run_double_on_blank.
  assert (X : forall k, run_double cell_ops k spins_at_two 3 ([1; 1], 0, []) 2 1 (tp_init cell_ops) 0 = ILimit
    /\ run_double cell_ops k spins_at_two 3 ([1; 1], 0, []) 2 2 ([1], 0, []) 1 = ILimit).
  { clear. induction k as [|k (A & B)]; [split; reflexivity|]. split; [exact A|exact B]. }
  destruct k as [|[|[|k]]]; try reflexivity.
  change (report_of cell_ops match run_double cell_ops k spins_at_two 3 ([1; 1], 0, []) 2 2 ([1], 0, []) 1 with
     | IDone s c t => IDone s (S (S (S k)) - c) t | r => r end = HitsLimit). rewrite (proj2 (X k)). reflexivity.
Qed.

(** ** Texts *)

Lemma steps_prog_ext M M' n : (forall s c, M s c = M' s c) -> forall c, steps M n c = steps M' n c.
Proof.
  intros E. induction n as [|n IH]; intros c; cbn [steps]; [reflexivity|]. unfold step. rewrite E.
  destruct (M' (c_state c) (c_tape c (c_pos c))) as [[[a d] t]|]; [apply IH|reflexivity].
Qed.

Lemma run_truth_ext M M' s k : (forall st c, M st c = M' st c) -> run_truth M s k -> run_truth M' s k.
Proof.
  intros E (c & A & B & C & D). exists c. rewrite <- (steps_prog_ext M M' _ E). split; [exact A|]. split; [exact B|]. split.
  - intros j d Hj. rewrite <- (steps_prog_ext M M' _ E). apply C. exact Hj.
  - destruct D as [D|[D|(D1 & D2)]]; [left; exact D|right; left; exact D|right; right]. split.
    + destruct D1 as (dir & D1). exists dir. intros n. rewrite <- (steps_prog_ext M M' _ E). apply D1.
    + intros n. rewrite <- (steps_prog_ext M M' _ E). apply D2.
Qed.

Lemma limit_truth_ext M M' n : (forall st c, M st c = M' st c) -> limit_truth M n -> limit_truth M' n.
Proof.
  intros E (c & A & B & C). exists c. rewrite <- (steps_prog_ext M M' _ E). split; [exact A|]. split; [exact B|].
  intros j d Hj. rewrite <- (steps_prog_ext M M' _ E). apply C. exact Hj.
Qed.

Lemma text_runs k n g s : iprog_text k n g s -> exists P, iparse n k s = Some P /\ forall fuel m sim_lim,
  match run_single fuel m sim_lim P with
  | Hangs => m = PtrMachine
  | HitsLimit => limit_truth (itable_machine g) sim_lim
  | Reports steps_ _ marks => run_truth (itable_machine g) steps_ marks
  end.
Proof.
  intros G. destruct (iparse_right _ _ _ _ G) as (P & E & MP). exists P. split; [exact E|]. intros fuel m lim.
  assert (F : fits_tape m P) by (intros _; eapply iparse_digits; eauto).
  pose proof (run_single_truth fuel m lim P F) as X.
  destruct (run_single fuel m lim P) as [| |steps_ cy marks] eqn:R.
  - destruct m; try reflexivity; exfalso; (destruct (agree_with_cell fuel CellMachine lim P) as (A & B); [intros Q; discriminate Q|discriminate|]);
      match type of R with run_single _ ?m _ _ = _ => destruct (agree_with_cell fuel m lim P F) as (A' & B'); [discriminate|] end; congruence.
  - exact (limit_truth_ext _ _ _ MP X).
  - exact (run_truth_ext _ _ _ _ MP X).
Qed.

Lemma irow_text_cons i s r t u : icell_text i s -> irow_text r t -> u = s ++ 32 :: t -> irow_text (i :: r) u.
Proof. intros A B ->. apply (irow_cons i s r t A B). Qed.
Lemma iprog_text_cons k n r s g t u : length r = k -> irow_text r s -> iprog_text k n g t -> u = s ++ 32 :: 32 :: t -> iprog_text k (S n) (r :: g) u.
Proof. intros A B C ->. apply (iprog_cons k n r s g t A B C). Qed.

(** Among states and colours that lead only to each other a machine never halts. *)
Lemma stays_in M (IS IC : Z -> Prop) : (forall s c, IS s -> IC c -> exists a d n, M s c = Some (a, d, n) /\ IS n /\ IC a) -> IS 0 -> IC 0 ->
  forall n c, steps M n init = Some c -> IS (c_state c).
Proof.
  intros H S0 C0. assert (X : forall n c d, IS (c_state c) -> (forall p, IC (c_tape c p)) -> steps M n c = Some d -> IS (c_state d)).
  { induction n as [|n IH]; intros c d A B E; cbn [steps] in E; [injection E as <-; exact A|].
    unfold step in E. destruct (H _ _ A (B (c_pos c))) as (a & dir & nx & Q & Q1 & Q2). rewrite Q in E.
    apply (IH _ _) in E; [exact E|exact Q1|]. intros p. cbn [c_tape]. unfold write. destruct (p =? c_pos c); auto. }
  intros n c E. apply (X n init c S0); [intros p; exact C0|exact E].
Qed.
