(** * Properties of the functions that take the text of a program (C93) *)
From Verif Require Import Base TM ProgModel ParseModel ParseSpec ParseProofs ApiSpec ApiModel.
From Verif Require Import TapeModel QuickModel ProverModel TermRecModel TermRecSpec GraphSpec ReasonModel ReasonSpec SegModel.
From Verif Require Import MacroModel MakeMacroModel ApiProofs PropsReason.

(** A table of instructions, with white space around it or not, is read as the machine written there, once per slot. *)
Theorem C93_tcompile : forall t M, writes t M -> exists p, tcompile t = Some p /\ NoDup (map fst p) /\ forall s c, machine_of p s c = M s c.
Proof. exact read_writes. Qed.
Print Assumptions C93_tcompile.

(** What is read is shown again without the white space. *)
Theorem C93_show : forall a s b g cols, Forall white a -> Forall white b -> prog_text g s -> rectangular g cols -> (1 <= cols)%nat ->
  exists p, tcompile (a ++ s ++ b) = Some p /\ py_show_comp p (Some (Z.of_nat (length g), Z.of_nat cols)) = s.
Proof. exact api_show. Qed.
Print Assumptions C93_show.

(** What is shown of a program is a text of its machine. *)
Theorem C93_shown : forall a b p ms mc, Forall white a -> Forall white b -> 1 <= ms -> 1 <= mc -> shows_ok p -> fits p ms mc ->
  writes (a ++ py_show_comp p (Some (ms, mc)) ++ b) (machine_of p).
Proof. exact writes_shown. Qed.
Print Assumptions C93_shown.

(** run_quick_machine *)
Theorem C93_quick : forall t M lim, writes t M -> exists r, py_run_quick_machine t lim = Some r
  /\ (forall n s, mr_undfnd r = Some (n, s) -> 0 <= n /\ halts_at M (Z.to_nat n) s
       /\ exists c, steps M (Z.to_nat n) init = Some c /\ marks_are (c_tape c) (mr_marks r))
  /\ (mr_result r = spnout -> never_halts M /\ exists c, steps M (Z.to_nat (mr_steps r)) init = Some c /\ spins_out_from M c
       /\ marks_are (c_tape c) (mr_marks r))
  /\ (mr_result r = infrul -> never_halts M)
  /\ (forall s n, In (s, n) (mr_blanks r) -> 0 <= n /\ exists c, steps M (Z.to_nat n) init = Some c /\ c_state c = s /\ is_blank c)
  /\ (forall n s, halts_at M n s -> (n < lim)%nat -> mr_undfnd r = Some (Z.of_nat n, s)).
Proof. exact api_quick. Qed.
Print Assumptions C93_quick.

(** The backward reasoners always answer, and what they claim is true of the machine written there, under the conditions
    of C32-C34 on it. *)
Theorem C93_reason_answers : forall t M d, writes t M -> exists a b c,
  py_cant_halt t d = Some a /\ py_cant_blank t d = Some b /\ py_cant_spin_out t d = Some c /\ a <> OPanic /\ b <> OPanic /\ c <> OPanic.
Proof. exact api_answers. Qed.
Print Assumptions C93_reason_answers.
Theorem C93_cant_halt_partial : forall t M d r, writes t M -> restartable M -> named M -> py_cant_halt t d = Some (OSome r) -> never_halts M.
Proof. exact api_halt. Qed.
Print Assumptions C93_cant_halt_partial.
Theorem C93_cant_blank_partial : forall t M d r, writes t M -> restartable M -> py_cant_blank t d = Some (OSome r) -> never_erases M.
Proof. exact api_blank. Qed.
Print Assumptions C93_cant_blank_partial.
Theorem C93_cant_spin_out_partial : forall t M d r, writes t M -> restartable M -> py_cant_spin_out t d = Some (OSome r) -> never_spins_out M.
Proof. exact api_spin. Qed.
Print Assumptions C93_cant_spin_out_partial.

(** segment_cant_halt, under the condition of C35. *)
Theorem C93_segments_partial : forall t M segs rfuel fuel r, writes t M -> named M ->
  py_segments t segs rfuel fuel = Some (SegSome r) -> never_halts M.
Proof. exact api_segments. Qed.
Print Assumptions C93_segments_partial.

(** is_connected *)
Theorem C93_connected : forall t M states, writes t M -> 1 <= states -> closed M states ->
  exists b, py_is_connected t states = Some b /\ (b = true <-> connected M states).
Proof. exact api_connected. Qed.
Print Assumptions C93_connected.

(** quick_term_or_rec, of programs that begin with 1RB: some limit finds a recurrence iff there is one. *)
Theorem C93_term_or_rec : forall t M, writes t M -> M 0 0 = Some (1, true, 1) ->
  (exists lim, py_quick_term_or_rec t lim = Some true) <-> recurs M.
Proof. exact api_term. Qed.
Print Assumptions C93_term_or_rec.

Theorem C93_opt_block : forall t M n, writes t M -> exists b, py_opt_block t n = Some b /\ (1 <= b)%nat.
Proof. exact api_block. Qed.
Print Assumptions C93_opt_block.

(** Machine without macros reports of the text what it reports of the machine written there (the rest of C10-C14 and
    C44-C57 is about that), and, as long as no rule was applied, the truth. *)
Theorem C93_machine : forall t M lim, writes t M -> exists m, machine_on_text t None None None None lim = Some m
  /\ let m' := py_machine_run (plain M) lim in
     m_end m = m_end m' /\ m_steps m = m_steps m' /\ m_cycles m = m_cycles m' /\ m_rulapp m = m_rulapp m'
     /\ m_tape m = m_tape m' /\ m_blanks m = m_blanks m'.
Proof. exact api_machine. Qed.
Print Assumptions C93_machine.
Theorem C93_machine_true : forall t M lim m, writes t M -> machine_on_text t None None None None lim = Some m -> m_rulapp m = 0 ->
  (forall n s, m_undfnd m = Some (n, s) -> 0 <= n /\ halts_at M (Z.to_nat n) s
     /\ exists c, steps M (Z.to_nat n) init = Some c /\ marks_are (c_tape c) (t_marks (m_tape m)))
  /\ (m_end m = MSpnout -> never_halts M
     /\ exists c, steps M (Z.to_nat (m_steps m)) init = Some c /\ spins_out_from M c /\ marks_are (c_tape c) (t_marks (m_tape m))).
Proof. exact api_machine_true. Qed.
Print Assumptions C93_machine_true.

(** The same of run_prover. *)
Theorem C93_run_prover : forall t M lim, writes t M -> py_run_prover t lim = rs_run_prover M lim.
Proof. exact api_prover. Qed.
Print Assumptions C93_run_prover.
Theorem C93_run_prover_true : forall t M lim r, writes t M -> py_run_prover t lim = Some r -> mr_rulapp r = 0 -> mr_steps r < 2 ^ 33 ->
  (forall n s, mr_undfnd r = Some (n, s) -> 0 <= n /\ halts_at M (Z.to_nat n) s
     /\ exists c, steps M (Z.to_nat n) init = Some c /\ marks_are (c_tape c) (mr_marks r))
  /\ (mr_result r = spnout -> never_halts M
     /\ exists c, steps M (Z.to_nat (mr_steps r)) init = Some c /\ spins_out_from M c /\ marks_are (c_tape c) (mr_marks r)).
Proof. exact api_prover_true. Qed.
Print Assumptions C93_run_prover_true.

(** "1RB 0LA  0RC 1RC  1LA ..." between a blank and a line feed. *)
Definition C93_text : text :=
  [32; 49;82;66; 32; 48;76;65; 32;32; 48;82;67; 32; 49;82;67; 32;32; 49;76;65; 32; 46;46;46; 10].
Example C93_case : writes C93_text (machine_of C32_prog) /\ restartable (machine_of C32_prog) /\ named (machine_of C32_prog)
  /\ py_cant_halt C93_text 20 = Some (OSome 12) /\ py_segments C93_text 5 100 200 = Some (SegSome 4)
  /\ py_is_connected C93_text 3 = Some true /\ py_opt_block C93_text 10 = Some 1%nat
  /\ py_quick_term_or_rec C93_text 100 = Some true
  /\ option_map (fun m => (m_end m, m_rulapp m)) (machine_on_text C93_text None None None None 20) = Some (MXlimit, 0).
Proof.
  split; [|split; [apply C32_case|]; split; [apply C32_case|vm_compute; repeat split]].
  apply (writes_shown [32] [10] C32_prog 3 2); try lia.
  - repeat constructor.
  - constructor; [|constructor]. right. right. left. reflexivity.
  - intros s c pr sh tr E. apply (proj2 (GraphProofs.comp_get_in C32_prog (s, c) _ (proj1 C32_case))) in E. cbn in E.
    repeat (destruct E as [E|E]; [inv E; lia|]). contradiction.
  - intros s c i E. apply (proj2 (GraphProofs.comp_get_in C32_prog (s, c) _ (proj1 C32_case))) in E. cbn in E.
    repeat (destruct E as [E|E]; [inv E; lia|]). contradiction.
Qed.

(** Without the conditions of C32-C35 the claims of these four are false of some texts. *)
Theorem C93_claims_refuted : exists t1 t2 t3 t4 M1 M2 M3 M4, writes t1 M1 /\ writes t2 M2 /\ writes t3 M3 /\ writes t4 M4
  /\ (py_cant_halt t1 2 = Some (OSome 1) /\ halts M1) /\ (py_cant_blank t2 3 = Some (OSome 2) /\ ~ never_erases M2)
  /\ (py_cant_spin_out t3 2 = Some (OSome 1) /\ ~ never_spins_out M3)
  /\ ((exists segs rfuel fuel r, py_segments t4 segs rfuel fuel = Some (SegSome r)) /\ halts M4).
Proof. exact api_wrong. Qed.
Print Assumptions C93_claims_refuted.
