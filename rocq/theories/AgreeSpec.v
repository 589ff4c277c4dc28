(** * What the tools say of a program *)
From Verif Require Import Base TM ProgModel ParseModel TapeModel QuickModel ProverModel TermRecModel ReasonModel SegModel
  MacroModel MakeMacroModel ApiModel.

(** A run says that the machine halts after [n] steps at the slot, with so many marks on the tape.  Of a Machine and of
    run_prover only runs without a rule are meant (C55, C57), of run_prover only up to so many steps. *)
Inductive says_halts (t : text) : Z -> slot -> Z -> Prop :=
| halts_quick lim r n s : py_run_quick_machine t lim = Some r -> mr_undfnd r = Some (n, s) -> says_halts t n s (mr_marks r)
| halts_machine lim m n s : machine_on_text t None None None None lim = Some m -> m_rulapp m = 0 -> m_undfnd m = Some (n, s) ->
    says_halts t n s (t_marks (m_tape m))
| halts_prover lim r n s : py_run_prover t lim = Some r -> mr_rulapp r = 0 -> mr_steps r < 2 ^ 33 -> mr_undfnd r = Some (n, s) ->
    says_halts t n s (mr_marks r).
(** A run says that the machine spins out after [n] steps. *)
Inductive says_spins (t : text) : Z -> Z -> Prop :=
| spins_quick lim r : py_run_quick_machine t lim = Some r -> mr_result r = spnout -> says_spins t (mr_steps r) (mr_marks r)
| spins_machine lim m : machine_on_text t None None None None lim = Some m -> m_rulapp m = 0 -> m_end m = MSpnout ->
    says_spins t (m_steps m) (t_marks (m_tape m))
| spins_prover lim r : py_run_prover t lim = Some r -> mr_rulapp r = 0 -> mr_steps r < 2 ^ 33 -> mr_result r = spnout ->
    says_spins t (mr_steps r) (mr_marks r).
(** A decider or a run says that the machine never halts. *)
Inductive says_never (t : text) : Prop :=
| never_cant d r : py_cant_halt t d = Some (OSome r) -> says_never t
| never_segments segs rfuel fuel r : py_segments t segs rfuel fuel = Some (SegSome r) -> says_never t
| never_rec lim : py_quick_term_or_rec t lim = Some true -> says_never t
| never_spins n k : says_spins t n k -> says_never t
| never_erased lim r : py_run_quick_machine t lim = Some r -> mr_result r = infrul -> says_never t.
(** A run says that the tape was blank in the state after so many steps. *)
Definition says_blank (t : text) (state n : Z) : Prop := exists lim r, py_run_quick_machine t lim = Some r /\ In (state, n) (mr_blanks r).
