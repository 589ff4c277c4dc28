(** * Properties of watching a run (C101) *)
From Coq Require Import Sorted.
From Verif Require Import Base TM ProgModel TapeModel TapeSpec QuickModel ProverModel LawSpec LawCase NumShowModel ParseModel TapeShowSpec
  WatchModel WatchSpec WatchProofs.
Local Open Scope string_scope.
Local Open Scope list_scope.
Local Open Scope Z_scope.

(** C101: watching a run does not change it. *)
Theorem C101_watching_changes_nothing : forall comp lim, fst (py_watch comp lim) = py_machine_run comp lim.
Proof. exact watch_same. Qed.
Print Assumptions C101_watching_changes_nothing.

(** Each line is true, and the lines come in the order of time: those of the cycles each later than the one before,
    the one after the end not earlier. *)
Theorem C101_lines_true : forall M lim, let m := py_machine_run (plain M) lim in m_rulapp m = 0 \/ lawful M (m_prover m) ->
  exists ns, Forall2 (true_line M) (snd (py_watch (plain M) lim)) ns
  /\ Sorted Peano.lt (firstn (Z.to_nat (m_cycles m + 1)) ns) /\ Sorted Peano.le ns.
Proof. exact watch_lines_true. Qed.
Print Assumptions C101_lines_true.

(** Without rules, each line gives the number of moves. *)
Theorem C101_lines_count : forall M lim, m_rulapp (py_machine_run (plain M) lim) = 0 ->
  forall l, In l (snd (py_watch (plain M) lim)) -> sh_step l <> -1.
Proof. exact watch_lines_steps. Qed.
Print Assumptions C101_lines_count.

(** The lines are numbered from 0 on, one for each cycle and perhaps one more. *)
Theorem C101_lines_numbered : forall comp lim, let m := py_machine_run comp lim in let lines := snd (py_watch comp lim) in
  (forall k l, nth_error lines k = Some l -> sh_cycle l = Z.of_nat k)
  /\ Z.of_nat (length lines) = m_cycles m + (if shows_last m then 2 else 1).
Proof. exact watch_lines_numbered. Qed.
Print Assumptions C101_lines_numbered.

(** The last line shows how the run ended, unless it ended at the limit and was never blank; if it ended at an undefined
    slot then twice. *)
Theorem C101_last_line : forall comp lim, let m := py_machine_run comp lim in let lines := snd (py_watch comp lim) in
  m_end m <> MErr -> (m_end m = MXlimit -> m_blanks m <> []) ->
  exists pre l, lines = pre ++ [l] /\ sh_step l = m_steps m /\ sh_tape l = m_tape m
  /\ (forall s, m_end m = MUndfnd s -> exists pre' l', pre = pre' ++ [l'] /\ sh_cycle l = sh_cycle l' + 1
       /\ sh_step l' = sh_step l /\ sh_state l' = sh_state l /\ sh_tape l' = sh_tape l).
Proof. exact watch_last. Qed.
Print Assumptions C101_last_line.

(** What is printed tells everything about the line. *)
Theorem C101_text_tells : forall order a b, full_line a -> full_line b -> full_counts (sh_tape a) -> full_counts (sh_tape b) ->
  shown_text order a = shown_text order b -> a = b.
Proof. exact line_tells. Qed.
Print Assumptions C101_text_tells.

(** A finding: at the limit the tape of the end may not be shown at all. *)
Theorem C101_limit_not_shown_refuted : exists M lim, let m := py_machine_run (plain M) lim in
  m_end m = MXlimit /\ Forall (fun l => sh_step l <> m_steps m /\ sh_tape l <> m_tape m) (snd (py_watch (plain M) lim)).
Proof.
  exists (machine_of [((0, 0), (1, true, 1)); ((1, 0), (1, true, 0))]), 2%nat.
  split; [vm_compute; reflexivity|]. vm_compute. repeat constructor; discriminate.
Qed.
Print Assumptions C101_limit_not_shown_refuted.

(** The busy beaver of two states and two colours, and what is printed of it. *)
Definition watch_bb22 : comp_prog := [((0, 0), (1, true, 1)); ((0, 1), (1, false, 1)); ((1, 0), (1, false, 0))].
Example C101_case : let m := py_machine_run (plain (machine_of watch_bb22)) 100 in
  m_rulapp m = 0 /\ m_end m = MUndfnd (1, 1)
  /\ map (shown_text (fun z => z)) (snd (py_watch (plain (machine_of watch_bb22)) 100)) =
    map quoted ["    0 |   0 | A0 | [0]"; "    1 |   1 | B0 | 1 [0]"; "    2 |   2 | A1 | [1] 1"; "    3 |   3 | B0 | [0] 1^2";
     "    4 |   4 | A0 | [0] 1^3"; "    5 |   5 | B1 | 1 [1] 1^2"; "    6 |   5 | B1 | 1 [1] 1^2"]
  /\ Forall (fun l => full_line l /\ full_counts (sh_tape l)) (snd (py_watch (plain (machine_of watch_bb22)) 100)).
Proof.
  cbv zeta. split; [vm_compute; reflexivity|]. split; [vm_compute; reflexivity|]. split; [vm_compute; reflexivity|].
  set (ls := snd _). vm_compute in ls. unfold ls, full_line, full_counts. repeat constructor; cbn; lia.
Qed.
(** A lawful run that leaps: from then on the number of moves is not given. *)
Example C101_lawful_case : let m := py_machine_run (plain (machine_of (shuttle 12))) 1000 in
  lawful (machine_of (shuttle 12)) (m_prover m) /\ m_rulapp m = 6
  /\ map (shown_text (fun z => z)) (firstn 3 (skipn 31 (snd (py_watch (plain (machine_of (shuttle 12))) 1000)))) =
    map quoted ["   31 |  67 | O0 | 2^7 1^10 [0]"; "   32 | ... | O0 | 2 1^22 [0]"; "   33 | ... | N1 | 2 1^21 [1] 1"].
Proof. cbv zeta. split; [exact shuttle_lawful|]. split; vm_compute; reflexivity. Qed.
