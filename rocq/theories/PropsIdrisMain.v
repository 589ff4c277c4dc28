(** * Properties of the programs idris/Run.idr and idris/Test.idr (C103, C104) *)
From Verif Require Import Base TM ProgModel ParseModel CSpec IdrisModel IdrisSpec IdrisParseModel IdrisParseSpec IdrisMachines
  IdrisMainModel IdrisMainSpec IdrisMainProofs.
From Coq Require Import String.
Local Open Scope string_scope.
Local Open Scope list_scope.
Local Open Scope Z_scope.

(** ** C103: the list that Run prints *)

(** Given programs in the usual form, Run prints of each, in order, its number, its text and the number of moves after
    which it halts, leaves a blank tape or spins out, and then "done"; of those that do not within the limit, only the
    number, with nothing to end the line. *)
Theorem C103_listing_partial : forall sim_lim n k progs, Forall (fun s => exists g, iprog_text k n g s) progs ->
  listing sim_lim n k 1 progs (run_idr sim_lim n k progs).
Proof. exact run_idr_lists. Qed.
Print Assumptions C103_listing_partial.

(** An empty line ends the input, whatever follows. *)
Theorem C103_empty_line : forall sim_lim n k progs more, run_idr sim_lim n k (progs ++ [] :: more) = run_idr sim_lim n k progs.
Proof. exact run_blank_ends. Qed.
Print Assumptions C103_empty_line.

(** The programs of the cases, and their tables. *)
Definition C103_loops : list (list (option instr)) := [[Some (1, true, 1); Some (1, false, 1)]; [Some (1, false, 0); Some (1, true, 0)]].
Definition C103_bb2 : list (list (option instr)) := [[Some (1, true, 1); Some (1, false, 1)]; [Some (1, false, 0); Some (1, true, -1)]].
Lemma C103_row : forall a b sa sb, icell_text a sa -> icell_text b sb -> irow_text [a; b] (sa ++ 32 :: sb).
Proof. intros a b sa sb A B. apply (irow_cons a sa [b] sb A). constructor. exact B. Qed.
Lemma C103_loops_text : iprog_text 2 2 C103_loops (str "1RB 1LB  1LA 1RA").
Proof.
  eapply (iprog_text_cons 2 _ _ (str "1RB 1LB") _ (str "1LA 1RA")); [reflexivity| | |reflexivity].
  - apply (C103_row _ _ (str "1RB") (str "1LB")); (split; [lia|split; [lia|reflexivity]]).
  - constructor; [reflexivity|]. apply (C103_row _ _ (str "1LA") (str "1RA")); (split; [lia|split; [lia|reflexivity]]).
Qed.
Lemma C103_bb2_text : iprog_text 2 2 C103_bb2 (str "1RB 1LB  1LA 1R_").
Proof.
  eapply (iprog_text_cons 2 _ _ (str "1RB 1LB") _ (str "1LA 1R_")); [reflexivity| | |reflexivity].
  - apply (C103_row _ _ (str "1RB") (str "1LB")); (split; [lia|split; [lia|reflexivity]]).
  - constructor; [reflexivity|]. apply (C103_row _ _ (str "1LA") (str "1R_")); (split; [lia|split; [lia|reflexivity]]).
Qed.

(** Not one line for each program: the second of two programs is listed as number 12, when the first reaches the limit. *)
Theorem C103_one_line_refuted : exists sim_lim g h s t, iprog_text 2 2 g s /\ iprog_text 2 2 h t
  /\ run_idr sim_lim 2 2 [s; t] = str "12    1RB 1LB  1LA 1R_ | 6" ++ [10] ++ str "done" ++ [10].
Proof.
  exists 30%nat, C103_loops, C103_bb2, (str "1RB 1LB  1LA 1RA"), (str "1RB 1LB  1LA 1R_").
  split; [exact C103_loops_text|]. split; [exact C103_bb2_text|vm_compute; reflexivity].
Qed.
Print Assumptions C103_one_line_refuted.

(** After a line that is not a program the rest is not run, whatever it is, and "done" is not printed. *)
Theorem C103_unread_refuted : exists s, forall sim_lim more,
  run_idr sim_lim 2 2 (s :: more) = str "1    Failed to parse: 1RB 1LB  1LA (2, 2)" ++ [10].
Proof. exists (str "1RB 1LB  1LA"). intros lim more. vm_compute. reflexivity. Qed.
Print Assumptions C103_unread_refuted.

Example C103_case : let progs := [str "1RB 1LB  1LA 1R_"; str "1RB 1LB  1LA 1RA"] in
  Forall (fun s => exists g, iprog_text 2 2 g s) progs
  /\ run_idr 30 2 2 progs = str "1    1RB 1LB  1LA 1R_ | 6" ++ [10] ++ str "2done" ++ [10].
Proof.
  cbv zeta. split; [|vm_compute; reflexivity]. constructor; [exists C103_bb2; exact C103_bb2_text|].
  constructor; [exists C103_loops; exact C103_loops_text|constructor].
Qed.

(** ** C104: what the Idris test establishes *)

(** If the test ends without failure and prints no line with "Whoops!", the numbers listed for the programs that have
    fewer cycles listed than the maximum are right: of a run, *)
Theorem C104_single_partial : forall fuel sim_lim groups slow out,
  test_idr fuel sim_lim groups slow = (out, GoesOn) -> (forall line, In line out -> ~ whoops line) ->
  forall n k progs prog moves cycles marks g, In (n, k, Single, progs) groups -> In (prog, (moves, cycles, marks)) progs ->
  iprog_text k n g prog -> cycles < (if slow then 1000000000 else 10000000) -> right_single (itable_machine g) moves marks.
Proof. exact test_single. Qed.
Print Assumptions C104_single_partial.

(** and of a recurrence. *)
Theorem C104_double_partial : forall fuel sim_lim groups slow out,
  test_idr fuel sim_lim groups slow = (out, GoesOn) -> (forall line, In line out -> ~ whoops line) ->
  forall n k progs prog moves cycles marks g, In (n, k, DoubleRec, progs) groups -> In (prog, (moves, cycles, marks)) progs ->
  iprog_text k n g prog -> cycles < (if slow then 1000000000 else 10000000) -> right_double (itable_machine g) moves marks.
Proof. exact test_double. Qed.
Print Assumptions C104_double_partial.

(** If the test ends without failure, those programs can be read: so many rows of so many cells. *)
Theorem C104_readable : forall fuel sim_lim groups slow out, test_idr fuel sim_lim groups slow = (out, GoesOn) ->
  forall n k rt progs prog moves cycles marks, In (S n, S k, rt, progs) groups -> In (prog, (moves, cycles, marks)) progs ->
  cycles < (if slow then 1000000000 else 10000000) -> iprog_ok (S k) (S n) prog.
Proof. exact test_reads. Qed.
Print Assumptions C104_readable.

(** Not otherwise: with a wrong number listed the test ends without failure, too. *)
Theorem C104_wrong_passes_refuted : exists fuel sim_lim prog g moves cycles marks out, iprog_text 2 2 g prog
  /\ ~ right_single (itable_machine g) moves marks
  /\ test_idr fuel sim_lim [(2%nat, 2%nat, Single, [(prog, (moves, cycles, marks))])] true = (out, GoesOn).
Proof.
  exists 50%nat, 200%nat, (str "1RB 1LB  1LA 1R_"), C103_bb2, 7, 6, 4. eexists. split; [exact C103_bb2_text|]. split; [|vm_compute; reflexivity].
  intros (s & k & A & _ & c & E & _). replace s with 7%nat in E by lia. vm_compute in E. discriminate E.
Qed.
Print Assumptions C104_wrong_passes_refuted.

(** Two programs of idris/BB.idr; the second recurs. *)
Example C104_case : let groups := [(2%nat, 2%nat, Single, [(str "1RB 1LB  1LA 1R_", (6, 6, 4))]);
    (3%nat, 2%nat, DoubleRec, [(str "1RB 1RC  1LC 1RA  1RA 1LA", (9, 19, 6))])] in
  test_idr 50 200 groups false = ([str "  Block (Fast)"; str "    1RB 1LB  1LA 1R_ | 6"; []; str "    1RB 1RC  1LC 1RA  1RA 1LA | 9"; [];
    str "Skipping slow tests..."; []], GoesOn)
  /\ right_single (itable_machine C103_bb2) 6 4.
Proof.
  assert (E : test_idr 50 200 [(2%nat, 2%nat, Single, [(str "1RB 1LB  1LA 1R_", (6, 6, 4))]);
    (3%nat, 2%nat, DoubleRec, [(str "1RB 1RC  1LC 1RA  1RA 1LA", (9, 19, 6))])] false
    = ([str "  Block (Fast)"; str "    1RB 1LB  1LA 1R_ | 6"; []; str "    1RB 1RC  1LC 1RA  1RA 1LA | 9"; [];
    str "Skipping slow tests..."; []], GoesOn)) by (vm_compute; reflexivity).
  cbv zeta. split; [exact E|]. eapply (test_single _ _ _ _ _ E); [|left; reflexivity|left; reflexivity|exact C103_bb2_text|lia].
  intros line H (rest & X). subst line. cbn in H. intuition discriminate.
Qed.
