(** * Properties of the normaliser (C25 - C28) *)
From Verif Require Import Base TM TMFacts ProgModel ParseModel ParseSpec ParseProofs NormModel NormSpec NormProofs NormFull NormTree.
From Coq Require String Ascii.

(** C25: swapping two states (not the start state), or two colours (not the blank), renames the run;
    swapping twice gives the program back. *)
Theorem C25_swap_states_run : forall n a b n', a <> 0 -> b <> 0 -> swap_states n a b = Some n' ->
  same_run (sw a b) (fun c => c) false (n_get n) (n_get n').
Proof. exact swap_states_run. Qed.
Print Assumptions C25_swap_states_run.

Theorem C25_swap_states_twice : forall n a b S C, table_shape n S C -> 0 <= a < Z.of_nat S -> 0 <= b < Z.of_nat S ->
  exists n', swap_states n a b = Some n' /\ table_shape n' S C /\ swap_states n' a b = Some n.
Proof. exact swap_states_involutive. Qed.
Print Assumptions C25_swap_states_twice.

Theorem C25_swap_colors_run : forall n a b n' S C, table_shape n S C -> a <> 0 -> b <> 0 -> swap_colors n a b = Some n' ->
  same_run (fun s => s) (sw a b) false (n_get n) (n_get n').
Proof. exact swap_colors_run. Qed.
Print Assumptions C25_swap_colors_run.

Theorem C25_swap_colors_twice : forall n a b S C, table_shape n S C -> 0 <= a < Z.of_nat C -> 0 <= b < Z.of_nat C ->
  exists n', swap_colors n a b = Some n' /\ table_shape n' S C /\ swap_colors n' a b = Some n.
Proof. exact swap_colors_involutive. Qed.
Print Assumptions C25_swap_colors_twice.

Definition C25_prog : nprog :=
  norm_of [[Some (1,true,1); None; Some (2,false,0)]; [Some (2,false,2); Some (1,true,1); None]; [None; Some (0,false,0); Some (2,true,1)]].
Example C25_case : table_shape C25_prog 3 3 /\
  option_map n_repr (swap_states C25_prog 1 2) = Some (text_of "1RC ... 2LA  ... 0LA 2RC  2LB 1RC ...")
  /\ option_map n_repr (swap_colors C25_prog 1 2) = Some (text_of "2RB 1LA ...  1LC ... 2RB  ... 1RB 0LA").
Proof. split; [split; [reflexivity|repeat constructor]|split; vm_compute; reflexivity]. Qed.

(** C26: direction normalisation leaves the program alone or mirrors it. *)
Theorem C26_directions : forall n n', normalize_directions n = Some n' ->
  exists pr sh tr, n_get n 0 0 = Some (pr, sh, tr) /\
  if sh then n' = n else same_run (fun s => s) (fun c => c) true (n_get n) (n_get n').
Proof. exact directions_same_run. Qed.
Print Assumptions C26_directions.

Theorem C26_directions_defined : forall n, n_get n 0 0 <> None -> exists n', normalize_directions n = Some n'.
Proof. exact directions_defined. Qed.
Print Assumptions C26_directions_defined.

Example C26_case : option_map n_repr (normalize_directions (norm_of [[Some (1,false,1); None]; [Some (1,true,0); Some (0,false,1)]]))
  = Some (text_of "1RB ...  1LA 0RB").
Proof. vm_compute. reflexivity. Qed.

(** C27: in general normalize changes what the machine does: the start state is exchanged with
    another one ("cinch"), and a program that runs for ever becomes one that halts at once. *)
Theorem C27_normalize_refuted : exists s s' p p',
  normalize s = Some s' /\ from_str s = Some p /\ from_str s' = Some p' /\
  never_halts (machine_of p) /\ halts (machine_of p').
Proof. exact normalize_changes. Qed.
Print Assumptions C27_normalize_refuted.

(** ... also a reachable state without instructions is deleted and its successors take over its number. *)
Theorem C27_normalize_cut_refuted : exists s s' p p',
  normalize s = Some s' /\ from_str s = Some p /\ from_str s' = Some p' /\
  halts_at (machine_of p) 1 (1, 0) /\ halts_at (machine_of p') 3 (2, 1).
Proof. exact normalize_cuts. Qed.
Print Assumptions C27_normalize_cut_refuted.

(** When nothing is to be cut or cinched, normalize succeeds and gives a renamed and possibly
    mirrored program: it halts if and only if the original does, at the same time and with as many marks. *)
Theorem C27_normalize_partial : forall g s cols,
  prog_text g s -> rectangular g cols -> (length g <= 26)%nat -> (1 <= cols <= 10)%nat ->
  full_table (table_machine g) (Z.of_nat (length g)) (Z.of_nat cols) ->
  exists s' p p', normalize s = Some s' /\ from_str s = Some p /\ from_str s' = Some p' /\
    behaves_like (machine_of p) (machine_of p') /\
    (halts (machine_of p) <-> halts (machine_of p')) /\
    forall n c k, steps (machine_of p) n init = Some c -> step (machine_of p) c = None -> marks_are (c_tape c) k ->
      exists c', steps (machine_of p') n init = Some c' /\ step (machine_of p') c' = None /\ marks_are (c_tape c') k.
Proof. exact normalize_full_outcome. Qed.
Print Assumptions C27_normalize_partial.

Definition C27_table : list (list (option instr)) :=
  [[Some (2,false,2); Some (1,true,1); None]; [None; Some (1,false,1); Some (1,true,0)]; [Some (1,true,1); None; Some (2,false,0)]].
Example C27_case : prog_text C27_table (text_of "2LC 1RB ...  ... 1LB 1RA  1RB ... 2LA") /\ rectangular C27_table 3 /\
  full_table (table_machine C27_table) 3 3 /\
  normalize (text_of "2LC 1RB ...  ... 1LB 1RA  1RB ... 2LA") = Some (text_of "1RB ... 2LC  2LC 1RA ...  ... 2LA 2RC").
Proof.
  split; [|split; [repeat constructor|]].
  { apply (prog_cons _ (text_of "2LC 1RB ...") _ (text_of "... 1LB 1RA  1RB ... 2LA")).
    - apply (row_cons _ (text_of "2LC") _ (text_of "1RB ...")); [split; [lia|split; [lia|reflexivity]]|].
      apply (row_cons _ (text_of "1RB") _ (text_of "...")); [split; [lia|split; [lia|reflexivity]]|].
      constructor. reflexivity.
    - apply (prog_cons _ (text_of "... 1LB 1RA") _ (text_of "1RB ... 2LA")); [|constructor].
      + apply (row_cons _ (text_of "...") _ (text_of "1LB 1RA")); [reflexivity|].
        apply (row_cons _ (text_of "1LB") _ (text_of "1RA")); [split; [lia|split; [lia|reflexivity]]|].
        constructor. split; [lia|split; [lia|reflexivity]].
      + apply (row_cons _ (text_of "1RB") _ (text_of "... 2LA")); [split; [lia|split; [lia|reflexivity]]|].
        apply (row_cons _ (text_of "...") _ (text_of "2LA")); [reflexivity|].
        constructor. split; [lia|split; [lia|reflexivity]]. }
  split; [|vm_compute; reflexivity].
  split; [|split; [|split]].
  - exists 2, false, 2. split; [reflexivity|lia].
  - intros s Hs. assert (H : s = 0 \/ s = 1 \/ s = 2) by lia. destruct H as [->|[->| ->]].
    + exists 0. eexists. split; [lia|reflexivity].
    + exists 1. eexists. split; [lia|reflexivity].
    + exists 0. eexists. split; [lia|reflexivity].
  - intros s Hs. assert (H : s = 0 \/ s = 1 \/ s = 2) by lia. destruct H as [->|[->| ->]].
    + exists 0. eexists. split; [lia|reflexivity].
    + exists 1. eexists. split; [lia|reflexivity].
    + exists 1. eexists. split; [lia|reflexivity].
  - intros s Hs. assert (H : s = 1 \/ s = 2) by lia. destruct H as [->| ->].
    + exists 0, 1. eexists _, _. split; [lia|]. split; [lia|reflexivity].
    + exists 0, 0. eexists _, _. split; [lia|]. split; [lia|reflexivity].
Qed.

(** C28: what tree_norm returns is the program renamed (names of the start state and the blank kept) ... *)
Theorem C28_tree_norm_partial : forall g s s' cols,
  prog_text g s -> rectangular g cols -> (length g <= 26)%nat -> (1 <= cols <= 10)%nat -> tree_norm s = Some s' ->
  exists p p', from_str s = Some p /\ from_str s' = Some p' /\
    exists f h, bij0 f /\ bij0 h /\ same_run f h false (machine_of p) (machine_of p') /\
      forall st co, machine_of p' (f st) (h co) =
        option_map (fun i => let '(pr, sh, tr) := i in (h pr, sh, f tr)) (machine_of p st co).
Proof. exact tree_norm_renames. Qed.
Print Assumptions C28_tree_norm_partial.

Example C28_case : tree_norm (text_of "1RC 1RA  1LC 1RB  1LB 1LA") = Some (text_of "1RB 1RA  1LC 1LA  1LB 1RC").
Proof. vm_compute. reflexivity. Qed.

(** ... but the states need not be visited in order. *)
Theorem C28_order_refuted : exists s s' p',
  tree_norm s = Some s' /\ from_str s' = Some p' /\ ~ states_in_order (machine_of p').
Proof. exact tree_norm_unordered. Qed.
Print Assumptions C28_order_refuted.

(** A program whose states and colours are already visited in order is left as it is. *)
Theorem C28_in_order_kept : forall g s s' cols p,
  prog_text g s -> rectangular g cols -> (length g <= 26)%nat -> (1 <= cols <= 10)%nat ->
  from_str s = Some p -> states_in_order (machine_of p) -> colors_in_order (machine_of p) ->
  tree_norm s = Some s' ->
  exists p', from_str s' = Some p' /\ forall st co, machine_of p' st co = machine_of p st co.
Proof. exact tree_norm_in_order. Qed.
Print Assumptions C28_in_order_kept.

Definition C28_table : list (list (option instr)) :=
  [[Some (1,true,1); None; Some (1,false,2)]; [Some (2,false,2); Some (2,false,0); None]; [Some (0,true,0); Some (1,true,1); Some (1,false,1)]].
Definition C28_text : text := text_of "1RB ... 1LC  2LC 2LA ...  0RA 1RB 1LB".
Example C28_in_order_case : prog_text C28_table C28_text /\ rectangular C28_table 3 /\
  (exists p, from_str C28_text = Some p /\ states_in_order (machine_of p) /\ colors_in_order (machine_of p)) /\
  tree_norm C28_text = Some C28_text.
Proof.
  split; [|split; [repeat constructor|split; [|vm_compute; reflexivity]]].
  { apply (prog_cons _ (text_of "1RB ... 1LC") _ (text_of "2LC 2LA ...  0RA 1RB 1LB")).
    - apply (row_cons _ (text_of "1RB") _ (text_of "... 1LC")); [split; [lia|split; [lia|reflexivity]]|].
      apply (row_cons _ (text_of "...") _ (text_of "1LC")); [reflexivity|].
      constructor. split; [lia|split; [lia|reflexivity]].
    - apply (prog_cons _ (text_of "2LC 2LA ...") _ (text_of "0RA 1RB 1LB")); [|constructor].
      + apply (row_cons _ (text_of "2LC") _ (text_of "2LA ...")); [split; [lia|split; [lia|reflexivity]]|].
        apply (row_cons _ (text_of "2LA") _ (text_of "...")); [split; [lia|split; [lia|reflexivity]]|].
        constructor. reflexivity.
      + apply (row_cons _ (text_of "0RA") _ (text_of "1RB 1LB")); [split; [lia|split; [lia|reflexivity]]|].
        apply (row_cons _ (text_of "1RB") _ (text_of "1LB")); [split; [lia|split; [lia|reflexivity]]|].
        constructor. split; [lia|split; [lia|reflexivity]]. }
  eexists. split; [vm_compute; reflexivity|]. split.
  - intros n c E L. destruct n as [|[|[|[|n]]]]; cbn [steps] in E; vm_compute in E; try discriminate; inversion E; subst c; cbn [c_state] in *; try lia.
    + exists 0%nat. eexists. split; [lia|]. split; reflexivity.
    + exists 1%nat. eexists. split; [lia|]. split; reflexivity.
    + exists 0%nat. eexists. split; [lia|]. split; reflexivity.
  - intros n c E L. destruct n as [|[|[|[|n]]]]; cbn [steps] in E; vm_compute in E; try discriminate; inversion E; subst c;
      try (exfalso; vm_compute in L; apply L; reflexivity).
    + exists 0%nat. eexists. split; [lia|]. split; reflexivity.
    + exists 2%nat. eexists. split; [lia|]. split; reflexivity.
Qed.
