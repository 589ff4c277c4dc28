(** * The questions Graph answers (C65), and how they depend on names (C67) *)
From Coq Require Import Permutation.
From Verif Require Import Base TM ProgModel NormModel NormSpec GraphModel GraphSpec GraphProofs ReduceProofs GraphMore.

(** C65: is_normal, for as many states as one character can show. *)
Theorem C65_is_normal : forall g, closed (table_machine g) (Z.of_nat (length g)) -> (length g <= 190)%nat ->
  is_normal (arrows_of g) = true <-> appear_in_order (table_machine g) (Z.of_nat (length g)).
Proof. exact is_normal_ok. Qed.
Print Assumptions C65_is_normal.

(** "1RB 1LC  1RD 1RB  0RD 0RC  1LD 1LA" is in order, "1RB 1LD  1RC 1RB  0RD 0RC  1LD 1LA" is not, nor is
    "1RB 1LA  1LB 1RA  ... 1RC  ... ..." whose last state is never mentioned. *)
Definition C65_table : list (list (option instr)) :=
  [[Some (1,true,1); Some (1,false,2)]; [Some (1,true,3); Some (1,true,1)];
   [Some (0,true,3); Some (0,true,2)]; [Some (1,false,3); Some (1,false,0)]].
Definition C65_other : list (list (option instr)) :=
  [[Some (1,true,1); Some (1,false,3)]; [Some (1,true,2); Some (1,true,1)];
   [Some (0,true,3); Some (0,true,2)]; [Some (1,false,3); Some (1,false,0)]].
Definition C65_unused : list (list (option instr)) :=
  [[Some (1,true,1); Some (1,false,0)]; [Some (1,false,1); Some (1,true,0)]; [None; Some (1,true,2)]; [None; None]].
Example C65_normal_case :
  closed (table_machine C65_table) 4 /\ is_normal (arrows_of C65_table) = true /\
  closed (table_machine C65_other) 4 /\ is_normal (arrows_of C65_other) = false /\
  closed (table_machine C65_unused) 4 /\ is_normal (arrows_of C65_unused) = false.
Proof. split; [|split; [|split; [|split; [|split]]]]; try reflexivity; (apply closedb_ok; reflexivity). Qed.

(** is_irreflexive: no state has an instruction to itself. *)
Theorem C65_is_irreflexive : forall g, is_irreflexive (arrows_of g) = true <-> forall s, ~ edge (table_machine g) s s.
Proof. exact is_irreflexive_ok. Qed.
Print Assumptions C65_is_irreflexive.

(** is_zero_reflexive: some state goes to itself on blank. *)
Theorem C65_is_zero_reflexive : forall g, Forall (fun r => r <> []) g -> exists b, is_zero_reflexive (arrows_of g) = Some b /\
  (b = true <-> exists s, goes (table_machine g) s 0 s).
Proof. exact is_zero_reflexive_ok. Qed.
Print Assumptions C65_is_zero_reflexive.

Example C65_reflexive_case :
  is_irreflexive (arrows_of C65_table) = false /\ reflexive_states (arrows_of C65_table) = [1; 2; 3] /\
  is_zero_reflexive (arrows_of C65_table) = Some true /\
  is_irreflexive (arrows_of [[Some (1,true,1); Some (1,false,1)]; [Some (1,false,0); None]]) = true /\
  is_zero_reflexive (arrows_of [[Some (1,true,1); Some (1,false,0)]; [Some (1,false,0); Some (0,true,1)]]) = Some false.
Proof. repeat split; reflexivity. Qed.

(** is_dispersed: every state goes to, and is entered from, as many states as there are colours. *)
Theorem C65_is_dispersed : forall g, g <> [] -> closed (table_machine g) (Z.of_nat (length g)) ->
  exists b, is_dispersed (arrows_of g) = Some b /\
  (b = true <-> forall s, 0 <= s < Z.of_nat (length g) ->
     exactly (length (nth 0 g [])) (edge (table_machine g) s) /\ exactly (length (nth 0 g [])) (fun r => edge (table_machine g) r s)).
Proof. exact is_dispersed_ok. Qed.
Print Assumptions C65_is_dispersed.

Theorem C65_entries_dispersed : forall g, g <> [] -> closed (table_machine g) (Z.of_nat (length g)) ->
  exists b, entries_dispersed (arrows_of g) = Some b /\
  (b = true <-> forall t, 0 <= t < Z.of_nat (length g) -> exactly (length (nth 0 g [])) (fun s => edge (table_machine g) s t)).
Proof. exact entries_dispersed_ok. Qed.
Print Assumptions C65_entries_dispersed.

Theorem C65_exits_dispersed : forall g, g <> [] -> exists b, exits_dispersed (arrows_of g) = Some b /\
  (b = true <-> forall s, 0 <= s < Z.of_nat (length g) -> exactly (length (nth 0 g [])) (edge (table_machine g) s)).
Proof. exact exits_dispersed_ok. Qed.
Print Assumptions C65_exits_dispersed.

(** Arrows 0 -> 1, 2; 1 -> 0, 2; 2 -> 0, 1 disperse; turning 2 -> 0 into 2 -> 2 spoils the entries only. *)
Example C65_dispersed_case :
  is_dispersed (arrows_of (plain [[1;2]; [0;2]; [0;1]])) = Some true /\
  exits_dispersed (arrows_of (plain [[1;2]; [0;2]; [2;1]])) = Some true /\
  entries_dispersed (arrows_of (plain [[1;2]; [0;2]; [2;1]])) = Some false /\
  exits_dispersed (arrows_of (plain [[1;2]; [0;0]; [0;1]])) = Some false.
Proof. repeat split; reflexivity. Qed.

(** is_simple holds of every program of at most two states. *)
Theorem C65_two_states_simple : forall ord g, (forall i j l, Permutation (ord i j l) l) ->
  closed (table_machine g) (Z.of_nat (length g)) -> nth 0 g [] <> [] -> (length g <= 2)%nat ->
  is_simple ord (arrows_of g) = Some true.
Proof. exact two_states_simple. Qed.
Print Assumptions C65_two_states_simple.

Example C65_simple_case :
  is_simple (fun _ _ l => rev l) (arrows_of [[Some (1,true,1); Some (1,false,1)]; [Some (1,false,0); Some (0,true,1)]]) = Some true /\
  is_simple (fun _ _ l => l) (arrows_of (plain [[1;2]; [0;2]; [0;1]])) = Some false.
Proof. split; reflexivity. Qed.

(** C67: the kernel of a graph is its shape, not its names.  It is not: the same graph with the states
    1, 4, 2 renamed in a ring to 4, 2, 1 is reduced to three states and not to four.  Every state is reached from the first. *)
Theorem C67_kernel_refuted : exists ord g g' f, (forall i j l, Permutation (ord i j l) l) /\ bij0 f /\
  closed (table_machine g) (Z.of_nat (length g)) /\
  (forall s t, edge (table_machine g') (f s) (f t) <-> edge (table_machine g) s t) /\
  (forall t, 1 <= t < Z.of_nat (length g) -> reaches (table_machine g) 0 t) /\
  exists r r', reduced ord (arrows_of g) = Some r /\ reduced ord (arrows_of g') = Some r' /\ length r = 4%nat /\ length r' = 3%nat.
Proof. exact kernel_names. Qed.
Print Assumptions C67_kernel_refuted.

(** is_simple too depends on the names: exchanging 2 with 5 and 3 with 6 makes a graph simple. *)
Theorem C67_simple_refuted : exists ord g g' f, (forall i j l, Permutation (ord i j l) l) /\ bij0 f /\
  closed (table_machine g) (Z.of_nat (length g)) /\
  (forall s t, edge (table_machine g') (f s) (f t) <-> edge (table_machine g) s t) /\
  is_simple ord (arrows_of g) = Some false /\ is_simple ord (arrows_of g') = Some true.
Proof. exact simple_names. Qed.
Print Assumptions C67_simple_refuted.

(** What does not depend on names or orders: the kernel never has more states; it has all of them exactly if every
    state goes to two others and none is entered from exactly one other; and then its arrows are those
    between different states. *)
Theorem C67_whole_kernel_partial : forall ord g, (forall i j l, Permutation (ord i j l) l) ->
  closed (table_machine g) (Z.of_nat (length g)) -> nth 0 g [] <> [] ->
  exists r, reduced ord (arrows_of g) = Some r /\ (length r <= length g)%nat /\
  (length r = length g <-> tight (table_machine g) (Z.of_nat (length g))) /\
  (length r = length g -> forall s t, arrow r s t <-> edge (table_machine g) s t /\ s <> t).
Proof. exact reduced_whole. Qed.
Print Assumptions C67_whole_kernel_partial.

Example C67_whole_case :
  closed (table_machine (plain [[1;2;0]; [0;2;2]; [0;1;2]])) 3 /\
  reduced (fun _ _ l => l) (arrows_of (plain [[1;2;0]; [0;2;2]; [0;1;2]])) = Some [(0, [1; 2]); (1, [0; 2]); (2, [0; 1])] /\
  reduced (fun _ _ l => l) (arrows_of (plain [[1;2;0]; [0;2;2]; [0;0;2]])) = Some [].
Proof. split; [(apply closedb_ok; reflexivity)|split; reflexivity]. Qed.
