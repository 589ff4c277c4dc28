(** * Properties of the transition graph (C29 - C31) *)
From Coq Require Import Permutation.
From Verif Require Import Base TM ProgModel NormModel NormSpec GraphModel GraphSpec GraphProofs ReduceProofs.

(** C29: is_connected, whatever order the set is popped in. *)
Theorem C29_is_connected : forall pick g, picks pick -> g <> [] -> closed (table_machine g) (Z.of_nat (length g)) ->
  exists b, is_connected pick (arrows_of g) = Some b /\ (b = true <-> connected (table_machine g) (Z.of_nat (length g))).
Proof. exact connected_py. Qed.
Print Assumptions C29_is_connected.

(** The same of the Rust function. *)
Theorem C29_is_connected_rust : forall p states, 1 <= states -> NoDup (map fst p) -> closed (machine_of p) states ->
  exists b, rs_is_connected p states = Some b /\ (b = true <-> connected (machine_of p) states).
Proof. exact connected_rs. Qed.
Print Assumptions C29_is_connected_rust.

(** "1RB 1LC  1RD 1RB  0RD 0RC  1LD 1LA", connected, and "1RB 0LC  1LA 0LD  1LA ...  1LE 0RE  1RD 0LD", not. *)
Definition C29_table : list (list (option instr)) :=
  [[Some (1,true,1); Some (1,false,2)]; [Some (1,true,3); Some (1,true,1)];
   [Some (0,true,3); Some (0,true,2)]; [Some (1,false,3); Some (1,false,0)]].
Definition C29_other : list (list (option instr)) :=
  [[Some (1,true,1); Some (0,false,2)]; [Some (1,false,0); Some (0,false,3)]; [Some (1,false,0); None];
   [Some (1,false,4); Some (0,true,4)]; [Some (1,true,3); Some (0,false,3)]].
Example C29_case : closed (table_machine C29_table) 4 /\
  is_connected (fun _ l => hd 0 l) (arrows_of C29_table) = Some true /\
  is_connected (fun _ l => last l 0) (arrows_of C29_table) = Some true /\
  is_connected (fun _ l => hd 0 l) (arrows_of C29_other) = Some false.
Proof.
  split; [|split; [reflexivity|split; reflexivity]].
  intros s t H. pose proof (edge_source _ _ _ H) as R. split; [exact R|].
  change (Z.of_nat (length C29_table)) with 4 in R.
  destruct (arrows_row C29_table s R) as [row E]. apply (arrows_edge _ _ _ _ E) in H.
  assert (K : s = 0 \/ s = 1 \/ s = 2 \/ s = 3) by lia.
  destruct K as [->|[->|[->| ->]]]; vm_compute in E; inv E; cbn in H;
    repeat match goal with H : _ \/ _ |- _ => destruct H as [H|H] end; try contradiction; injection H as <-; lia.
Qed.
Example C29_rust_case :
  rs_is_connected [((0,0),(1,true,1)); ((0,1),(1,false,2)); ((1,0),(1,true,3)); ((1,1),(1,true,1));
    ((2,0),(0,true,3)); ((2,1),(0,true,2)); ((3,0),(1,false,3)); ((3,1),(1,false,0))] 4 = Some true.
Proof. reflexivity. Qed.

(** C30 *)
Theorem C30_entry_exit : forall g, closed (table_machine g) (Z.of_nat (length g)) ->
  exists en, entry_points (arrows_of g) = Some en /\
  forall s t, 0 <= s < Z.of_nat (length g) -> 0 <= t < Z.of_nat (length g) ->
  exists xs ys, dget (exit_points (arrows_of g)) s = Some xs /\ dget en t = Some ys /\
    (In t xs <-> edge (table_machine g) s t) /\ (In s ys <-> edge (table_machine g) s t).
Proof. exact entry_exit. Qed.
Print Assumptions C30_entry_exit.

Example C30_case : entry_points (arrows_of C29_table) = Some [(0, [3]); (1, [0; 1]); (2, [0; 2]); (3, [1; 2; 3])].
Proof. reflexivity. Qed.

(** C31: reduction does not raise, for every order in which sets are iterated; the reduced graph has no
    dangling arrow and nothing is left to reduce. *)
Theorem C31_reduced : forall ord g, (forall i j l, Permutation (ord i j l) l) ->
  closed (table_machine g) (Z.of_nat (length g)) -> nth 0 g [] <> [] ->
  exists g', reduced ord (arrows_of g) = Some g' /\ irreducible_graph g'.
Proof. exact reduced_irreducible. Qed.
Print Assumptions C31_reduced.

Theorem C31_reduce_graph : forall ord g p, (forall i j l, Permutation (ord i j l) l) -> NoDup (map fst g) ->
  (forall s xs, In (s, xs) g -> NoDup xs /\ forall x, In x xs -> In x (map fst g)) ->
  exists g', reduce_graph ord g p = Some g' /\ ((length g <= p)%nat -> irreducible_graph g').
Proof. exact reduce_never_raises. Qed.
Print Assumptions C31_reduce_graph.

Example C31_case : reduced (fun _ _ l => rev l) (arrows_of C29_table) = Some [] /\
  reduce_graph (fun _ _ l => l) [(0, [1; 2]); (1, [0; 2; 3]); (2, [0; 1; 3]); (3, [3])] 8 = Some [(0, [1; 2]); (1, [0; 2]); (2, [0; 1])].
Proof. split; reflexivity. Qed.
