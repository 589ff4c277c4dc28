(** * Normal forms of tables *)
From Verif Require Import Base TM ProgModel ParseModel ParseSpec NormSpec GraphSpec.

(** The instruction at row [s], column [c] prints [k]. *)
Definition prints (M : program) (s c k : Z) : Prop := exists sh tr, M s c = Some (k, sh, tr).
(** Read row by row, no colour is printed before all smaller ones other than the blank. *)
Definition marks_in_order (M : program) : Prop :=
  forall s c k j, prints M s c k -> 1 <= j < k -> exists s' c', before s' c' s c /\ prints M s' c' j.
(** Everything is printed in the colours below [C] and goes to the states below [S]. *)
Definition in_table (M : program) (S C : Z) : Prop :=
  forall s c pr sh tr, M s c = Some (pr, sh, tr) -> 0 <= pr < C /\ 0 <= tr < S.
(** Every state can be got to from the first. *)
Definition all_reached (M : program) (S : Z) : Prop := forall t, 1 <= t < S -> reaches M 0 t.
(** States and colours are numbered in the order of their first mention; the first instruction goes right. *)
Definition normal_form (M : program) (S : Z) : Prop :=
  appear_in_order M S /\ marks_in_order M /\ exists pr tr, M 0 0 = Some (pr, true, tr).
(** Equal but for the names of states and colours, A and blank kept, and for left and right. *)
Definition isomorphic (M M' : program) : Prop :=
  exists f g (mirror : bool), bij0 f /\ bij0 g /\
  forall s c, M' (f s) (g c) =
    option_map (fun i => let '(pr, sh, tr) := i in (g pr, if mirror then negb sh else sh, f tr)) (M s c).

(** [s] is the text of table [g] with [cols] columns, in which nothing is to be cut or cinched, whose instructions
    stay in the table, and all of whose states can be got to. *)
Definition tidy (g : list (list (option instr))) (s : text) (cols : nat) : Prop :=
  prog_text g s /\ rectangular g cols /\ (length g <= 26)%nat /\
  full_table (table_machine g) (Z.of_nat (length g)) (Z.of_nat cols) /\
  in_table (table_machine g) (Z.of_nat (length g)) (Z.of_nat cols) /\
  all_reached (table_machine g) (Z.of_nat (length g)).
