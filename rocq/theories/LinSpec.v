(** * Specification: what the simulators of machines/ are to print *)
From Verif Require Import Base TM ProgModel ParseModel ParseSpec LinModel.

(** The table of a program for the simulator: so many rows of so many instructions, the first of which is 1RB;
    they print colours of the table and lead to states of the table or to H. *)
Definition lin_table (X : sim) (g : list (list instr)) : Prop :=
  Z.of_nat (length g) = sm_states X
  /\ Forall (fun row : list instr => Z.of_nat (length row) = sm_colors X
       /\ Forall (fun i : instr => let '(pr, _, tr) := i in
                    0 <= pr < sm_colors X /\ (0 <= tr < sm_states X \/ tr = 7)) row) g
  /\ exists row g', g = ((1, true, 1) :: row) :: g'.

(** A line of a .test file. *)
Definition lin_text (g : list (list instr)) (s : text) : Prop := prog_text (map (map Some) g) s.

(** What the simulator is given for such a line: machines/Makefile 13, sed 's/^1RB// ; s/ //g'. *)
Definition fed (s : text) : text := filter (fun c => negb (c =? 32)) (skipn 3 s) ++ [10].

(** The machine of a table. *)
Definition lin_machine (g : list (list instr)) : program := fun s c => table_get (map (map Some) g) (s, c).

(** After [m] moves the head scans a blank at the edge of the cells visited so far, and the instruction there keeps
    the state and leads beyond the edge. *)
Definition edge_spin (M : program) (m : nat) (c : config) : Prop :=
  c_tape c (c_pos c) = 0
  /\ exists pr dir, M (c_state c) 0 = Some (pr, dir, c_state c)
  /\ forall j d, (j <= m)%nat -> steps M j init = Some d ->
       if dir : bool then c_pos d <= c_pos c else c_pos c <= c_pos d.

(** Reasons to stop. *)
Definition ended (M : program) (m : nat) (c : config) : Prop :=
  c_state c = 7 \/ ((1 <= m)%nat /\ is_blank c) \/ edge_spin M m c.

(** The numbers to report: at the first reason to stop, the number of moves made and the number of marks.  But when
    a spin-out is the reason, the move that is not made is counted as well, except where the check comes early. *)
Definition reported (X : sim) (M : program) (n w : Z) : Prop :=
  exists m c, steps M m init = Some c /\ marks_are (c_tape c) w /\ ended M m c
  /\ (forall j d, (j < m)%nat -> steps M j init = Some d -> ~ ended M j d)
  /\ ((c_state c = 7 \/ ((1 <= m)%nat /\ is_blank c)) /\ n = Z.of_nat m
      \/ ~ (c_state c = 7 \/ ((1 <= m)%nat /\ is_blank c))
         /\ n = Z.of_nat m + (if sm_early X (c_state c) then 0 else 1)).

(** In as many moves as the limit says, all to the right, the head leaves the array. *)
Definition overruns (X : sim) (M : program) : Prop :=
  exists c, steps M (Z.to_nat (sm_limit X)) init = Some c /\ c_pos c = sm_limit X /\ ~ is_blank c
  /\ forall j d, (j < Z.to_nat (sm_limit X))%nat -> steps M j init = Some d -> ~ ended M j d.

(** The lines for programs number [num + 1] and so on: one for each that stops with fewer steps than the limit. *)
Inductive prints (X : sim) : Z -> list (list (list instr) * text) -> text -> Prop :=
  | prints_end num : prints X num [] []
  | prints_line num g s rest n w out :
      reported X (lin_machine g) n w -> n < sm_limit X -> prints X (num + 1) rest out ->
      prints X num ((g, s) :: rest)
        (show_num (num + 1) ++ [32; 124; 32] ++ s ++ [32; 124; 32] ++ show_num n ++ [32; 124; 32] ++ show_num w
         ++ [10] ++ out)
  | prints_none num g s rest out :
      (forall n w, reported X (lin_machine g) n w -> sm_limit X <= n) -> prints X (num + 1) rest out ->
      prints X num ((g, s) :: rest) out.

(** The simulators differ in these bounds. *)
Definition sim_ok (X : sim) : Prop :=
  2 <= sm_states X <= 7 /\ 2 <= sm_colors X <= 10 /\ 1 <= sm_limit X /\ 2 * sm_limit X + 1 < 2 ^ 32.
