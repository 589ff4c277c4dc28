(** * What idris/Run.idr and idris/Test.idr have to tell *)
From Verif Require Import Base TM ProgModel ParseModel CSpec IdrisSpec IdrisParseSpec.
From Coq Require Import String.
Local Open Scope string_scope.
Local Open Scope list_scope.
Local Open Scope Z_scope.

(** [s] is [n] written in decimal. *)
Definition decimal (n : nat) (s : text) : Prop :=
  s <> [] /\ (hd 0 s = 48 -> s = [48]) /\ Forall (fun d => 48 <= d <= 57) s
  /\ fold_left (fun a d => 10 * a + (d - 48)) s 0 = Z.of_nat n.

(** What is printed of the program [prog], the [i]-th, a machine [M]: a line with its number, its text and the number of
    moves after which it halts, leaves a blank tape or spins out; or only its number, if it does none of that within the limit. *)
Inductive put_down (M : program) (i sim_lim : nat) (prog : text) : text -> Prop :=
  | told num moves steps_ marks : decimal i num -> decimal steps_ moves -> run_truth M steps_ marks ->
      put_down M i sim_lim prog (num ++ str "    " ++ prog ++ str " | " ++ moves ++ [10])
  | not_told num : decimal i num -> limit_truth M sim_lim -> put_down M i sim_lim prog num.

(** What is printed of programs with [n] states and [k] colours, numbered from [i] on. *)
Inductive listing (sim_lim n k : nat) : nat -> list text -> text -> Prop :=
  | listing_end i : listing sim_lim n k i [] (str "done" ++ [10])
  | listing_next i prog progs g out rest : iprog_text k n g prog -> put_down (itable_machine g) i sim_lim prog out ->
      listing sim_lim n k (S i) progs rest -> listing sim_lim n k i (prog :: progs) (out ++ rest).

(** The numbers of moves and marks listed for a machine are right: it halts, leaves a blank tape or spins out then; *)
Definition right_single (M : program) (moves marks : Z) : Prop :=
  exists s k, moves = Z.of_nat s /\ marks = Z.of_nat k /\ run_truth M s k.
(** or it recurs, and has so many marks after so many moves (or it stops, C72). *)
Definition right_double (M : program) (moves marks : Z) : Prop :=
  stops M \/ (recurs M /\ exists s c, moves = Z.of_nat s /\ steps M s init = Some c /\ marks_are (c_tape c) marks).

(** The line is one of those that tell of wrong numbers. *)
Definition whoops (line : text) : Prop := exists rest, line = (str "    Whoops!: " ++ rest)%list.
