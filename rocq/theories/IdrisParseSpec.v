(** * Specification: what the program texts that idris/ reads mean *)
From Verif Require Import Base TM ParseModel IdrisModel IdrisSpec.

(** A cell of a program table: three dots, or digit, direction and letter, the underscore (here -1) for halting. *)
Definition icell_text (i : option instr) (s : text) : Prop :=
  match i with
  | None => s = [46; 46; 46]
  | Some (c, sh, tr) => 0 <= c < 10 /\ -1 <= tr < 12
      /\ s = [48 + c; if sh then 82 else 76; if tr =? -1 then 95 else 65 + tr]
  end.

(** A row: cells separated by one space. *)
Inductive irow_text : list (option instr) -> text -> Prop :=
  | irow_one i s : icell_text i s -> irow_text [i] s
  | irow_cons i s r t : icell_text i s -> irow_text r t -> irow_text (i :: r) (s ++ [32] ++ t).

(** A program: [n] rows of [k] cells, separated by two spaces. *)
Inductive iprog_text (k : nat) : nat -> list (list (option instr)) -> text -> Prop :=
  | iprog_one r s : length r = k -> irow_text r s -> iprog_text k 1 [r] s
  | iprog_cons n r s g t : length r = k -> irow_text r s -> iprog_text k n g t -> iprog_text k (S n) (r :: g) (s ++ [32; 32] ++ t).

(** The textbook machine of a table, with a move into the halting state, printing a blank and going right, where
    there are dots, and printing 1 and going right, where there is no cell. *)
Definition itable_machine (g : list (list (option instr))) : program := fun s c =>
  if s =? -1 then None else
  Some match nth_error g (Z.to_nat s) with
       | Some row => match nth_error row (Z.to_nat c) with
                     | Some (Some i) => i
                     | Some None => (0, true, -1)
                     | None => (1, true, -1)
                     end
       | None => (1, true, -1)
       end.

(** Some colours may be ten or more: the tape of decimal digits is out of its depth. *)
Definition fits_tape (m : imachine) (P : iprogram) : Prop := m = NumMachine -> prints_digits P.

(** The report of a machine at its limit: it makes that many moves, does not stop and has no blank tape on the way. *)
Definition limit_truth (M : program) (sim_lim : nat) : Prop :=
  exists c, steps M sim_lim init = Some c /\ c_state c <> -1
  /\ forall j d, (1 <= j <= sim_lim)%nat -> steps M j init = Some d -> ~ is_blank d.

(** What the reader takes: cells of three characters, each of its kind or a dot; white space between. *)
Definition icell_ok (s : text) : Prop := exists a b c, s = [a; b; c]
  /\ (48 <= a <= 57 \/ a = 46) /\ (b = 76 \/ b = 82 \/ b = 46) /\ (65 <= c <= 90 \/ c = 95 \/ c = 46).
Definition iblank_ok (x : Z) : Prop := x = 32 \/ 9 <= x <= 13 \/ x = 160.
Inductive irow_ok : nat -> text -> Prop :=
  | irow_ok_one s : icell_ok s -> irow_ok 1 s
  | irow_ok_cons k s x t : icell_ok s -> iblank_ok x -> irow_ok (S k) t -> irow_ok (S (S k)) (s ++ x :: t).
Inductive iprog_ok (k : nat) : nat -> text -> Prop :=
  | iprog_ok_one s : irow_ok k s -> iprog_ok k 1 s
  | iprog_ok_cons n s x y t : irow_ok k s -> iblank_ok x -> iblank_ok y -> iprog_ok k (S n) t -> iprog_ok k (S (S n)) (s ++ x :: y :: t).
