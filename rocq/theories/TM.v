(** * Specification: textbook Turing machines on an unbounded tape.

    This file is the independent specification used by the property statements.
    It models no code of /repo; it only fixes what "the plain machine" means.
    States and colours are integers, the tape is a total function on positions,
    an instruction is (colour to print, direction with [true] = right, next state). *)
From Verif Require Import Base.

Definition instr : Type := (Z * bool * Z)%type.

(** A program: partial map from (state, colour) to instructions. *)
Definition program : Type := Z -> Z -> option instr.

Record config := Cfg { c_state : Z; c_pos : Z; c_tape : Z -> Z }.

Definition move (dir : bool) (p : Z) : Z := if dir then p + 1 else p - 1.

Definition write (t : Z -> Z) (p v : Z) : Z -> Z := fun q => if q =? p then v else t q.

(** One move; [None] when the program has no instruction for the current slot. *)
Definition step (M : program) (c : config) : option config :=
  match M (c_state c) (c_tape c (c_pos c)) with
  | None => None
  | Some (color, dir, next) =>
      Some (Cfg next (move dir (c_pos c)) (write (c_tape c) (c_pos c) color))
  end.

Fixpoint steps (M : program) (n : nat) (c : config) : option config :=
  match n with
  | O => Some c
  | S n => match step M c with Some c' => steps M n c' | None => None end
  end.

Definition blank_tape : Z -> Z := fun _ => 0.

(** The start: state A (= 0) on the blank tape. *)
Definition init : config := Cfg 0 0 blank_tape.

(** The machine makes exactly [n] moves and then has no instruction for (state, colour). *)
Definition halts_at (M : program) (n : nat) (slot : Z * Z) : Prop :=
  exists c, steps M n init = Some c
         /\ c_state c = fst slot
         /\ c_tape c (c_pos c) = snd slot
         /\ M (fst slot) (snd slot) = None.

Definition halts (M : program) : Prop := exists n slot, halts_at M n slot.

Definition never_halts (M : program) : Prop :=
  forall n, exists c, steps M n init = Some c.

(** Equality of configurations up to pointwise equality of tapes. *)
Definition ceq (c d : config) : Prop :=
  c_state c = c_state d /\ c_pos c = c_pos d /\ forall p, c_tape c p = c_tape d p.

(** [d] is [c] moved [k] cells to the right. *)
Definition shifted (k : Z) (c d : config) : Prop :=
  c_state d = c_state c /\ c_pos d = c_pos c + k /\ forall p, c_tape d (p + k) = c_tape c p.

(** From [c] on the machine stays in one state, moves in one direction, and only ever
    reads blank cells. *)
Definition spins_out_from (M : program) (c : config) : Prop :=
  exists dir : bool, forall n, exists d,
    steps M n c = Some d
    /\ c_state d = c_state c
    /\ c_pos d = (if dir then c_pos c + Z.of_nat n else c_pos c - Z.of_nat n)
    /\ c_tape d (c_pos d) = 0.

(** The tape is entirely blank. *)
Definition is_blank (c : config) : Prop := forall p, c_tape c p = 0.

(** [k] is the number of non-blank cells of tape [t]. *)
Definition marks_are (t : Z -> Z) (k : Z) : Prop :=
  exists ps, NoDup ps /\ (forall p, In p ps <-> t p <> 0) /\ Z.of_nat (length ps) = k.
