(** * Compiled programs: src/instrs.rs 7-28, tm/parse.py *)
From Verif Require Import Base TM.

(** src/instrs.rs 11. *)
Definition slot : Type := (Z * Z)%type.

(** src/instrs.rs 16 (CompProg = BTreeMap<Slot, Instr>), tm/parse.py (dict[Slot, Instr]).
    A map is an association list; lookups take the first entry for a key. *)
Definition comp_prog : Type := list (slot * instr).

(** Equality of keys, src/instrs.rs 11. *)
Definition slot_eqb (a b : slot) : bool := (fst a =? fst b) && (snd a =? snd b).

(** src/instrs.rs 24-28 [get_instr]; Python [comp[slot]], [None] standing for KeyError. *)
Fixpoint comp_get (p : comp_prog) (s : slot) : option instr :=
  match p with
  | [] => None
  | (k, v) :: p => if slot_eqb k s then Some v else comp_get p s
  end.

(** The plain machine denoted by a compiled program (src/instrs.rs 16, 24-28). *)
Definition machine_of (p : comp_prog) : program := fun s c => comp_get p (s, c).
