(** * Machine objects over macros of every kind of renamed programs *)
From Verif Require Import Base TM ProgModel MacroModel RenameSpec RenameMacroSpec RenameMachineSpec.

(** The names of the states of a macro with [b] backsymbols of colours below [C]: the state underneath and the cells behind. *)
Definition back_state (f g : Z -> Z) (C : Z) (b : nat) (ms : Z) : Z :=
  let B := C ^ Z.of_nat b in 2 * (f (ms / 2 / B) * B + recode g C b ((ms / 2) mod B)) + ms mod 2.

(** Blocks of [k] cells first (if [k] is above 1), backsymbols over them. *)
Definition macro_states (f g : Z -> Z) (C : Z) (k : nat) (backsym : option nat) : Z -> Z :=
  match backsym with
  | None => state_names f k
  | Some b => back_state (state_names f k) (color_names g C k) (if (1 <? k)%nat then C ^ Z.of_nat k else C) b
  end.
