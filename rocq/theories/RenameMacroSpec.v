(** * Macro machines over programs with their states and colours renamed *)
From Verif Require Import Base TM ProgModel MacroModel MacroSpec RenameSpec.

(** The [k] digits of a number in base [b], each of them renamed. *)
Fixpoint recode (g : Z -> Z) (b : Z) (k : nat) (c : Z) : Z :=
  match k with O => 0 | S k => recode g b k (c / b) * b + g (c mod b) end.

(** The states and colours of a macro whose base states are renamed by [f] and base colours by [g]: a block of cells is
    named by its cells; a state stands for a base state and a side, and with backsymbols for the cells behind, too. *)
Definition macro_color_name (l : logic) (g : Z -> Z) (mc : Z) : Z :=
  match lg_kind l with Block => recode g (lg_colors l) (lg_cells l) mc | Backsymbol => g mc end.
Definition macro_state_name (l : logic) (f g : Z -> Z) (ms : Z) : Z :=
  match lg_kind l with
  | Block => 2 * f (ms / 2) + ms mod 2
  | Backsymbol =>
      let B := lg_colors l ^ Z.of_nat (lg_cells l) in
      2 * (f (ms / 2 / B) * B + recode g (lg_colors l) (lg_cells l) ((ms / 2) mod B)) + ms mod 2
  end.

(** Answers of a program, and of a macro over it; the slot that is missing is one of the base program. *)
Definition base_answer (f g : Z -> Z) (r : lres) : lres :=
  match r with LOk i => LOk (named_instr f g i) | LKey s => LKey (named_slot f g s) | r => r end.
Definition macro_answer (l : logic) (f g : Z -> Z) (r : lres) : lres :=
  match r with
  | LOk (color, dir, next) => LOk (macro_color_name l g color, dir, macro_state_name l f g next)
  | LKey s => LKey (named_slot f g s)
  | r => r
  end.
Definition renamed_base (f g : Z -> Z) (look look' : lookup) : Prop := forall s c, look' (f s) (g c) = base_answer f g (look s c).

(** The new names are among the first [n], as the old ones are. *)
Definition within (n : Z) (f : Z -> Z) : Prop := forall x, 0 <= x < n -> 0 <= f x < n.

(** The macro machines go on alike, in the same place and with states and cells renamed, or stop for the same reason. *)
Definition same_macro_run (l : logic) (f g : Z -> Z) (r r' : mrun) : Prop :=
  match r, r' with
  | MGo _ c, MGo _ d => c_state d = macro_state_name l f g (c_state c) /\ c_pos d = c_pos c
      /\ forall q, c_tape d q = macro_color_name l g (c_tape c q)
  | MStop e, MStop e' => e' = macro_answer l f g e
  | _, _ => False
  end.
