(** * Machine objects over block macros of renamed programs *)
From Verif Require Import Base TM ProgModel MacroModel RenameSpec RenameMacroSpec.

(** The names of the colours of a macro of [k] cells of colours below [C]: those that come up are below [C ^ k] and get
    their cells renamed; what is above stays above. *)
Definition block_color (g : Z -> Z) (C : Z) (k : nat) (mc : Z) : Z :=
  recode g C k mc + C ^ Z.of_nat k * (mc / C ^ Z.of_nat k).
Definition block_state (f : Z -> Z) (ms : Z) : Z := 2 * f (ms / 2) + ms mod 2.

(** A machine works with a macro if the block size is above 1. *)
Definition state_names (f : Z -> Z) (k : nat) : Z -> Z := if (1 <? k)%nat then block_state f else f.
Definition color_names (g : Z -> Z) (C : Z) (k : nat) : Z -> Z := if (1 <? k)%nat then block_color g C k else g.

(** The program prints colours below [C] only. *)
Definition prints_below (C : Z) (p : comp_prog) : Prop := forall s c pr sh tr, comp_get p (s, c) = Some (pr, sh, tr) -> 0 <= pr < C.
