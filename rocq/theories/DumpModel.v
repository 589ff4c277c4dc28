(** * Model of dump_macros.py: the instructions that a macro program has met, written out *)
From Verif Require Import Base TM ProgModel ParseModel NormModel MacroModel ApiModel.

(** dump_macros.py 21: [show_comp(macro.instrs)].  The dict is the association list of the model, whose keys differ. *)
Definition shown_macro (m : macro_state_t) : text := py_show_comp (ms_instrs m) None.

(** dump_macros.py 21-23: what is printed for one program, without the line feed.  Simplified: the macro program as
    the run has left it is given; Machine.run (dump_macros.py 19) is not part of this definition, and any lookups,
    those of the prover included, may have been made on it.  [None]: normalize raises. *)
Definition dumped (m : macro_state_t) : option text := normalize (shown_macro m).
