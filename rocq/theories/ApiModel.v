(** * Model of src/lib.rs: the functions that take the text of a program

    [None]: the text cannot be read, or the function panics. *)
From Verif Require Import Base TM ProgModel ParseModel TapeModel QuickModel ProverModel TermRecModel ReasonModel SegModel GraphModel BlocksModel MacroModel MakeMacroModel.

(** src/lib.rs 105-108 (tcompile). *)
Definition tcompile (prog : text) : option comp_prog := from_str prog.
(** src/lib.rs 95-103 (py_show_comp), 110-115 (show_comp). *)
Definition py_show_comp (comp : comp_prog) (params : option (Z * Z)) : text := show_comp comp params.

(** [CompProg::from_str(prog)] and then a function of the program: src/lib.rs 51-93, src/machine.rs 222, 319. *)
Definition on_text {A} (prog : text) (f : comp_prog -> option A) : option A :=
  match from_str prog with Some comp => f comp | None => None end.

(** src/lib.rs 49-52 (py_cant_halt). *)
Definition py_cant_halt (prog : text) (depth : nat) : option (outcome Z) := on_text prog (fun p => Some (cant_halt p depth)).
(** src/lib.rs 54-57 (py_cant_blank). *)
Definition py_cant_blank (prog : text) (depth : nat) : option (outcome Z) := on_text prog (fun p => Some (cant_blank p depth)).
(** src/lib.rs 59-62 (py_cant_spin_out). *)
Definition py_cant_spin_out (prog : text) (depth : nat) : option (outcome Z) := on_text prog (fun p => Some (cant_spin_out p depth)).
(** src/lib.rs 64-67 (py_is_connected). *)
Definition py_is_connected (prog : text) (states : Z) : option bool := on_text prog (fun p => rs_is_connected p states).
(** src/lib.rs 69-72 (py_opt_block). *)
Definition py_opt_block (prog : text) (steps : nat) : option nat := on_text prog (fun p => opt_block p steps).
(** src/lib.rs 74-77 (py_quick_term_or_rec). *)
Definition py_quick_term_or_rec (prog : text) (sim_lim : nat) : option bool :=
  on_text prog (fun p => Some (quick_term_or_rec p sim_lim false)).
(** src/lib.rs 79-93 (py_segment_cant_halt); bounds of the searches as in SegModel.v. *)
Definition py_segments (prog : text) (segs : Z) (rfuel fuel : nat) : option seg_res :=
  on_text prog (fun p => Some (py_segment_cant_halt p segs rfuel fuel)).
(** src/machine.rs 316-380 (run_quick_machine of a text). *)
Definition py_run_quick_machine (prog : text) (sim_lim : nat) : option machine_result :=
  on_text prog (fun p => Some (run_quick_machine p sim_lim)).
(** src/machine.rs 219-313 (run_prover of a text). *)
Definition py_run_prover (prog : text) (sim_lim : nat) : option machine_result :=
  on_text prog (fun p => rs_run_prover (machine_of p) sim_lim).
(** tm/machine.py 59-75, 139-234, with tm/macro.py 23-48: Machine(prog, ...).run(sim_lim) for a text. *)
Definition machine_on_text (prog : text) (blocks backsym opt_macro : option nat) (params : option (Z * Z))
    (sim_lim : nat) : option mach := on_text prog (fun p => py_machine p blocks backsym opt_macro params sim_lim).
