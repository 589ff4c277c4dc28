(** * Model of the line that a Machine over a macro program prints: tm/machine.py 76-109 *)
From Verif Require Import Base TM ProgModel NumModel SymModel SymMachModel MacroModel ParseModel NumShowModel MachObjModel MacroShowModel.
Local Open Scope string_scope.
Local Open Scope list_scope.
Local Open Scope Z_scope.

(** tm/machine.py 84-109 (__str__) with the text of the program given (76-82: prog_str); [None] for an exception. *)
Definition mo_line (o : ops) (order : Z -> Z) (prog : text) (ob : mobj) : option text :=
  match mo_cycles ob, mo_tape ob, mo_prover ob with
  | Some cycles, Some t, Some pv =>
      match s_marks o t with
      | Got marks => Some (prog ++ quoted " || "
          ++ join (quoted " | ") (map mo_entry (mo_info order ob cycles marks (length (sp_configs pv)))))
      | _ => None
      end
  | _, _, _ => None
  end.

(** tm/machine.py 59-109: the line of Machine(prog, blocks, backsym, opt_macro). *)
Definition macro_line (o : ops) (order : Z -> Z) (p : comp_prog) (blocks backsym opt_macro : option nat) (ob : mobj) : option text :=
  match prog_str p blocks backsym opt_macro with Some s => mo_line o order s ob | None => None end.
