(** * Model of the texts of macro programs: tm/macro.py 151-158, tm/machine.py 76-82 *)
From Verif Require Import Base TM ProgModel BlocksModel MacroModel ParseModel NumShowModel.
Local Open Scope string_scope.
Local Open Scope list_scope.
Local Open Scope Z_scope.

(** tm/macro.py 272, 322 (name). *)
Definition kind_name (k : kind) : text :=
  match k with Block => quoted "block" | Backsymbol => quoted "backsymbol" end.

(** tm/macro.py 151-158 (MacroProg.__str__), given the text of the program underneath. *)
Definition macro_str (comp_str : text) (l : kind * nat) : text :=
  comp_str ++ quoted " (" ++ str_int (Z.of_nat (snd l)) ++ quoted "-cell " ++ kind_name (fst l) ++ quoted " macro)".

(** tm/macro.py 33-46 (make_macro): the logics put on the program, innermost first.  [None]: opt_block panics. *)
Definition made_layers (p : comp_prog) (blocks backsym opt_macro : option nat) : option (list (kind * nat)) :=
  match (match opt_macro with
         | Some steps => match opt_block p steps with Some b => Some (Some b) | None => None end
         | None => Some blocks
         end) with
  | None => None
  | Some blocks =>
      Some ((match blocks with Some b => if (1 <? b)%nat then [(Block, b)] else [] | None => [] end)
            ++ (match backsym with Some b => [(Backsymbol, b)] | None => [] end))
  end.

(** tm/machine.py 76-82 (prog_str) of Machine(prog, blocks, backsym, opt_macro), tm/macro.py 151-158. *)
Definition prog_str (p : comp_prog) (blocks backsym opt_macro : option nat) : option text :=
  option_map (fun ls => fold_left macro_str ls (show_comp p None)) (made_layers p blocks backsym opt_macro).
