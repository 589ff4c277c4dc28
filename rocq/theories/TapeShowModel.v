(** * Model of the texts of tapes: tm/tape.py 32-39, 70-74, src/tape.rs 28-41, 225-239, 396-400, 582-586, 598-602 *)
From Verif Require Import Base TapeModel TermRecModel NumModel ParseModel NumShowModel.
Local Open Scope string_scope.
Local Open Scope list_scope.
Local Open Scope Z_scope.

Section Py.
Variable order : Z -> Z.
(** tm/tape.py 32-39 (Block.__str__) and tm/num.py 2247-2258 (show_number), for int counts. *)
Definition py_block_text (b : block) : text :=
  if b_count b =? 1 then str_int (b_color b)
  else str_int (b_color b) ++ quoted "^" ++ show_number order (I (b_count b)) (str_int (b_count b)).
(** tm/tape.py 70-74 (Tape.__str__). *)
Definition py_tape_text (t : tape) : text :=
  join (quoted " ") (map py_block_text (rev (t_lspan t)) ++ [quoted "[" ++ str_int (t_scan t) ++ quoted "]"] ++ map py_block_text (t_rspan t)).
End Py.

(** src/tape.rs 28-41 (Block::show). *)
Definition rs_block_text (b : block) : text :=
  if b_count b =? 1 then str_int (b_color b) else str_int (b_color b) ++ quoted "^" ++ str_int (b_count b).
(** src/tape.rs 225-239 (Display of Tape); 598-602: of an EnumTape. *)
Definition rs_tape_text (t : tape) : text :=
  join (quoted " ") (rev (map rs_block_text (t_lspan t)) ++ [quoted "[" ++ str_int (t_scan t) ++ quoted "]"] ++ map rs_block_text (t_rspan t)).
(** src/tape.rs 396-400 (Display of HeadTape). *)
Definition rs_head_text (h : head_tape) : text := quoted "(" ++ str_int (h_head h) ++ quoted ") " ++ rs_tape_text (h_tape h).
