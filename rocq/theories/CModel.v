(** * Model of tools/c.py: programs written out as C *)
From Coq Require String Ascii.
From Verif Require Import Base TM ProgModel ParseModel NormModel.
Export String.StringSyntax.
Local Open Scope string_scope.

(** A string constant of tools/c.py 1-195 as code points; not a function of /repo. *)
Fixpoint lit (s : String.string) : text :=
  match s with
  | String.EmptyString => []
  | String.String c s => Z.of_nat (Ascii.nat_of_ascii c) :: lit s
  end.

(** Line breaks in the templates of tools/c.py 83-93, 113-120, 132-137, 147-149, 191-203. *)
Definition nl : text := [10].
(** [' ' * space], tools/c.py 66. *)
Definition spaces (n : nat) : text := repeat 32 n.

(** tools/c.py 13-14. *)
Definition make_comment (st co : Z) : text := lit "// " ++ [show_state (Some st)] ++ show_num co.
(** tools/c.py 17-18. *)
Definition make_shift (sh : bool) : text := lit (if sh then "RIGHT" else "LEFT") ++ lit ";".
(** tools/c.py 21-22. *)
Definition make_trans (tr : Z) : text :=
  lit "goto " ++ (if 0 <=? tr then [show_state (Some tr)] else lit "_") ++ lit ";".
(** tools/c.py 25-26. *)
Definition make_binary_write (pr : Z) : text := lit (if pr =? 1 then "PRINT" else "ERASE") ++ lit ";".
(** tools/c.py 29-30. *)
Definition make_n_way_write (pr : Z) : text := lit "WRITE(" ++ show_num pr ++ lit ");".

(** tools/c.py 33-62 (make_instruction). *)
Definition make_instruction (st co : Z) (i : instr) (binary skip_trans : bool) : list text :=
  let '(pr, sh, tr) := i in
  [make_comment st co]
  ++ (if negb (co =? pr) then [if binary then make_binary_write pr else make_n_way_write pr] else [])
  ++ [make_shift sh]
  ++ (if skip_trans then [] else [make_trans tr]).

(** tools/c.py 65-66. *)
Definition indent (space : nat) (lines : list text) : text := join (nl ++ spaces space) lines.

(** tools/c.py 83-93 (IF_TEMPLATE). *)
Definition if_template (a b : text) : text :=
  nl ++ lit "  if (BLANK)" ++ nl ++ lit "    {" ++ nl ++ spaces 6 ++ a ++ nl ++ lit "    }"
  ++ nl ++ lit "  else" ++ nl ++ lit "    {" ++ nl ++ spaces 6 ++ b ++ nl ++ lit "    }" ++ nl.
(** tools/c.py 113-120 (WHILE_TEMPLATE). *)
Definition while_template (test loop rest : text) : text :=
  nl ++ lit "  while (" ++ test ++ lit ") {" ++ nl ++ spaces 4 ++ loop ++ nl ++ lit "  }"
  ++ nl ++ nl ++ spaces 2 ++ rest ++ nl.
(** tools/c.py 132-137 (SWITCH_TEMPLATE). *)
Definition switch_template (cases : text) : text :=
  nl ++ lit "  switch (SCAN) {" ++ nl ++ cases ++ nl ++ lit "  }" ++ nl.
(** tools/c.py 147-149 (CASE_TEMPLATE). *)
Definition case_template (co lines : text) : text :=
  lit "    case " ++ co ++ lit ":" ++ nl ++ spaces 6 ++ lines.

(** tools/c.py 96-110 (make_while). *)
Definition make_while (st : Z) (loop_in rest_in : instr) (mark : bool) : text :=
  let m := if mark then 1 else 0 in
  while_template (lit (if negb mark then "BLANK" else "!BLANK"))
    (indent 4 (make_instruction st m loop_in true true))
    (indent 2 (make_instruction st (1 - m) rest_in true false)).

(** tools/c.py 69-80 (make_if_else). *)
Definition make_if_else (st : Z) (in0 in1 : instr) : text :=
  let '(_, _, tr0) := in0 in
  let '(_, _, tr1) := in1 in
  if st =? tr0 then make_while st in0 in1 false
  else if st =? tr1 then make_while st in1 in0 true
  else if_template (indent 6 (make_instruction st 0 in0 true false)) (indent 6 (make_instruction st 1 in1 true false)).

(** tools/c.py 140-144 (make_case). *)
Definition make_case (st co : Z) (i : instr) : text :=
  case_template (show_num co) (indent 6 (make_instruction st co i false false)).

(** tools/c.py 123-129 (make_n_way_switch). *)
Definition make_n_way_switch (st : Z) (instrs : list instr) : text :=
  switch_template (join (nl ++ nl) (map (fun e => make_case st (fst e) (snd e)) (enum 0 instrs))).

(** tools/c.py 152-158 (make_switch). *)
Definition make_switch (st : Z) (instrs : list instr) : text :=
  match instrs with
  | [in0; in1] => make_if_else st in0 in1
  | _ => make_n_way_switch st instrs
  end.

(** tools/c.py 161-162 (make_label). *)
Definition make_label (st : Z) : text := lit " " ++ [show_state (Some st)] ++ lit ":".

(** [instr or (1, True, -1)], tools/c.py 177. *)
Definition or_halt (i : option instr) : instr := match i with Some i => i | None => (1, true, -1) end.

(** tools/c.py 165-181 (parse_prog, make_labels). *)
Definition make_labels (parsed : list (list (option instr))) : text :=
  join nl (map (fun e => make_label (fst e) ++ make_switch (fst e) (map or_halt (snd e))) (enum 0 parsed)).

(** [replace(' _', ' H')], tools/c.py 188. *)
Fixpoint replace_halt (t : text) : text :=
  match t with
  | [] => []
  | c :: t' =>
      match t' with
      | d :: s => if (c =? 32) && (d =? 95) then 32 :: 72 :: replace_halt s else c :: replace_halt t'
      | [] => [c]
      end
  end.

(** tools/c.py 191-203 (PROG_TEMPLATE). *)
Definition prog_template (prog labels : text) : text :=
  lit "#define PROGRAM """ ++ prog ++ lit """" ++ nl ++ nl
  ++ lit "#define TAPELEN 100" ++ nl ++ nl
  ++ lit "#include ""machine.h""" ++ nl ++ nl
  ++ lit "int main(void)" ++ nl ++ lit "{" ++ nl ++ labels ++ nl
  ++ lit " H:" ++ nl ++ lit "  CHECK_STEPS;" ++ nl ++ lit "}".

(** tools/c.py 184-188 (make_c); [None] if the program cannot be parsed. *)
Definition make_c (prog : text) : option text :=
  match parse prog with
  | None => None
  | Some parsed => Some (replace_halt (prog_template prog (make_labels parsed)))
  end.
