(** * Model of the command line tools (the scripts at top level) and of branch_last

    [sys.stdin] is given as one text, in which every line ending has become a line feed already (universal newlines). *)
From Verif Require Import Base TM ProgModel ParseModel NormModel GraphModel CModel DotModel InstrSeqModel ExpandModel NumShowModel.
From Verif Require Import ReasonModel SegModel ApiModel.
Local Open Scope Z_scope.
Local Open Scope string_scope.
Local Open Scope list_scope.

(** [for prog in sys.stdin], normalize.py 14, c_prog.py 7, instr_seq.py 21, dump_graphs.py 11, just_so.py 50: the lines, each
    with its line feed; the last may lack it. *)
Fixpoint stdin_lines (input : text) : list text :=
  match input with
  | [] => []
  | c :: input =>
      if c =? 10 then [c] :: stdin_lines input
      else match stdin_lines input with [] => [[c]] | l :: ls => (c :: l) :: ls end
  end.

(** [print(...)] of one text, normalize.py 21, c_prog.py 8-10. *)
Definition print (s : text) : text := s ++ [10].

(** The loop of the scripts that print as they go, normalize.py 14-21, c_prog.py 7-10, instr_seq.py 21-22: what was printed,
    and whether the loop came to its end without an exception. *)
Fixpoint for_lines (f : text -> option text) (lines : list text) : text * bool :=
  match lines with
  | [] => ([], true)
  | prog :: lines =>
      match f prog with
      | None => ([], false)
      | Some out => let '(rest, ok) := for_lines f lines in (out ++ rest, ok)
      end
  end.

(** normalize.py 15-19: the function called for a line. *)
Definition normalizer (tree : bool) (prog : text) : option text :=
  if tree then tree_norm prog else if existsb (Z.eqb SPACE) prog then normalize prog else expand prog.
(** normalize.py 7-21. *)
Definition normalize_py (tree : bool) (input : text) : text * bool :=
  for_lines (fun prog => option_map print (normalizer tree prog)) (stdin_lines input).

(** c_prog.py 6-10. *)
Definition c_prog_py (input : text) : text * bool :=
  for_lines (fun prog => option_map print (make_c (strip prog))) (stdin_lines input).

(** [{:2d}], instr_seq.py 11. *)
Definition two_wide (n : Z) : text := let s := str_int n in repeat SPACE (2 - length s) ++ s.
(** instr_seq.py 9-16: the line of one step. *)
Definition seq_line (e : text * Z * slot) : text :=
  let '(partial, step, sl) := e in
  print (lit "        """ ++ partial ++ lit """: (" ++ two_wide step ++ lit ", '" ++ show_slot sl ++ lit "'),").
(** instr_seq.py 6-18 (format_sequence).  Simplified: if instr_seq raises, the first line, printed before, is left out. *)
Definition format_sequence (lim : nat) (prog : text) : option text :=
  option_map (fun steps => print (lit "    """ ++ strip prog ++ lit """: {") ++ concat (map seq_line steps) ++ print (lit "    },"))
    (instr_seq lim prog).
(** instr_seq.py 20-22. *)
Definition instr_seq_py (lim : nat) (input : text) : text * bool := for_lines (format_sequence lim) (stdin_lines input).

(** just_so.py 30-34: the options of the choice of the decider. *)
Inductive reach := RHalt | RBlank | RSpinout | RSegment | RNone.
(** just_so.py 14, 38-39, 46: CYCLES. *)
Definition js_cycles (which : reach) (cycles : option nat) : nat :=
  match which with
  | RSegment => 20
  | _ => match cycles with Some (S n) => S n | _ => 2000 end
  end.
(** just_so.py 15, 19, 41-47: CANT_REACH(prog, CYCLES) is not None; [None] is a panic, or that the bounds of the searches of
    SegModel.v do not suffice. *)
Definition cant_reach (which : reach) (rfuel fuel cycles : nat) (prog : text) : option bool :=
  let of_outcome o := match o with Some (OSome _) => Some true | Some ONone => Some false | _ => None end in
  match which with
  | RHalt => of_outcome (py_cant_halt prog cycles)
  | RBlank => of_outcome (py_cant_blank prog cycles)
  | RSpinout | RNone => of_outcome (py_cant_spin_out prog cycles)
  | RSegment =>
      match py_segments prog (Z.of_nat cycles) rfuel fuel with
      | Some (SegSome _) => Some true
      | Some SegNone => Some false
      | _ => None
      end
  end.
(** just_so.py 18-22 (worker): what it prints. *)
Definition worker (which : reach) (rfuel fuel cycles : nat) (prog : text) : option text :=
  match cant_reach which rfuel fuel cycles prog with
  | None => None
  | Some true => Some []
  | Some false => Some (print (strip prog))
  end.
(** just_so.py 25-50: what the workers print, in the order of the lines of the input.  The pool prints these in any order;
    the processes are taken to be forked, so that they see CYCLES and CANT_REACH as set.  [None] if a worker raises. *)
Definition just_so_py (which : reach) (cycles : option nat) (rfuel fuel : nat) (input : text) : option (list text) :=
  map_opt (worker which rfuel fuel (js_cycles which cycles)) (stdin_lines input).

(** [prog.replace(" ", "_")], dump_graphs.py 16. *)
Definition underscored (prog : text) : text := map (fun c => if c =? SPACE then 95 else c) prog.
(** [shlex.split], dump_graphs.py 15: cut at white space.  Simplified: [None] if the text holds a quote or a backslash. *)
Fixpoint shlex_go (word : option text) (s : text) : list text :=
  match s with
  | [] => match word with Some w => [w] | None => [] end
  | c :: s =>
      if (c =? 32) || (c =? 9) || (c =? 10) || (c =? 13)
      then match word with Some w => w :: shlex_go None s | None => shlex_go None s end
      else shlex_go (Some (match word with Some w => w | None => [] end ++ [c])) s
  end.
(** [shlex.split], dump_graphs.py 15. *)
Definition shlex_split (s : text) : option (list text) :=
  if existsb (fun c => (c =? 34) || (c =? 39) || (c =? 92)) s then None else Some (shlex_go None s).
(** dump_graphs.py 12-16: for a line, what is written to the file at [path], and the command that is called. *)
Definition draw_line (path prog : text) : option (text * list text) :=
  match make_dot prog, shlex_split (lit "dot " ++ path ++ lit " -T png -o " ++ underscored prog ++ lit ".png") with
  | Some dot, Some args => Some (dot, args)
  | _, _ => None
  end.
(** dump_graphs.py 8-16. *)
Definition dump_graphs_py (path input : text) : option (list (text * list text)) := map_opt (draw_line path) (stdin_lines input).

(** tools/__init__.py 14-15 (get_params). *)
Definition get_params (prog : text) : option (nat * nat) :=
  match parse prog with Some (row :: rows) => Some (length (row :: rows), length row) | _ => None end.
(** [product(range(colors), (True, False), range(states))], test/test_turing.py 214-218. *)
Definition all_instrs (states colors : nat) : list instr :=
  flat_map (fun c => flat_map (fun sh => map (fun s => (c, sh, s)) (range (Z.of_nat states))) [true; false]) (range (Z.of_nat colors)).
(** test/test_turing.py 201-223 (branch_last). *)
Definition branch_last (prog : text) : option (list text) :=
  match tcompile prog, get_params prog with
  | Some comp, Some (states, colors) =>
      let all_slots := flat_map (fun s => map (fun c => (s, c)) (range (Z.of_nat colors))) (range (Z.of_nat states)) in
      match filter (fun sl => match comp_get comp sl with None => true | Some _ => false end) all_slots with
      | [open_slot] => Some (map (fun instr => py_show_comp (comp ++ [(open_slot, instr)]) None) (all_instrs states colors))
      | _ => None
      end
  | _, _ => None
  end.
