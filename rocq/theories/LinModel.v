(** * Model of machines/machine.h and the six simulators that include it

    Each reads programs from standard input, runs them one after the other in one array of cells, and prints a line for
    each that comes to an end.  [int] and [unsigned int] have 32 bits; reading or writing outside the array, and jumping
    through an entry outside the table of labels, are undefined. *)
From Verif Require Import Base TM ParseModel.

(** The macros that differ between machines/2-2.c, 2-3.c, 2-4.c, 3-2.c, 4-2.c and 5-2.c: STATES, COLORS, XLIMIT, and
    the labels at which CHECK_RECUR stands before the INSTRUCTION (machines/2-4.c 48). *)
Record sim := Sim { sm_states : Z; sm_colors : Z; sm_limit : Z; sm_early : Z -> bool }.

(** machines/2-2.c 3-6. *)
Definition sim_2_2 : sim := Sim 2 2 40 (fun _ => false).
(** machines/2-3.c 3-6. *)
Definition sim_2_3 : sim := Sim 2 3 300 (fun _ => false).
(** machines/2-4.c 3-6, 47-48. *)
Definition sim_2_4 : sim := Sim 2 4 33554432 (fun l => l =? 1).
(** machines/3-2.c 3-6. *)
Definition sim_3_2 : sim := Sim 3 2 65536 (fun _ => false).
(** machines/4-2.c 3-6. *)
Definition sim_4_2 : sim := Sim 4 2 35000000 (fun _ => false).
(** machines/5-2.c 3-6. *)
Definition sim_5_2 : sim := Sim 5 2 134217728 (fun _ => false).

(** Arithmetic of [unsigned int], the type in machines/machine.h 6-8, 15-19. *)
Definition u32 (z : Z) : Z := z mod 2 ^ 32.

(** The global variables, machines/machine.h 4-8, 14-19, but for PROG_NUM.  TAPE is a function; whether a place is in
    the array is checked at each use ([in_tape]). *)
Record mem := Mem { m_tape : Z -> Z; m_pos : Z; m_pmin : Z; m_pmax : Z; m_marks : Z; m_steps : Z }.

(** machines/machine.h 10, 18: TAPE_LEN. *)
Definition in_tape (X : sim) (i : Z) : bool := (0 <=? i) && (i <? 2 * sm_limit X).

(** machines/machine.h 12, 15-18: the values at the start. *)
Definition mem_init (X : sim) : mem := Mem (fun _ => 0) (sm_limit X) (sm_limit X) (sm_limit X + 1) 0 0.

(** TAPE[POS], machines/machine.h 56; [None] outside the array. *)
Definition scan (X : sim) (m : mem) : option Z := if in_tape X (m_pos m) then Some (m_tape m (m_pos m)) else None.

(** Where a piece of code goes (machines/machine.h 28, 43, 54, 69): to label number [l] of the dispatch table, to H, or astray. *)
Inductive goes := Jump (l : Z) (m : mem) | ToH (m : mem) | Astray.

(** ACTION, machines/machine.h 53-54, 58-76: DO_COLOR, HALT_IF_BLANK, DO_SHIFT. *)
Definition action (X : sim) (i : instr) (m : mem) : goes :=
  let '(c, s, t) := i in
  match scan X m with
  | None => Astray
  | Some v =>
      let marks := if negb (c =? 0) && (v =? 0) then u32 (m_marks m + 1)
                   else if (c =? 0) && negb (v =? 0) then u32 (m_marks m - 1) else m_marks m in
      let tape := fun p => if p =? m_pos m then u32 c else m_tape m p in
      if marks =? 0 then ToH (Mem tape (m_pos m) (m_pmin m) (m_pmax m) marks (m_steps m))
      else
        let pos := u32 (m_pos m + (if s then 1 else -1)) in
        let pmin := if pos <? m_pmin m then u32 (m_pmin m - 1) else m_pmin m in
        let pmax := if pos <? m_pmin m then m_pmax m
                    else if m_pmax m <=? pos then u32 (m_pmax m + 1) else m_pmax m in
        Jump t (Mem tape pos pmin pmax marks (m_steps m))
  end.

(** IS_RECUR, machines/machine.h 33-40. *)
Definition is_recur (X : sim) (i : instr) (l : Z) (m : mem) : option bool :=
  let '(_, s, t) := i in
  option_map (fun v => (v =? 0) && (t =? l)
    && (((m_pos m =? m_pmin m) && negb s) || ((u32 (m_pos m + 1) =? m_pmax m) && s))) (scan X m).

(** The instruction variables a1c, a1s, a1t and so on, and A0C, A0S, A0T (machines/machine.h 107-109), in the order of
    LOAD_PROGRAM. *)
Definition act (X : sim) (acts : list instr) (l c : Z) : instr := nth (Z.to_nat (l * sm_colors X + c)) acts (0, true, 0).

(** INSTRUCTION, machines/machine.h 27-28, 42-43, 78-85; machines/2-3.c 8-15; machines/2-4.c 8-17, 47-48. *)
Definition instruction (X : sim) (acts : list instr) (l : Z) (m : mem) : goes :=
  match (if sm_early X l then is_recur X (act X acts l 0) l m else Some false) with
  | None => Astray
  | Some true => ToH m
  | Some false =>
      let m := Mem (m_tape m) (m_pos m) (m_pmin m) (m_pmax m) (m_marks m) (u32 (m_steps m + 1)) in
      if sm_limit X <? m_steps m then ToH m
      else match scan X m with
           | None => Astray
           | Some v =>
               if (1 <=? v) && (v <? sm_colors X) then action X (act X acts l v) m
               else match is_recur X (act X acts l 0) l m with
                    | None => Astray
                    | Some true => ToH m
                    | Some false => action X (act X acts l 0) m
                    end
           end
  end.

(** How the run of a program ends: label H, label EXIT (as in machines/2-2.c 31, 45), or out of bounds. *)
Inductive outcome := AtH (m : mem) | AtExit | Undefined | NoFuel.

(** From label number [l] on: the dispatch table, machines/machine.h 21-23, 68-69; labels without a state lead to
    EXIT (as in machines/2-2.c 45-54).  [fuel] bounds the number of instructions. *)
Fixpoint run (X : sim) (acts : list instr) (fuel : nat) (l : Z) (m : mem) : outcome :=
  if l =? 7 then AtH m
  else if negb ((0 <=? l) && (l <? 7)) then Undefined
  else if sm_states X <=? l then AtExit
  else match fuel with
       | O => NoFuel
       | S fuel =>
           match instruction X acts l m with
           | Jump l m => run X acts fuel l m
           | ToH m => AtH m
           | Astray => Undefined
           end
       end.

(** WIPE_AND_SCORE, machines/machine.h 45-51; the cells of the loop at once. *)
Definition wipe (X : sim) (m : mem) : option mem :=
  if (m_pmin m <? m_pmax m) && negb (in_tape X (m_pmin m) && in_tape X (m_pmax m - 1)) then None
  else Some (Mem (fun p => if (m_pmin m <=? p) && (p <? m_pmax m) then 0 else m_tape m p)
                 (sm_limit X) (sm_limit X) (sm_limit X + 1) (m_marks m) (m_steps m)).

(** NEXT, machines/machine.h 87: the next character, -1 at the end. *)
Definition next (input : text) : Z * text := match input with [] => (-1, []) | c :: input => (c, input) end.

(** READ_ACTION, machines/machine.h 89-102. *)
Definition read_action (input : text) : instr * text :=
  let '(c, input) := next input in
  let '(s, input) := next input in
  let '(t, input) := next input in
  ((c - 48, negb (s =? 76), t - 65), input).

(** LOAD_PROGRAM, as in machines/2-2.c 10-14, but for READ_BOUND. *)
Fixpoint read_actions (k : nat) (input : text) : list instr * text :=
  match k with
  | O => ([], input)
  | S k => let '(i, input) := read_action input in
           let '(l, input) := read_actions k input in (i :: l, input)
  end.

(** FORMAT_INSTR, machines/machine.h 104-105, printed with %c%c%c. *)
Definition format_instr (i : instr) : text :=
  let '(c, s, t) := i in [(c + 48) mod 256; if s then 82 else 76; (t + 65) mod 256].

(** The part of the printf formats for the instructions, as in machines/2-2.c 35: two spaces before each new
    state, else one. [k] counts instructions. *)
Fixpoint format_instrs (X : sim) (k : Z) (l : list instr) : text :=
  match l with
  | [] => []
  | i :: l => (if k mod sm_colors X =? 0 then [32; 32] else [32]) ++ format_instr i ++ format_instrs X (k + 1) l
  end.

(** The printf, as in machines/2-2.c 34-41.  PROG_NUM is not taken to wrap around. *)
Definition line (X : sim) (num : Z) (acts : list instr) (m : mem) : text :=
  show_num num ++ [32; 124; 32] ++ [49; 82; 66] ++ format_instrs X 1 (tl acts)
  ++ [32; 124; 32] ++ show_num (m_steps m) ++ [32; 124; 32] ++ show_num (m_marks m) ++ [10].

(** What is printed, and how the process ends: by exit(0) (as in machines/2-2.c 47), or in some way that C does not define. *)
Inductive ending := Exited | Crashed | Unfinished.

(** main, as in machines/2-2.c 19-55.  [fuel] bounds the number of programs. *)
Fixpoint main_loop (X : sim) (fuel : nat) (num : Z) (input : text) (m : mem) : text * ending :=
  match fuel with
  | O => ([], Unfinished)
  | S fuel =>
      let num := num + 1 in
      let m := Mem (m_tape m) (m_pos m) (m_pmin m) (m_pmax m) 0 0 in
      let '(l, input) := read_actions (Z.to_nat (sm_states X * sm_colors X) - 1) input in
      let '(c, input) := next input in
      if c =? -1 then ([100; 111; 110; 101; 10], Exited)
      else
        let acts := (1, true, 1) :: l in
        match run X acts (Z.to_nat (sm_limit X) + 1) 0 m with
        | AtH m =>
            match wipe X m with
            | None => ([], Crashed)
            | Some m =>
                let '(out, e) := main_loop X fuel num input m in
                ((if m_steps m <? sm_limit X then line X num acts m else []) ++ out, e)
            end
        | AtExit => ([100; 111; 110; 101; 10], Exited)
        | Undefined => ([], Crashed)
        | NoFuel => ([], Unfinished)
        end
  end.

(** machines/2-2.c 19-55: the whole run on an input. *)
Definition simulate (X : sim) (input : text) : text * ending :=
  main_loop X (S (length input)) 0 input (mem_init X).
