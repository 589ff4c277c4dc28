(** * Model of machines/structured: Turing machines written as C programs

    The statements of C that these files use, the macros of machines/structured/machine.h, and the [main] of each file.
    [unsigned int] has 32 bits; reading or writing outside the array is undefined.  Simplified: STEPS and MARKS, of type
    [long], are unbounded. *)
From Verif Require Import Base TM LinModel.

(** ** Statements *)

(** Conditions on SCAN: machines/structured/machine.h 30, 38 (BLANK), and as in machines/structured/9340.c 24 (||). *)
Inductive cond :=
| Always
| Scan (c : Z)
| Not (b : cond)
| Or (a b : cond).

(** The statements of machines/structured/*.c (as 47176870.c 5-64).  A case of a [switch] holds all that stands up to the next case. *)
Inductive stmt :=
| Write (c : Z)
| Move (right_ : bool)
| CheckRecur (right_ : bool)
| If (b : cond) (yes no : list stmt)
| While (b : cond) (body : list stmt)
| DoWhile (body : list stmt) (b : cond)
| Switch (cases : list (Z * list stmt))
| Break
| Continue
| Goto (l : Z)
| Return
| CheckSteps.

(** machines/structured/machine.h 38-40, 48-49; [if] without [else]; [while (1)]. *)
Notation BLANK := (Scan 0).
Notation MARK := (Not (Scan 0)).
Notation PRINT := (Write 1).
Notation ERASE := (Write 0).
Notation LEFT := (Move false).
Notation RIGHT := (Move true).
Notation If1 b yes := (If b yes []).
Notation Forever body := (While Always body).

(** The body of [main] (as machines/structured/21.c 5-37), cut up at its labels (letters; what stands before the first is under 0). *)
Definition source : Type := list (Z * list stmt).
(** A file: TAPELEN (as in machines/structured/21.c 1) and [main]. *)
Record cfile := CFile { f_len : Z; f_main : source }.

(** Label H, as in machines/structured/21.c 35. *)
Definition labelH : Z := 72.
(** The end of every file, as in machines/structured/21.c 35-37. *)
Definition ending : Z * list stmt := (labelH, [CheckSteps]).

(** ** Running *)

(** What is left to do: statements, a loop to be tested again, the end of a switch.  C semantics, as needed for
    machines/structured/*.c (as 47176870.c 5-64). *)
Inductive frame :=
| Todo (s : list stmt)
| Loop (b : cond) (body : list stmt)
| EndSwitch.

(** [break] leaves the innermost loop or switch; as in machines/structured/47176870.c 53. *)
Fixpoint break_out (k : list frame) : list frame :=
  match k with
  | [] => []
  | Todo _ :: k => break_out k
  | Loop _ _ :: k | EndSwitch :: k => k
  end.
(** [continue] goes to the test of the innermost loop; as in machines/structured/2819.c 27. *)
Fixpoint continue_with (k : list frame) : list frame :=
  match k with
  | [] => []
  | Todo _ :: k | EndSwitch :: k => continue_with k
  | Loop b s :: k => Loop b s :: k
  end.
(** [goto], as in machines/structured/31315.c 12, or machine.h 28. *)
Fixpoint goto (f : source) (l : Z) : list frame :=
  match f with
  | [] => []
  | (l', s) :: f' => if l' =? l then [Todo (concat (s :: map snd f'))] else goto f' l
  end.
(** [switch]: from the matching case on, through the cases after it; as in machines/structured/2333909.c 14-39. *)
Fixpoint cases_from (cs : list (Z * list stmt)) (v : Z) : list stmt :=
  match cs with
  | [] => []
  | (c, s) :: cs' => if c =? v then concat (s :: map snd cs') else cases_from cs' v
  end.

(** A condition, for the value of SCAN, [None] outside the array; machines/structured/machine.h 30, 38. *)
Fixpoint test (b : cond) (v : option Z) : option bool :=
  match b with
  | Always => Some true
  | Scan c => match v with Some x => Some (x =? c) | None => None end
  | Not b => match test b v with Some t => Some (negb t) | None => None end
  | Or a b => match test a v with Some true => Some true | Some false => test b v | None => None end
  end.

(** TAPE[POS], machines/structured/machine.h 5, 30. *)
Definition scan (len : Z) (m : mem) : option Z :=
  if (0 <=? m_pos m) && (m_pos m <? len) then Some (m_tape m (m_pos m)) else None.

(** WRITE, machines/structured/machine.h 32-36, for a cell that holds [v]. *)
Definition write_cell (c v : Z) (m : mem) : mem :=
  let marks := if negb (c =? 0) && (v =? 0) then m_marks m + 1
               else if (c =? 0) && negb (v =? 0) then m_marks m - 1 else m_marks m in
  Mem (write (m_tape m) (m_pos m) c) (m_pos m) (m_pmin m) (m_pmax m) marks (m_steps m).

(** LEFT and RIGHT with SHIFT_EDGE and STEPS++, machines/structured/machine.h 42, 44-49. *)
Definition moved (right_ : bool) (m : mem) : mem :=
  let pos := u32 (if right_ then m_pos m + 1 else m_pos m - 1) in
  let pmin := if pos <? m_pmin m then u32 (m_pmin m - 1) else m_pmin m in
  let pmax := if pos <? m_pmin m then m_pmax m else if m_pmax m <=? pos then u32 (m_pmax m + 1) else m_pmax m in
  Mem (m_tape m) pos pmin pmax (m_marks m) (m_steps m + 1).

(** SHIFT_INTO_EDGE, machines/structured/machine.h 54-56. *)
Definition into_edge (right_ : bool) (m : mem) : bool :=
  ((m_pos m =? m_pmin m) && negb right_) || ((u32 (m_pos m + 1) =? m_pmax m) && right_).

(** What comes of a statement of machines/structured/*.c (as 47176870.c 5-64): it goes on, it has come to CHECK_STEPS, [main] returns, or it is undefined. *)
Inductive outcome :=
| Goes (k : list frame) (m : mem)
| Checks (m : mem)
| Returns
| Undefined.

(** One statement, or one test; machines/structured/machine.h 23 (CHECK_STEPS), 28 (HALT_IF_BLANK), 42 (STEP), 58-59
    (CHECK_RECUR); C semantics for the rest of machines/structured/*.c. *)
Definition c_step (F : cfile) (k : list frame) (m : mem) : outcome :=
  let v := scan (f_len F) m in
  match k with
  | [] => Returns
  | Todo [] :: k => Goes k m
  | Loop b s :: k' =>
    match test b v with
    | Some true => Goes (Todo s :: k) m
    | Some false => Goes k' m
    | None => Undefined
    end
  | EndSwitch :: k => Goes k m
  | Todo (s :: r) :: k =>
    match s with
    | Write c => match v with Some x => Goes (Todo r :: k) (write_cell c x m) | None => Undefined end
    | Move right_ =>
      let m' := moved right_ m in
      if (m_marks m' =? 0) && (0 <? m_steps m') then Goes (goto (f_main F) labelH) m' else Goes (Todo r :: k) m'
    | CheckRecur right_ =>
      if into_edge right_ m then Goes (goto (f_main F) labelH) m else Goes (Todo r :: k) m
    | If b yes no =>
      match test b v with
      | Some t => Goes (Todo (if t then yes else no) :: Todo r :: k) m
      | None => Undefined
      end
    | While b body =>
      match test b v with
      | Some true => Goes (Todo body :: Loop b body :: Todo r :: k) m
      | Some false => Goes (Todo r :: k) m
      | None => Undefined
      end
    | DoWhile body b => Goes (Todo body :: Loop b body :: Todo r :: k) m
    | Switch cases =>
      match v with
      | Some x => Goes (Todo (cases_from cases x) :: EndSwitch :: Todo r :: k) m
      | None => Undefined
      end
    | Break => Goes (break_out k) m
    | Continue => Goes (continue_with k) m
    | Goto l => Goes (goto (f_main F) l) m
    | Return => Returns
    | CheckSteps => Checks m
    end
  end.

(** As many statements as [fuel] says; how a body of machines/structured/*.c (as 21.c 5-37) is run. *)
Fixpoint c_run (F : cfile) (fuel : nat) (k : list frame) (m : mem) : outcome :=
  match fuel with
  | O => Goes k m
  | S fuel => match c_step F k m with Goes k' m' => c_run F fuel k' m' | o => o end
  end.

(** CENTER_SQUARE, machines/structured/machine.h 6. *)
Definition center (F : cfile) : Z := f_len F / 2.
(** machines/structured/machine.h 5-10, 25-27: the values at the start. *)
Definition c_mem (F : cfile) : mem := Mem (fun _ => 0) (center F) (center F) (center F + 1) 0 0.
(** [main] with [fuel] statements; machines/structured/*.c (as 21.c 5-37). *)
Definition c_main (F : cfile) (fuel : nat) : outcome :=
  c_run F fuel [Todo (concat (map snd (f_main F)))] (c_mem F).

(** ** The files *)

(** machines/structured/21.c 1-37 *)
Definition file_21 : cfile := CFile 20 [(0, [
  While BLANK [
    PRINT; RIGHT;
    While BLANK [PRINT; LEFT];
    ERASE; RIGHT;
    While BLANK [PRINT; LEFT];
    LEFT];
  LEFT]); ending].

(** machines/structured/34.c 1-51 *)
Definition file_34 : cfile := CFile 20 [(0, [
  Forever [
    If BLANK [PRINT; RIGHT] [LEFT];
    If BLANK [PRINT; LEFT] [LEFT; Break]];
  Forever [
    If BLANK [PRINT; RIGHT] [ERASE; LEFT]]]); ending].

(** machines/structured/1434.c 1-108 *)
Definition file_1434 : cfile := CFile 1000 [(0, [
  Write 1; RIGHT;
  LEFT;
  Write 3; RIGHT;
  Forever [
    Switch [
      (2, [Write 1; RIGHT;
           If1 (Scan 1) [Write 2];
           Break]);
      (0, [Write 1; LEFT;
           While (Scan 3) [Write 1; LEFT];
           If MARK [
             RIGHT;
             If1 (Scan 1) [Write 2]]
           [ Write 1; LEFT;
             If1 BLANK [
               Write 2; RIGHT;
               Write 3; RIGHT;
               Continue]]])];
    LEFT;
    While BLANK [CheckRecur false; LEFT];
    Switch [
      (1, [Write 3; Break]);
      (2, [Write 0; Break]);
      (3, [Write 2; RIGHT; Write 3; Break])];
    RIGHT]]); ending].

(** machines/structured/2819.c 1-71 *)
Definition file_2819 : cfile := CFile 300 [(0, [
  PRINT; RIGHT;
  PRINT; LEFT;
  Forever [
    If BLANK [
      PRINT; RIGHT;
      If1 MARK [RIGHT; Continue];
      PRINT; RIGHT]
    [ LEFT;
      While BLANK [RIGHT];
      ERASE; LEFT];
    While MARK [
      RIGHT;
      While BLANK [CheckRecur true; RIGHT];
      ERASE; LEFT];
    PRINT; LEFT]]); ending].

(** machines/structured/9340.c 1-69 *)
Definition file_9340 : cfile := CFile 300 [(0, [
  Write 1; RIGHT;
  RIGHT;
  Write 1; RIGHT;
  Write 1; RIGHT;
  Write 1; RIGHT;
  Forever [
    While (Or (Scan 0) (Scan 2)) [
      If (Scan 0) [Write 2; LEFT] [If1 (Scan 2) [Write 0; RIGHT]]];
    If (Scan 1) [Write 3; LEFT] [If1 (Scan 3) [Write 0; RIGHT]];
    While (Or (Scan 1) (Scan 2)) [
      If (Scan 1) [Write 2] [If1 (Scan 2) [Write 1]];
      RIGHT];
    If (Scan 0) [Write 1] [If1 (Scan 3) [Write 2]];
    RIGHT]]); ending].

(** machines/structured/31315.c 1-75 *)
Definition file_31315 : cfile := CFile 1000 [(0, []);
  (65, [If BLANK [PRINT; RIGHT; Goto 66] [LEFT; Goto 67]]);
  (66, [If BLANK [LEFT; Goto 67] [ERASE; RIGHT; Goto 68]]);
  (67, [If MARK [LEFT; Goto 69] [PRINT; RIGHT; Goto 68]]);
  (68, [If MARK [LEFT; Goto 65] [PRINT; RIGHT; Goto 69]]);
  (69, [If BLANK [PRINT; LEFT; Goto 65] [ERASE; LEFT; Goto 66]]);
  ending].

(** machines/structured/66345.c 1-54 *)
Definition file_66345 : cfile := CFile 1030 [(0, [
  Forever [
    If BLANK [
      PRINT; RIGHT;
      If1 MARK [ERASE; LEFT; Continue];
      PRINT; LEFT]
    [ ERASE; LEFT;
      While BLANK [PRINT; RIGHT];
      RIGHT];
    While MARK [ERASE; LEFT];
    PRINT; LEFT]]); ending].

(** machines/structured/2315619.c 1-66 *)
Definition file_2315619 : cfile := CFile 48 [(0, [
  Forever [
    If (Scan 2) [
      Write 1; LEFT;
      Forever [
        If1 (Scan 0) [Write 1; RIGHT; Goto 72];
        If1 (Scan 1) [Write 2; LEFT; Break];
        Write 0; LEFT]]
    [ If BLANK [Write 1; RIGHT] [Write 2; LEFT];
      While MARK [
        If (Scan 1) [Write 2] [Write 1];
        RIGHT];
      Write 1; LEFT]]]); ending].

(** machines/structured/2333909.c 1-68 *)
Definition file_2333909 : cfile := CFile 4065 [(0, [
  Write 1; RIGHT;
  Forever [
    Switch [
      (0, [CheckRecur false; Write 1; LEFT; Continue]);
      (3, [Write 2; RIGHT; Continue]);
      (1, [Write 3; RIGHT; Break]);
      (2, [Write 3; LEFT; Break])];
    While (Scan 3) [Write 1; LEFT];
    Switch [
      (0, [Write 1; RIGHT; Break]);
      (1, [Write 2; RIGHT; Break]);
      (2, [Write 1; LEFT; Break])]]]); ending].

(** machines/structured/3932964.c 1-63 *)
Definition file_3932964 : cfile := CFile 2080 [(0, [
  Write 1; RIGHT;
  While (Not (Scan 3)) [
    Switch [
      (0, [Write 1; LEFT; Break]);
      (2, [Write 3; RIGHT; Break]);
      (1, [LEFT;
           While MARK [
             Switch [
               (1, [Write 2; LEFT; Break]);
               (2, [Write 1; RIGHT; Break]);
               (3, [Write 1; RIGHT; Break])]];
           Write 1; RIGHT;
           Break])]];
  RIGHT]); ending].

(** machines/structured/15721562.c 1-124; [loop] stands there twice. *)
Definition file_15721562 : cfile :=
  let loop := Forever [
    If1 (Scan 0) [Break];
    If1 (Scan 4) [Write 1; RIGHT; Goto 72];
    If (Scan 1) [Write 3] [If1 (Scan 3) [Write 1]];
    LEFT] in
  CFile 10000 [(0, [
  Write 1; RIGHT;
  Write 2; LEFT;
  Write 3; LEFT;
  Write 3; RIGHT;
  Forever [
    While (Scan 1) [Write 1; RIGHT];
    If1 (Scan 2) [
      Write 1; RIGHT;
      Write 2; LEFT;
      loop;
      Write 3; RIGHT;
      Continue];
    Write 1; LEFT;
    While (Scan 1) [Write 1; LEFT];
    If1 (Scan 4) [
      Write 1; LEFT;
      loop;
      Write 3; RIGHT;
      Continue];
    If (Scan 0) [Write 4] [Write 1];
    RIGHT]]); ending].

(** machines/structured/32779477.c 1-56 *)
Definition file_32779477 : cfile := CFile 20000 [(0, [
  PRINT; RIGHT;
  PRINT; RIGHT;
  Forever [
    While BLANK [PRINT; LEFT];
    LEFT;
    If MARK [
      LEFT;
      While MARK [ERASE; RIGHT]]
    [ PRINT;
      DoWhile [RIGHT] MARK;
      PRINT];
    RIGHT]]); ending].

(** machines/structured/47176870.c 1-64 *)
Definition file_47176870 : cfile := CFile 24500 [(0, [
  Forever [
    If MARK [LEFT]
    [ PRINT;
      DoWhile [RIGHT] MARK;
      PRINT; RIGHT];
    If BLANK [
      PRINT; RIGHT;
      While MARK [LEFT];
      PRINT; LEFT]
    [ ERASE; LEFT;
      If1 BLANK [PRINT; RIGHT; Break];
      ERASE; LEFT]]]); ending].

(** machines/structured/455790469742.c 1-54; [body] is what stands after [return 0]. *)
Definition body_455790469742 : list stmt := [
  PRINT; RIGHT;
  Forever [
    While MARK [RIGHT];
    RIGHT;
    While BLANK [PRINT; LEFT];
    LEFT;
    While MARK [ERASE; RIGHT];
    PRINT; RIGHT;
    While BLANK [LEFT];
    ERASE; RIGHT]].
(** machines/structured/455790469742.c 1-54 *)
Definition file_455790469742 : cfile := CFile 3000000 [(0, Return :: body_455790469742); ending].

(** machines/structured/455790469746.c 1-61; what stands after [return 0]. *)
Definition body_455790469746 : list stmt := [
  PRINT; RIGHT;
  Forever [
    While MARK [ERASE; LEFT];
    LEFT;
    While MARK [LEFT];
    LEFT;
    While BLANK [PRINT; RIGHT];
    ERASE; RIGHT;
    If BLANK [PRINT; LEFT] [LEFT; PRINT; RIGHT]]].
(** machines/structured/455790469746.c 1-61 *)
Definition file_455790469746 : cfile := CFile 3000000 [(0, Return :: body_455790469746); ending].

(** machines/structured/7021292621.c 1-70; what stands after [return 0]. *)
Definition labels_7021292621 : source := [
  (65, [Switch [
    (0, [Write 1; RIGHT; Goto 66]);
    (1, [Write 4; LEFT; Goto 65]);
    (2, [Write 1; LEFT; Goto 65]);
    (3, [Write 1; RIGHT; Goto 72]);
    (4, [Write 2; RIGHT; Goto 66])]]);
  (66, [Switch [
    (0, [Write 2; LEFT; Goto 66]);
    (1, [Write 3; LEFT; Goto 65]);
    (2, [Write 1; LEFT; Goto 66]);
    (3, [Write 2; RIGHT; Goto 65]);
    (4, [Write 0; RIGHT; Goto 66])]]);
  ending].
(** machines/structured/7021292621.c 1-70 *)
Definition file_7021292621 : cfile := CFile 110 ((0, [Return]) :: labels_7021292621).
