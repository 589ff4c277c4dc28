(** * Specification: what the programs of machines/structured are to do *)
From Verif Require Import Base TM ProgModel ParseModel CSpec LinModel LinSpec StructModel.
Local Open Scope string_scope.
Local Open Scope list_scope.
Local Open Scope Z_scope.

(** The table of a machine as it is written: "1RB 1L_  1LB 0RC  1LC 1LA", a slot without instruction as "...", the
    halting state as "_" or "H". *)
Definition read_slot (a b c : Z) : option instr :=
  if a =? 46 then None else Some (a - 48, b =? 82, if (c =? 95) || (c =? 72) then -1 else c - 65).
Fixpoint read_rows (s : text) (row : list (option instr)) : list (list (option instr)) :=
  match s with
  | a :: b :: c :: r =>
    let row := row ++ [read_slot a b c] in
    match r with
    | 32 :: 32 :: r' => row :: read_rows r' []
    | 32 :: r' => read_rows r' row
    | _ => [row]
    end
  | _ => [row]
  end.
Definition rows (s : text) : list (list (option instr)) := read_rows s [].
Definition machine_of (s : text) : program := fun q c =>
  if (0 <=? q) && (0 <=? c) then nth (Z.to_nat c) (nth (Z.to_nat q) (rows s) []) None else None.

(** Reasons to stop after [n] moves: the machine has halted; its tape is blank; or, in one of the states [spins], it
    spins out over the edge of what it has visited. *)
Definition stops (M : program) (spins : list Z) (n : nat) (c : config) : Prop :=
  c_state c = -1 \/ ((1 <= n)%nat /\ is_blank c) \/ (In (c_state c) spins /\ edge_spin M n c).
Definition first_stop (M : program) (spins : list Z) (n : nat) (c : config) : Prop :=
  steps M n init = Some c /\ stops M spins n c
  /\ forall j d, (j < n)%nat -> steps M j init = Some d -> ~ stops M spins j d.

(** The head is in the array, when the machine starts at cell TAPELEN / 2. *)
Definition inside (F : cfile) (c : config) : Prop := 0 <= f_len F / 2 + c_pos c < f_len F.

(** What [main] has come to at CHECK_STEPS for a machine that has made [n] moves. *)
Definition agrees (F : cfile) (n : nat) (c : config) (m : mem) : Prop :=
  m_steps m = Z.of_nat n /\ marks_are (c_tape c) (m_marks m) /\ m_pos m = f_len F / 2 + c_pos c
  /\ forall p, inside F (Cfg 0 p (c_tape c)) -> m_tape m (f_len F / 2 + p) = c_tape c p.
(** The same, but for the colours of the marks. *)
Definition agrees_up_to_color (F : cfile) (n : nat) (c : config) (m : mem) : Prop :=
  m_steps m = Z.of_nat n /\ marks_are (c_tape c) (m_marks m) /\ m_pos m = f_len F / 2 + c_pos c
  /\ forall p, inside F (Cfg 0 p (c_tape c)) -> (m_tape m (f_len F / 2 + p) = 0 <-> c_tape c p = 0).

(** [main] simulates the machine: it comes to CHECK_STEPS where the machine first stops, having counted its moves; and
    runs for ever if the machine never stops.  The machine must not come to a slot without instruction before, and its
    head must stay in the array. *)
Definition simulates (F : cfile) (M : program) (spins : list Z)
    (same : cfile -> nat -> config -> mem -> Prop) : Prop :=
  (forall n c, first_stop M spins n c ->
     (forall j d, (j <= n)%nat -> steps M j init = Some d -> inside F d) ->
     exists fuel m, c_main F fuel = Checks m /\ same F n c m)
  /\ ((forall n, exists c, steps M n init = Some c /\ ~ stops M spins n c /\ inside F c) ->
      forall fuel, exists k m, c_main F fuel = Goes k m).

(** And conversely [main] comes to CHECK_STEPS only there: unless the machine has come to a slot without instruction or
    its head has left the array before it first stops. *)
Definition only_there (F : cfile) (M : program) (spins : list Z)
    (same : cfile -> nat -> config -> mem -> Prop) : Prop :=
  forall fuel m, c_main F fuel = Checks m ->
  exists n c, steps M n init = Some c
  /\ (forall j d, (j < n)%nat -> steps M j init = Some d -> ~ stops M spins j d /\ inside F d)
  /\ (stops M spins n c /\ same F n c m
      \/ ~ inside F c
      \/ ~ stops M spins n c /\ M (c_state c) (c_tape c (c_pos c)) = None).

(** Where the head of the machine leaves the array, [main] reads outside of it. *)
Definition overrun_undefined (F : cfile) (M : program) (spins : list Z) : Prop :=
  forall n c, steps M n init = Some c ->
    (forall j d, (j <= n)%nat -> steps M j init = Some d -> ~ stops M spins j d) ->
    (forall j d, (j < n)%nat -> steps M j init = Some d -> inside F d) -> ~ inside F c ->
    exists fuel, c_main F fuel = Undefined.

(** ** The machines that the files say they are

    Of files with a PROGRAM (line 1) that.  34.c, 31315.c, 66345.c, 32779477.c and 47176870.c have none; for them the
    machine that idris/BB.idr 26, 67, 45, 47, 68 lists with as many steps as the file's name says.  For 21.c that would
    be [listed_21], but the program makes its last move to the left; [entry_21] has that move as in 21.c 33, so its text
    is read off the program and says nothing of its own about that move.
    XLIMIT is the name of the file (machines/structured/Makefile 11).  The states are those where the file has
    CHECK_RECUR. *)
Record entry := Entry { e_file : cfile; e_limit : Z; e_text : text; e_spins : list Z }.

Definition entry_21 := Entry file_21 21 (str "1RB 1L_  1LB 0RC  1LC 1LA") [].
(** idris/BB.idr 24, with 21 steps and 5 marks; machines/3-2.test 11 has the same with H for _. *)
Definition listed_21 : text := str "1RB 1R_  1LB 0RC  1LC 1LA".
Definition entry_34 := Entry file_34 34 (str "1RB 1LB  1LA 1LC  1RC 0LC") [].
Definition entry_1434 := Entry file_1434 1434
  (str "1RB ... ... ...  0LC 2LC ... ...  0LC 3RD 0RD 2RE  1LF 1LC 1RB ...  ... 3RD ... ...  1LG ... 2RB 1LF  2RE ... 2LC ...") [2].
Definition entry_2819 := Entry file_2819 2819 (str "1RB 1RC  1LC 1RD  1RA 1LD  0RD 0LB") [3].
Definition entry_31315 := Entry file_31315 31315 (str "1RB 1LC  0LC 0RD  1RD 1LE  1RE 1LA  1LA 0LB") [].
Definition entry_66345 := Entry file_66345 66345 (str "1RB 0LC  1LD 0LA  1RC 1RD  1LA 0LD") [].
Definition entry_2315619 := Entry file_2315619 2315619 (str "1RB 2LB 1LC  1LA 2RB 1RB  1R_ 2LA 0LC") [].
Definition entry_2333909 := Entry file_2333909 2333909 (str "1RB 2RB 1LB 1LA  1LB 3RA 3LA 2RB") [1].
Definition entry_15721562 := Entry file_15721562 15721562
  (str "1RB ... ... ... ...  2LC ... ... ... ...  3RD 3LC ... 1LC 1R_  ... 1RD 1RB 1LE ...  4RD 1LE ... 1RD 1LC") [].
Definition entry_32779477 := Entry file_32779477 32779477 (str "1RB 1LC  1RD 1RB  0RD 0RC  1LD 1LA") [].
Definition entry_47176870 := Entry file_47176870 47176870 (str "1RB 1LC  1RC 1RB  1RD 0LE  1LA 1LD  1R_ 0LA") [].
Definition entry_3932964 := Entry file_3932964 3932964 (str "1RB 2LA 1RA 1RA  1LB 1LA 3RB 1RH") [].
(** Here PROGRAM leaves out the first five moves, lines 9-21: five states before the two of PROGRAM. *)
Definition entry_9340 := Entry file_9340 9340
  (str "1RB ... ... ...  0RC ... ... ...  1RD ... ... ...  1RE ... ... ...  1RF ... ... ...  2LF 3LG 0RF 0RG  1RF 2RG 1RG 2RF") [].
(** PROGRAM of machines/structured/9340.c 1. *)
Definition program_9340 : text := str "2LA 3LB 0RA 0RB  1RA 2RB 1RB 2RA".
(** Of these three what stands after [return 0]. *)
Definition rest_455790469742 := Entry (CFile 3000000 [(0, body_455790469742); ending]) 455790469742
  (str "1RB ...  0RC 1RB  1LC 1LD  1RE 0RD  0LE 0RB") [].
Definition rest_455790469746 := Entry (CFile 3000000 [(0, body_455790469746); ending]) 455790469746
  (str "1RB ...  0LC 0LB  0LD 1LC  1RD 0RE  1LB 1LA") [].
Definition rest_7021292621 := Entry (CFile 110 labels_7021292621) 7021292621
  (str "1RB 4LA 1LA 1R_ 2RB  2LB 3LA 1LB 2RA 0RB") [].

Definition structured : list entry :=
  [entry_21; entry_34; entry_1434; entry_2819; entry_31315; entry_66345; entry_2315619; entry_2333909; entry_15721562;
   entry_32779477; entry_47176870; entry_9340; rest_455790469742; rest_455790469746; rest_7021292621].
