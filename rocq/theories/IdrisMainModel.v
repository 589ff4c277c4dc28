(** * The two programs in idris/ that run machines: Run.idr and Test.idr

    What is printed is the list of code points, or of lines. *)
From Verif Require Import Base TM ProgModel ParseModel IdrisModel IdrisParseModel.
From Coq Require Import String Ascii.
Local Open Scope string_scope.
Local Open Scope Z_scope.

(** A string literal of idris/Run.idr 24-37 or idris/Test.idr 14-98 as code points. *)
Fixpoint lit_ (s : string) : text :=
  match s with EmptyString => [] | String c s => Z.of_nat (nat_of_ascii c) :: lit_ s end.
(** [show] of a Nat, idris/Run.idr 27, 31, 37, idris/Test.idr 18, 30, 53. *)
Definition show_nat (n : nat) : text :=
  map (Z.add 48) (rev (digits (S (Z.to_nat (Z.log2 (Z.of_nat n)))) (Z.of_nat n))).

(** ** Run.idr *)

(** idris/Run.idr 19-39: what [loop] prints, from the lines that it is given.  At the end of its input [getLine] gives
    the empty string.  [sim_lim] is 100_000_000 there (line 11).  Left out: the reading of the arguments (lines 15-16). *)
Fixpoint run_loop (sim_lim : nat) (i states colors : nat) (lines : list text) : text :=
  match lines with
  | [] | [] :: _ => (lit_ "done" ++ [10])%list
  | prog :: lines =>
      (show_nat i ++
       match iparse states colors prog with
       | None => lit_ "    Failed to parse: " ++ prog ++ lit_ " (" ++ show_nat states ++ lit_ ", " ++ show_nat colors ++ lit_ ")" ++ [10]
       | Some parsed =>
           match run_single 0 BlockMachine sim_lim parsed with
           | Reports steps _ _ => lit_ "    " ++ prog ++ lit_ " | " ++ show_nat steps ++ [10] ++ run_loop sim_lim (S i) states colors lines
           | _ => run_loop sim_lim (S i) states colors lines
           end
       end)%list
  end.
(** idris/Run.idr 17. *)
Definition run_idr (sim_lim states colors : nat) (lines : list text) : text := run_loop sim_lim 1 states colors lines.

(** ** Test.idr *)

(** idris/BB.idr 3-4. *)
Inductive run_type := Single | DoubleRec.
(** idris/BB.idr 6-8: moves, cycles, marks; Nats there. *)
Definition prog_data : Type := Z * Z * Z.
(** idris/BB.idr 10-12. *)
Definition program_group : Type := nat * nat * run_type * list (text * prog_data).
(** What an IO action of idris/Test.idr 24-98 comes to: it ends and the next one follows, or the process ends with a
    failure (line 25), or it does not end. *)
Inductive io_end := GoesOn | Fails | NoEnd.
(** Lines printed and how it ended, idris/Test.idr 24-98. *)
Definition io : Type := list text * io_end.
(** [do a; b], idris/Test.idr 24, 40, 56-58, 85-98. *)
Definition io_then (a : io) (b : io) : io :=
  match a with
  | (out, GoesOn) => ((out ++ fst b)%list, snd b)
  | _ => a
  end.
(** [traverse_], idris/Test.idr 40, 58. *)
Fixpoint traverse_ {A} (f : A -> io) (l : list A) : io :=
  match l with [] => ([], GoesOn) | x :: l => io_then (f x) (traverse_ f l) end.

(** idris/Test.idr 14-18. *)
Definition truncate_prog (prog : text) : text :=
  if (List.length prog <? 50)%nat then prog else (lit_ "<... " ++ show_nat (List.length prog) ++ lit_ " ...>")%list.
(** idris/Test.idr 20-22. *)
Definition check_result (expected got : prog_data) (chk_cy : bool) : bool :=
  let '(es, ec, em) := expected in let '(gs, gc, gm) := got in
  (es =? gs) && (em =? gm) && ((ec =? gc) || negb chk_cy).
(** idris/Test.idr 24-25. *)
Definition fail_with_message (msg : text) : io := ([msg], Fails).
(** idris/Test.idr 27-30. *)
Definition fail_when_wrong (prog : text) (expected : prog_data) (steps cycles marks : nat) (chk_cy : bool) : io :=
  if check_result expected (Z.of_nat steps, Z.of_nat cycles, Z.of_nat marks) chk_cy then ([], GoesOn)
  else ([(lit_ "    Whoops!: " ++ prog ++ lit_ " | (" ++ show_nat steps ++ lit_ ", " ++ show_nat cycles ++ lit_ ", "
          ++ show_nat marks ++ lit_ ")")%list], GoesOn).
(** idris/Test.idr 32-36; [fuel] as in [run_single]. *)
Definition run_prog (fuel : nat) (m : imachine) (sim_lim : nat) (prog : iprogram) (rt : run_type) : report :=
  match rt with Single => run_single fuel m sim_lim prog | DoubleRec => run_double_rec fuel m sim_lim prog end.
(** idris/Test.idr 42-53; [sim_lim] is 128_000_000_000 there (line 12). *)
Definition read_and_run (fuel sim_lim : nat) (m : imachine) (max_cy : Z) (chk_cy : bool) (n k : nat) (rt : run_type)
    (x : text * prog_data) : io :=
  let '(prog, exp) := x in
  let '(_, exp_cy, _) := exp in
  if exp_cy <? max_cy then
    match iparse n k prog with
    | None => fail_with_message (lit_ "    Failed to parse: " ++ prog)%list
    | Some parsed =>
        match run_prog fuel m sim_lim parsed rt with
        | Hangs => ([], NoEnd)
        | HitsLimit => fail_with_message (lit_ "    Hit limit: " ++ prog)%list
        | Reports steps cycles marks =>
            io_then (fail_when_wrong prog exp steps cycles marks chk_cy)
              ([(lit_ "    " ++ truncate_prog prog ++ lit_ " | " ++ show_nat steps)%list], GoesOn)
        end
    end
  else ([], GoesOn).
(** idris/Test.idr 38-40. *)
Definition run_prog_group (fuel sim_lim : nat) (m : imachine) (max_cy : Z) (chk_cy : bool) (g : program_group) : io :=
  let '(n, k, rt, progs) := g in
  io_then (traverse_ (read_and_run fuel sim_lim m max_cy chk_cy n k rt) progs) ([[]], GoesOn).
(** idris/Test.idr 55-58; the groups are a constant there (idris/BB.idr 14-115), [chk_cy] is [name /= "Ptr"]. *)
Definition run_machine (fuel sim_lim : nat) (groups : list program_group) (name : string) (m : imachine) (max_cy : Z) : io :=
  io_then ([(lit_ "  " ++ lit_ name)%list], GoesOn)
    (traverse_ (run_prog_group fuel sim_lim m max_cy (negb (String.eqb name "Ptr"))) groups).
(** idris/Test.idr 60-82, 86 and 91-98: the machines, with their names and the maximum of cycles; first the one of
    line 86, then those that are run only when an argument is given. *)
Definition fast_test : string * imachine * Z := ("Block (Fast)", BlockMachine, 10000000).
(** idris/Test.idr 91-98 with 60-82. *)
Definition slow_tests : list (string * imachine * Z) :=
  [("Ptr", PtrMachine, 5000); ("Num", NumMachine, 5000); ("Cell", CellMachine, 100000); ("CellVect", CellVectMachine, 100000);
   ("Split", SplitMachine, 100000); ("BlockVect", BlockVectMachine, 50000000); ("Block (Slow)", BlockMachine, 1000000000)].
(** One of them, idris/Test.idr 60-82. *)
Definition run_test (fuel sim_lim : nat) (groups : list program_group) (x : string * imachine * Z) : io :=
  let '(name, m, max_cy) := x in run_machine fuel sim_lim groups name m max_cy.
(** idris/Test.idr 84-98; [slow] says whether one argument is given. *)
Definition test_idr (fuel sim_lim : nat) (groups : list program_group) (slow : bool) : io :=
  io_then (run_test fuel sim_lim groups fast_test)
    (if slow then traverse_ (run_test fuel sim_lim groups) slow_tests
     else ([lit_ "Skipping slow tests..."; []], GoesOn)).
