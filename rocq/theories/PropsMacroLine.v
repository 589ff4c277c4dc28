(** * The line that a Machine over a macro program prints (C105) *)
From Coq Require Import String.
From Verif Require Import Base TM ProgModel NumModel SymModel SymMachModel MacroModel MakeMacroModel ParseModel NumShowModel MachObjModel MachObjSpec
  NumSpec SymMachCase PropsSymInt MacroShowModel MacroLineModel MacroLineProofs PropsMachObj.
Local Open Scope Z_scope.

(** C105.  Two machines, made without explicit params, that print the same line have the same program, the same marks
    and the same outcome (C88 for macros). *)
Theorem C105_line : forall o1 o2 order p blocks backsym opt q blocks' backsym' opt' ob1 ob2 n1 n2 line look look',
  printable p -> printable q -> plain_limrul ob1 -> plain_limrul ob2 -> marks_are o1 ob1 n1 -> marks_are o2 ob2 n2 ->
  macro_line o1 order p blocks backsym opt ob1 = Some line -> macro_line o2 order q blocks' backsym' opt' ob2 = Some line ->
  make_macro p blocks backsym opt None = Some look -> make_macro q blocks' backsym' opt' None = Some look' ->
  (forall st co, look st co = look' st co) /\ n1 = n2 /\ told_alike ob1 ob2.
Proof. exact macro_line_tells. Qed.
Print Assumptions C105_line.

(** The machine of C88_case, in blocks of one cell and in none, prints the line of C88_case; with the same figures a macro
    of two cells would print another one. *)
Example C105_line_case : let ob := fst (mo_run exact_fl ops6 bb22 [] mo_new 1000) in
  plain_limrul ob /\ marks_are ops6 ob 2
  /\ macro_line ops6 (fun n => n) bb22 (Some 1%nat) None None ob
     = Some (quoted "1RB 1RB  1LA ... || CYCLES: 3 | MARKS: 2 | UNDFND: (3, (1, 1)) | TPCFGS: 4"%string)
  /\ macro_line ops6 (fun n => n) bb22 None None None ob = macro_line ops6 (fun n => n) bb22 (Some 1%nat) None None ob
  /\ macro_line ops6 (fun n => n) bb22 (Some 2%nat) None None ob
     = Some (quoted "1RB 1RB  1LA ... (2-cell block macro) || CYCLES: 3 | MARKS: 2 | UNDFND: (3, (1, 1)) | TPCFGS: 4"%string).
Proof.
  destruct C88_case as (_ & A & B & _). cbv zeta. split; [exact A|]. split; [exact B|]. split; [vm_compute; reflexivity|].
  split; [vm_compute; reflexivity|]. vm_compute. reflexivity.
Qed.
