(** * The models of the program, graph and instruction sequence tools against the project's own tests

    The tables UNDEFINED, TNF, NORMALIZE, KERNEL, SPAGHETTI, MODULAR and GRAPHS of test/prog_data.py, read as data: programs
    and what is expected of them.
    Of the instruction sequences three are left out that take too many moves.
    Tests of the model, not proofs. *)
From Coq Require Import String Ascii.
From Verif Require Import Base TM ProgModel ParseModel QuickModel TermRecModel InstrSeqModel NormModel GraphModel.
Definition txt (s : string) : text := map (fun a => Z.of_nat (nat_of_ascii a)) (list_ascii_of_string s).
Definition show (t : text) : string := string_of_list_ascii (map (fun z => ascii_of_nat (Z.to_nat z)) t).
Local Open Scope string_scope.
Definition seqs : list (string * list (string * Z * string)) := [
("1RB ...  0RC 0LA  1LC 1LD  0RB 0RD", [("1RB ...  ... ...  ... ...  ... ...", 1, "B0"); ("1RB ...  0RC ...  ... ...  ... ...", 2, "C0"); ("1RB ...  0RC ...  1LC ...  ... ...", 4, "C1"); ("1RB ...  0RC ...  1LC 1LD  ... ...", 5, "D0"); ("1RB ...  0RC ...  1LC 1LD  0RB ...", 6, "B1"); ("1RB ...  0RC 0LA  1LC 1LD  0RB ...", 22, "D1")]);
("1RB 1LB  1LA 0LC  ... 1LD  1RD 0RA", [("1RB ...  ... ...  ... ...  ... ...", 1, "B0"); ("1RB ...  1LA ...  ... ...  ... ...", 2, "A1"); ("1RB 1LB  1LA ...  ... ...  ... ...", 5, "B1"); ("1RB 1LB  1LA 0LC  ... ...  ... ...", 6, "C1"); ("1RB 1LB  1LA 0LC  ... 1LD  ... ...", 7, "D0"); ("1RB 1LB  1LA 0LC  ... 1LD  1RD ...", 8, "D1"); ("1RB 1LB  1LA 0LC  ... 1LD  1RD 0RA", 106, "C0")]);
("1RB 1LC  1RD 1RB  0RD 0RC  1LD 1LA", [("1RB ...  ... ...  ... ...  ... ...", 1, "B0"); ("1RB ...  1RD ...  ... ...  ... ...", 2, "D0"); ("1RB ...  1RD ...  ... ...  1LD ...", 3, "D1"); ("1RB ...  1RD ...  ... ...  1LD 1LA", 4, "A1"); ("1RB 1LC  1RD ...  ... ...  1LD 1LA", 5, "C0"); ("1RB 1LC  1RD ...  0RD ...  1LD 1LA", 8, "B1"); ("1RB 1LC  1RD 1RB  0RD ...  1LD 1LA", 15, "C1")]);
("1RB 1RC  1LC 1RD  1RA 1LD  0RD 0LB", [("1RB ...  ... ...  ... ...  ... ...", 1, "B0"); ("1RB ...  1LC ...  ... ...  ... ...", 2, "C1"); ("1RB ...  1LC ...  ... 1LD  ... ...", 3, "D0"); ("1RB ...  1LC ...  ... 1LD  0RD ...", 4, "D1"); ("1RB ...  1LC ...  ... 1LD  0RD 0LB", 6, "C0"); ("1RB ...  1LC ...  1RA 1LD  0RD 0LB", 7, "A1"); ("1RB 1RC  1LC ...  1RA 1LD  0RD 0LB", 15, "B1")]);
("1RB 0RA  1RC 0RB  1LD 1LC  1RA 0LC", [("1RB ...  ... ...  ... ...  ... ...", 1, "B0"); ("1RB ...  1RC ...  ... ...  ... ...", 2, "C0"); ("1RB ...  1RC ...  1LD ...  ... ...", 3, "D1"); ("1RB ...  1RC ...  1LD ...  ... 0LC", 4, "C1"); ("1RB ...  1RC ...  1LD 1LC  ... 0LC", 6, "D0"); ("1RB ...  1RC ...  1LD 1LC  1RA 0LC", 7, "A1"); ("1RB 0RA  1RC ...  1LD 1LC  1RA 0LC", 10, "B1")]);
("1RB 0RC  1LB 1LD  0RA 0LD  1LA 1RC", [("1RB ...  ... ...  ... ...  ... ...", 1, "B0"); ("1RB ...  1LB ...  ... ...  ... ...", 2, "B1"); ("1RB ...  1LB 1LD  ... ...  ... ...", 3, "D0"); ("1RB ...  1LB 1LD  ... ...  1LA ...", 6, "D1"); ("1RB ...  1LB 1LD  ... ...  1LA 1RC", 7, "C1"); ("1RB ...  1LB 1LD  ... 0LD  1LA 1RC", 9, "C0"); ("1RB ...  1LB 1LD  0RA 0LD  1LA 1RC", 10, "A1")]);
("1RB 2RB 3LA 2RA  2LB 1LA 0RB 3RA", [("1RB ... ... ...  ... ... ... ...", 1, "B0"); ("1RB ... ... ...  2LB ... ... ...", 2, "B1"); ("1RB ... ... ...  2LB 1LA ... ...", 5, "A1"); ("1RB 2RB ... ...  2LB 1LA ... ...", 7, "A2"); ("1RB 2RB 3LA ...  2LB 1LA ... ...", 9, "B3"); ("1RB 2RB 3LA ...  2LB 1LA ... 3RA", 11, "B2"); ("1RB 2RB 3LA ...  2LB 1LA 0RB 3RA", 23, "A3")]);
("1RB 2LA 1RA 1LB  0LB 2RB 3RB 1LA", [("1RB ... ... ...  ... ... ... ...", 1, "B0"); ("1RB ... ... ...  0LB ... ... ...", 2, "B1"); ("1RB ... ... ...  0LB 2RB ... ...", 4, "B2"); ("1RB ... ... ...  0LB 2RB 3RB ...", 6, "B3"); ("1RB ... ... ...  0LB 2RB 3RB 1LA", 13, "A1"); ("1RB 2LA ... ...  0LB 2RB 3RB 1LA", 21, "A3"); ("1RB 2LA ... 1LB  0LB 2RB 3RB 1LA", 29, "A2")]);
("1RB 1LC  0LD 0LB  0RD 0LA  0LE 1LD  1RE 1RA", [("1RB ...  ... ...  ... ...  ... ...  ... ...", 1, "B0"); ("1RB ...  0LD ...  ... ...  ... ...  ... ...", 2, "D1"); ("1RB ...  0LD ...  ... ...  ... 1LD  ... ...", 3, "D0"); ("1RB ...  0LD ...  ... ...  0LE 1LD  ... ...", 4, "E0"); ("1RB ...  0LD ...  ... ...  0LE 1LD  1RE ...", 6, "E1"); ("1RB ...  0LD ...  ... ...  0LE 1LD  1RE 1RA", 17, "A1"); ("1RB 1LC  0LD ...  ... ...  0LE 1LD  1RE 1RA", 18, "C1"); ("1RB 1LC  0LD ...  ... 0LA  0LE 1LD  1RE 1RA", 29, "B1"); ("1RB 1LC  0LD 0LB  ... 0LA  0LE 1LD  1RE 1RA", 57, "C0")]);
("1RB 1LC  0LD 0LB  0LE 0LA  0LE 1LD  1RE 1RA", [("1RB ...  ... ...  ... ...  ... ...  ... ...", 1, "B0"); ("1RB ...  0LD ...  ... ...  ... ...  ... ...", 2, "D1"); ("1RB ...  0LD ...  ... ...  ... 1LD  ... ...", 3, "D0"); ("1RB ...  0LD ...  ... ...  0LE 1LD  ... ...", 4, "E0"); ("1RB ...  0LD ...  ... ...  0LE 1LD  1RE ...", 6, "E1"); ("1RB ...  0LD ...  ... ...  0LE 1LD  1RE 1RA", 17, "A1"); ("1RB 1LC  0LD ...  ... ...  0LE 1LD  1RE 1RA", 18, "C1"); ("1RB 1LC  0LD ...  ... 0LA  0LE 1LD  1RE 1RA", 29, "B1"); ("1RB 1LC  0LD 0LB  ... 0LA  0LE 1LD  1RE 1RA", 57, "C0")]);
("1RB 1LC  0LD 0LB  1RE 0LA  0LE 1LD  1RE 1RA", [("1RB ...  ... ...  ... ...  ... ...  ... ...", 1, "B0"); ("1RB ...  0LD ...  ... ...  ... ...  ... ...", 2, "D1"); ("1RB ...  0LD ...  ... ...  ... 1LD  ... ...", 3, "D0"); ("1RB ...  0LD ...  ... ...  0LE 1LD  ... ...", 4, "E0"); ("1RB ...  0LD ...  ... ...  0LE 1LD  1RE ...", 6, "E1"); ("1RB ...  0LD ...  ... ...  0LE 1LD  1RE 1RA", 17, "A1"); ("1RB 1LC  0LD ...  ... ...  0LE 1LD  1RE 1RA", 18, "C1"); ("1RB 1LC  0LD ...  ... 0LA  0LE 1LD  1RE 1RA", 29, "B1"); ("1RB 1LC  0LD 0LB  ... 0LA  0LE 1LD  1RE 1RA", 57, "C0")]);
("1RB 1LC  0LD 0LB  1RE 0LA  0LC 1LD  1RE 1RA", [("1RB ...  ... ...  ... ...  ... ...  ... ...", 1, "B0"); ("1RB ...  0LD ...  ... ...  ... ...  ... ...", 2, "D1"); ("1RB ...  0LD ...  ... ...  ... 1LD  ... ...", 3, "D0"); ("1RB ...  0LD ...  ... ...  0LC 1LD  ... ...", 4, "C0"); ("1RB ...  0LD ...  1RE ...  0LC 1LD  ... ...", 5, "E0"); ("1RB ...  0LD ...  1RE ...  0LC 1LD  1RE ...", 6, "E1"); ("1RB ...  0LD ...  1RE ...  0LC 1LD  1RE 1RA", 17, "A1"); ("1RB 1LC  0LD ...  1RE ...  0LC 1LD  1RE 1RA", 18, "C1"); ("1RB 1LC  0LD ...  1RE 0LA  0LC 1LD  1RE 1RA", 29, "B1")]);
("1RB 1LC  0LD 0LB  0RE 0LA  0LE 1LD  1RE 1RA", [("1RB ...  ... ...  ... ...  ... ...  ... ...", 1, "B0"); ("1RB ...  0LD ...  ... ...  ... ...  ... ...", 2, "D1"); ("1RB ...  0LD ...  ... ...  ... 1LD  ... ...", 3, "D0"); ("1RB ...  0LD ...  ... ...  0LE 1LD  ... ...", 4, "E0"); ("1RB ...  0LD ...  ... ...  0LE 1LD  1RE ...", 6, "E1"); ("1RB ...  0LD ...  ... ...  0LE 1LD  1RE 1RA", 17, "A1"); ("1RB 1LC  0LD ...  ... ...  0LE 1LD  1RE 1RA", 18, "C1"); ("1RB 1LC  0LD ...  ... 0LA  0LE 1LD  1RE 1RA", 29, "B1"); ("1RB 1LC  0LD 0LB  ... 0LA  0LE 1LD  1RE 1RA", 57, "C0")]);
("1RB 1LC  1RD 0RA  0LC 1LE  1LA 0RE  0LA 1RB", [("1RB ...  ... ...  ... ...  ... ...  ... ...", 1, "B0"); ("1RB ...  1RD ...  ... ...  ... ...  ... ...", 2, "D0"); ("1RB ...  1RD ...  ... ...  1LA ...  ... ...", 3, "A1"); ("1RB 1LC  1RD ...  ... ...  1LA ...  ... ...", 4, "C1"); ("1RB 1LC  1RD ...  ... 1LE  1LA ...  ... ...", 5, "E0"); ("1RB 1LC  1RD ...  ... 1LE  1LA ...  0LA ...", 8, "D1"); ("1RB 1LC  1RD ...  ... 1LE  1LA 0RE  0LA ...", 9, "E1"); ("1RB 1LC  1RD ...  ... 1LE  1LA 0RE  0LA 1RB", 10, "B1"); ("1RB 1LC  1RD 0RA  ... 1LE  1LA 0RE  0LA 1RB", 18, "C0")]);
("1RB 1LC  1RC 0RD  0LB 0RC  0RE 1RD  1LE 1LA", [("1RB ...  ... ...  ... ...  ... ...  ... ...", 1, "B0"); ("1RB ...  1RC ...  ... ...  ... ...  ... ...", 2, "C0"); ("1RB ...  1RC ...  0LB ...  ... ...  ... ...", 3, "B1"); ("1RB ...  1RC 0RD  0LB ...  ... ...  ... ...", 4, "D0"); ("1RB ...  1RC 0RD  0LB ...  0RE ...  ... ...", 5, "E0"); ("1RB ...  1RC 0RD  0LB ...  0RE ...  1LE ...", 8, "E1"); ("1RB ...  1RC 0RD  0LB ...  0RE ...  1LE 1LA", 11, "D1"); ("1RB ...  1RC 0RD  0LB ...  0RE 1RD  1LE 1LA", 18, "A1"); ("1RB 1LC  1RC 0RD  0LB ...  0RE 1RD  1LE 1LA", 19, "C1")]);
("1RB 0RE  0LC 0LB  1RC 1RD  1LA 0RA  1RA 1LD", [("1RB ...  ... ...  ... ...  ... ...  ... ...", 1, "B0"); ("1RB ...  0LC ...  ... ...  ... ...  ... ...", 2, "C1"); ("1RB ...  0LC ...  ... 1RD  ... ...  ... ...", 3, "D0"); ("1RB ...  0LC ...  ... 1RD  1LA ...  ... ...", 4, "A1"); ("1RB 0RE  0LC ...  ... 1RD  1LA ...  ... ...", 5, "E1"); ("1RB 0RE  0LC ...  ... 1RD  1LA ...  ... 1LD", 8, "B1"); ("1RB 0RE  0LC 0LB  ... 1RD  1LA ...  ... 1LD", 11, "C0"); ("1RB 0RE  0LC 0LB  1RC 1RD  1LA ...  ... 1LD", 41, "D1"); ("1RB 0RE  0LC 0LB  1RC 1RD  1LA 0RA  ... 1LD", 310, "E0")]);
("1RB 1RD  1LC 1LB  1LD 1RA  0RE 0RD  1LB 1RE", [("1RB ...  ... ...  ... ...  ... ...  ... ...", 1, "B0"); ("1RB ...  1LC ...  ... ...  ... ...  ... ...", 2, "C1"); ("1RB ...  1LC ...  ... 1RA  ... ...  ... ...", 3, "A1"); ("1RB 1RD  1LC ...  ... 1RA  ... ...  ... ...", 4, "D0"); ("1RB 1RD  1LC ...  ... 1RA  0RE ...  ... ...", 5, "E0"); ("1RB 1RD  1LC ...  ... 1RA  0RE ...  1LB ...", 9, "D1"); ("1RB 1RD  1LC ...  ... 1RA  0RE 0RD  1LB ...", 13, "C0"); ("1RB 1RD  1LC ...  1LD 1RA  0RE 0RD  1LB ...", 23, "E1"); ("1RB 1RD  1LC ...  1LD 1RA  0RE 0RD  1LB 1RE", 27, "B1")])].
Definition got p := match instr_seq 5000 (txt p) with Some l => map (fun t => let '(a,b,c) := t in (show a, b, show (show_slot c))) l | None => [] end.
Definition eqs (a b : list (string * Z * string)) := Nat.eqb (length a) (length b) && forallb (fun t => let '((x,y,z),(x',y',z')) := t in String.eqb x x' && Z.eqb y y' && String.eqb z z') (combine a b).
Example instr_seqs : filter (fun t => negb (eqs (got (fst t)) (snd t))) seqs = [].
Proof. vm_compute. reflexivity. Qed.

Definition tnf : list (string * string) := [
("1RB 1LC  1LD 0RB  ... 0LD  1RA 1LA","1RB 1LD  1LC 0RB  1RA 1LA  ... 0LC");
("1RB 0LC  1LD 0RC  1RA 0RB  0LD 1LA","1RB 0LD  1LC 0RD  0LC 1LA  1RA 0RB");
("1RB 1LC  1RD 1RB  0RD 0RC  1LD 1LA","1RB 1LD  1RC 1RB  1LC 1LA  0RC 0RD");
("1RB 2LA 1RA 1RA  1LB 1LA 3RB ...","1RB 2LA 1RA 1RA  1LB 1LA 3RB ...");
("1RB 2LA 1RA 1LB  0LB 2RB 3RB 1LA","1RB 2LA 1RA 1LB  0LB 2RB 3RB 1LA");
("1RB 2LB 3RA 2LA  3LB 3RA 0RB 1RB","1RB 3LB 3LA 2RA  2LB 2RA 1RB 0RB");
("1RB 2RA 1LA 2LB  2LB 3RB 0RB 1RA","1RB 2RA 1LA 2LB  2LB 3RB 0RB 1RA");
("1RB 0LB 1LA  2LC 2LB 2LB  2RC 2RA 0LC","1RB 0LB 1LA  2LC 2LB 2LB  2RC 2RA 0LC");
("1RB 1LC  1RC 1RB  1RD 0LE  1LA 1LD  ... 0LA","1RB 1LC  1RC 1RB  1RD 0LE  1LA 1LD  ... 0LA");
("1RB 0LC  0LD 0LB  1RA 1LA  1RE 1LD  1RE 1RA","1RB 0LE  0LC 0LB  1RD 1LC  1RD 1RA  1RA 1LA");
("1RB 0LC  1RC 0LA  1LD 0RB  0RE 0RD  1LE 0LA","1RB 0LC  1RC 0LA  1LD 0RB  0RE 0RD  1LE 0LA");
("1RB 0RB  0RC 0RB  0RD 0RE  1LD 0LE  1LA 1RE","1RB 0RB  0RC 0RB  0RD 0RE  1LD 0LE  1LA 1RE");
("1RB 0RE  0LC 0LB  1RC 1RD  1LA 0RA  1RA 1LD","1RB 0RE  0LC 0LB  1RC 1RD  1LA 0RA  1RA 1LD");
("1RB 0RE  0RC 0RB  0RD 0RE  1LD 0LA  0RB 1RE","1RB 0RE  0RC 0RB  0RD 0RE  1LD 0LA  0RB 1RE");
("1RB 0RE  0RC 0RB  1LC 0LD  1RD 1LA  1LB 1RE","1RB 0RE  0RC 0RB  1LC 0LD  1RD 1LA  1LB 1RE");
("1RB 1LA  0LC 0LB  0LD 1LC  1RE 0LA  1RE 0RA","1RB 1LA  0LC 0LB  0LD 1LC  1RE 0LA  1RE 0RA");
("1RB 1LA  1LC 1RC  0LD 0LC  1RE 0LA  1RE 0RA","1RB 1LA  1LC 1RC  0LD 0LC  1RE 0LA  1RE 0RA");
("1RB 1LC  0LD 0LB  0LE 0LA  0LE 1LD  1RE 1RA","1RB 1LE  0LC 0LB  0LD 1LC  1RD 1RA  0LD 0LA");
("1RB 1LC  0LD 0LB  0RD 0LA  0LE 1LD  1RE 1RA","1RB 1LE  0LC 0LB  0LD 1LC  1RD 1RA  0RC 0LA");
("1RB 1LC  0LD 0LB  0RE 0LA  0LE 1LD  1RE 1RA","1RB 1LE  0LC 0LB  0LD 1LC  1RD 1RA  0RD 0LA");
("1RB 1LC  0LD 0LB  1RE 0LA  0LC 1LD  1RE 1RA","1RB 1LD  0LC 0LB  0LD 1LC  1RE 0LA  1RE 1RA");
("1RB 1LC  0LD 0LB  1RE 0LA  0LE 1LD  1RE 1RA","1RB 1LE  0LC 0LB  0LD 1LC  1RD 1RA  1RD 0LA");
("1RB 1LC  0RD 0RD  0LB 0RC  0RE 1RD  1LE 1LA","1RB 1LE  0RC 0RC  0RD 1RC  1LD 1LA  0LB 0RE");
("1RB 1LC  1RC 0RD  0LB 0RC  0RE 1RD  1LE 1LA","1RB 1LC  1RC 0RD  0LB 0RC  0RE 1RD  1LE 1LA");
("1RB 1LC  1RD 0RA  0LC 1LE  1LA 0RE  0LA 1RB","1RB 1LD  1RC 0RA  1LA 0RE  0LD 1LE  0LA 1RB");
("1RB 1LE  0LC 0LB  0LD 1LC  1RD 1RA  0LD 0LA","1RB 1LE  0LC 0LB  0LD 1LC  1RD 1RA  0LD 0LA");
("1RB 1LE  0LC 0LB  0LD 1LC  1RD 1RA  0RC 0LA","1RB 1LE  0LC 0LB  0LD 1LC  1RD 1RA  0RC 0LA");
("1RB 1LE  0LC 0LB  0LD 1LC  1RD 1RA  0RD 0LA","1RB 1LE  0LC 0LB  0LD 1LC  1RD 1RA  0RD 0LA");
("1RB 1LE  0LC 0LB  0LD 1LC  1RD 1RA  1RD 0LA","1RB 1LE  0LC 0LB  0LD 1LC  1RD 1RA  1RD 0LA");
("1RB 1LE  0LC 0LB  0LE 1LC  1RD 1RA  1RD 0LA","1RB 1LD  0LC 0LB  0LD 1LC  1RE 0LA  1RE 1RA");
("1RB 1LE  0RC 0RB  0RD 0RE  1LD 0LA  1LB 1RE","1RB 1LE  0RC 0RB  0RD 0RE  1LD 0LA  1LB 1RE");
("1RB 1LE  0RC 0RD  1LC 1LA  0RB 1RD  0LD 0RE","1RB 1LE  0RC 0RD  1LC 1LA  0RB 1RD  0LD 0RE");
("1RB 1RA  1LB 0LC  1RC 1LD  0RE 0RA  0LB 0RD","1RB 1RA  1LB 0LC  1RC 1LD  0RE 0RA  0LB 0RD");
("1RB 1RA  1LB 0LC  1RC 1LD  0RE 0RA  0RB 0RD","1RB 1RA  1LB 0LC  1RC 1LD  0RE 0RA  0RB 0RD")].
Example tree_norms : filter (fun t => negb (String.eqb (match tree_norm (txt (fst t)) with Some x => show x | None => "?" end) (snd t))) tnf = [].
Proof. vm_compute. reflexivity. Qed.

Definition arr p := match parse (txt p) with Some g => arrows_of g | None => [] end.
Definition ord : order := fun _ _ l => zsorted l.
Definition pick (n : nat) (l : list Z) : Z := hd 0 (zsorted l).
Definition red p := match reduced ord (arr p) with Some g => Z.of_nat (length g) | None => -1 end.
Definition ob (o : option bool) (b : bool) := match o with Some x => Bool.eqb x b | None => false end.
Definition norm : list (string * string) := [
("1LB 2RA 1LA 1RA  3RA ... 2LB 2LA","1RB 2LA 1RA 1LA  3LA ... 2RB 2RA");
("1LB 3RA 1RA 1LA  2RA ... 3LA 3LB","1RB 2LA 1RA 1LA  3LA ... 2RB 2RA");
("1RB 3LA 1LA 1RA  2LA ... 3RA 3RB","1RB 2LA 1RA 1LA  3LA ... 2RB 2RA");
("2LB 2LA 1RA 2RA  3RA 1LB ... 1LA","1RB 2LA 1RA 1LA  3LA ... 2RB 2RA");
("2RB 2RA 1LA 2LA  3LA 1RB ... 1RA","1RB 2LA 1RA 1LA  3LA ... 2RB 2RA");
("1LB 1RD  1LE 1LB  0LE 0LD  0LF 1LF  1RE 1RA  0RC 1RC","1RB 1LC  1RD 1RB  0RE 1RE  1LD 1LA  0LF 1LF  0RD 0RC");
("1RB 1LD  1RE 1RB  0RE 0RD  0RF 1RF  1LE 1LA  0LC 1LC","1RB 1LC  1RD 1RB  0RE 1RE  1LD 1LA  0LF 1LF  0RD 0RC");
("1LB 1RE  1LD 1LB  0LD 0LE  1RD 1RA  0LF 1LF  0RC 1RC","1RB 1LC  1RD 1RB  0RE 1RE  1LD 1LA  0LF 1LF  0RD 0RC");
("1RB 1LE  1RD 1RB  0RD 0RE  1LD 1LA  0RF 1RF  0LC 1LC","1RB 1LC  1RD 1RB  0RE 1RE  1LD 1LA  0LF 1LF  0RD 0RC");
("1LB 1RC  1LD 1LB  0LE 1LE  1RD 1RA  0RF 1RF  0LD 0LC","1RB 1LC  1RD 1RB  0RE 1RE  1LD 1LA  0LF 1LF  0RD 0RC");
("0RB ...  0LC ...  1LD 1LE  1RF ...  0LG 0RH  0RH 1RF  1RH ...  1LI 0RH  1LI 1LC","1RB 1RC  1LD ...  0RE 0LF  0LF 1LD  1LF ...  1RG 0LF  1RG 1RA");
("1RB 1RC  1LD ...  0RE 0LF  0LF 1LD  1LF ...  1RG 0LF  1RG 1RA  0RA ...  0LH ...","1RB 1RC  1LD ...  0RE 0LF  0LF 1LD  1LF ...  1RG 0LF  1RG 1RA");
("1RB 1LC 2LC 2RA  2LD 3RE 1RB ...  0LC 2RA 2LF 3LD  ... 1LF 1RE 3LC  1LC 3LC 3RE 2RG  1RB 1RE 2LC 3RE  0LD 2RA 1RB 3LD  ... ... ... ...  ... ... ... ...  ... ... ... ...","1RB 1LC 2LC 2RA  2LD 3RE 1RB ...  0LC 2RA 2LF 3LD  ... 1LF 1RE 3LC  1LC 3LC 3RE 2RG  1RB 1RE 2LC 3RE  0LD 2RA 1RB 3LD");
("1RB 2RC 3RB 1LA 3RC 4LD ... 5RC ...  6LD 3RB 4RB 2LA 1LA ... ... ... ...  ... 3RC 1LA 3RB 2RC ... 2LD ... ...  7RC 1LD 2LD 3LD 4LD 1RB ... 2RB ...","1RB 2RC 3RB 1LA 3RC 4LD ... 5RC  6LD 3RB 4RB 2LA 1LA ... ... ...  ... 3RC 1LA 3RB 2RC ... 2LD ...  7RC 1LD 2LD 3LD 4LD 1RB ... 2RB");
("1RB ... ... ... ... ... ... ...  2LC ... ... ... ... ... ... ...  3RD 3LC ... 1LC ... ... ... ...  ... 1RD 1RB 1LE ... ... ... ...  4RD 1LE ... 1RD 1LC ... ... ...  ... ... ... ... ... ... ... ...  ... ... ... ... ... ... ... ...  ... ... ... ... ... ... ... ...","1RB ... ... ... ...  2LC ... ... ... ...  3RD 3LC ... 1LC ...  ... 1RD 1RB 1LE ...  4RD 1LE ... 1RD 1LC")].
Example normal_forms : filter (fun t => negb (String.eqb (match normalize (txt (fst t)) with Some x => show x | None => "?" end) (snd t))) norm = [].
Proof. vm_compute. reflexivity. Qed.

Definition kern : list (string * Z) := [
("1RB 0LC  1RC 1RD  1LA 0RB  0RE ...  1LC 1RA",3);
("1RB 0LC  1RC 1RD  1LA 0RB  0RE ...  ... 1RA",3);
("1RB 0LD  1RC 1LB  1LA 1RE  1LE 1LA  1RC 0RA",3);
("1RB 1LA 1RD  2LC 0RA 1LB  2LA 0LB 0RD  2RC ... 0LC",3);
("1RB 1LD ...  1RC 2LB 2LD  1LC 2RA 0RD  1RC 1LA 0LA",3);
("1RB 1RA 1LB 1RC  2LA 0LB 3LC ...  1LB 0RC 2RA 2RC",3);
("1RB 0LD  1RC 0RF  1LC 1LA  0LE ...  1LF 0RB  0RC 0RE",4);
("1RB 1RC  1LC 0RF  1RA 0LD  0LC 0LE  1LD 0RA  1RE ...",4);
("1RB 0RC  0RC 0LD  1RD 1RA  1RE 0LA  1LF ...  1LB 1LF",4);
("1RB 0LD  1RC 0RF  1LC 1LA  0LE ...  1LA 0RB  0RC 0RE",3);
("1RB 0LC  1LA 1RD  1RA 0LE  1RA 0RB  1LF 1LC  1RD ...",3);
("1RB 0LC  1LA 1RD  0LB 0LE  1RA 0RB  1LF 1LC  1RD ...",3);
("1RB 0RC  0LA 0RD  1RD ...  1LE 0LD  1RF 1LB  1RA 1RE",3);
("1RB 1RF  0RC 0RA  1LD ...  0LE 0LB  1LF 1LD  1RA 1LB",3);
("1RB 0LF  1RC 0LE  1RD 0RA  1LE ...  1RC 0LA  1RA 0LB",3);
("1RB 0LD  1RC 1RF  0LA 1LF  ... 1LE  0LF 0LA  1RA 1LC",3);
("1RB 0RC  1LA 0RE  1RA 1LD  0LC 0LA  0RD 0RF  0RE ...",3);
("1RB 0LD  1RC 1RF  0LA 1LF  ... 1LE  0LF 0RF  1RA 1LC",3);
("1RB 2LC 3LA 0RD  3LE 2RB 0RB 1LE  1RD 2LA ... ...  1RF 0LA 1RD 2LA  2RF 3RF 1LG ...  1LA 0RF 3LA 0RD  2RB 3RB 1LE 1LH  3LE 3LH ... 1RB",3);
("1RB 1RC 0RC  1RC 0LA 1LB  2LC 2RA 1LB",3);
("1RB 1RC  0LC 1RD  1LB 1LE  1RD 0RA  1LA 0LE",3);
("1RB 0RC  1LC 0LD  1RE 0LD  0LC 1LB  0RE 1RA",3);
("1RB 1LC  1RD 0RA  0LC 1LE  1LA 0RE  0LA 1RB",3);
("1RB 1LD  1RC 0RA  1LA 0RE  0LD 1LE  0LA 1RB",3);
("1RB 1LC  1RD ...  ... 1LE  1LA 0RE  0LA 1RB",3);
("1RB 1LC  1RD 0RA  ... 1LE  1LA 0RE  0LA 1RB",3);
("1RB 0LC  1RC 0LA  1LD 0RB  0RE 0RD  1LE 0LA",3);
("1RB 0RC  1LB 1LD  0RA 0LD  1LA 1RC",3);
("1RB 1LC  1LD 0LC  0LB 0RA  1RD 1RA",3);
("1RB 0LC  1RD 1LD  1LB 1LA  1RC 0RA",3);
("1RB 0RC  1LD 1LC  1RD 0LB  1RA 1LA",3);
("1RB 1LB  1RC 0RD  1LA 1LD  1RA 0LC",3);
("1RB 1RC  1LD 1RD  1LB 0RA  1LA 0LC",3);
("1RB 1RC  1LC 0LD  1RA 0LB  0RA 0RC",3);
("1RB 0LC  0RD 0RC  1LD 0RB  1LA 0LC",3);
("1RB 0RC  1LD 0RA  0LD 0LB  1LA 1LB",3);
("1RB 0RC  0LD 1RA  0LA 0RD  1LC 1LA",3);
("1RB 0LC  1RD 1RA  1LA 1LD  1LC 0RA",3);
("1RB 1RC  1LC 0LD  0RA 1LB  1RD 0LA",3);
("1RB 0LC  1RD 0RA  0LB 0LA  1LC 0RA",3);
("1RB 1RC  0RC 1RA  1LD 0RB  0LD 1LA",3);
("1RB 0LD  1LC 0RA  1LA 1LB  1LD 0LC",3);
("1RB 1RC  1LC 0LD  1RA 0LB  ... 0LA",3);
("1RB 1RC  1LC 0RD  1RA 0LB  1RD 0RA",3);
("1RB 0LC  1RC 1LD  1RD 0RB  0LB 1LA",3);
("1RB 1LC  1LC 0RD  1LA 0LB  1LD 0RA",3);
("1RB 0RC  0RD 1RA  0LD 0LA  1LC 1LA",3);
("1RB 1LC  1LC 1RA  1LB 0LD  1LA 0RE  1RD 1RE",3);
("1RB 1LC  1RD 1RA  1LB 0LA  1RE 0RC  1RC 0LE",3);
("1RB 0LC  1LD 0RC  1RA 0RB  0LD 1LA",3);
("1RB 1RC  1LD 0RA  0RC 1RD  1RA 0LB",3);
("1RB 0RD  1LC 0RA  1LA 1LB  ... 0RC",3);
("1RB 1LC 2LC 2RA  2LD 3RE 1RB ...  0LC 2RA 2LF 3LD  ... 1LF 1RE 3LC  1LC 3LC 3RE 2RG  1RB 1RE 2LC 3RE  0LD 2RA 1RB 3LD",6);
("1RB ... ... ...  2LC 3RD ... ...  1LA 3RD 1LE 4RD  ... ... 1RF ...  1RF 2LG 2LE 2RH  3RI 2RH 3RJ ...  1LE ... ... 2LC  2LE 2RK 2RH ...  1LE ... ... ...  0RI 1RF 0RJ ...  2RB ... 2RF ...",5);
("1RB 0LC  1RC 0LD  1LD 0RB  0LA 0LA",3);
("1RB 0LD  0LC 1RA  1LA 1LD  1LB 0RA",3);
("1RB 0LD  0LC 1RA  1RA 1LD  1LB 0RA",3);
("1RB 0LD  0LC 1RA  1RC 1LD  1LB 0RA",3);
("1RB 0LD  0RC 1LD  1RD 1RA  1LB 0RA",3);
("1RB 0RB  1RC 0LD  1LD 0LB  0RA 1LC",3);
("1RB 0RC  1RC 1LD  1LB 0LD  0RA 0LB",3);
("1RB 1LC  0LA 1RC  1LA 0RD  0LA 0RB",3);
("1RB 1LC  1LA 0LC  0LD 1RD  0RB 0RA",3);
("1RB 1LC  1LA 1RC  0LD 0RB  0RB 0LA",3);
("1RB 1LC  1LA 1RC  0LD 0RB  1LB 0LA",3);
("1RB 1LC  1LA 1RC  0LD 0RB  1RA 0LA",3);
("1RB 1LC  1LA 1RC  0LD 0RB  1RD 0LA",3);
("1RB 1LC  1LA 1RC  0RD 0LA  1RA 0RB",3);
("1RB 1LA 0RC  2LB 2RC 1LA  0LA 0RB 0LB",3);
("1RB 0RE  0LC 1RD  1LC 1LD  1RE 0RA  0LA 0RB",3);
("1RB 0RE  1RC 1RB  1LD 1LE  0LD 0RA  1LB 1LD",3);
("1RB 1LC  0LA 0RD  1LA 1RB  0LE 1RC  1LE 0RB",3);
("1RB 0RD  1LC 0RC  0LE 1RD  1RA 0RB  1LE 1LA",3);
("1RB 0LC  1LC 0LA  0RA 0LD  0RE 1LB  1RE 1RB",3);
("1RB 1LD  0RC 1LA  0LD 1RC  0RE 0LA  1LA 0RB",3);
("1RB 0LD  1RC 0LA  1LD 0RA  1LE 0RA  0RD 1LC",3);
("1RB 0LD  1RC 0LA  1LD 0RA  1LE 0RA  0RC 1LC",3);
("1RB 0LC  1LC 0RD  0RE 1LA  0LA 1RD  0RB 1LB",3);
("1RB ...  0RC 0RE  1LD 1RE  0LD 1RA  1LB 0LC",3);
("1RB 0RD  1RC 1LE  0LA ...  1LD 0RE  1LA 0RB",3);
("1RB 0RC  1LA 1LD  0LC 1RD  0RE 0LA  0RB ...",3);
("1RB 0RD  0LC 1RD  1LC 1LA  0LE 0RB  ... 0RC",3);
("1RB 1RD  0RC 0RA  0RD 1RA  1LC 0LE  1LE 0RB",4)].
Example kernels : flat_map (fun t => if Z.eqb (red (fst t)) (snd t) then [] else [(t, red (fst t))]) kern = [].
Proof. vm_compute. reflexivity. Qed.

Definition spag : list string := [
"1RB 0LC  0RC 1LD  1RD 0LA  1LB 1LA";
"1RB 0LC  1LD 1LC  1RD 0LA  0RA 1LB";
"1RB 0RC 1RA  2LB 2LC 0RA  0RB 2LA 0RC";
"1RB 1LA 3LA 3RC  2LC 2LB 1RB 1RA  2LA 3LC ... 1LB";
"1RB 1LC  0LC 0RD  1RD 1LE  1RE 1LA  1LA 0LB";
"1RB 2LC 2RA  1LA 2LB 1RC  1RA 2LC 1RB";
"1RB 2RA 2RC  1LC ... 1LA  1RA 2LB 1LC";
"1RB 3LA 3RC 1RA  2RC 1LA ... 2RB  1LC 1RB 1LB 2RA"].
Example spaghetti : filter (fun p => negb (Z.eqb (red p) (Z.of_nat (length (arr p))))) spag = [].
Proof. vm_compute. reflexivity. Qed.

Definition modu : list string := [
"1RB ...  0LC 0LB  1RC 1RD  0LE 1RB  1LB 1LE";
"1RB ...  0LC 0LB  1RC 1RD  1LE 1RB  0LC 1LE";
"1RB ...  0LC 0LC  0RD 1LB  1RD 0LB";
"1RB ...  0LC 1LB  1RC 1RD  1LB 1RE  0LC 0LE";
"1RB ...  0LC 1RD  1LD 1LC  0LE 0LD  1RE 1RB";
"1RB ...  0RC 0RB  1LC 1LD  0RE 1LB  1LB 1RE";
"1RB ...  0RC 0RB  1LC 1LD  1RE 1LB  0LD 1RE";
"1RB ...  0RC 0RB  1LC 1LD  1RE 1LB  1RC 1RE";
"1RB ...  0RC 1LC  1LC 0RD  0LB 1RD";
"1RB ...  0RC 1LD  0RD 1RC  0RE 0RD  1LE 1LB";
"1RB ...  0RC 1LD  1LB 1RC  0RE 0RD  1LE 1LB";
"1RB ...  0RC 1LD  1LD 1RC  0RE 0RD  1LE 1LB";
"1RB ...  0RC 1RB  1LC 1LD  1RE 0RD  0LE 0RB";
"1RB ...  1LB 0LC  1LD 1RC  1RE 1LE  0RB 0RE";
"1RB ...  1LB 0LC  1RC 1RB";
"1RB ...  1LB 0RB";
"1RB ...  1LB 0RC  ... 0RB";
"1RB ...  1LB 1LC  0LD 1LE  1RD 0LE  0RB 0RE";
"1RB ...  1LB 1LC  0RD 1LE  0RE 1RD  0RB 0RE";
"1RB ...  1LB 1LC  1RC 0RB";
"1RB ...  1LB 1LC  1RD 1LE  0LE 1RD  0RB 0RE";
"1RB ...  1LB 1LC  1RD 1LE  1LE 0RC  0RB 0RE";
"1RB ...  1LB 1RC  0LC 0RB";
"1RB ...  1LC 0LC  1RC 0LB";
"1RB ...  1LC 0RB  1LB 1RC";
"1RB ...  1LC 1LB  0LD 0LC  1RD 1RE  0LB 1RC";
"1RB ...  1LC 1RB  1RD 1LD  0RE 0RD  1LE 0LB";
"1RB ...  1LC 1RD  0LE 1LC  0LE 0LD  1RE 1RB";
"1RB ...  1RC ...  1LC 1LD  1RE 1LF  1RC 1RE  0RC 0RF";
"1RB ...  1RC 1LB  1LD 1RD  0LE 0LD  1RE 0RB";
"1RB ...  1RC 1LD  0RE 1RC  0RE 0RD  1LE 1LB";
"1RB ...  1RC 1RB  0RD 0RC  1LD 1LE  0RB 1LC";
"1RB ...  1RC 1RB  1LC 1LD  1RB 1LE  0RC 0RE";
"1RB ... ...  2LB 1RB 1LB";
"1RB ... ... ...  0LC 2LC ... ...  0LC 3RD 0RD 2RE  1LF 1LC 1RB ...  ... 3RD ... ...  1LG ... 2RB 1LF  2RE ... 2LC ...";
"1RB ... ... ... ...  2LC ... ... ... ...  3RD 3LC ... 1LC ...  ... 1RD 1RB 1LE ...  4RD 1LE ... 1RD 1LC";
"1RB 0LB  1LA 1LC  1RC 0LC";
"1RB 0LC  1LB 1LA  1RC 0LC";
"1RB 1LA  1LA 1LC  1RC 0LC";
"1RB 1LA  1LA 1RC  1LC 0RC";
"1RB 1LB  1LA 0LC  1RC 0LC";
"1RB 1LB  1LA 1LC  1RC 0LC";
"1RB 1LB  1LA 1RC  1LC 0RC";
"1RB 1LC  1LB 0RD  1RC 0LC  1LD 1LA";
"1RB 1LC  1LB 1LA  1RC 0LC";
"1RB 1LC  1RC 1LD  1LA 0LB  1RD 0LD"].
Example modular : filter (fun p => negb (ob (is_connected pick (arr p)) false && ob (is_simple ord (arr p)) true)) modu = [].
Proof. vm_compute. reflexivity. Qed.

Definition gr : list (string * string * list bool * list (Z * list Z) * list (Z * list Z)) := [
("1RB 1LB  1LA ...","BBA.",[true;true;true;false],[(0,[1]);(1,[0])],[(0,[1]);(1,[0])]);
("1RB 1LB  1LB 1LA","BBBA",[true;true;false;true],[(0,[1]);(1,[0;1])],[(0,[1]);(1,[0;1])]);
("1RB 0LB  1LA 0RA  ... ...","BBAA..",[false;false;true;false],[(0,[1]);(1,[0]);(2,[])],[(0,[1]);(1,[0]);(2,[])]);
("1RB 1LA  0LA 0RB  ... ...","BAAB..",[false;false;false;false],[(0,[0;1]);(1,[0;1]);(2,[])],[(0,[0;1]);(1,[0;1]);(2,[])]);
("1RB ...  0LB 1RC  1LB 0RC","B.BCBC",[true;false;false;true],[(0,[]);(1,[0;1;2]);(2,[1;2])],[(0,[1]);(1,[1;2]);(2,[1;2])]);
("1RB ...  1LB 0RC  1LC 1LA","B.BCCA",[true;true;false;true],[(0,[2]);(1,[0;1]);(2,[1;2])],[(0,[1]);(1,[1;2]);(2,[0;2])]);
("1RC ...  1LB 0RC  1LB 1LA","C.BCBA",[false;true;false;true],[(0,[2]);(1,[1;2]);(2,[0;1])],[(0,[2]);(1,[1;2]);(2,[0;1])]);
("1RB 0LB  1LA 0RC  1LC 1LA","BBACCA",[true;true;false;true],[(0,[1;2]);(1,[0]);(2,[1;2])],[(0,[1]);(1,[0;2]);(2,[0;2])]);
("1RB 0LA  1LB 0RC  1LC 1LB","BABCCB",[true;false;false;true],[(0,[0]);(1,[0;1;2]);(2,[1;2])],[(0,[0;1]);(1,[1;2]);(2,[1;2])]);
("1RB 2LB ...  2LA 2RB 1LB","BB.ABB",[true;true;false;false],[(0,[1]);(1,[0;1])],[(0,[1]);(1,[0;1])]);
("1RB 2LB 1LA  2LB 2RA 0RA","BBABAA",[true;true;false;true],[(0,[0;1]);(1,[0;1])],[(0,[0;1]);(1,[0;1])]);
("1RB 2LB 1LA  2LB 2RB 0RB","BBABBB",[true;false;false;true],[(0,[0]);(1,[0;1])],[(0,[0;1]);(1,[1])]);
("1RB 0RA 2LB  2LA 0LA 1RA","BABAAA",[true;true;false;false],[(0,[0;1]);(1,[0])],[(0,[0;1]);(1,[0])]);
("1RB 1LB  1LA 0LC  ... 1LD  1RD 0RA","BBAC.DDA",[true;true;false;true],[(0,[1;3]);(1,[0]);(2,[1]);(3,[2;3])],[(0,[1]);(1,[0;2]);(2,[3]);(3,[0;3])]);
("1RC 1LB  1LA 0LC  ... 1LD  1RC 0RA","CBAC.DCA",[false;true;true;false],[(0,[1;3]);(1,[0]);(2,[0;1;3]);(3,[2])],[(0,[1;2]);(1,[0;2]);(2,[3]);(3,[0;2])]);
("1RB 1LB  1LA 0LB  ... 1LC  1RD 0RA","BBAB.CDA",[true;false;false;true],[(0,[1;3]);(1,[0;1]);(2,[2]);(3,[3])],[(0,[1]);(1,[0;1]);(2,[2]);(3,[0;3])]);
("1RC 1LB  1LA 0LC  ... 1LD  1RD 0RD","CBAC.DDD",[false;false;false;true],[(0,[1]);(1,[0]);(2,[0;1]);(3,[2;3])],[(0,[1;2]);(1,[0;2]);(2,[3]);(3,[3])]);
("1RB 0LC  1LD 0LA  1RC 1RD  1LA 0LD","BCDACDAD",[true;true;false;true],[(0,[1;3]);(1,[0]);(2,[0;2]);(3,[1;2;3])],[(0,[1;2]);(1,[0;3]);(2,[2;3]);(3,[0;3])]);
("1RC 0LB  1LD 0LA  1RC 1RD  1LA 0LD","CBDACDAD",[false;true;false;true],[(0,[1;3]);(1,[0]);(2,[0;2]);(3,[1;2;3])],[(0,[1;2]);(1,[0;3]);(2,[2;3]);(3,[0;3])]);
("1RB 2LA 1RA 1RA  1LB 1LA 3RB ...","BAAABAB.",[true;true;false;true],[(0,[0;1]);(1,[0;1])],[(0,[0;1]);(1,[0;1])]);
("1RA 2LA 1RA 1RA  1LB 1LA 3RB ...","AAAABAB.",[true;false;false;true],[(0,[0;1]);(1,[1])],[(0,[0]);(1,[0;1])]);
("1RB 2LB 1LC  1LA 2RB 1RB  ... 2LA 0LC","BBCABB.AC",[true;true;false;false],[(0,[1;2]);(1,[0;1]);(2,[0;2])],[(0,[1;2]);(1,[0;1]);(2,[0;2])]);
("1RC 2LB 1LC  1LA 2RB 1RB  ... 2LA 0LC","CBCABB.AC",[false;true;false;false],[(0,[1;2]);(1,[0;1]);(2,[0;2])],[(0,[1;2]);(1,[0;1]);(2,[0;2])]);
("1RB 1LC ...  1LA 1LC 2RB  1RB 2LC 1RC","BC.ACBBCC",[true;true;false;false],[(0,[1]);(1,[0;1;2]);(2,[0;1;2])],[(0,[1;2]);(1,[0;1;2]);(2,[1;2])]);
("1RB 1LC  1RC 1RB  1RD 0LE  1LA 1LD  ... 0LA","BCCBDEAD.A",[true;true;false;false],[(0,[3;4]);(1,[0;1]);(2,[0;1]);(3,[2;3]);(4,[2])],[(0,[1;2]);(1,[1;2]);(2,[3;4]);(3,[0;3]);(4,[0])]);
("1RB 1LC  1RC 1RB  0LE 1RD  1LA 1LD  ... 0LA","BCCBEDAD.A",[false;true;false;false],[(0,[3;4]);(1,[0;1]);(2,[0;1]);(3,[2;3]);(4,[2])],[(0,[1;2]);(1,[1;2]);(2,[3;4]);(3,[0;3]);(4,[0])]);
("1RB 1LC  1RC 1RB  1RD 0LC  1LA 1LD  ... 0LE","BCCBDCAD.E",[true;false;false;false],[(0,[3]);(1,[0;1]);(2,[0;1;2]);(3,[2;3]);(4,[4])],[(0,[1;2]);(1,[1;2]);(2,[2;3]);(3,[0;3]);(4,[4])]);
("1RB 1LC  1LC 1RA  1LB 0LD  1LA 0RE  1RD 1RE","BCCABDAEDE",[true;true;false;false],[(0,[1;3]);(1,[0;2]);(2,[0;1]);(3,[2;4]);(4,[3;4])],[(0,[1;2]);(1,[0;2]);(2,[1;3]);(3,[0;4]);(4,[3;4])])].
Definition srt (l : list (Z * list Z)) := map (fun e => (fst e, zsorted (snd e))) l.
Fixpoint leq {A} (f : A -> A -> bool) (a b : list A) := match a, b with [], [] => true | x::a, y::b => f x y && leq f a b | _, _ => false end.
Definition deq := leq (fun (a b : Z * list Z) => Z.eqb (fst a) (fst b) && leq Z.eqb (snd a) (snd b)).
Definition chk t := let '(p,flat,bs,en,ex) := t in
  [ String.eqb flat (show (g_str (arr p))); Bool.eqb (is_normal (arr p)) (nth 0 bs false); ob (is_connected pick (arr p)) (nth 1 bs false);
    Bool.eqb (is_irreflexive (arr p)) (nth 2 bs false); ob (is_zero_reflexive (arr p)) (nth 3 bs false);
    deq (srt (exit_points (arr p))) ex; match entry_points (arr p) with Some e => deq (srt e) en | None => false end ].
Example graphs : flat_map (fun t => if forallb (fun b => b) (chk t) then [] else [(t, chk t)]) gr = [].
Proof. vm_compute. reflexivity. Qed.

