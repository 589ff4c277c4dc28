(** * The model of Machine runs with symbolic counts against the project's own tests

    Some of the programs of the table ALGEBRA in test/prog_data.py, which need no macro: the cycles, marks and number of rule
    applications expected there, as expressions.  Tests of the model, not proofs. *)
From Coq Require Import String Ascii.
From Verif Require Import Base TM ProgModel ParseModel QuickModel ProverModel NumModel NumSpec SymModel SymMachModel.
Local Open Scope string_scope.
Definition txt (s : string) : text := map (fun a => Z.of_nat (nat_of_ascii a)) (list_ascii_of_string s).
Definition comp_of (s : string) : comp_prog := match from_str (txt s) with Some c => c | None => [] end.
Definition o : ops := ops_at exact_fl 200.
(** Ends as expected, after so many cycles, with these marks and applications. *)
Definition agrees (t : string * bool * Z * cnt * cnt) : bool :=
  let '(p, halts, cycles, marks, apps) := t in
  let m := s_machine_run exact_fl o (plain (machine_of (comp_of p))) (Z.to_nat (cycles + 50)) in
  match sm_end m with YUndfnd _ => halts | YSpnout => negb halts | _ => false end
  && Z.eqb (sm_cycles m) cycles && cnt_eqb (sm_rulapp m) apps
  && match s_marks o (sm_tape m) with Got x => cnt_eqb x marks | _ => false end.
Definition algebra : list (string * bool * Z * cnt * cnt) := [
("1RB 0LB 1LA  2LC 0LB 2LB  2RC 2RA 0LC", false, 129, (I 0), (Add (I 222) (Mul (I 11) (Exp 2 (I 41)))));
("1RB 0LB 1LA  2LC 0LA 2LB  2RC 2RA 0LC", false, 132, (I 0), (Add (I 222) (Mul (I 11) (Exp 2 (I 41)))));
("1RB 0LB 1LA  2LC 2LB 2LB  2RC 2RA 0LC", false, 141, (I 0), (Add (I 430) (Mul (I 13) (Exp 2 (I 101)))));
("1LB ...  0LC 1LC  0LD 0LC  1LE 1RA  0LF 0LE  1LG 1RD  0LH 0LG  1RH 1RF", true, 152, (Div (Add (I (-3)) (Mul (I 7) (Exp 3 (I 93)))) 2), (Div (Add (I 1041) (Mul (I 7) (Exp 3 (I 92)))) 2));
("1RB 1LA 3LA 3RC  2LC 2LB 1RB 1RA  2LA 3LC ... 1LB", true, 227, (Div (Add (I (-4)) (Mul (I 19) (Exp 2 (I 4320)))) 3), (I 4817));
("1RB 1RA 2LB 3LA  2LA 0LB 1LC 1LB  3RB 3RC ... 1LC", true, 347, (Div (Add (I (-5)) (Mul (I 25) (Exp 3 (I 13660)))) 2), (I 27762));
("1RB 0LD  1RC 0RF  1LC 1LA  0LE ...  1LA 0RB  0RC 0RE", true, 413, (Div (Add (I 25) (Exp 3 (Div (Add (I 29) (Exp 3 (I 11))) 8))) 2), (Div (Add (I 9861) (Add (Mul (I 4) (Exp 3 (Div (Add (I 21) (Exp 3 (I 11))) 8))) (Add (Mul (I 4) (Exp 3 (Div (Add (I 21) (Exp 3 (I 11))) 8))) (Add (Mul (I 4) (Exp 3 (Div (Add (I 13) (Exp 3 (I 11))) 8))) (Add (Mul (I 4) (Exp 3 (Div (Add (I 13) (Exp 3 (I 11))) 8))) (Mul (Exp 3 (I 10)) (Add (I 7) (Mul (I 4) (Exp 3 (Div (Add (I (-67)) (Exp 3 (I 11))) 8)))))))))) 8))].
Example algebra_agrees : filter (fun t => negb (agrees t)) algebra = [].
Proof. vm_compute. reflexivity. Qed.
