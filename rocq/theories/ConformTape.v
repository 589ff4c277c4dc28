(** * The models of tapes on the unit tests of src/tape.rs 767-1020 and test/test_tape.py 60-262

    Tests of the reading of the source; no theorem rests on them. *)
From Coq Require Import String.
From Verif Require Import Base TapeModel EnumModel RulesModel NumShowModel TapeShowModel.
Local Open Scope string_scope.
Local Open Scope list_scope.
Local Open Scope Z_scope.

Definition text_eqb (a b : list Z) : bool := if list_eq_dec Z.eq_dec a b then true else false.
(** A tape with its marks and text, in both languages; src/tape.rs 725-733. *)
Definition shows (t : tape) (marks : Z) (s : string) : bool :=
  (t_marks t =? marks) && Bool.eqb (t_blank t) (marks =? 0) && text_eqb (rs_tape_text t) (quoted s) && text_eqb (py_tape_text (fun n => n) t) (quoted s).
(** The same step in both. *)
Definition st (t : tape) (shift : bool) (color : Z) (skip : bool) : tape := fst (rs_step t shift color skip).
Definition st' (t : tape) (shift : bool) (color : Z) (skip : bool) : tape := fst (py_step t shift color skip).

(** src/tape.rs 767-784 (test_init). *)
Example test_init : forallb (fun step => let t1 := step init_stepped true 1 false in let t2 := step t1 false 0 false in let t3 := step t2 false 0 true in
  shows init_tape 0 "[0]" && shows init_stepped 1 "1 [0]" && shows t1 2 "1^2 [0]" && shows t2 2 "1 [1]" && shows t3 0 "[0]") [st; st'] = true.
Proof. vm_compute. reflexivity. Qed.
(** src/tape.rs 786-804 (test_clone). *)
Example test_clone : forallb (fun step => let t := Tape [Blk 1 1; Blk 0 1; Blk 1 1] 2 [Blk 2 1; Blk 1 2] in
  shows (step t false 2 false) 6 "1 0 [1] 2^2 1^2" && shows (step t true 1 false) 6 "1 0 1^2 [2] 1^2" && shows t 6 "1 0 1 [2] 2 1^2") [st; st'] = true.
Proof. vm_compute. reflexivity. Qed.
Example test_sigs : t_signature (Tape [Blk 1 1; Blk 0 1; Blk 1 1] 2 [Blk 2 1; Blk 1 2]) = Sig 2 [Just 1; Just 0; Just 1] [Just 2; TapeModel.Mult 1].
Proof. reflexivity. Qed.

(** src/tape.rs 825-851 (test_apply_1), 853-880 (test_apply_2), test/test_tape.py 61-79 (test_rule_2). *)
Definition applied (r : rule) (t : tape) (marks : Z) (s : string) : bool :=
  match rs_apply_rule r t with RsApplied (Some _) t => shows t marks s | _ => false end
  && match py_apply_rule r t with EvApplied _ t => shows t marks s | _ => false end.
Example test_apply_1 : shows (Tape [Blk 1 12; Blk 2 3] 3 [Blk 4 15; Blk 5 2; Blk 6 2]) 35 "2^3 1^12 [3] 4^15 5^2 6^2"
  && applied [((false, 1%nat), Plus 3); ((true, 0%nat), Plus (-2))] (Tape [Blk 1 12; Blk 2 3] 3 [Blk 4 15; Blk 5 2; Blk 6 2]) 42 "2^24 1^12 [3] 4 5^2 6^2" = true.
Proof. vm_compute. reflexivity. Qed.
Example test_apply_2 : applied [((false, 0%nat), Plus 4); ((true, 0%nat), Plus (-2))]
  (Tape [Blk 4 2] 4 [Blk 5 60; Blk 2 1; Blk 4 1; Blk 5 7; Blk 1 1]) 131 "4^118 [4] 5^2 2 4 5^7 1" = true.
Proof. vm_compute. reflexivity. Qed.

(** ** EnumTape: src/tape.rs 935-1020, test/test_tape.py 136-262 *)
Definition eshows (e : etape) (s : string) (lo ro : nat) (le re : bool) : bool :=
  text_eqb (rs_tape_text (erase e)) (quoted s) && Nat.eqb (et_loff e) lo && Nat.eqb (et_roff e) ro && Bool.eqb (et_ledge e) le && Bool.eqb (et_redge e) re.
(** One text, offsets and edges after each step. *)
Fixpoint echeck (step : etape -> bool -> Z -> bool -> etape) (e : etape) (l : list (bool * Z * bool * (string * nat * nat * bool * bool))) : bool :=
  match l with
  | [] => true
  | (sh, c, sk, (s, lo, ro, le, re)) :: l => let e := step e sh c sk in eshows e s lo ro le re && echeck step e l
  end.
Definition both (t : tape) l : bool := echeck rs_estep (to_enum t) l && echeck (py_estep None) (to_enum t) l.
Definition L := false.
Definition R := true.
Example test_offsets_1 : both (Tape [Blk 1 11; Blk 4 1; Blk 3 11; Blk 2 1] 0 [])
  [(L, 0, false, ("2 3^11 4 1^10 [1]", 1%nat, 0%nat, false, false)); (L, 2, true, ("2 3^11 [4] 2^11", 2%nat, 0%nat, false, false));
   (L, 2, true, ("2 3^10 [3] 2^12", 3%nat, 0%nat, false, false)); (L, 2, false, ("2 3^9 [3] 2^13", 3%nat, 0%nat, false, false));
   (R, 4, false, ("2 3^9 4 [2] 2^12", 3%nat, 0%nat, false, false)); (R, 1, true, ("2 3^9 4 1^13 [0]", 3%nat, 0%nat, false, true));
   (R, 1, false, ("2 3^9 4 1^14 [0]", 3%nat, 0%nat, false, true))] = true.
Proof. vm_compute. reflexivity. Qed.
Example test_offsets_2 : both (Tape [Blk 2 414422565; Blk 3 6] 0 [])
  [(L, 5, false, ("3^6 2^414422564 [2] 5", 1%nat, 0%nat, false, false)); (L, 5, true, ("3^5 [3] 5^414422566", 2%nat, 0%nat, false, false));
   (R, 2, false, ("3^5 2 [5] 5^414422565", 2%nat, 0%nat, false, false)); (R, 2, true, ("3^5 2^414422567 [0]", 2%nat, 0%nat, false, true))] = true.
Proof. vm_compute. reflexivity. Qed.
Example test_offsets_3 : both (Tape [Blk 3 9] 3 [Blk 1 10]) [(L, 1, false, ("3^8 [3] 1^11", 1%nat, 1%nat, false, false))] = true.
Proof. vm_compute. reflexivity. Qed.
Example test_edges_1 : both (Tape [] 0 []) [(L, 1, false, ("[0] 1", 0%nat, 0%nat, true, false))] = true.
Proof. vm_compute. reflexivity. Qed.
Example test_edges_2 : both (Tape [Blk 1 3] 1 []) [(L, 2, true, ("[0] 2^4", 1%nat, 0%nat, true, false))] = true.
Proof. vm_compute. reflexivity. Qed.
