(** * Printed numbers (C76) *)
From Verif Require Import Base NumModel NumShowModel NumShowSpec NumShowProofs.
Local Open Scope string_scope.

(** -(5 + 2 ** (7 * 3 ** 2)) // 4 with a sum in it: shown in full, read back and worked out. *)
Example C76_case :
  let e := Div (Add (I (-12)) (Mul (I (-1)) (Exp 2 (Mul (I 7) (Exp 3 (I 2)))))) 4 in
  in_full e /\ bases_ok e /\ well_made e /\
  show (fun _ => 0) e = quoted "((-12 + -(2 ** (7 * (3 ** 2)))) // 4)" /\
  python_eval (show (fun _ => 0) e) = Some ((-12 - 2 ^ 63) / 4) /\ to_int e = Some ((-12 - 2 ^ 63) / 4).
Proof.
  intros e. split; [|split; [|split; [|split; [|split]]]]; try (vm_compute; reflexivity).
  - simpl. lia.
  - simpl. lia.
  - simpl. tauto.
Qed.

(** A number shown in full, with no negative base, is worked out by Python to the number itself. *)
Theorem C76_value_partial ord e : in_full e -> bases_ok e -> python_eval (show ord e) = to_int e.
Proof. exact (eval_right ord e). Qed.
Print Assumptions C76_value_partial.

(** Two numbers shown in full with the same text are the same expression. *)
Theorem C76_injective_partial ord e f :
  in_full e -> in_full f -> well_made e -> well_made f -> show ord e = show ord f -> e = f.
Proof. exact (show_inj ord e f). Qed.
Print Assumptions C76_injective_partial.

(** A negative base is shown without parentheses: (-2) ** 4 is 16, its text is worth -16. *)
Theorem C76_negative_base_refuted : exists e, in_full e /\ well_made e /\ forall ord,
  to_int e = Some 16 /\ show ord e = quoted "(-2 ** 4)" /\ python_eval (show ord e) = Some (-16).
Proof.
  exists (Exp (-2) (I 4)). split; [simpl; lia|split; [exact Logic.I|]].
  intros ord. split; [reflexivity|split; vm_compute; reflexivity].
Qed.
Print Assumptions C76_negative_base_refuted.

(** Ints from 10 ** 12 on are shown as a power of ten: different numbers look the same. *)
Theorem C76_truncated_refuted : exists e f, e <> f /\ well_made e /\ well_made f /\ bases_ok e /\ bases_ok f /\
  forall ord, ord (10 ^ 12) = 12 -> ord (10 ^ 12 + 1) = 12 ->
  show ord e = quoted "((~10^12) + (2 ** 5))" /\ show ord f = quoted "((~10^12) + (2 ** 5))".
Proof.
  exists (Add (I (10 ^ 12)) (Exp 2 (I 5))), (Add (I (10 ^ 12 + 1)) (Exp 2 (I 5))).
  split; [intros E; discriminate E|]. split; [simpl; tauto|]. split; [simpl; tauto|]. split; [simpl; lia|]. split; [simpl; lia|].
  intros ord O1 O2. split.
  - change (show ord (Add (I (10 ^ 12)) (Exp 2 (I 5)))) with
      (quoted "(" ++ (quoted "(~10^" ++ str_int (ord (10 ^ 12)) ++ quoted ")") ++ quoted " + (2 ** 5))")%list.
    rewrite O1. vm_compute. reflexivity.
  - change (show ord (Add (I (10 ^ 12 + 1)) (Exp 2 (I 5)))) with
      (quoted "(" ++ (quoted "(~10^" ++ str_int (ord (10 ^ 12 + 1)) ++ quoted ")") ++ quoted " + (2 ** 5))")%list.
    rewrite O2. vm_compute. reflexivity.
Qed.
Print Assumptions C76_truncated_refuted.
