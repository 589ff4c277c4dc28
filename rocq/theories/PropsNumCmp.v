(** * The comparisons of symbolic numbers other than [<] (C41) *)
From Verif Require Import Base NumModel NumSpec NumMore NumCmpProofs NumSumSpec NumSumProofs.
Local Open Scope Z_scope.

(** [>] and [<=] of towers over one base tell the truth, too (and [>=], which is [<=] turned around). *)
Theorem C41_towers_other_partial : forall fl b lim, 2 <= b -> forall n a c x y r, tower b lim a x -> tower b lim c y ->
  (gt (ops_at fl n) a c = Ok r -> (r = true <-> y < x)) /\ (le (ops_at fl n) a c = Ok r -> (r = true <-> x <= y)).
Proof. exact tower_gt_le. Qed.
Print Assumptions C41_towers_other_partial.

(** 2^2^5 and 2^6, and 2^6 and itself. *)
Example C41_other_case : tower 2 6 (Exp 2 (Exp 2 (I 5))) (2 ^ 2 ^ 5) /\ tower 2 6 (Exp 2 (I 6)) (2 ^ 6)
  /\ gt (ops_at exact_fl 20) (Exp 2 (Exp 2 (I 5))) (Exp 2 (I 6)) = Ok true
  /\ le (ops_at exact_fl 20) (Exp 2 (Exp 2 (I 5))) (Exp 2 (I 6)) = Ok false
  /\ gt (ops_at exact_fl 20) (Exp 2 (I 6)) (Exp 2 (I 6)) = Ok false /\ le (ops_at exact_fl 20) (Exp 2 (I 6)) (Exp 2 (I 6)) = Ok true
  /\ le (ops_at exact_fl 20) (I 6) (Exp 2 (I 6)) = Ok true.
Proof.
  split; [|split; [|repeat split; vm_compute; reflexivity]].
  - split; [reflexivity|]. exists (2 ^ 5). split; [|repeat split; lia]. split; [reflexivity|]. exists 5. repeat split; lia.
  - split; [reflexivity|]. exists 6. repeat split; lia.
Qed.

(** [<] tells the truth of ints, towers over one base and towers with an int added, if the ints are small against the
    powers, but for a tower compared with itself plus an int (C41_comparison_refuted). *)
Theorem C41_sums_partial : forall fl b lim n a c x y r, 2 <= b -> near_tower b lim a x -> near_tower b lim c y ->
  (forall k, c <> Add (I k) a) -> o_lt (ops_at fl n) a c = Ok r -> (r = true <-> x < y).
Proof. exact near_lt. Qed.
Print Assumptions C41_sums_partial.

(** -7 + 2^9 < 8 + 2^9, 2^10 < -100 + 2^9, 5 < -100 + 2^9 and -7 + 2^9 < 2^9. *)
Example C41_sums_case : let t := Exp 2 (I 9) in
  near_tower 2 500 (Add (I (-7)) t) 505 /\ near_tower 2 500 (Add (I 8) t) 520 /\ near_tower 2 500 (Exp 2 (I 10)) 1024
  /\ near_tower 2 500 (Add (I (-100)) t) 412 /\ near_tower 2 500 (I 5) 5 /\ near_tower 2 500 t 512
  /\ o_lt (ops_at exact_fl 20) (Add (I (-7)) t) (Add (I 8) t) = Ok true
  /\ o_lt (ops_at exact_fl 20) (Exp 2 (I 10)) (Add (I (-100)) t) = Ok false
  /\ o_lt (ops_at exact_fl 20) (I 5) (Add (I (-100)) t) = Ok true
  /\ o_lt (ops_at exact_fl 20) (Add (I (-7)) t) t = Ok true.
Proof.
  assert (T : forall e z, 0 <= e <= 500 -> z = 2 ^ e -> 500 < z -> tower 2 500 (Exp 2 (I e)) z).
  { intros e z E -> L. split; [reflexivity|]. exists e. repeat split; lia. }
  cbv zeta. split; [split; [lia|]; exists 512; split; [apply T; lia|lia]|]. split; [split; [lia|]; exists 512; split; [apply T; lia|lia]|].
  split; [apply T; lia|]. split; [split; [lia|]; exists 512; split; [apply T; lia|lia]|]. split; [split; lia|]. split; [apply T; lia|].
  repeat split; vm_compute; reflexivity.
Qed.
