(** * Powers of symbolic powers (C40) *)
From Coq Require Import QArith Qpower Znumtheory.
From Verif Require Import Base NumTables NumModel NumSpec NumProofs NumFree NumMod NumMore NumRefute NumPowModel NumPowProofs.
Local Open Scope Z_scope.

(** C40 for [(b ** e) ** k]: worth the power of the power, for exponents without quotients, wherever roots and
    logarithms are right. *)
Theorem C40_power_of_power_partial : forall fl n b e k x y c, exact_roots fl -> b <> 0 -> undivided e -> undivided k ->
  val e (inject_Z x) -> val k (inject_Z y) -> exp_pow fl (ops_at fl n) b e k = Ok c ->
  undivided c /\ val c (Qpower (Qpower (inject_Z b) x) y).
Proof. exact exp_pow_ok. Qed.
Print Assumptions C40_power_of_power_partial.

(** (3 ** (5 ** 4)) ** (1 + 5 ** 4) *)
Example C40_power_case : exact_roots exact_fl /\ val (Exp 5 (I 4)) (inject_Z (5 ^ 4)) /\ val (Add (I 1) (Exp 5 (I 4))) (inject_Z (1 + 5 ^ 4))
  /\ exists c, exp_pow exact_fl (ops_at exact_fl 20) 3 (Exp 5 (I 4)) (Add (I 1) (Exp 5 (I 4))) = Ok c.
Proof.
  split; [apply exact_fl_roots|]. assert (V : val (Exp 5 (I 4)) (inject_Z (5 ^ 4))) by (exists 4; split; [reflexivity|]; split; [lia|reflexivity]).
  split; [exact V|]. split; [|eexists; vm_compute; reflexivity].
  exists (inject_Z 1), (inject_Z (5 ^ 4)). split; [reflexivity|]. split; [exact V|reflexivity].
Qed.
