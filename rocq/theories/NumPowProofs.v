(** * Proofs: powers of powers *)
From Verif Require Import Base NumModel NumSpec NumProofs NumFree NumMore NumRefute NumPowModel.
From Coq Require Import QArith Qpower.
Local Open Scope Z_scope.

Lemma exp_pow_ok : forall fl n b e k x y c, exact_roots fl -> b <> 0 -> undivided e -> undivided k ->
  val e (inject_Z x) -> val k (inject_Z y) -> exp_pow fl (ops_at fl n) b e k = Ok c ->
  undivided c /\ val c (Qpower (Qpower (inject_Z b) x) y).
Proof.
  intros fl n b e k x y c R B E K Vx Vy H. unfold exp_pow in H.
  destruct (o_mul (ops_at fl n) e k) as [z| | |] eqn:M; cbn [bind] in H; try discriminate.
  destruct (proj2 (proj2 (proj2 (arith_undivided fl n e k _ _ R E K Vx Vy))) z M) as [U V].
  assert (V' : val z (inject_Z (x * y))) by (apply (val_eq _ _ _ V); rewrite inject_Z_mult; reflexivity).
  destruct (make_exp_free_ok fl n b z (x * y) c R B U V' H) as [G W]. split; [exact G|].
  apply (val_eq _ _ _ W). apply Qpower_mult.
Qed.
