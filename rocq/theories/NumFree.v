(** * Expressions without division; make_exp; gcd *)
From Coq Require Import QArith Qpower Qfield Znumtheory.
From Verif Require Import Base NumModel NumSpec NumProofs.

Local Notation Zq := inject_Z.

(** ** A prime that divides none of the bases *)

Lemma prime_factor : forall n, 0 <= n -> 2 <= n -> exists p, prime p /\ (p | n).
Proof.
  intros n. apply (Z_lt_induction (fun n => 2 <= n -> exists p, prime p /\ (p | n))).
  clear n. intros n IH N. destruct (prime_dec n) as [P|NP].
  - exists n. split; [auto|apply Z.divide_refl].
  - destruct (not_prime_divide n) as (m & M & D); [lia|auto|].
    destruct (IH m) as (p & P & PD); [lia|lia|].
    exists p. split; [auto|eapply Z.divide_trans; eauto].
Qed.

Lemma prime_avoiding : forall m, m <> 0 -> exists p, prime p /\ rel_prime m p.
Proof.
  intros m M. destruct (prime_factor (Z.abs m + 1)) as (p & P & D); [lia|lia|].
  exists p. split; [auto|]. apply rel_prime_sym, prime_rel_prime; [auto|].
  intros DM. apply Z.divide_abs_r in DM.
  assert (D1 : (p | 1)). { replace 1 with (Z.abs m + 1 - Z.abs m) by lia. apply Z.divide_sub_r; auto. }
  apply Z.divide_1_r_nonneg in D1; pose proof (prime_ge_2 p P); lia.
Qed.

Fixpoint bases (e : cnt) : Z :=
  match e with
  | I _ => 1
  | Add l r | Mul l r => bases l * bases r
  | Div n _ => bases n
  | Exp b e => b * bases e
  end.

Lemma bases_nz : forall e q, val e q -> bases e <> 0.
Proof.
  induction e; cbn; intros q H.
  - lia.
  - destruct H as (a & b & A & B & _). specialize (IHe1 _ A). specialize (IHe2 _ B). nia.
  - destruct H as (a & b & A & B & _). specialize (IHe1 _ A). specialize (IHe2 _ B). nia.
  - destruct H as (a & A & _). eauto.
  - destruct H as (z & A & B & _). specialize (IHe _ A). nia.
Qed.

Lemma rel_prime_part : forall a b p, rel_prime (a * b) p -> rel_prime a p /\ rel_prime b p.
Proof.
  intros a b p R. split; (eapply rel_prime_div; [exact R|]); [exists b|exists a]; lia.
Qed.

Lemma undivided_tame : forall p e, undivided e -> rel_prime (bases e) p -> tame p e.
Proof.
  induction e; cbn; intros U R; auto.
  - destruct U. apply rel_prime_part in R as []. auto.
  - destruct U. apply rel_prime_part in R as []. auto.
  - contradiction.
  - apply rel_prime_part in R as []. auto.
Qed.

Lemma undivided_good2 : forall a b qa qb, undivided a -> undivided b -> val a qa -> val b qb ->
  exists p, prime p /\ good p a qa /\ good p b qb.
Proof.
  intros a b qa qb U V A B.
  destruct (prime_avoiding (bases a * bases b)) as (p & P & R).
  - pose proof (bases_nz _ _ A). pose proof (bases_nz _ _ B). nia.
  - apply rel_prime_part in R as []. exists p. split; [auto|].
    split; (split; [apply undivided_tame; auto|auto]).
Qed.

(** ** Operators do not introduce divisions *)

Section Free.
Variable fl : floats.

Record free (o : ops) : Prop := {
  f_add : forall a b c, undivided a -> undivided b -> o_add o a b = Ok c -> undivided c;
  f_mul : forall a b c, undivided a -> undivided b -> o_mul o a b = Ok c -> undivided c;
  f_neg : forall a c, undivided a -> o_neg o a = Ok c -> undivided c;
  f_sub : forall a b c, undivided a -> undivided b -> o_sub o a b = Ok c -> undivided c
}.

Variable o : ops.
Hypothesis F : free o.

Ltac br H :=
  repeat (match type of H with
  | bind ?x _ = Ok _ => let E := fresh "E" in destruct x eqn:E; cbn [bind] in H; try discriminate H
  | ensure ?b _ = Ok _ => let E := fresh "C" in destruct b eqn:E; cbn [ensure] in H; try discriminate H
  | or_else ?x _ = Ok _ => let E := fresh "E" in destruct x eqn:E; cbn [or_else] in H; try discriminate H
  | (if ?b then _ else _) = Ok _ => let E := fresh "C" in destruct b eqn:E; try discriminate H
  | Ok _ = Ok _ => injection H as <-
  end).
Ltac un := cbn [undivided] in *; repeat match goal with H : _ /\ _ |- _ => destruct H end.

Lemma make_add_free : forall l r, undivided l -> undivided r -> undivided (make_add l r).
Proof. intros. unfold make_add. destruct (_ && _); cbn; auto. Qed.
Lemma make_mul_free : forall l r c, undivided l -> undivided r -> make_mul o l r = Ok c -> undivided c.
Proof. intros l r c L R H. unfold make_mul, new_mul in H. br H; cbn; auto. Qed.
Lemma exp_loop_free : forall n b e be, undivided e -> exp_loop fl o n b e = Ok be -> undivided (snd be).
Proof.
  induction n; cbn [exp_loop]; intros b e be U H; [discriminate|].
  assert (M : forall z a, o_mul o e (I z) = Ok a -> undivided a).
  { intros z a E. apply (f_mul o F) in E; auto. exact Logic.I. }
  br H; cbn; eauto.
  destruct (fl_root fl b); br H; eauto.
Qed.
Lemma make_exp_free : forall b e c, undivided e -> make_exp fl o b e = Ok c -> undivided c.
Proof.
  intros b e c U H. unfold make_exp in H. br H. apply exp_loop_free in E; auto.
  unfold new_exp in H. destruct (snd a); br H; cbn; auto.
Qed.

Ltac fr1 :=
  match goal with
  | E : o_add o ?a ?b = Ok ?c |- _ => apply (f_add o F) in E; [|solve [cbn; auto]|solve [cbn; auto]]
  | E : o_mul o ?a ?b = Ok ?c |- _ => apply (f_mul o F) in E; [|solve [cbn; auto]|solve [cbn; auto]]
  | E : o_sub o ?a ?b = Ok ?c |- _ => apply (f_sub o F) in E; [|solve [cbn; auto]|solve [cbn; auto]]
  | E : o_neg o ?a = Ok ?c |- _ => apply (f_neg o F) in E; [|solve [cbn; auto]]
  | E : make_mul o ?a ?b = Ok ?c |- _ => apply make_mul_free in E; [|solve [cbn; auto]|solve [cbn; auto]]
  | E : make_exp fl o ?a ?b = Ok ?c |- _ => apply make_exp_free in E; [|solve [cbn; auto]]
  end.
Ltac fr := repeat fr1; try (apply make_add_free); cbn; auto.
Ltac go := repeat match goal with
  | H : bind _ _ = Ok _ |- _ => progress br H
  | H : ensure _ _ = Ok _ |- _ => progress br H
  | H : or_else _ _ = Ok _ |- _ => progress br H
  | H : (if _ then _ else _) = Ok _ |- _ => progress br H
  | H : Ok _ = Ok _ |- _ => progress br H
  | H : match ?x with I _ => _ | _ => _ end = Ok _ |- _ => destruct x
  end; un; try contradiction; try discriminate; fr.


Lemma int_pow_free : forall b e c, undivided e -> int_pow fl o b e = Ok c -> undivided c.
Proof. intros b e c U H. unfold int_pow in H. destruct e; br H; try (eapply make_exp_free; eauto; fail). exact Logic.I. Qed.
Lemma add_exponents_free : forall b e1 c1 b2 e2 c2 c, undivided e1 -> undivided c1 -> undivided e2 -> undivided c2 ->
  add_exponents fl o b e1 c1 b2 e2 c2 = Ok c -> undivided c.
Proof.
  intros b e1 c1 b2 e2 c2 c E1 C1 E2 C2 H. unfold add_exponents in H. br H.
  - fr.
  - destruct a; cbn beta iota in H; br H.
    + assert (X0 : undivided a0) by (clear - F E1 E2 E3; fr).
      assert (X : undivided a2) by (destruct a1; [eapply int_pow_free|eapply make_exp_free]; eauto).
      fr.
    + assert (X0 : undivided a0) by (clear - F E1 E2 E3; fr).
      assert (X : undivided a2) by (destruct a1; [eapply int_pow_free|eapply make_exp_free]; eauto).
      fr.
Qed.

Ltac fx1 :=
  fr1 || match goal with
  | E : add_exponents fl o _ _ _ _ _ _ = Ok _ |- _ => apply add_exponents_free in E; [|solve [cbn; auto]..]
  end.
Ltac dm H := repeat (match type of H with
  | bind ?x _ = Ok _ => let E := fresh "E" in destruct x eqn:E; cbn [bind] in H; try discriminate H
  | ensure ?b _ = Ok _ => let E := fresh "C" in destruct b eqn:E; cbn [ensure] in H; try discriminate H
  | or_else ?x _ = Ok _ => let E := fresh "E" in destruct x eqn:E; cbn [or_else] in H; try discriminate H
  | (if ?b then _ else _) = Ok _ => let E := fresh "C" in destruct b eqn:E; try discriminate H
  | Ok _ = Ok _ => injection H as <-
  | match ?x with I _ => _ | _ => _ end = Ok _ => destruct x
  | _ => progress cbv beta zeta in H
  end); un; try contradiction; try discriminate; repeat fx1; try (apply make_add_free); cbn; auto.

Lemma do_neg_free : forall a c, undivided a -> do_neg o a = Ok c -> undivided c.
Proof.
  intros a c A H. destruct a; cbn [do_neg] in H; unfold add_neg, mul_neg, exp_neg in H; dm H.
Qed.
Lemma add_add_rest_free : forall l r b c, undivided (Add l r) -> undivided b -> add_add_rest o l r b = Ok c -> undivided c.
Proof. intros l r b c A B H. unfold add_add_rest in H. dm H. Qed.
Lemma add_add_free : forall l r b c, undivided (Add l r) -> undivided b -> add_add o l r b = Ok c -> undivided c.
Proof.
  intros l r b c A B H. unfold add_add in H.
  destruct b; try exact (add_add_rest_free _ _ _ _ A B H).
  - dm H.
  - pose proof (fun x => add_add_rest_free l r (Add b1 b2) x A B) as R.
    destruct b1; [clear R; dm H|..]; (br H; [clear R; un; fr|eapply R; exact H]).
Qed.
Lemma mul_add_end_free : forall l r b c, undivided (Mul l r) -> undivided b -> mul_add_end l r b = Ok c -> undivided c.
Proof. intros l r b c A B H. unfold mul_add_end in H. dm H. Qed.
Lemma mul_add_exps_free : forall l r b1 b2 c, undivided (Mul l r) -> undivided (Mul b1 b2) ->
  mul_add_exps fl o l r b1 b2 = Ok c -> undivided c.
Proof.
  intros l r b1 b2 c A B H. unfold mul_add_exps in H.
  pose proof (fun x => mul_add_end_free l r (Mul b1 b2) x A B) as EN.
  destruct r as [| | | |rb re]; auto.
  assert (X2 : match b1 with
               | Exp b e => ensure (rb =? b) (or_else (add_exponents fl o rb re l b e b2) (mul_add_end l (Exp rb re) (Mul b1 b2)))
               | _ => mul_add_end l (Exp rb re) (Mul b1 b2)
               end = Ok c -> undivided c).
  { clear H. intros H. destruct b1; auto. br H; auto. un. repeat fx1. auto. }
  destruct b2; auto. br H; auto. un. repeat fx1. auto.
Qed.
Lemma mul_add_mul_free : forall l r b1 b2 c, undivided (Mul l r) -> undivided (Mul b1 b2) ->
  mul_add_mul fl o l r b1 b2 = Ok c -> undivided c.
Proof.
  intros l r b1 b2 c A B H. unfold mul_add_mul in H.
  assert (R : mul_add_mul_rest fl o l r b1 b2 = Ok c -> undivided c).
  { clear H. intros H. unfold mul_add_mul_rest in H.
    destruct (cnt_eqb l b2); [dm H|]. destruct (cnt_eqb r b1); [dm H|]. exact (mul_add_exps_free _ _ _ _ _ A B H). }
  br H; auto; [un; fr|].
  assert (N : undivided a) by (clear H R; un; fr).
  destruct a; br H; auto; clear R; un; fr.
Qed.
Lemma mul_add_add_free : forall l r b1 b2 c, undivided (Mul l r) -> undivided (Add b1 b2) ->
  mul_add_add o l r b1 b2 = Ok c -> undivided c.
Proof.
  intros l r b1 b2 c A B H. unfold mul_add_add, mul_add_end in H. dm H.
Qed.
Lemma do_add_free : forall a b c, undivided a -> undivided b -> do_add fl o a b = Ok c -> undivided c.
Proof.
  intros a b c A B H. destruct a; cbn [do_add] in H.
  - unfold add_radd, plain_radd in H. dm H.
  - exact (add_add_free _ _ _ _ A B H).
  - unfold mul_add in H. destruct b; try contradiction.
    + dm H.
    + exact (mul_add_add_free _ _ _ _ _ A B H).
    + exact (mul_add_mul_free _ _ _ _ _ A B H).
    + fr.
  - contradiction.
  - unfold exp_add in H. dm H.
Qed.
Lemma do_sub_free : forall a b c, undivided a -> undivided b -> do_sub fl o a b = Ok c -> undivided c.
Proof.
  intros a b c A B H. destruct a; cbn [do_sub] in H.
  - dm H.
  - unfold add_sub in H. dm H.
  - unfold mul_sub, mul_sub_end in H. dm H.
  - contradiction.
  - unfold exp_sub in H. dm H.
Qed.
Lemma do_mul_free : forall a b c, undivided a -> undivided b -> do_mul fl o a b = Ok c -> undivided c.
Proof.
  intros a b c A B H. destruct a; cbn [do_mul] in H.
  - unfold add_rmul, mul_rmul, exp_rmul in H. dm H.
  - unfold add_mul in H. dm H.
  - unfold mul_mul in H. dm H.
  - contradiction.
  - unfold exp_mul in H. dm H.
Qed.
End Free.

Lemma ops_at_free : forall fl n, free (ops_at fl n).
Proof.
  intros fl. induction n; cbn [ops_at].
  - constructor; cbn; intros; discriminate.
  - constructor; cbn [o_add o_mul o_neg o_sub].
    + exact (do_add_free fl _ IHn).
    + exact (do_mul_free fl _ IHn).
    + exact (do_neg_free _ IHn).
    + exact (do_sub_free fl _ IHn).
Qed.
