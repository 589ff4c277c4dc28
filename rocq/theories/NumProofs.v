(** * The symbolic operators keep values *)
From Coq Require Import QArith Qpower Qfield Znumtheory.
From Verif Require Import Base NumModel NumSpec.

Local Notation Zq := inject_Z.

(** ** Values *)

Lemma val_eq : forall e q q', val e q -> Qeq q q' -> val e q'.
Proof.
  destruct e; cbn; intros q q' H E.
  - now rewrite <- E.
  - destruct H as (a & b & A & B & C). exists a, b. rewrite <- E. auto.
  - destruct H as (a & b & A & B & C). exists a, b. rewrite <- E. auto.
  - destruct H as (a & A & B & C). exists a. rewrite <- E. auto.
  - destruct H as (a & A & B & C). exists a. rewrite <- E. auto.
Qed.

Lemma Zq_inj : forall a b, Qeq (Zq a) (Zq b) -> a = b.
Proof. intros a b H. unfold Qeq in H. cbn in H. lia. Qed.

Lemma val_fun : forall e q q', val e q -> val e q' -> Qeq q q'.
Proof.
  induction e; cbn; intros q q' H H'.
  - now rewrite H, H'.
  - destruct H as (a & b & A & B & ->), H' as (a' & b' & A' & B' & ->).
    rewrite (IHe1 _ _ A A'), (IHe2 _ _ B B'). reflexivity.
  - destruct H as (a & b & A & B & ->), H' as (a' & b' & A' & B' & ->).
    rewrite (IHe1 _ _ A A'), (IHe2 _ _ B B'). reflexivity.
  - destruct H as (a & A & B & ->), H' as (a' & A' & B' & ->).
    rewrite (IHe _ _ A A'). reflexivity.
  - destruct H as (a & A & B & ->), H' as (a' & A' & B' & ->).
    rewrite (Zq_inj _ _ (IHe _ _ A A')). reflexivity.
Qed.

Lemma Zq_nz : forall z, z <> 0 -> ~ Qeq (Zq z) 0.
Proof. intros z H E. apply H. apply Zq_inj. exact E. Qed.

Lemma Zq_add : forall a b, Qeq (Zq (a + b)) (Qplus (Zq a) (Zq b)).
Proof. intros. rewrite inject_Z_plus. reflexivity. Qed.
Lemma Zq_mul : forall a b, Qeq (Zq (a * b)) (Qmult (Zq a) (Zq b)).
Proof. intros. rewrite inject_Z_mult. reflexivity. Qed.
Lemma Zq_opp : forall a, Qeq (Zq (- a)) (Qopp (Zq a)).
Proof. intros. rewrite inject_Z_opp. reflexivity. Qed.
Lemma Zq_sub : forall a b, Qeq (Zq (a - b)) (Qminus (Zq a) (Zq b)).
Proof. intros. unfold Z.sub. rewrite Zq_add, Zq_opp. reflexivity. Qed.

Lemma cnt_eqb_eq : forall a b, cnt_eqb a b = true -> a = b.
Proof.
  induction a; destruct b; cbn; intros H; try discriminate; zb; subst; auto.
  - rewrite (IHa1 b1), (IHa2 b2); auto.
  - rewrite (IHa1 b1), (IHa2 b2); auto.
  - rewrite (IHa b); auto.
  - rewrite (IHa b); auto.
Qed.

(** ** Rationals with denominators prime to p *)

Section Prime.
Variable p : Z.
Hypothesis P : prime p.

Lemma p_ge : 2 <= p.
Proof. apply prime_ge_2. exact P. Qed.
Lemma pk_pos : forall k, 0 <= k -> 0 < p ^ k.
Proof. intros. apply Z.pow_pos_nonneg; [pose proof p_ge; lia|auto]. Qed.

Lemma local_eq : forall q q', local p q -> Qeq q q' -> local p q'.
Proof. intros q q' (n & m & N & R & E) H. exists n, m. rewrite <- H. auto. Qed.
Lemma local_Z : forall z, local p (Zq z).
Proof.
  intros z. exists 1, z. split; [lia|]. split; [apply rel_prime_1|]. rewrite <- Zq_mul. now rewrite Z.mul_1_r.
Qed.
Lemma local_add : forall a b, local p a -> local p b -> local p (Qplus a b).
Proof.
  intros a b (n & m & N & R & E) (n' & m' & N' & R' & E').
  exists (n * n'), (m * n' + m' * n). split; [nia|]. split; [apply rel_prime_sym, rel_prime_mult; apply rel_prime_sym; auto|].
  rewrite Zq_add, !Zq_mul, <- E, <- E'. ring.
Qed.
Lemma local_mul : forall a b, local p a -> local p b -> local p (Qmult a b).
Proof.
  intros a b (n & m & N & R & E) (n' & m' & N' & R' & E').
  exists (n * n'), (m * m'). split; [nia|]. split; [apply rel_prime_sym, rel_prime_mult; apply rel_prime_sym; auto|].
  rewrite !Zq_mul, <- E, <- E'. ring.
Qed.
Lemma local_opp : forall a, local p a -> local p (Qopp a).
Proof.
  intros a H. apply (local_eq (Qmult (Zq (-1)) a)); [apply local_mul; [apply local_Z|auto]|].
  change (Zq (-1)) with (Qopp 1). ring.
Qed.

Lemma rel_prime_pow : forall b k, rel_prime b p -> 0 <= k -> rel_prime (b ^ k) p.
Proof.
  intros b k R K. revert k K. apply natlike_ind.
  - apply rel_prime_1.
  - intros k K IH. rewrite Z.pow_succ_r by auto. apply rel_prime_sym, rel_prime_mult; apply rel_prime_sym; auto.
Qed.
Lemma rel_prime_nz : forall b, rel_prime b p -> b <> 0.
Proof.
  intros b R ->. apply rel_prime_sym in R. pose proof p_ge.
  assert (D : (p | 1)). { destruct R as [_ _ G]. apply G; [apply Z.divide_refl|apply Z.divide_0_r]. }
  apply Z.divide_1_r_nonneg in D; lia.
Qed.
Lemma local_pow : forall b z, rel_prime b p -> local p (Qpower (Zq b) z).
Proof.
  intros b z R. destruct (Z.le_gt_cases 0 z) as [K|K].
  - apply (local_eq (Zq (b ^ z))); [apply local_Z|]. apply Zpower_Qpower. auto.
  - exists (b ^ (- z)), 1. pose proof (rel_prime_nz b R).
    split; [apply Z.pow_nonzero; lia|]. split; [apply rel_prime_pow; [auto|lia]|].
    rewrite Zpower_Qpower by lia. rewrite <- Qpower_plus by (apply Zq_nz; auto).
    replace (z + - z) with 0 by lia. reflexivity.
Qed.

(** An integer over a power of p: local only if the power divides. *)
Lemma local_div_Z : forall z k, 0 <= k -> local p (Qdiv (Zq z) (Zq (p ^ k))) -> (p ^ k | z).
Proof.
  intros z k K (n & m & N & R & E).
  pose proof (pk_pos k K) as Hp.
  assert (H : z * n = m * p ^ k).
  { apply Zq_inj. rewrite !Zq_mul, <- E. field. apply Zq_nz. lia. }
  apply (Gauss (p ^ k) n z).
  - exists m. lia.
  - apply rel_prime_sym. revert K. clear - R. revert k. apply natlike_ind.
    + apply rel_prime_sym, rel_prime_1.
    + intros k K IH. rewrite Z.pow_succ_r by auto. apply rel_prime_mult; auto.
Qed.

(** Divisors of powers of p. *)
Lemma divide_pk : forall k g, 0 <= k -> 0 < g -> (g | p ^ k) -> exists j, 0 <= j <= k /\ g = p ^ j.
Proof.
  intros k g K. revert g. revert k K.
  apply (natlike_ind (fun k => forall g, 0 < g -> (g | p ^ k) -> exists j, 0 <= j <= k /\ g = p ^ j)).
  - intros g G D. exists 0. split; [lia|]. rewrite Z.pow_0_r in *. apply Z.divide_1_r_nonneg in D; lia.
  - intros k K IH g G D. rewrite Z.pow_succ_r in D by auto.
    destruct (Zdivide_dec p g) as [[h ->]|ND].
    + pose proof p_ge. destruct (IH h) as (j & J & ->).
      * nia.
      * destruct D as [c D]. exists c. nia.
      * exists (Z.succ j). split; [lia|]. rewrite Z.pow_succ_r by lia. lia.
    + destruct (IH g) as (j & J & E); [auto| |exists j; split; [lia|auto]].
      apply (Gauss g p); [auto|]. apply rel_prime_sym, prime_rel_prime; auto.
Qed.

(** ** Expressions *)

Definition good (e : cnt) (q : Q) : Prop := tame p e /\ val e q.

Lemma good_eq : forall e q q', good e q -> Qeq q q' -> good e q'.
Proof. intros e q q' [T V] E. split; [auto|]. eapply val_eq; eauto. Qed.
Lemma good_fun : forall e q q', good e q -> good e q' -> Qeq q q'.
Proof. intros e q q' [_ V] [_ V']. eapply val_fun; eauto. Qed.
Lemma good_I : forall z, good (I z) (Zq z).
Proof. intros. split; cbn; [auto|reflexivity]. Qed.
Lemma good_I_inv : forall z q, good (I z) q -> Qeq q (Zq z).
Proof. intros z q [_ V]. exact V. Qed.
Lemma good_Add : forall l r a b, good l a -> good r b -> good (Add l r) (Qplus a b).
Proof. intros l r a b [] []. split; cbn; [auto|]. exists a, b. repeat split; auto; reflexivity. Qed.
Lemma good_Add_inv : forall l r q, good (Add l r) q -> exists a b, good l a /\ good r b /\ Qeq q (Qplus a b).
Proof. intros l r q [[T1 T2] (a & b & A & B & E)]. exists a, b. repeat split; auto. Qed.
Lemma good_Mul : forall l r a b, good l a -> good r b -> good (Mul l r) (Qmult a b).
Proof. intros l r a b [] []. split; cbn; [auto|]. exists a, b. repeat split; auto; reflexivity. Qed.
Lemma good_Mul_inv : forall l r q, good (Mul l r) q -> exists a b, good l a /\ good r b /\ Qeq q (Qmult a b).
Proof. intros l r q [[T1 T2] (a & b & A & B & E)]. exists a, b. repeat split; auto. Qed.
Lemma good_Div : forall n k a, good n a -> 0 <= k -> local p (Qdiv a (Zq (p ^ k))) ->
  good (Div n (p ^ k)) (Qdiv a (Zq (p ^ k))).
Proof.
  intros n k a [T V] K L. split; cbn.
  - split; [auto|]. split; [exists k; auto|]. exists a. auto.
  - exists a. split; [auto|]. split; [apply pk_pos; auto|reflexivity].
Qed.
Lemma good_Div_inv : forall n d q, good (Div n d) q ->
  exists k a, 0 <= k /\ d = p ^ k /\ good n a /\ local p (Qdiv a (Zq d)) /\ Qeq q (Qdiv a (Zq d)).
Proof.
  intros n d q [[T [(k & K & ->) (a' & V' & L)]] (a & V & D & E)].
  exists k, a. pose proof (val_fun _ _ _ V V') as F.
  split; [auto|]. split; [auto|]. split; [split; auto|]. split; [|auto].
  eapply local_eq; [exact L|]. rewrite F. reflexivity.
Qed.
Lemma good_Exp : forall b e z, rel_prime b p -> good e (Zq z) -> good (Exp b e) (Qpower (Zq b) z).
Proof.
  intros b e z R [T V]. split; cbn; [auto|]. exists z. split; [auto|]. split; [apply rel_prime_nz; auto|reflexivity].
Qed.
Lemma good_Exp_inv : forall b e q, good (Exp b e) q ->
  exists z, rel_prime b p /\ good e (Zq z) /\ Qeq q (Qpower (Zq b) z).
Proof. intros b e q [[T R] (z & V & B & E)]. exists z. split; [auto|]. split; [split; auto|auto]. Qed.

Lemma good_local : forall e q, good e q -> local p q.
Proof.
  induction e; intros q G.
  - apply good_I_inv in G. eapply local_eq; [apply local_Z|]. symmetry. exact G.
  - apply good_Add_inv in G as (a & b & A & B & E).
    eapply local_eq; [apply (local_add a b); eauto|]. symmetry. exact E.
  - apply good_Mul_inv in G as (a & b & A & B & E).
    eapply local_eq; [apply (local_mul a b); eauto|]. symmetry. exact E.
  - apply good_Div_inv in G as (k & a & K & -> & A & L & E).
    eapply local_eq; [exact L|]. symmetry. exact E.
  - apply good_Exp_inv in G as (z & R & A & E).
    eapply local_eq; [apply (local_pow base z); auto|]. symmetry. exact E.
Qed.

(** ** Operators built on sound operators are sound *)

Record sound (o : ops) : Prop := {
  s_add : forall a b qa qb c, good a qa -> good b qb -> o_add o a b = Ok c -> good c (Qplus qa qb);
  s_mul : forall a b qa qb c, good a qa -> good b qb -> o_mul o a b = Ok c -> good c (Qmult qa qb);
  s_neg : forall a qa c, good a qa -> o_neg o a = Ok c -> good c (Qopp qa);
  s_sub : forall a b qa qb c, good a qa -> good b qb -> o_sub o a b = Ok c -> good c (Qminus qa qb);
  s_div : forall a qa d k c, good a qa -> 0 <= k -> d = p ^ k -> local p (Qdiv qa (Zq d)) ->
    o_div o a (I d) = Ok c -> good c (Qdiv qa (Zq d))
}.

Variable fl : floats.
Hypothesis FL : exact_roots fl.
Variable o : ops.
Hypothesis S : sound o.

Ltac br H :=
  repeat (match type of H with
  | bind ?x _ = Ok _ => let E := fresh "E" in destruct x eqn:E; cbn [bind] in H; try discriminate H
  | ensure ?b _ = Ok _ => let E := fresh "C" in destruct b eqn:E; cbn [ensure] in H; try discriminate H
  | or_else ?x _ = Ok _ => let E := fresh "E" in destruct x eqn:E; cbn [or_else] in H; try discriminate H
  | (if ?b then _ else _) = Ok _ => let E := fresh "C" in destruct b eqn:E; try discriminate H
  | Ok _ = Ok _ => injection H as <-
  end).

Ltac have_I z := lazymatch goal with H : good (I z) _ |- _ => fail | _ => pose proof (good_I z) end.
Ltac fw1 :=
  match goal with
  | E : o_add o (I ?z) _ = Ok _ |- _ => have_I z
  | E : o_add o _ (I ?z) = Ok _ |- _ => have_I z
  | E : o_mul o (I ?z) _ = Ok _ |- _ => have_I z
  | E : o_mul o _ (I ?z) = Ok _ |- _ => have_I z
  | E : o_sub o (I ?z) _ = Ok _ |- _ => have_I z
  | E : o_sub o _ (I ?z) = Ok _ |- _ => have_I z
  | E : o_neg o (I ?z) = Ok _ |- _ => have_I z
  | E : o_add o ?a ?b = Ok ?c, A : good ?a _, B : good ?b _ |- _ => pose proof (s_add o S _ _ _ _ _ A B E); clear E
  | E : o_mul o ?a ?b = Ok ?c, A : good ?a _, B : good ?b _ |- _ => pose proof (s_mul o S _ _ _ _ _ A B E); clear E
  | E : o_sub o ?a ?b = Ok ?c, A : good ?a _, B : good ?b _ |- _ => pose proof (s_sub o S _ _ _ _ _ A B E); clear E
  | E : o_neg o ?a = Ok ?c, A : good ?a _ |- _ => pose proof (s_neg o S _ _ _ A E); clear E
  end.
Ltac fw := repeat fw1.

(** Substitute what is known to be equal, in rationals. *)
Ltac qs := repeat match goal with E : Qeq ?q _ |- context [?q] => is_var q; rewrite E end.
Ltac zq := repeat (rewrite Zq_add || rewrite Zq_mul || rewrite Zq_sub || rewrite Zq_opp).
Ltac use_ :=
  match goal with
  | H : good ?c ?q' |- good ?c ?q => apply (good_eq c q'); [exact H|]
  end.
Ltac done_ := use_; qs; zq; ring.

Ltac ceq := repeat match goal with
  | H : cnt_eqb _ _ = true |- _ => apply cnt_eqb_eq in H; try discriminate H
  | H : _ && _ = true |- _ => apply andb_true_iff in H; destruct H
  | H : negb _ = true |- _ => apply negb_true_iff in H
  end.

Lemma make_add_ok : forall l r a b, good l a -> good r b -> good (make_add l r) (Qplus a b).
Proof.
  intros l r a b A B. unfold make_add.
  destruct (negb (is_int l) && (depth r <? depth l)).
  - apply (good_eq _ (Qplus b a)); [apply good_Add; auto|ring].
  - apply good_Add; auto.
Qed.

Lemma new_mul_ok : forall l r a b c, good l a -> good r b -> new_mul o l r = Ok c -> good c (Qmult a b).
Proof. intros l r a b c A B H. unfold new_mul in H. br H. apply good_Mul; auto. Qed.
Lemma make_mul_ok : forall l r a b c, good l a -> good r b -> make_mul o l r = Ok c -> good c (Qmult a b).
Proof.
  intros l r a b c A B H. unfold make_mul in H. br H.
  - apply (good_eq _ (Qmult b a)); [eapply new_mul_ok; eauto|ring].
  - eapply new_mul_ok; eauto.
Qed.

Lemma make_div_ok : forall n k a c, good n a -> 0 <= k -> local p (Qdiv a (Zq (p ^ k))) ->
  make_div n (p ^ k) = Ok c -> good c (Qdiv a (Zq (p ^ k))).
Proof. intros n k a c A K L H. unfold make_div in H. br H. apply good_Div; auto. Qed.

Lemma new_exp_ok : forall b e z c, rel_prime b p -> good e (Zq z) -> new_exp b e = Ok c -> good c (Qpower (Zq b) z).
Proof.
  intros b e z c R G H. unfold new_exp in H. destruct e; br H; apply good_Exp; auto.
Qed.

Lemma rel_prime_root : forall r k, 0 < k -> rel_prime (r ^ k) p -> rel_prime r p.
Proof.
  intros r k K R. apply (rel_prime_div (r ^ k) p r).
  - exact R.
  - exists (r ^ (k - 1)). replace k with (Z.succ (k - 1)) at 1 by lia. rewrite Z.pow_succ_r by lia. lia.
Qed.

Lemma exp_loop_ok : forall n b e q z be, rel_prime b p -> good e q -> Qeq q (Zq z) -> exp_loop fl o n b e = Ok be ->
  exists z', rel_prime (fst be) p /\ good (snd be) (Zq z') /\ Qeq (Qpower (Zq b) z) (Qpower (Zq (fst be)) z').
Proof.
  induction n; intros b e q z be R G Q H; cbn [exp_loop] in H; [discriminate|].
  destruct (b <=? 1) eqn:B1.
  { br H. exists z. split; [auto|]. split; [eapply good_eq; eauto|reflexivity]. }
  destruct (b =? 8) eqn:B8.
  { br H. zb. subst b. fw. exists (z * 3). cbn [fst snd]. split.
    - apply (rel_prime_root 2 3); [lia|exact R].
    - split; [done_|]. rewrite Z.mul_comm, Qpower_mult. reflexivity. }
  destruct (fl_root fl b) as [r|] eqn:RT.
  2: { br H. exists z. split; [auto|]. split; [eapply good_eq; eauto|reflexivity]. }
  br H. zb. destruct (FL b r B1 RT) as [K0 K]. set (k := fl_log fl b r) in *. fw.
  assert (KP : 0 < k).
  { destruct (Z.eq_dec k 0) as [E0|]; [|lia]. rewrite E0, Z.pow_0_r in K. lia. }
  eapply (IHn r a _ (z * k)) in H.
  - destruct H as (z' & R' & G' & E'). exists z'. split; [auto|]. split; [auto|].
    rewrite <- E'. rewrite (Z.mul_comm z k), Qpower_mult. rewrite <- (Zpower_Qpower r k) by lia. now rewrite <- K.
  - apply (rel_prime_root r k); [lia|]. now rewrite <- K.
  - eassumption.
  - rewrite Zq_mul, Q. reflexivity.
Qed.
Lemma make_exp_ok : forall b e q z c, rel_prime b p -> good e q -> Qeq q (Zq z) -> make_exp fl o b e = Ok c ->
  good c (Qpower (Zq b) z).
Proof.
  intros b e q z c R G Q H. unfold make_exp in H. br H.
  destruct (exp_loop_ok _ _ _ _ _ _ R G Q E) as (z' & R' & G' & E').
  apply (good_eq _ (Qpower (Zq (fst a)) z')); [eapply new_exp_ok; eauto|]. symmetry. exact E'.
Qed.

(** ** gcd *)

Lemma pk_q : forall k, 0 <= k -> ~ Qeq (Zq (p ^ k)) 0.
Proof. intros k K. apply Zq_nz. pose proof (pk_pos k K). lia. Qed.

Lemma local_div_le : forall q i j, 0 <= i <= j -> local p (Qdiv q (Zq (p ^ j))) -> local p (Qdiv q (Zq (p ^ i))).
Proof.
  intros q i j I L. apply (local_eq (Qmult (Qdiv q (Zq (p ^ j))) (Zq (p ^ (j - i))))).
  - apply local_mul; [auto|apply local_Z].
  - assert (E : Qeq (Zq (p ^ j)) (Qmult (Zq (p ^ i)) (Zq (p ^ (j - i))))).
    { rewrite <- Zq_mul, <- Z.pow_add_r by lia. now replace (i + (j - i)) with j by lia. }
    rewrite E. field. split; apply pk_q; lia.
Qed.

Lemma local_div0 : forall q, local p q -> local p (Qdiv q (Zq (p ^ 0))).
Proof.
  intros q L. apply (local_eq q); [auto|]. rewrite Z.pow_0_r. change (Zq 1) with 1%Q. field.
Qed.

Lemma pk_le : forall i j, 0 <= i -> 0 <= j -> p ^ i <= p ^ j -> i <= j.
Proof. intros i j I J H. pose proof p_ge. apply (Z.pow_le_mono_r_iff p i j) in H; lia. Qed.

Lemma local_div_I : forall z k, (p ^ k | z) -> 0 <= k -> local p (Qdiv (Zq z) (Zq (p ^ k))).
Proof.
  intros z k [c ->] K. apply (local_eq (Zq c)); [apply local_Z|]. rewrite Zq_mul. field. apply pk_q. auto.
Qed.

Lemma gcd_ok : forall e q k g, good e q -> 0 <= k -> num_gcd fl (p ^ k) e = Ok g ->
  exists j, 0 <= j <= k /\ g = p ^ j /\ local p (Qdiv q (Zq (p ^ j))).
Proof.
  induction e; intros q k g G K H; pose proof (good_local _ _ G) as LQ; cbn [num_gcd] in H;
    (destruct (p ^ k =? 1) eqn:K1;
     [injection H as <-; exists 0; split; [lia|]; split; [reflexivity|apply local_div0; auto]|]).
  - injection H as <-.
    destruct (divide_pk k (Z.gcd (p ^ k) z) K) as (j & J & E).
    + pose proof (pk_pos k K). assert (Z.gcd (p ^ k) z <> 0) by (intros E0; apply Z.gcd_eq_0_l in E0; lia).
      pose proof (Z.gcd_nonneg (p ^ k) z). lia.
    + apply Z.gcd_divide_l.
    + exists j. split; [auto|]. split; [auto|].
      apply (local_eq (Qdiv (Zq z) (Zq (p ^ j)))); [|apply good_I_inv in G; rewrite G; reflexivity].
      apply local_div_I; [rewrite <- E; apply Z.gcd_divide_r|lia].
  - apply good_Add_inv in G as (a & b & A & B & Eq).
    destruct (num_gcd fl (p ^ k) e1) as [g1| | |] eqn:G1; cbn [bind] in H; try discriminate.
    destruct (IHe1 _ _ _ A K G1) as (i & I1 & -> & L1).
    destruct (p ^ i =? 1).
    { injection H as <-. exists 0. split; [lia|]. split; [reflexivity|apply local_div0; auto]. }
    destruct (num_gcd fl (p ^ k) e2) as [g2| | |] eqn:G2; cbn [bind] in H; try discriminate.
    destruct (IHe2 _ _ _ B K G2) as (j & J1 & -> & L2).
    destruct (p ^ j =? 1).
    { injection H as <-. exists 0. split; [lia|]. split; [reflexivity|apply local_div0; auto]. }
    injection H as <-. exists (Z.min i j). split; [lia|].
    assert (M : Z.min (p ^ i) (p ^ j) = p ^ Z.min i j).
    { pose proof p_ge. destruct (Z.le_ge_cases i j) as [L|L].
      - rewrite (Z.min_l i j) by auto. apply Z.min_l. apply Z.pow_le_mono_r; lia.
      - rewrite (Z.min_r i j) by auto. apply Z.min_r. apply Z.pow_le_mono_r; lia. }
    split; [auto|].
    apply (local_eq (Qplus (Qdiv a (Zq (p ^ Z.min i j))) (Qdiv b (Zq (p ^ Z.min i j))))).
    + apply local_add; [apply (local_div_le _ _ i)|apply (local_div_le _ _ j)]; auto; lia.
    + rewrite Eq. field. apply pk_q. lia.
  - apply good_Mul_inv in G as (a & b & A & B & Eq).
    destruct (num_gcd fl (p ^ k) e1) as [g1| | |] eqn:G1; cbn [bind] in H; try discriminate.
    destruct (IHe1 _ _ _ A K G1) as (i & I1 & -> & L1).
    destruct (num_gcd fl (p ^ k) e2) as [g2| | |] eqn:G2; cbn [bind] in H; try discriminate.
    destruct (IHe2 _ _ _ B K G2) as (j & J1 & -> & L2).
    injection H as <-.
    destruct (Z.max_spec (p ^ i) (p ^ j)) as [[_ ->]|[_ ->]].
    + exists j. split; [auto|]. split; [auto|].
      apply (local_eq (Qmult a (Qdiv b (Zq (p ^ j))))).
      * apply local_mul; [apply (good_local e1); auto|auto].
      * rewrite Eq. field. apply pk_q. lia.
    + exists i. split; [auto|]. split; [auto|].
      apply (local_eq (Qmult (Qdiv a (Zq (p ^ i))) b)).
      * apply local_mul; [auto|apply (good_local e2); auto].
      * rewrite Eq. field. apply pk_q. lia.
  - discriminate.
  - apply good_Exp_inv in G as (z & R & A & Eq).
    assert (RK : rel_prime base (p ^ k)) by (apply rel_prime_sym, rel_prime_sym; revert K; clear - R; revert k; apply natlike_ind;
      [apply rel_prime_sym, rel_prime_1|intros k K IH; rewrite Z.pow_succ_r by auto; apply rel_prime_mult; auto]).
    assert (G1 : Z.gcd (p ^ k) base = 1).
    { apply Zgcd_1_rel_prime. apply rel_prime_sym. exact RK. }
    destruct (p ^ k =? base) eqn:EB.
    { zb. rewrite <- EB, Z.gcd_diag in G1. pose proof (pk_pos k K). lia. }
    destruct (base <=? 0) eqn:B0; [discriminate|].
    destruct (p ^ k mod base =? 0) eqn:M; cbn [negb] in H.
    + zb. apply Z.mod_divide in M; [|lia].
      assert (base = 1).
      { assert (D : (base | 1)) by (rewrite <- G1; apply Z.gcd_greatest; [auto|apply Z.divide_refl]).
        apply Z.divide_1_r_nonneg in D; lia. }
      subst base. rewrite Z.eqb_refl, orb_true_r in H. discriminate.
    + injection H as <-. exists 0. rewrite G1. split; [lia|]. split; [reflexivity|apply local_div0; auto].
Qed.

(** ** add_exponents *)

Lemma int_pow_ok : forall b e q z c, rel_prime b p -> good e q -> Qeq q (Zq z) -> int_pow fl o b e = Ok c ->
  good c (Qpower (Zq b) z).
Proof.
  intros b e q z c R G Q H. unfold int_pow in H. destruct e; try (eapply make_exp_ok; eauto; fail).
  br H. zb. apply (good_eq _ (Zq (b ^ z0))); [apply good_I|].
  apply good_I_inv in G. rewrite G in Q. apply Zq_inj in Q. subst z0. apply Zpower_Qpower. auto.
Qed.

Lemma add_exponents_ok : forall b e1 c1 z1 q1 b2 e2 c2 z2 q2 c,
  rel_prime b p -> rel_prime b2 p -> good e1 (Zq z1) -> good c1 q1 -> good e2 (Zq z2) -> good c2 q2 ->
  add_exponents fl o b e1 c1 b2 e2 c2 = Ok c ->
  good c (Qplus (Qmult q1 (Qpower (Zq b) z1)) (Qmult q2 (Qpower (Zq b2) z2))).
Proof.
  intros b e1 c1 z1 q1 b2 e2 c2 z2 q2 c R R2 E1 C1 E2 C2 H. unfold add_exponents in H.
  destruct (cnt_eqb (Exp b e1) (Exp b2 e2)) eqn:EQ.
  { apply cnt_eqb_eq in EQ. injection EQ as <- <-. br H.
    pose proof (good_Exp _ _ _ R E1) as GE. fw.
    rewrite <- (Zq_inj _ _ (good_fun _ _ _ E1 E2)).
    done_. }
  br H. zb. subst b2. clear EQ.
  assert (NB : ~ Qeq (Zq b) 0) by (apply Zq_nz, rel_prime_nz; auto).
  destruct a; cbn beta iota in H.
  - br H. fw.
    match goal with D : good a0 (Qminus _ _) |- _ => rename D into GD end.
    assert (GX : good a2 (Qpower (Zq b) (z1 - z2))).
    { destruct a1; [eapply int_pow_ok|eapply make_exp_ok]; eauto; rewrite Zq_sub; reflexivity. }
    pose proof (good_Exp _ _ _ R E2) as GE. clear GD. fw. use_.
    assert (EP : Qeq (Qpower (Zq b) z1) (Qmult (Qpower (Zq b) (z1 - z2)) (Qpower (Zq b) z2))).
    { rewrite <- Qpower_plus by auto. now replace (z1 - z2 + z2) with z1 by lia. }
    rewrite EP. ring.
  - br H. fw.
    match goal with D : good a0 (Qminus _ _) |- _ => rename D into GD end.
    assert (GX : good a2 (Qpower (Zq b) (z2 - z1))).
    { destruct a1; [eapply int_pow_ok|eapply make_exp_ok]; eauto; rewrite Zq_sub; reflexivity. }
    pose proof (good_Exp _ _ _ R E1) as GE. clear GD. fw. use_.
    assert (EP : Qeq (Qpower (Zq b) z2) (Qmult (Qpower (Zq b) (z2 - z1)) (Qpower (Zq b) z1))).
    { rewrite <- Qpower_plus by auto. now replace (z2 - z1 + z1) with z2 by lia. }
    rewrite EP. ring.
Qed.

(** ** The methods *)

Ltac fwm :=
  repeat (fw1 || match goal with
  | E : make_mul o (I ?z) _ = Ok _ |- _ => have_I z
  | E : make_mul o ?a ?b = Ok ?c, A : good ?a _, B : good ?b _ |- _ => pose proof (make_mul_ok _ _ _ _ _ A B E); clear E
  end).
Ltac addg :=
  match goal with
  | |- good (make_add (I ?z) _) _ => try have_I z
  | _ => idtac
  end;
  match goal with
  | A : good ?l ?a, B : good ?r ?b |- good (make_add ?l ?r) _ =>
      apply (good_eq _ (Qplus a b)); [exact (make_add_ok _ _ _ _ A B)|]
  end.
Ltac opn G :=
  let G' := fresh "G" in pose proof G as G';
  first [apply good_I_inv in G'
        |apply good_Add_inv in G' as (? & ? & ? & ? & ?)
        |apply good_Mul_inv in G' as (? & ? & ? & ? & ?)
        |apply good_Exp_inv in G' as (? & ? & ? & ?)
        |apply good_Div_inv in G' as (? & ? & ? & ? & ? & ? & ?)].

Ltac dups := repeat match goal with
  | A : good ?e ?x, B : good ?e ?y |- _ => is_var x; is_var y; pose proof (good_fun _ _ _ A B); clear A
  end.
Ltac opI := repeat match goal with
  | G : good (I ?z) ?x |- _ => is_var x;
      lazymatch goal with E : Qeq x (Zq z) |- _ => fail | _ => pose proof (good_I_inv _ _ G) end
  end.
Ltac opE := repeat match goal with
  | G : good (Exp ?b _) ?x |- _ => is_var x;
      lazymatch goal with E : Qeq x (Qpower (Zq b) _) |- _ => fail | _ => opn G end
  end.
Ltac fwx :=
  match goal with
  | E : add_exponents fl o _ ?e1 (I ?z) _ _ _ = Ok _ |- _ => try have_I z
  | _ => idtac
  end;
  match goal with
  | E : add_exponents fl o _ _ _ _ _ (I ?z) = Ok _ |- _ => try have_I z
  | _ => idtac
  end;
  match goal with
  | E : add_exponents fl o ?b ?e1 ?c1 ?b2 ?e2 ?c2 = Ok ?c, R1 : rel_prime ?b p, R2 : rel_prime ?b2 p,
    G1 : good ?e1 (Zq _), C1 : good ?c1 _, G2 : good ?e2 (Zq _), C2 : good ?c2 _ |- _ =>
      pose proof (add_exponents_ok _ _ _ _ _ _ _ _ _ _ _ R1 R2 G1 C1 G2 C2 E); clear E
  | E : add_exponents fl o ?b ?e1 (I ?c1) ?b2 ?e2 (I ?c2) = Ok ?c, R1 : rel_prime ?b p, R2 : rel_prime ?b2 p,
    G1 : good ?e1 (Zq _), G2 : good ?e2 (Zq _) |- _ =>
      pose proof (add_exponents_ok _ _ _ _ _ _ _ _ _ _ _ R1 R2 G1 (good_I c1) G2 (good_I c2) E); clear E
  end.
Ltac fin := dups; opI; fwm; (addg || use_); qs; zq; try ring.
Ltac go H := br H; ceq; fin.
Lemma add_neg_ok : forall l r q c, good (Add l r) q -> add_neg o l r = Ok c -> good c (Qopp q).
Proof. intros l r q c G H. opn G. unfold add_neg in H. go H. Qed.

Lemma add_radd_ok : forall z l r q c, good (Add l r) q -> add_radd o z l r = Ok c -> good c (Qplus (Zq z) q).
Proof.
  intros z l r q c G H. unfold add_radd in H. destruct (z =? 0) eqn:Z0.
  { br H. zb. subst z. use_. change (Zq 0) with 0%Q. ring. }
  opn G. destruct l; br H; fin.
Qed.

Lemma add_add_rest_ok : forall l r other q q' c, good (Add l r) q -> good other q' ->
  add_add_rest o l r other = Ok c -> good c (Qplus q q').
Proof.
  intros l r other q q' c G G' H. unfold add_add_rest in H. opn G.
  destruct l; try (br H; fin; fail).
Qed.

Lemma add_add_ok : forall l r other q q' c, good (Add l r) q -> good other q' ->
  add_add o l r other = Ok c -> good c (Qplus q q').
Proof.
  intros l r other q q' c G G' H. unfold add_add in H.
  destruct other as [z|lo ro|lo ro|n d|b e]; try (eapply add_add_rest_ok; eauto; fail).
  - destruct (z =? 0) eqn:Z0.
    { br H. zb. subst z. opn G'. use_. qs. change (Zq 0) with 0%Q. ring. }
    opn G. opn G'. destruct l; br H; fin.
  - assert (R : (if cnt_eqb (Add l r) lo then x <- o_mul o (I 2) (Add l r); o_add o x ro
                 else add_add_rest o l r (Add lo ro)) = Ok c -> good c (Qplus q q')).
    { clear H. intros H. destruct (cnt_eqb (Add l r) lo) eqn:C.
      - apply cnt_eqb_eq in C. subst lo. opn G'. br H.
        fin.
      - eapply add_add_rest_ok; eauto. }
    opn G. opn G'. destruct lo; auto.
    br H. fin.
Qed.

Lemma add_sub_ok : forall l r other q q' c, good (Add l r) q -> good other q' ->
  add_sub o l r other = Ok c -> good c (Qminus q q').
Proof.
  intros l r other q q' c G G' H. unfold add_sub in H.
  destruct (cnt_eqb other (I 0)) eqn:C0.
  { apply cnt_eqb_eq in C0. subst other. opn G'. br H. fin. }
  destruct (cnt_eqb (Add l r) other) eqn:C1.
  { apply cnt_eqb_eq in C1. subst other. pose proof (good_fun _ _ _ G G'). br H. pose proof (good_I 0). fin. }
  assert (R : (x <- o_neg o other; o_add o (Add l r) x) = Ok c -> good c (Qminus q q')).
  { clear H. intros H. br H. fin. }
  destruct other as [z|lo ro|lo ro|n d|b e]; auto. destruct lo; auto. destruct l; auto.
  clear R. opn G. opn G'. opn H0. opn H3. br H. fin.
Qed.

Lemma add_mul_ok : forall l r other q q' c, good (Add l r) q -> good other q' ->
  add_mul o l r other = Ok c -> good c (Qmult q q').
Proof. intros l r other q q' c G G' H. unfold add_mul in H. destruct other; fin. Qed.

Lemma add_rmul_ok : forall z l r q c, good (Add l r) q -> add_rmul o z l r = Ok c -> good c (Qmult (Zq z) q).
Proof.
  intros z l r q c G H. unfold add_rmul in H. pose proof (good_I 0).
  destruct (z =? 0) eqn:Z0; [br H; zb; subst z; fin|].
  destruct (z =? 1) eqn:Z1; [br H; zb; subst z; fin|].
  destruct (z =? -1) eqn:Z2; [zb; subst z; fin|].
  opn G. br H. fin.
Qed.

Lemma s_div_to : forall a q d k c q', good a q -> 0 <= k -> d = p ^ k -> Qeq q' (Qdiv q (Zq d)) -> local p q' ->
  o_div o a (I d) = Ok c -> good c q'.
Proof.
  intros a q d k c q' G K D E L H. apply (good_eq _ (Qdiv q (Zq d))); [|symmetry; auto].
  eapply (s_div o S); eauto. eapply local_eq; eauto.
Qed.

Ltac dv H k :=
  match type of H with o_div o ?a (I ?d) = Ok ?c =>
    match goal with A : good a ?q |- good _ ?q' => refine (s_div_to a q d k c q' A _ _ _ _ H) end end.

Lemma pk_split : forall i k, 0 <= i <= k -> p ^ k / p ^ i = p ^ (k - i) /\ Qeq (Zq (p ^ k)) (Qmult (Zq (p ^ i)) (Zq (p ^ (k - i)))).
Proof.
  intros i k I. pose proof p_ge. split; [rewrite Z.pow_sub_r; lia|].
  rewrite <- Zq_mul, <- Z.pow_add_r by lia. now replace (i + (k - i)) with k by lia.
Qed.

Lemma add_div_ok : forall l r q k c, good (Add l r) q -> 0 <= k -> local p (Qdiv q (Zq (p ^ k))) ->
  add_div fl o l r (I (p ^ k)) = Ok c -> good c (Qdiv q (Zq (p ^ k))).
Proof.
  intros l r q k c G K L H. unfold add_div in H.
  destruct (cnt_eqb (I (p ^ k)) (I 1)) eqn:C1.
  { apply cnt_eqb_eq in C1. injection C1 as C1. br H. rewrite C1 in *. use_. change (Zq 1) with 1%Q. field. }
  opn G. br H; try (eapply make_div_ok; eauto; fail).
  destruct (gcd_ok _ _ _ _ H0 K E) as (i & I1 & -> & L1).
  destruct (gcd_ok _ _ _ _ H1 K E0) as (j & J1 & -> & L2).
  unfold num_gcd in E1. rewrite C in E1. injection E1 as <-.
  assert (GM : Z.gcd (p ^ i) (p ^ j) = p ^ Z.min i j).
  { pose proof p_ge. destruct (Z.le_ge_cases i j) as [Le|Le].
    - rewrite (Z.min_l i j) by auto. apply Z.divide_gcd_iff; [pose proof (pk_pos i); lia|].
      exists (p ^ (j - i)). rewrite <- Z.pow_add_r by lia. f_equal. lia.
    - rewrite (Z.min_r i j) by auto. rewrite Z.gcd_comm. apply Z.divide_gcd_iff; [pose proof (pk_pos j); lia|].
      exists (p ^ (i - j)). rewrite <- Z.pow_add_r by lia. f_equal. lia. }
  rewrite GM in *. set (m := Z.min i j) in *. assert (M : 0 <= m <= i /\ m <= j) by lia.
  pose proof (s_div o S _ _ _ m _ H0 ltac:(lia) eq_refl (local_div_le _ m i ltac:(lia) L1) E2) as X1.
  pose proof (s_div o S _ _ _ m _ H1 ltac:(lia) eq_refl (local_div_le _ m j ltac:(lia) L2) E3) as X2.
  pose proof (s_add o S _ _ _ _ _ X1 X2 E4) as X3.
  destruct (pk_split m k ltac:(lia)) as [D D']. rewrite D in H.
  eapply (s_div_to _ _ _ (k - m)); [exact X3|lia|reflexivity| |exact L|exact H].
  rewrite D', H2. field. split; apply pk_q; lia.
Qed.

(** *** Mul *)

Lemma mul_neg_ok : forall l r q c, good (Mul l r) q -> mul_neg o l r = Ok c -> good c (Qopp q).
Proof. intros l r q c G H. opn G. unfold mul_neg in H. go H. Qed.

Lemma mul_mul_ok : forall l r other q q' c, good (Mul l r) q -> good other q' ->
  mul_mul o l r other = Ok c -> good c (Qmult q q').
Proof.
  intros l r other q q' c G G' H. unfold mul_mul in H.
  assert (R : (x <- o_mul o l other; o_mul o x r) = Ok c -> good c (Qmult q q')).
  { clear H. intros H. opn G. br H. fin. }
  assert (N : cnt_eqb l (I (-1)) = true -> (x <- o_mul o r other; o_mul o (I (-1)) x) = Ok c -> good c (Qmult q q')).
  { clear H. intros C H. apply cnt_eqb_eq in C. subst l. opn G. opn H0. br H. fin. }
  destruct other as [z|lo ro|lo ro|n d|b e].
  - fin.
  - destruct (cnt_eqb l (I (-1))); auto.
  - destruct (cnt_eqb l (I (-1))); auto.
  - destruct (cnt_eqb l (I (-1))); auto.
    opn G'. subst d. br H. fwm. dv H x; [auto|reflexivity| |  ].
    + rewrite H4. field. apply pk_q. auto.
    + apply local_mul; eapply good_local; eauto.
  - destruct (cnt_eqb l (I (-1))); auto.
    destruct (multiplies_with b r); auto.
    opn G. br H. fin.
Qed.

Lemma mul_rmul_ok : forall z l r q c, good (Mul l r) q -> mul_rmul o z l r = Ok c -> good c (Qmult (Zq z) q).
Proof.
  intros z l r q c G H. unfold mul_rmul in H. opn G.
  destruct (z =? -1) eqn:Z2.
  { zb. subst z. destruct (cnt_eqb l (I (-1))) eqn:C.
    - apply cnt_eqb_eq in C. subst l. br H. opn H0. fin.
    - destruct l; try discriminate.
      + opn H0. fin.
      + destruct r; try discriminate. br H. fin. }
  destruct (z =? 1) eqn:Z1; [br H; zb; subst z; fin|].
  br H. fin.
Qed.

Lemma plain_radd_ok : forall z e q c, good e q -> plain_radd z e = Ok c -> good c (Qplus (Zq z) q).
Proof.
  intros z e q c G H. unfold plain_radd in H. br H; fin. zb. subst z. ring.
Qed.

Lemma mul_add_end_ok : forall l r other q q' c, good (Mul l r) q -> good other q' ->
  mul_add_end l r other = Ok c -> good c (Qplus q q').
Proof.
  intros l r other q q' c G G' H. unfold mul_add_end in H. br H; ceq.
  - subst l other. opn G. pose proof (good_I 0). fin.
  - fin.
Qed.

Lemma mul_add_exps_ok : forall l r lo ro q q' c, good (Mul l r) q -> good (Mul lo ro) q' ->
  mul_add_exps fl o l r lo ro = Ok c -> good c (Qplus q q').
Proof.
  intros l r lo ro q q' c G G' H. unfold mul_add_exps in H.
  destruct r as [| | | |rb re]; try (eapply mul_add_end_ok; eauto; fail).
  pose proof (mul_add_end_ok _ _ _ _ _ c G G') as EN.
  assert (X2 : match lo with
               | Exp b e => ensure (rb =? b) (or_else (add_exponents fl o rb re l b e ro) (mul_add_end l (Exp rb re) (Mul lo ro)))
               | _ => mul_add_end l (Exp rb re) (Mul lo ro)
               end = Ok c -> good c (Qplus q q')).
  { clear H. intros H. destruct lo; auto. br H; auto.
    opn G. opn G'. opE. fwx. fin. }
  destruct ro; auto. br H; auto.
  opn G. opn G'. opE. fwx. fin.
Qed.

Lemma mul_add_mul_rest_ok : forall l r lo ro q q' c, good (Mul l r) q -> good (Mul lo ro) q' ->
  mul_add_mul_rest fl o l r lo ro = Ok c -> good c (Qplus q q').
Proof.
  intros l r lo ro q q' c G G' H. unfold mul_add_mul_rest in H.
  destruct (cnt_eqb l ro) eqn:C1.
  { apply cnt_eqb_eq in C1. subst ro. opn G. opn G'. pose proof (good_fun _ _ _ H0 H4). br H. clear H4. fin. }
  destruct (cnt_eqb r lo) eqn:C2.
  { apply cnt_eqb_eq in C2. subst lo. opn G. opn G'. pose proof (good_fun _ _ _ H1 H3). br H. clear H3. fin. }
  eapply mul_add_exps_ok; eauto.
Qed.

Lemma mul_add_mul_ok : forall l r lo ro q q' c, good (Mul l r) q -> good (Mul lo ro) q' ->
  mul_add_mul fl o l r lo ro = Ok c -> good c (Qplus q q').
Proof.
  intros l r lo ro q q' c G G' H. unfold mul_add_mul in H.
  destruct (cnt_eqb r ro) eqn:C1.
  { apply cnt_eqb_eq in C1. subst ro. opn G. opn G'. pose proof (good_fun _ _ _ H1 H4). br H. clear H4. fin. }
  destruct (negb (cnt_eqb l (I (-1))) && cnt_eqb l lo) eqn:C2.
  2: { eapply mul_add_mul_rest_ok; eauto. }
  ceq. subst lo. br H. rename a into nr.
  assert (X : o_mul o l nr = Ok c -> good c (Qplus q q')).
  { clear H. intros H. opn G. opn G'. pose proof (good_fun _ _ _ H1 H4). clear H4. fin. }
  destruct nr; auto. br H; auto. eapply mul_add_mul_rest_ok; eauto.
Qed.

Lemma mul_add_add_ok : forall l r lo ro q q' c, good (Mul l r) q -> good (Add lo ro) q' ->
  mul_add_add o l r lo ro = Ok c -> good c (Qplus q q').
Proof.
  intros l r lo ro q q' c G G' H. unfold mul_add_add in H.
  set (last := if depth lo <? depth (Mul l r) then _ else _) in H.
  assert (X : last = Ok c -> good c (Qplus q q')).
  { subst last. clear H. intros H. br H.
    - opn G'. fin.
    - eapply mul_add_end_ok; eauto. }
  clearbody last. opn G'.
  assert (Y1 : (x <- o_add o (Mul l r) lo; o_add o x ro) = Ok c -> good c (Qplus q q')).
  { clear H. intros H. br H. fin. }
  assert (Y2 : (x <- o_add o (Mul l r) ro; o_add o lo x) = Ok c -> good c (Qplus q q')).
  { clear H. intros H. br H. fin. }
  destruct lo.
  { br H. fin. }
  all: destruct (negb (cnt_eqb l (I (-1)))); auto.
  all: try (destruct (cnt_eqb lo1 l); auto).
  all: destruct ro; auto.
  all: match type of H with (if ?b then _ else _) = _ => destruct b; auto end.
Qed.

Lemma mul_add_ok : forall l r other q q' c, good (Mul l r) q -> good other q' ->
  mul_add fl o l r other = Ok c -> good c (Qplus q q').
Proof.
  intros l r other q q' c G G' H. unfold mul_add in H. destruct other.
  - br H; zb; [subst z|]; fin.
  - eapply mul_add_add_ok; eauto.
  - eapply mul_add_mul_ok; eauto.
  - fin.
  - fin.
Qed.

Lemma mul_sub_end_ok : forall l r other q q' c, good (Mul l r) q -> good other q' ->
  mul_sub_end o l r other = Ok c -> good c (Qminus q q').
Proof.
  intros l r other q q' c G G' H. unfold mul_sub_end in H. br H; ceq.
  - subst other. opn G. pose proof (good_fun _ _ _ G' H0). clear G'. fin.
  - fin.
Qed.

Lemma mul_sub_ok : forall l r other q q' c, good (Mul l r) q -> good other q' ->
  mul_sub o l r other = Ok c -> good c (Qminus q q').
Proof.
  intros l r other q q' c G G' H. unfold mul_sub in H.
  destruct other; try (eapply mul_sub_end_ok; eauto; fail).
  - br H; zb.
    + subst z. fin.
    + fin.
  - destruct (cnt_eqb (Mul l r) other2) eqn:C; [|eapply mul_sub_end_ok; eauto].
    apply cnt_eqb_eq in C. subst other2. opn G'. pose proof (good_fun _ _ _ G H1). clear H1. fin.
  - destruct (cnt_eqb (Mul l r) (Mul other1 other2)) eqn:C.
    { apply cnt_eqb_eq in C. rewrite <- C in G'. pose proof (good_fun _ _ _ G G'). br H. pose proof (good_I 0). fin. }
    destruct (cnt_eqb l other1) eqn:C1.
    { apply cnt_eqb_eq in C1. subst other1. opn G. opn G'. pose proof (good_fun _ _ _ H0 H3). clear H3. br H. fin. }
    destruct (cnt_eqb r other2) eqn:C2.
    { apply cnt_eqb_eq in C2. subst other2. opn G. opn G'. pose proof (good_fun _ _ _ H1 H4). clear H4. br H. fin. }
    eapply mul_sub_end_ok; eauto.
Qed.

Lemma mul_div_ok : forall l r q k c, good (Mul l r) q -> 0 <= k -> local p (Qdiv q (Zq (p ^ k))) ->
  mul_div fl o l r (I (p ^ k)) = Ok c -> good c (Qdiv q (Zq (p ^ k))).
Proof.
  intros l r q k c G K L H. unfold mul_div in H.
  destruct (cnt_eqb (I (p ^ k)) (I 1)) eqn:C1.
  { apply cnt_eqb_eq in C1. injection C1 as C1. br H. rewrite C1 in *. use_. change (Zq 1) with 1%Q. field. }
  opn G. br H; try (eapply make_div_ok; eauto; fail).
  - destruct (gcd_ok _ _ _ _ H0 K E) as (i & I1 & -> & L1).
    pose proof (s_div o S _ _ _ i _ H0 ltac:(lia) eq_refl L1 E0) as X1.
    pose proof (s_mul o S _ _ _ _ _ X1 H1 E1) as X2.
    destruct (pk_split i k ltac:(lia)) as [D D']. rewrite D in H.
    eapply (s_div_to _ _ _ (k - i)); [exact X2|lia|reflexivity| |exact L|exact H].
    rewrite D', H2. field. split; apply pk_q; lia.
  - destruct (gcd_ok _ _ _ _ H1 K E0) as (i & I1 & -> & L1).
    pose proof (s_div o S _ _ _ i _ H1 ltac:(lia) eq_refl L1 E1) as X1.
    pose proof (s_mul o S _ _ _ _ _ H0 X1 E2) as X2.
    destruct (pk_split i k ltac:(lia)) as [D D']. rewrite D in H.
    eapply (s_div_to _ _ _ (k - i)); [exact X2|lia|reflexivity| |exact L|exact H].
    rewrite D', H2. field. split; apply pk_q; lia.
Qed.

(** *** Div *)

Lemma div_neg_ok : forall n d q c, good (Div n d) q -> div_neg o n d = Ok c -> good c (Qopp q).
Proof.
  intros n d q c G H. pose proof (good_local _ _ G) as L. opn G. unfold div_neg in H. br H. fwm. subst d.
  dv H x; [auto|reflexivity| |apply local_opp; auto].
  rewrite H4. field. apply pk_q. auto.
Qed.

Lemma div_add_ok : forall n d other q q' c, good (Div n d) q -> good other q' ->
  div_add o n d other = Ok c -> good c (Qplus q q').
Proof.
  intros n d other q q' c G G' H.
  assert (LS : local p (Qplus q q')) by (apply local_add; eapply good_local; eauto).
  unfold div_add in H.
  destruct (cnt_eqb other (I 0)) eqn:C0.
  { apply cnt_eqb_eq in C0. subst other. br H. fin. }
  assert (X : (y <- o_mul o other (I d); x <- o_add o n y; o_div o x (I d)) = Ok c -> good c (Qplus q q')).
  { clear H. intros H. opn G. br H. fwm. subst d.
    dv H x; [auto|reflexivity| |auto].
    qs. field. apply pk_q. auto. }
  destruct other as [z|lo ro|lo ro|n' d'|b e]; auto. clear X.
  assert (SW : o_add o (Div n' d') (Div n d) = Ok c -> good c (Qplus q q')) by (clear H; intros H; fin).
  pose proof G as I1. apply good_Div_inv in I1 as (k & a & K & -> & A & L & E).
  pose proof G' as I2. apply good_Div_inv in I2 as (k' & a' & K' & -> & A' & L' & E').
  destruct (p ^ k =? p ^ k') eqn:C1.
  { zb. br H. fwm. dv H k; [auto|reflexivity| |auto].
    qs. rewrite <- C1. field. apply pk_q. auto. }
  destruct (p ^ k <? p ^ k') eqn:C2; [auto|].
  zb. assert (KK : 0 <= k' <= k) by (split; [auto|apply pk_le; auto]).
  destruct (pk_split k' k KK) as [D D'].
  destruct (1 <? Z.gcd (p ^ k) (p ^ k')) eqn:C3.
  - br H. rewrite D in *. fwm. dv H k; [auto|reflexivity| |auto].
    qs. rewrite D'. field. split; apply pk_q; lia.
  - br H. fwm. dv H (k + k'); [lia|rewrite Z.pow_add_r by lia; reflexivity| |auto].
    qs. rewrite Zq_mul. field. split; apply pk_q; lia.
Qed.

Lemma div_radd_ok : forall z n d q c, good (Div n d) q -> div_radd o z n d = Ok c -> good c (Qplus (Zq z) q).
Proof.
  intros z n d q c G H. unfold div_radd in H. br H.
  { zb. subst z. use_. change (Zq 0) with 0%Q. ring. }
  assert (LS : local p (Qplus (Zq z) q)) by (apply local_add; [apply local_Z|eapply good_local; eauto]).
  opn G. fwm. subst d. dv H x; [auto|reflexivity| |auto].
  qs. zq. field. apply pk_q. auto.
Qed.

Lemma div_sub_ok : forall n d other q q' c, good (Div n d) q -> good other q' ->
  div_sub o n d other = Ok c -> good c (Qminus q q').
Proof.
  intros n d other q q' c G G' H.
  assert (LS : local p (Qminus q q')).
  { unfold Qminus. apply local_add; [|apply local_opp]; eapply good_local; eauto. }
  unfold div_sub in H.
  destruct (cnt_eqb other (I 0)) eqn:C0.
  { apply cnt_eqb_eq in C0. subst other. br H. fin. }
  destruct (cnt_eqb (Div n d) other) eqn:C1.
  { apply cnt_eqb_eq in C1. subst other. br H. pose proof (good_I 0). fin. }
  destruct other as [z|lo ro|lo ro|n' d'|b e]; try discriminate.
  - fin.
  - br H. zb. subst d'.
    pose proof G as I1. apply good_Div_inv in I1 as (k & u & K & -> & A & L & E').
    pose proof G' as I2. apply good_Div_inv in I2 as (k' & u' & K' & _ & A' & L' & E'').
    fwm. dv H k; [auto|reflexivity| |auto].
    qs. field. apply pk_q. auto.
Qed.

Lemma div_mul_ok : forall n d other q q' c, good (Div n d) q -> good other q' ->
  div_mul o n d other = Ok c -> good c (Qmult q q').
Proof.
  intros n d other q q' c G G' H.
  assert (LS : local p (Qmult q q')) by (apply local_mul; eapply good_local; eauto).
  unfold div_mul in H.
  pose proof G as I1. apply good_Div_inv in I1 as (k & a & K & -> & A & L & E).
  assert (X : (x <- o_mul o n other; o_div o x (I (p ^ k))) = Ok c -> good c (Qmult q q')).
  { clear H. intros H. br H. fwm. dv H k; [auto|reflexivity| |auto].
    qs. field. apply pk_q. auto. }
  destruct other; auto.
  destruct (z =? p ^ k) eqn:C1.
  { zb. br H. subst z. opI. use_. qs. field. apply pk_q. auto. }
  destruct (1 <? Z.gcd (p ^ k) z) eqn:C2; [|auto]. clear X. br H. zb.
  destruct (divide_pk k (Z.gcd (p ^ k) z) K) as (j & J & EJ); [lia|apply Z.gcd_divide_l|].
  pose proof (Z.gcd_divide_r (p ^ k) z) as [w W]. rewrite EJ in *.
  assert (DZ : z / p ^ j = w) by (rewrite W; apply Z.div_mul; pose proof (pk_pos j); lia).
  rewrite DZ in *. destruct (pk_split j k J) as [D D']. rewrite D in *. opI. fwm.
  dv H (k - j); [lia|reflexivity| |auto].
  qs. rewrite W, D', Zq_mul. field. split; apply pk_q; lia.
Qed.

Lemma div_rmul_ok : forall z n d q c, good (Div n d) q -> div_rmul o z n d = Ok c -> good c (Qmult (Zq z) q).
Proof.
  intros z n d q c G H. unfold div_rmul in H. pose proof (good_I 0). pose proof (good_I 1). br H; zb.
  - subst z. fin.
  - subst z. fin.
  - fin.
  - fin.
Qed.

Lemma div_div_ok : forall n d q k c, good (Div n d) q -> 0 <= k -> local p (Qdiv q (Zq (p ^ k))) ->
  div_div fl o n d (I (p ^ k)) = Ok c -> good c (Qdiv q (Zq (p ^ k))).
Proof.
  intros n d q k c G K L H. unfold div_div in H.
  destruct (cnt_eqb (I (p ^ k)) (I 1)) eqn:C1.
  { apply cnt_eqb_eq in C1. injection C1 as C1. br H. rewrite C1 in *. use_. change (Zq 1) with 1%Q. field. }
  pose proof G as I1. apply good_Div_inv in I1 as (k' & a & K' & -> & A & L' & E).
  destruct (num_gcd fl (p ^ k) n) as [g| | |] eqn:GE; cbn [bind] in H; try discriminate.
  destruct (gcd_ok _ _ _ _ A K GE) as (j & J & -> & LJ).
  destruct (p ^ j =? 1) eqn:CJ.
  - rewrite <- Z.pow_add_r in H by lia.
    assert (EQ : Qeq (Qdiv q (Zq (p ^ k))) (Qdiv a (Zq (p ^ (k + k'))))).
    { qs. rewrite Z.pow_add_r, Zq_mul by lia. field. split; apply pk_q; lia. }
    apply (good_eq _ _ _ (make_div_ok n (k + k') a c A ltac:(lia) (local_eq _ _ L EQ) H)). symmetry. exact EQ.
  - br H. pose proof (s_div o S _ _ _ j _ A ltac:(lia) eq_refl LJ E0) as X.
    destruct (pk_split j k J) as [D D']. rewrite D, <- Z.pow_add_r in H by lia.
    eapply (s_div_to _ _ _ (k - j + k')); [exact X|lia|reflexivity| |exact L|exact H].
    qs. rewrite D', Z.pow_add_r, Zq_mul by lia. field. repeat split; apply pk_q; lia.
Qed.

(** *** Exp *)

Ltac fwe :=
  match goal with
  | E : make_exp fl o ?b ?e = Ok ?c, R : rel_prime ?b p, A : good ?e (Zq ?z) |- _ =>
      pose proof (make_exp_ok _ _ _ z _ R A (Qeq_refl _) E); clear E
  end.

Lemma exp_neg_ok : forall b e q c, good (Exp b e) q -> exp_neg o b e = Ok c -> good c (Qopp q).
Proof. intros b e q c G H. unfold exp_neg in H. fin. Qed.

Lemma exp_add_ok : forall b e other q q' c, good (Exp b e) q -> good other q' ->
  exp_add fl o b e other = Ok c -> good c (Qplus q q').
Proof.
  intros b e other q q' c G G' H. unfold exp_add in H.
  assert (LAST : Ok (make_add (Exp b e) other) = Ok c -> good c (Qplus q q')).
  { clear H. intros H. br H. fin. }
  destruct other as [z|lo ro|lo ro|n' d'|b' e'].
  - br H; zb; [subst z|]; fin.
  - destruct lo; auto. opn G'. br H. fin.
  - cbv zeta in H.
    assert (SEC : match lo with
                  | Exp b0 e0 => ensure (b =? b0) (or_else (add_exponents fl o b e (I 1) b0 e0 ro) (Ok (make_add (Exp b e) (Mul lo ro))))
                  | _ => Ok (make_add (Exp b e) (Mul lo ro))
                  end = Ok c -> good c (Qplus q q')).
    { clear H. intros H. destruct lo; auto. br H; auto; try (opn G'; opE; fwx; fin; fail); fin. }
    destruct ro; auto. br H; auto. opn G'. opE. fwx. fin.
  - fin.
  - br H; auto.
    + ceq. zb. subst b b'. subst e'. pose proof (good_fun _ _ _ G G') as QE. opE. fwm.
      match goal with M : make_exp fl o 2 _ = Ok _, X : good a (Qplus (Zq 1) (Zq ?z)), R : rel_prime 2 p |- _ =>
        pose proof (make_exp_ok _ _ _ (1 + z) _ R X ltac:(rewrite Zq_add; reflexivity) M) end.
      use_. rewrite QE. clear QE. qs. rewrite Qpower_plus by (apply Zq_nz; lia). change (Qpower (Zq 2) 1) with 2%Q. ring.
    + opE. fwx. fin.
Qed.

Lemma exp_sub_ok : forall b e other q q' c, good (Exp b e) q -> good other q' ->
  exp_sub fl o b e other = Ok c -> good c (Qminus q q').
Proof.
  intros b e other q q' c G G' H. unfold exp_sub in H.
  destruct (cnt_eqb other (I 0)) eqn:C0.
  { apply cnt_eqb_eq in C0. subst other. br H. fin. }
  destruct (cnt_eqb (Exp b e) other) eqn:C1.
  { apply cnt_eqb_eq in C1. subst other. br H. pose proof (good_I 0). fin. }
  destruct other as [z|lo ro|lo ro|n' d'|b' e']; br H; try (fin; fail).
  opE. fwx. fin.
Qed.

Lemma exp_mul_ok : forall b e other q q' c, good (Exp b e) q -> good other q' ->
  exp_mul fl o b e other = Ok c -> good c (Qmult q q').
Proof.
  intros b e other q q' c G G' H. unfold exp_mul in H.
  destruct other as [z|lo ro|lo ro|n' d'|b' e']; try discriminate.
  - fin.
  - opn G'. br H. fin.
  - opn G'. destruct lo.
    { br H. fin. }
    all: br H; try (fin; fail).
  - br H. zb. subst b'. opE. fwm.
    match goal with X : good a (Qplus (Zq ?x) (Zq ?y)), R : rel_prime b p |- _ =>
      pose proof (make_exp_ok _ _ _ (x + y) _ R X ltac:(rewrite Zq_add; reflexivity) H) end.
    use_. qs. rewrite Qpower_plus; [reflexivity|]. apply Zq_nz. eapply rel_prime_nz; eauto.
Qed.

Lemma divide_out_ok : forall n x b i y j, b <> 0 -> divide_out n x b i = Ok (y, j) ->
  i <= j /\ x = y * b ^ (j - i).
Proof.
  induction n; intros x b i y j B H; cbn [divide_out] in H; [discriminate|].
  destruct (b =? 0) eqn:B0; [zb; lia|].
  destruct (x mod b =? 0) eqn:M; cbn [negb] in H.
  - zb. apply IHn in H as [H1 H2]; [|auto]. split; [lia|].
    apply Z.mod_divide in M; [|auto]. destruct M as [w ->]. rewrite Z.div_mul in H2 by auto.
    subst w. replace (j - i) with (Z.succ (j - (i + 1))) by lia. rewrite Z.pow_succ_r by lia. lia.
  - injection H as <- <-. split; [lia|]. rewrite Z.sub_diag, Z.pow_0_r. lia.
Qed.

Lemma exp_rmul_ok : forall x b e q c, good (Exp b e) q -> exp_rmul fl o x b e = Ok c -> good c (Qmult (Zq x) q).
Proof.
  intros x b e q c G H. unfold exp_rmul in H. pose proof (good_I 0). pose proof (good_I 1).
  destruct (x =? 0) eqn:X0; [br H; zb; subst x; fin|].
  destruct (x =? 1) eqn:X1; [br H; zb; subst x; fin|].
  destruct (x =? -1) eqn:X2; [zb; subst x; fin|].
  destruct (b =? 0) eqn:B0; [discriminate|].
  destruct ((x <? -1) && (- x mod b =? 0)); [br H; fin|].
  destruct (x mod b =? 0) eqn:M; cbn [negb] in H; [|fin].
  br H. destruct a as [y i]. cbn [fst snd] in *.
  zb. apply divide_out_ok in E as [I0 EX]; [|auto]. rewrite Z.sub_0_r in EX.
  opE. fwm.
  match goal with X : good a0 (Qplus (Zq ?u) (Zq ?v)), R : rel_prime b p |- _ =>
    pose proof (make_exp_ok _ _ _ (u + v) _ R X ltac:(rewrite Zq_add; reflexivity) E1) end.
  fwm. use_. qs. rewrite EX, Zq_mul, Zpower_Qpower by auto. rewrite Qpower_plus by (apply Zq_nz; auto). ring.
Qed.

(** *** Dispatch *)

Lemma do_add_ok : forall a b qa qb c, good a qa -> good b qb -> do_add fl o a b = Ok c -> good c (Qplus qa qb).
Proof.
  intros a b qa qb c A B H. destruct a; cbn [do_add] in H.
  - apply good_I_inv in A. apply (good_eq _ (Qplus (Zq z) qb)); [|rewrite A; reflexivity].
    destruct b.
    + br H. apply good_I_inv in B. apply (good_eq _ (Zq (z + z0))); [apply good_I|]. rewrite B, Zq_add. reflexivity.
    + eapply add_radd_ok; eauto.
    + eapply plain_radd_ok; eauto.
    + eapply div_radd_ok; eauto.
    + eapply plain_radd_ok; eauto.
  - eapply add_add_ok; eauto.
  - eapply mul_add_ok; eauto.
  - eapply div_add_ok; eauto.
  - eapply exp_add_ok; eauto.
Qed.
Lemma do_mul_ok : forall a b qa qb c, good a qa -> good b qb -> do_mul fl o a b = Ok c -> good c (Qmult qa qb).
Proof.
  intros a b qa qb c A B H. destruct a; cbn [do_mul] in H.
  - apply good_I_inv in A. apply (good_eq _ (Qmult (Zq z) qb)); [|rewrite A; reflexivity].
    destruct b.
    + br H. apply good_I_inv in B. apply (good_eq _ (Zq (z * z0))); [apply good_I|]. rewrite B, Zq_mul. reflexivity.
    + eapply add_rmul_ok; eauto.
    + eapply mul_rmul_ok; eauto.
    + eapply div_rmul_ok; eauto.
    + eapply exp_rmul_ok; eauto.
  - eapply add_mul_ok; eauto.
  - eapply mul_mul_ok; eauto.
  - eapply div_mul_ok; eauto.
  - eapply exp_mul_ok; eauto.
Qed.
Lemma do_neg_ok : forall a qa c, good a qa -> do_neg o a = Ok c -> good c (Qopp qa).
Proof.
  intros a qa c A H. destruct a; cbn [do_neg] in H.
  - br H. apply good_I_inv in A. apply (good_eq _ (Zq (- z))); [apply good_I|]. rewrite A, Zq_opp. reflexivity.
  - eapply add_neg_ok; eauto.
  - eapply mul_neg_ok; eauto.
  - eapply div_neg_ok; eauto.
  - eapply exp_neg_ok; eauto.
Qed.
Lemma do_sub_ok : forall a b qa qb c, good a qa -> good b qb -> do_sub fl o a b = Ok c -> good c (Qminus qa qb).
Proof.
  intros a b qa qb c A B H. destruct a; cbn [do_sub] in H.
  - assert (X : (n <- o_neg o b; o_add o (I z) n) = Ok c -> good c (Qminus qa qb)).
    { clear H. intros H. br H. fin. }
    destruct b; auto. br H. opI. apply (good_eq _ (Zq (z - z0))); [apply good_I|]. qs. rewrite Zq_sub. reflexivity.
  - eapply add_sub_ok; eauto.
  - eapply mul_sub_ok; eauto.
  - eapply div_sub_ok; eauto.
  - eapply exp_sub_ok; eauto.
Qed.
(** A power divided by a power of the same base, or by a positive number. *)
Lemma exp_div_pow_ok : forall b x y qa qb c, good (Exp b x) qa -> good (Exp b y) qb ->
  exp_div fl o b x (Exp b y) = Ok c -> good c (Qdiv qa qb).
Proof.
  intros b x y qa qb c A B H. unfold exp_div in H. cbn [cnt_eqb] in H.
  apply good_Exp_inv in A as (u & R & GX & QA). apply good_Exp_inv in B as (v & _ & GY & QB).
  assert (NB : ~ Qeq (Zq b) 0) by (apply Zq_nz; eapply rel_prime_nz; eauto).
  apply (good_eq _ (Qpower (Zq b) (u - v)));
    [|rewrite QA, QB; unfold Z.sub; rewrite Qpower_plus by auto; rewrite Qpower_opp; reflexivity].
  assert (K : forall d, o_sub o x y = Ok d -> good d (Zq (u - v))).
  { intros d E. apply (good_eq _ (Qminus (Zq u) (Zq v))); [exact (s_sub o S _ _ _ _ _ GX GY E)|rewrite Zq_sub; reflexivity]. }
  br H; specialize (K _ eq_refl).
  - apply cnt_eqb_eq in C1. subst a0. apply good_I_inv in K. apply (good_eq _ (Zq 1)); [apply good_I|].
    assert (D0 : u - v = 0) by (apply inject_Z_injective; exact K). rewrite D0. reflexivity.
  - apply cnt_eqb_eq in C2. subst a0. apply good_I_inv in K. apply (good_eq _ (Zq b)); [apply good_I|].
    assert (D0 : u - v = 1) by (apply inject_Z_injective; exact K). rewrite D0. cbn. reflexivity.
  - eapply make_exp_ok; eauto. reflexivity.
Qed.
Lemma exp_div_int_ok : forall b x qa d c, good (Exp b x) qa -> 1 <= b -> 1 <= d ->
  exp_div fl o b x (I d) = Ok c -> good c (Qdiv qa (Zq d)).
Proof.
  intros b x qa d c A B1 D H. unfold exp_div in H.
  destruct (cnt_eqb (I d) (I 1)) eqn:C1.
  { apply cnt_eqb_eq in C1. injection C1 as ->. br H. use_. change (Zq 1) with 1%Q. field. }
  apply good_Exp_inv in A as (u & R & GX & QA).
  assert (NB : ~ Qeq (Zq b) 0) by (apply Zq_nz; lia).
  destruct (divide_out _ d b 0) as [[w i]| | |] eqn:DO; cbn [bind] in H; try discriminate.
  apply divide_out_ok in DO as [I0 EX]; [|lia]. rewrite Z.sub_0_r in EX.
  assert (BI : 0 < b ^ i) by (apply Z.pow_pos_nonneg; lia).
  assert (W : 1 <= w) by nia.
  destruct (o_sub o x (I i)) as [e| | |] eqn:SE; cbn [bind] in H; try discriminate.
  pose proof (s_sub o S _ _ _ _ _ GX (good_I i) SE) as GE.
  assert (GE' : good e (Zq (u - i))) by (apply (good_eq _ _ _ GE); rewrite Zq_sub; reflexivity).
  assert (QD : Qeq (Qdiv qa (Zq d)) (Qdiv (Qpower (Zq b) (u - i)) (Zq w))).
  { rewrite QA, EX, Zq_mul, Zpower_Qpower by auto. unfold Z.sub. rewrite Qpower_plus, Qpower_opp by auto.
    assert (~ Qeq (Zq w) 0) by (apply Zq_nz; lia). assert (~ Qeq (Qpower (Zq b) i) 0) by (apply Qpower_not_0; auto). field. auto. }
  destruct (1 <? w) eqn:W1.
  - br H. zb. pose proof (s_sub o S _ _ _ _ _ GE' (good_I 1) E) as G1.
    assert (G1' : good a (Zq (u - i - 1))) by (apply (good_eq _ _ _ G1); rewrite (Zq_sub (u - i)); reflexivity).
    pose proof (make_exp_ok _ _ _ _ _ R G1' (Qeq_refl _) E0) as G2.
    pose proof (s_mul o S _ _ _ _ _ (good_I (b / w)) G2 H) as G3.
    apply (good_eq _ _ _ G3). rewrite QD.
    apply Z.mod_divide in C0; [|lia]. destruct C0 as [v EB].
    assert (NW : ~ Qeq (Zq w) 0) by (apply Zq_nz; lia).
    assert (QP : Qeq (Qpower (Zq b) (u - i)) (Qmult (Qpower (Zq b) (u - i - 1)) (Zq b))).
    { replace (u - i) with (u - i - 1 + 1) at 1 by lia. rewrite (Qpower_plus _ _ 1) by auto. reflexivity. }
    rewrite QP. generalize (Qpower (Zq b) (u - i - 1)). intros t.
    rewrite EB. rewrite Z.div_mul by lia. rewrite Zq_mul. field. auto.
  - zb. assert (w = 1) by lia. subst w. 
    apply (good_eq _ (Qpower (Zq b) (u - i))); [|rewrite QD; change (Zq 1) with 1%Q; field].
    br H.
    + apply cnt_eqb_eq in C. subst e. apply good_I_inv in GE'. apply (good_eq _ (Zq 1)); [apply good_I|].
      assert (D0 : u - i = 0) by (apply inject_Z_injective; exact GE'). rewrite D0. reflexivity.
    + apply cnt_eqb_eq in C0. subst e. apply good_I_inv in GE'. apply (good_eq _ (Zq b)); [apply good_I|].
      assert (D0 : u - i = 1) by (apply inject_Z_injective; exact GE'). rewrite D0. cbn. reflexivity.
    + eapply make_exp_ok; eauto. reflexivity.
Qed.

Lemma do_div_ok : forall a qa d k c, good a qa -> 0 <= k -> d = p ^ k -> local p (Qdiv qa (Zq d)) ->
  do_div fl o a (I d) = Ok c -> good c (Qdiv qa (Zq d)).
Proof.
  intros a qa d k c A K -> L H. destruct a; cbn [do_div] in H.
  - br H. opI. assert (D : (p ^ k | z)).
    { apply local_div_Z; [auto|]. eapply local_eq; [exact L|]. qs. reflexivity. }
    destruct D as [w ->]. rewrite Z.div_mul by (zb; auto).
    apply (good_eq _ (Zq w)); [apply good_I|]. qs. rewrite Zq_mul. field. apply pk_q. auto.
  - eapply add_div_ok; eauto.
  - eapply mul_div_ok; eauto.
  - eapply div_div_ok; eauto.
  - unfold exp_div in H.
    destruct (cnt_eqb (I (p ^ k)) (I 1)) eqn:C1.
    { apply cnt_eqb_eq in C1. injection C1 as C1. br H. rewrite C1 in *. use_. change (Zq 1) with 1%Q. field. }
    exfalso. opE.
    (* a power of a base prime to p is not divisible by p *)
    assert (L1 : local p (Qdiv (Zq 1) (Zq (p ^ k)))).
    { apply (local_eq (Qmult (Qdiv qa (Zq (p ^ k))) (Qpower (Zq base) (- x)))).
      - apply local_mul; [auto|apply local_pow; auto].
      - assert (NB : ~ Qeq (Zq base) 0) by (apply Zq_nz; eapply rel_prime_nz; eauto).
        assert (EP : Qeq (Qmult (Qpower (Zq base) x) (Qpower (Zq base) (- x))) 1).
        { rewrite <- Qpower_plus by auto. replace (x + - x) with 0 by lia. reflexivity. }
        qs. transitivity (Qdiv (Qmult (Qpower (Zq base) x) (Qpower (Zq base) (- x))) (Zq (p ^ k))).
        + field. apply pk_q. auto.
        + rewrite EP. reflexivity. }
    apply local_div_Z in L1; [|auto].
    apply Z.divide_1_r_nonneg in L1; [|pose proof (pk_pos k K); lia].
    rewrite L1 in C1. cbn in C1. rewrite Z.eqb_refl in C1. discriminate.
Qed.
End Prime.

Lemma ops_at_sound : forall p, prime p -> forall fl, exact_roots fl -> forall n, sound p (ops_at fl n).
Proof.
  intros p P fl FL. induction n; cbn [ops_at].
  - constructor; cbn; intros; discriminate.
  - constructor; cbn; intros.
    + eapply do_add_ok; eauto.
    + eapply do_mul_ok; eauto.
    + eapply do_neg_ok; eauto.
    + eapply do_sub_ok; eauto.
    + eapply do_div_ok; eauto.
Qed.
