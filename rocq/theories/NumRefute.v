(** * The properties of symbolic numbers, assembled, and counterexamples *)
From Coq Require Import QArith Qpower Qfield Znumtheory.
From Verif Require Import Base NumModel NumSpec NumProofs NumFree NumMod NumMore.

Local Notation Zq := inject_Z.
Local Open Scope Z_scope.

Lemma arith_undivided : forall fl n a b qa qb, exact_roots fl -> undivided a -> undivided b -> val a qa -> val b qb ->
  (forall c, o_add (ops_at fl n) a b = Ok c -> undivided c /\ val c (qa + qb)%Q) /\
  (forall c, o_sub (ops_at fl n) a b = Ok c -> undivided c /\ val c (qa - qb)%Q) /\
  (forall c, o_neg (ops_at fl n) a = Ok c -> undivided c /\ val c (- qa)%Q) /\
  (forall c, o_mul (ops_at fl n) a b = Ok c -> undivided c /\ val c (qa * qb)%Q).
Proof.
  intros fl n a b qa qb FL Ua Ub Va Vb.
  destruct (undivided_good2 a b qa qb Ua Ub Va Vb) as (p & P & Ga & Gb).
  pose proof (ops_at_sound p P fl FL n) as S. pose proof (ops_at_free fl n) as F.
  split; [|split; [|split]]; intros c H; split.
  - exact (f_add _ F _ _ _ Ua Ub H).
  - exact (proj2 (s_add _ _ S _ _ _ _ _ Ga Gb H)).
  - exact (f_sub _ F _ _ _ Ua Ub H).
  - exact (proj2 (s_sub _ _ S _ _ _ _ _ Ga Gb H)).
  - exact (f_neg _ F _ _ Ua H).
  - exact (proj2 (s_neg _ _ S _ _ _ Ga H)).
  - exact (f_mul _ F _ _ _ Ua Ub H).
  - exact (proj2 (s_mul _ _ S _ _ _ _ _ Ga Gb H)).
Qed.

Lemma arith_tame : forall p fl n a b qa qb, prime p -> exact_roots fl -> tame p a -> tame p b -> val a qa -> val b qb ->
  (forall c, o_add (ops_at fl n) a b = Ok c -> tame p c /\ val c (qa + qb)%Q) /\
  (forall c, o_sub (ops_at fl n) a b = Ok c -> tame p c /\ val c (qa - qb)%Q) /\
  (forall c, o_neg (ops_at fl n) a = Ok c -> tame p c /\ val c (- qa)%Q) /\
  (forall c, o_mul (ops_at fl n) a b = Ok c -> tame p c /\ val c (qa * qb)%Q).
Proof.
  intros p fl n a b qa qb P FL Ta Tb Va Vb.
  pose proof (ops_at_sound p P fl FL n) as S.
  split; [|split; [|split]]; intros c H.
  - exact (s_add _ _ S _ _ _ _ _ (conj Ta Va) (conj Tb Vb) H).
  - exact (s_sub _ _ S _ _ _ _ _ (conj Ta Va) (conj Tb Vb) H).
  - exact (s_neg _ _ S _ _ _ (conj Ta Va) H).
  - exact (s_mul _ _ S _ _ _ _ _ (conj Ta Va) (conj Tb Vb) H).
Qed.

Lemma div_tame : forall p fl n a z k c, prime p -> exact_roots fl -> 0 <= k -> tame p a -> val a (Zq z) -> (p ^ k | z) ->
  o_div (ops_at fl n) a (I (p ^ k)) = Ok c -> tame p c /\ val c (Zq (z / p ^ k)).
Proof.
  intros p fl n a z k c P FL K T V [y ->] H.
  assert (N : p ^ k <> 0) by (apply Z.pow_nonzero; destruct P; lia).
  assert (E : Qeq (Zq (y * p ^ k) / Zq (p ^ k))%Q (Zq y)).
  { rewrite inject_Z_mult. field. apply Zq_nz. auto. }
  pose proof (ops_at_sound p P fl FL n) as S.
  destruct (s_div _ _ S a (Zq (y * p ^ k)) (p ^ k) k c (conj T V) K eq_refl) as [T' V']; auto.
  - exists 1, y. split; [lia|]. split; [apply rel_prime_1|]. rewrite E. ring.
  - split; [auto|]. rewrite Z.div_mul by auto. eapply val_eq; eauto.
Qed.

Lemma div_powers : forall p fl n b x y qa qb c, prime p -> exact_roots fl -> tame p (Exp b x) -> tame p (Exp b y) ->
  val (Exp b x) qa -> val (Exp b y) qb -> o_div (ops_at fl n) (Exp b x) (Exp b y) = Ok c -> tame p c /\ val c (qa / qb)%Q.
Proof.
  intros p fl n b x y qa qb c P FL T1 T2 V1 V2 H. destruct n as [|n]; [discriminate|].
  exact (exp_div_pow_ok p P fl FL (ops_at fl n) (ops_at_sound p P fl FL n) b x y qa qb c (conj T1 V1) (conj T2 V2) H).
Qed.
Lemma div_power_int : forall p fl n b x q d c, prime p -> exact_roots fl -> tame p (Exp b x) -> val (Exp b x) q ->
  1 <= b -> 1 <= d -> o_div (ops_at fl n) (Exp b x) (I d) = Ok c -> tame p c /\ val c (q / inject_Z d)%Q.
Proof.
  intros p fl n b x q d c P FL T V B D H. destruct n as [|n]; [discriminate|].
  exact (exp_div_int_ok p P fl FL (ops_at fl n) (ops_at_sound p P fl FL n) b x q d c (conj T V) B D H).
Qed.

(** Counterexamples. *)
Lemma add_refuted : exists a b c x y z,
  zval a x /\ zval b y /\ o_add (ops_at exact_fl 20) a b = Ok c /\ zval c z /\ z <> x + y.
Proof.
  exists (Div (Add (I (-1)) (Exp 5 (I 2))) 6), (Div (Add (I (-1)) (Exp 5 (I 2))) 8),
         (Div (Add (I (-1)) (Exp 5 (I 2))) 4), 4, 3, 6.
  assert (V : zval (Add (I (-1)) (Exp 5 (I 2))) 24).
  { cbn. exists (-1), 25. repeat split; auto. exists 2. repeat split; auto; lia. }
  split; [|split; [|split; [|split]]].
  - split; [lia|exact V].
  - split; [lia|exact V].
  - vm_compute. reflexivity.
  - split; [lia|exact V].
  - lia.
Qed.

Lemma div_refuted : exists a c z x, zval a z /\ (12 | z) /\
  o_div (ops_at exact_fl 20) a (I 12) = Ok c /\ zval c x /\ x <> z / 12.
Proof.
  exists (Mul (Add (I (-6)) (Exp 2 (I 2))) (Mul (I 3) (Exp 2 (I 3)))), (Mul (I (-1)) (Exp 2 (I 3))), (-48), (-8).
  split; [|split; [|split; [|split]]].
  - cbn. exists (-2), 24. split; [|split; [|reflexivity]].
    + exists (-6), 4. repeat split; auto. exists 2. repeat split; auto; lia.
    + exists 3, 8. repeat split; auto. exists 3. repeat split; auto; lia.
  - exists (-4). reflexivity.
  - vm_compute. reflexivity.
  - cbn. exists (-1), 8. repeat split; auto. exists 3. repeat split; auto; lia.
  - vm_compute. discriminate.
Qed.

Lemma mod_refuted :
  (exists y r, zval (Exp 2 (I y)) (2 ^ y) /\ num_mod exact_fl (o_lt (ops_at exact_fl 20)) (Exp 2 (I y)) 30 = Ok r /\ r <> 2 ^ y mod 30) /\
  (exists y r, zval (Exp 3 (I y)) (3 ^ y) /\ num_mod exact_fl (o_lt (ops_at exact_fl 20)) (Exp 3 (I y)) 4 = Ok r /\ r <> 3 ^ y mod 4).
Proof.
  split.
  - exists 4, 15. split; [|split; [vm_compute; reflexivity|vm_compute; discriminate]].
    cbn. exists 4. repeat split; auto; lia.
  - exists 3, 1. split; [|split; [vm_compute; reflexivity|vm_compute; discriminate]].
    cbn. exists 3. repeat split; auto; lia.
Qed.

(** 84088900 = 9170 ^ 2, but log(84088900, 9170.0) comes out below 2 in double precision. *)
Definition ieee_at_84088900 : floats :=
  Floats (fun b => if b =? 84088900 then Some 9170 else None) (fun b r => if (b =? 84088900) && (r =? 9170) then 1 else 0)
         two3 (fun _ => None).
Lemma exp_refuted : exists b e c x, zval c x /\
  make_exp ieee_at_84088900 (ops_at ieee_at_84088900 20) b (I e) = Ok c /\ x <> b ^ e.
Proof.
  exists 84088900, 3, (Exp 9170 (I 3)), (9170 ^ 3).
  split; [|split; [vm_compute; reflexivity|vm_compute; discriminate]].
  cbn. exists 3. repeat split; auto; lia.
Qed.

Lemma lt_refuted : exists a b x y r, zval a x /\ zval b y /\
  o_lt (ops_at exact_fl 20) a b = Ok r /\ ~ (r = true <-> x < y).
Proof.
  exists (Exp 2 (I 5)), (Add (I 3) (Exp 2 (I 5))), 32, 35, false.
  split; [|split; [|split; [vm_compute; reflexivity|intros [_ H]; specialize (H ltac:(lia)); discriminate]]].
  - cbn. exists 5. repeat split; auto; lia.
  - cbn. exists 3, 32. repeat split; auto. exists 5. repeat split; auto; lia.
Qed.

Lemma gcd_refuted :
  (exists e z g, zval e z /\ num_gcd exact_fl 6 e = Ok g /\ ~ (g | z)) /\
  (exists e z g, zval e z /\ num_gcd exact_fl 16 e = Ok g /\ ~ (g | z)).
Proof.
  split.
  - exists (Add (I 9) (Exp 2 (I 5))), 41, 2. split; [|split; [vm_compute; reflexivity|]].
    + cbn. exists 9, 32. repeat split; auto. exists 5. repeat split; auto; lia.
    + intros [x X]. lia.
  - exists (Exp 2 (I 3)), 8, 16. split; [|split; [vm_compute; reflexivity|]].
    + cbn. exists 3. repeat split; auto; lia.
    + intros [x X]. lia.
Qed.

Lemma divmod_refuted : exists a z q x r, zval a z /\
  num_divmod exact_fl (ops_at exact_fl 20) a 12 = Ok (q, r) /\ zval q x /\ z <> x * 12 + r.
Proof.
  exists (Mul (Add (I (-6)) (Exp 2 (I 2))) (Mul (I 3) (Exp 2 (I 3)))), (-48), (Mul (I (-1)) (Exp 2 (I 3))), (-8), 0.
  split; [|split; [|split]].
  - cbn. exists (-2), 24. split; [|split; [|reflexivity]].
    + exists (-6), 4. repeat split; auto. exists 2. repeat split; auto; lia.
    + exists 3, 8. repeat split; auto. exists 3. repeat split; auto; lia.
  - vm_compute. reflexivity.
  - cbn. exists (-1), 8. repeat split; auto. exists 3. repeat split; auto; lia.
  - vm_compute. discriminate.
Qed.
