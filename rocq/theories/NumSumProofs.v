(** * Comparing towers with a small int added *)
From Verif Require Import Base NumModel NumSpec NumProofs NumMore NumCmpProofs NumSumSpec.
Local Open Scope Z_scope.

Lemma tower_pow b lim b' e y : tower b lim (Exp b' e) y -> exists u, 0 <= u /\ y = b ^ u /\ lim < y.
Proof. intros (_ & u & _ & U & -> & L). exists u. auto. Qed.

Lemma gap_lt b lim x y : 2 <= b -> (exists u, 0 <= u /\ x = b ^ u /\ lim < x) -> (exists v, 0 <= v /\ y = b ^ v /\ lim < y) -> x < y -> lim < y - x.
Proof.
  intros B (u & U & -> & LU) (v & V & -> & LV) H. assert (u < v) by (apply Z.pow_lt_mono_r_iff in H; lia).
  assert (b ^ v = b ^ (v - u) * b ^ u) by (rewrite <- Z.pow_add_r by lia; f_equal; lia).
  assert (2 <= b ^ (v - u)).
  { transitivity b; [lia|]. rewrite <- (Z.pow_1_r b) at 1. apply Z.pow_le_mono_r; lia. }
  nia.
Qed.

Lemma gap b lim k j b1 e1 b2 e2 x y : 2 <= b -> tower b lim (Exp b1 e1) x -> tower b lim (Exp b2 e2) y -> 4 * Z.abs k < lim -> 4 * Z.abs j < lim ->
  cnt_eqb (Exp b1 e1) (Exp b2 e2) = false -> (k + x < j + y <-> x < y).
Proof.
  intros B X Y K J N. assert (x <> y) by (intros ->; rewrite (tower_inj b lim B _ _ y X Y) in N; discriminate).
  pose proof (gap_lt b lim x y B (tower_pow _ _ _ _ _ X) (tower_pow _ _ _ _ _ Y)).
  pose proof (gap_lt b lim y x B (tower_pow _ _ _ _ _ Y) (tower_pow _ _ _ _ _ X)). lia.
Qed.

Lemma near_int fl b lim n k b1 e1 x i r : 2 <= b -> tower b lim (Exp b1 e1) x -> 4 * Z.abs k < lim -> 4 * Z.abs i < lim ->
  o_lt (ops_at fl n) (Add (I k) (Exp b1 e1)) (I i) = Ok r -> (r = true <-> k + x < i).
Proof.
  intros B X K J H. destruct n as [|n]; [discriminate|]. cbn [ops_at o_lt do_lt add_lt] in H.
  apply (tower_lt fl b lim B n _ _ x 0 r X) in H; [|split; lia]. destruct (tower_pow _ _ _ _ _ X) as (u & _ & _ & L). rewrite H. lia.
Qed.

Lemma pow_int fl b lim n b1 e1 x i r : 2 <= b -> tower b lim (Exp b1 e1) x -> 4 * Z.abs i < lim ->
  o_lt (ops_at fl n) (Exp b1 e1) (I i) = Ok r -> (r = true <-> x < i).
Proof. intros B X J H. apply (tower_lt fl b lim B n _ _ x i r X) in H; [exact H|split; lia]. Qed.

Lemma near_lt fl b lim n a c x y r : 2 <= b -> near_tower b lim a x -> near_tower b lim c y -> (forall k, c <> Add (I k) a) ->
  o_lt (ops_at fl n) a c = Ok r -> (r = true <-> x < y).
Proof.
  intros B A C NE H. destruct n as [|n]; [discriminate|]. cbn [ops_at o_lt] in H.
  destruct a as [i|[k| | | |] [| | | |b1 e1]| | |b1 e1]; cbn [near_tower] in A; try tauto;
    destruct c as [i'|[j| | | |] [| | | |b2 e2]| | |b2 e2]; cbn [near_tower] in C; try tauto.
  - cbn [do_lt] in H. inv H. rewrite Z.ltb_lt. lia.
  - destruct C as (J & t & T & ->), A as (-> & I1). cbn [do_lt] in H. unfold num_gt in H. cbn [cnt_eqb] in H.
    destruct (o_lt (ops_at fl n) (Add (I j) (Exp b2 e2)) (I i)) as [s| | |] eqn:L; try discriminate. cbn [bind] in H. inv H.
    apply (near_int fl b lim n j b2 e2 t i s B T J I1) in L. destruct (tower_pow _ _ _ _ _ T) as (u & _ & _ & M).
    destruct s; cbn [negb]; [exfalso; assert (j + t < i) by (apply L; reflexivity); lia|split; [lia|reflexivity]].
  - destruct A as (-> & I1). cbn [do_lt] in H. unfold num_gt in H. cbn [cnt_eqb] in H.
    destruct (o_lt (ops_at fl n) (Exp b2 e2) (I i)) as [s| | |] eqn:L; try discriminate. cbn [bind] in H. inv H.
    apply (pow_int fl b lim n b2 e2 y i s B C I1) in L. destruct (tower_pow _ _ _ _ _ C) as (u & _ & _ & M).
    destruct s; cbn [negb]; [exfalso; assert (y < i) by (apply L; reflexivity); lia|split; [lia|reflexivity]].
  - destruct A as (K & t & T & ->), C as (-> & I1). apply (near_int fl b lim (S n) k b1 e1 t i' r B T K I1 H).
  - destruct A as (K & t & T & ->), C as (J & t' & T' & ->). cbn [do_lt add_lt] in H.
    assert (E0 : cnt_eqb (Add (I k) (Exp b1 e1)) (Exp b2 e2) = false) by reflexivity. rewrite E0 in H. clear E0.
    destruct (cnt_eqb (I k) (I j)) eqn:E1.
    { apply cnt_eqb_eq in E1. inv E1. apply (tower_lt fl b lim B n _ _ t t' r T T') in H. rewrite H. lia. }
    destruct (cnt_eqb (Exp b1 e1) (Exp b2 e2)) eqn:E2.
    { apply cnt_eqb_eq in E2. rewrite <- E2 in T'. rewrite (tower_fun _ _ _ _ _ T' T). apply (tower_lt fl b lim B n _ _ k j r) in H; [rewrite H; lia|split; lia|split; lia]. }
    cbn [cnt_eqb is_int andb] in H. apply (tower_lt fl b lim B n _ _ t t' r T T') in H. rewrite H. symmetry. eapply gap; eauto.
  - destruct A as (K & t & T & ->). cbn [do_lt add_lt] in H. unfold add_lt_rest in H. destruct (cnt_eqb (Exp b2 e2) (Exp b1 e1)) eqn:E2.
    { apply cnt_eqb_eq in E2. rewrite E2 in C. rewrite (tower_fun _ _ _ _ _ C T). apply (tower_lt fl b lim B n _ _ k 0 r) in H; [rewrite H; lia|split; lia|split; lia]. }
    destruct (Z.abs k <? 10); [|discriminate]. apply (tower_lt fl b lim B n _ _ t y r T C) in H. rewrite H. symmetry.
    apply (gap b lim k 0 b1 e1 b2 e2 t y B T C K); [lia|]. destruct (cnt_eqb (Exp b1 e1) (Exp b2 e2)) eqn:E3; [|reflexivity].
    apply cnt_eqb_eq in E3. rewrite E3 in E2. rewrite (tower_inj b lim B _ _ y C C) in E2. discriminate.
  - destruct C as (-> & I1). apply (pow_int fl b lim (S n) b1 e1 x i' r B A I1 H).
  - destruct C as (J & t & T & ->). cbn [do_lt exp_lt] in H. apply (tower_lt fl b lim B n _ _ x t r A T) in H. rewrite H. symmetry.
    apply (gap b lim 0 j b1 e1 b2 e2 x t B A T); [lia|exact J|]. destruct (cnt_eqb (Exp b1 e1) (Exp b2 e2)) eqn:E3; [|reflexivity].
    apply cnt_eqb_eq in E3. exfalso. apply (NE j). rewrite E3. reflexivity.
  - apply (tower_lt fl b lim B (S n) _ _ x y r A C H).
Qed.
