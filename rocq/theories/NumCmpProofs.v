(** * The comparisons of towers other than [<] *)
From Verif Require Import Base NumModel NumSpec NumProofs NumMore.
Local Open Scope Z_scope.

Lemma tower_inj b lim : 2 <= b -> forall a c x, tower b lim a x -> tower b lim c x -> cnt_eqb a c = true.
Proof.
  intros B. induction a as [i| | | |b1 e1 IH]; intros c x A C; cbn [tower] in A; try tauto;
    destruct c as [j| | | |b2 e2]; cbn [tower] in C; try tauto; cbn [cnt_eqb].
  - apply Z.eqb_eq. lia.
  - destruct A as (-> & A), C as (_ & y & _ & _ & _ & C). lia.
  - destruct A as (_ & y & _ & _ & _ & A), C as (-> & C). lia.
  - destruct A as (-> & u & TU & U0 & -> & LU), C as (-> & v & TV & V0 & E & LV).
    assert (u = v) by (eapply Z.pow_inj_r; [| | |exact E]; lia). subst v. rewrite Z.eqb_refl. cbn. eapply IH; eauto.
Qed.

Lemma tower_fun b lim a : forall x y, tower b lim a x -> tower b lim a y -> x = y.
Proof.
  induction a as [i| | | |b1 e1 IH]; intros x y A C; cbn [tower] in *; try tauto; [lia|].
  destruct A as (_ & u & TU & _ & -> & _), C as (_ & v & TV & _ & -> & _). rewrite (IH _ _ TU TV). reflexivity.
Qed.

Lemma tower_num_gt fl b lim : 2 <= b -> forall n a c x y r, tower b lim a x -> tower b lim c y ->
  num_gt (ops_at fl n) a c = Ok r -> (r = true <-> y < x).
Proof.
  intros B n a c x y r A C H. unfold num_gt in H. destruct (cnt_eqb a c) eqn:E.
  - inv H. apply cnt_eqb_eq in E. subst c. rewrite (tower_fun _ _ _ _ _ A C). split; [discriminate|lia].
  - destruct (o_lt (ops_at fl n) a c) as [s| | |] eqn:L; try discriminate. cbn [bind] in H. inv H.
    apply (tower_lt fl b lim B n a c x y s A C) in L. assert (x <> y) by (intros ->; rewrite (tower_inj b lim B a c y A C) in E; discriminate).
    destruct s; cbn [negb]; [|split; [|reflexivity]]; [split; [discriminate|]; intros; assert (x < y) by (apply L; reflexivity); lia|].
    intros _. destruct (Z.lt_trichotomy x y) as [X|[X|X]]; [apply L in X; discriminate|contradiction|exact X].
Qed.

Lemma tower_gt fl b lim : 2 <= b -> forall n a c x y r, tower b lim a x -> tower b lim c y ->
  gt (ops_at fl n) a c = Ok r -> (r = true <-> y < x).
Proof.
  intros B n a c x y r A C H. unfold gt in H.
  destruct a as [i| | | |b1 e1]; [destruct c as [j| | | |b2 e2]| | | |];
    try (eapply tower_num_gt; eassumption); try (eapply tower_lt; eassumption).
  inv H. cbn in A, C. rewrite Z.ltb_lt. lia.
Qed.

Lemma tower_le fl b lim : 2 <= b -> forall n a c x y r, tower b lim a x -> tower b lim c y ->
  le (ops_at fl n) a c = Ok r -> (r = true <-> x <= y).
Proof.
  intros B n a c x y r A C H.
  assert (Q : (if cnt_eqb a c then Ok true else o_lt (ops_at fl n) a c) = Ok r -> (r = true <-> x <= y)).
  { clear H. intros H. destruct (cnt_eqb a c) eqn:E.
    - inv H. apply cnt_eqb_eq in E. subst c. rewrite (tower_fun _ _ _ _ _ A C). split; [lia|reflexivity].
    - apply (tower_lt fl b lim B n a c x y r A C) in H. assert (x <> y) by (intros ->; rewrite (tower_inj b lim B a c y A C) in E; discriminate).
      rewrite H. lia. }
  unfold le in H. destruct a as [i| | | |b1 e1]; [destruct c as [j| | | |b2 e2]| | | |]; try (exact (Q H)).
  - inv H. cbn in A, C. rewrite Z.leb_le. lia.
  - cbn in C; tauto.
  - cbn in C; tauto.
  - cbn in C; tauto.
  - apply (tower_num_gt fl b lim B n _ _ y x r C A) in H. rewrite H. destruct A as (-> & A), C as (_ & z & _ & _ & _ & C). lia.
Qed.

Lemma tower_gt_le fl b lim : 2 <= b -> forall n a c x y r, tower b lim a x -> tower b lim c y ->
  (gt (ops_at fl n) a c = Ok r -> (r = true <-> y < x)) /\ (le (ops_at fl n) a c = Ok r -> (r = true <-> x <= y)).
Proof. intros B n a c x y r A C. split; [eapply tower_gt; eassumption|eapply tower_le; eassumption]. Qed.
