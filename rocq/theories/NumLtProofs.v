(** * Comparing symbolic numbers: with small ints, and multiples of powers *)
From Verif Require Import Base NumModel NumSpec.
Local Open Scope Z_scope.

Lemma sized_big lim e z : sized lim e z -> is_int e = false -> lim <= Z.abs z.
Proof.
  destruct e as [y|l r|l r|n d|b e]; cbn [sized is_int]; intros H N; try discriminate.
  - destruct H as (a & b & H). lia.
  - destruct H as (a & b & H). lia.
  - lia.
  - destruct H as (H & L). assert (0 < z); [|lia]. destruct H as (y & _ & B & Y & ->). apply Z.pow_pos_nonneg; lia.
Qed.

Lemma bind_ok {A B} (x : res A) (k : A -> res B) r : bind x k = Ok r -> exists a, x = Ok a /\ k a = Ok r.
Proof. destruct x; try discriminate. intros H. eauto. Qed.

Definition right_lt (fl : floats) (n : nat) : Prop := forall lim a x k r, sized lim a x -> Z.abs k < lim ->
  (o_lt (ops_at fl n) a (I k) = Ok r -> (r = true <-> x < k)) /\ (o_lt (ops_at fl n) (I k) a = Ok r -> (r = true <-> k < x)).

Lemma sized_lt fl : forall n, right_lt fl n.
Proof.
  induction n as [|n IH]; intros lim a x k r S K; [split; discriminate|].
  set (o := ops_at fl n) in *.
  assert (L0 : forall a x r, sized lim a x -> o_lt o a (I 0) = Ok r -> (r = true <-> x < 0)).
  { intros a0 x0 r0 S0 E. apply (IH lim a0 x0 0 r0 S0 ltac:(lia)); auto. }
  assert (R0 : forall a x r, sized lim a x -> o_lt o (I 0) a = Ok r -> (r = true <-> 0 < x)).
  { intros a0 x0 r0 S0 E. apply (IH lim a0 x0 0 r0 S0 ltac:(lia)); auto. }
  split; cbn [ops_at o_lt]; fold o.
  - destruct a as [y|l rr|l rr|nn d|b e]; cbn [do_lt].
    + intros E. injection E as <-. destruct S as (-> & _). apply Z.ltb_lt.
    + destruct S as (p & q & SL & SR & -> & NI & BIG). pose proof (sized_big _ _ _ SR NI) as BR. unfold add_lt.
      assert (REST : is_int l = false -> add_lt_rest o l rr (I k) = NotImpl).
      { intros NL. unfold add_lt_rest. destruct rr; try discriminate NI; destruct l; try discriminate NL; reflexivity. }
      destruct (is_int l) eqn:NL.
      * destruct l as [y| | | |]; try discriminate NL. destruct SL as (-> & SL). intros E. rewrite (L0 _ _ _ SR E). lia.
      * pose proof (sized_big _ _ _ SL NL) as BL. intros E.
        assert (E' : bind (and_then (o_lt o l (I 0)) (o_lt o rr (I 0))) (fun x : bool => if x then Ok true
            else bind (and_then (o_lt o (I 0) l) (o_lt o (I 0) rr)) (fun y : bool => if y then Ok false else add_lt_rest o l rr (I k))) = Ok r).
        { destruct l; try discriminate NL; exact E. }
        clear E. apply bind_ok in E' as (u & U & E). unfold and_then in U. apply bind_ok in U as (u1 & U1 & U2).
        pose proof (L0 _ _ _ SL U1) as V1.
        assert (SEC : bind (and_then (o_lt o (I 0) l) (o_lt o (I 0) rr)) (fun y : bool => if y then Ok false else add_lt_rest o l rr (I k)) = Ok r ->
           (r = true <-> p + q < k)).
        { clear E. intros E. apply bind_ok in E as (v & V & E). unfold and_then in V. apply bind_ok in V as (w1 & W1 & W2).
          pose proof (R0 _ _ _ SL W1) as Y1. destruct w1.
          - pose proof (R0 _ _ _ SR W2) as Y2. destruct v; [|rewrite REST in E; [discriminate|auto]].
            injection E as <-. assert (0 < p) by (apply Y1; auto). assert (0 < q) by (apply Y2; auto). split; [discriminate|lia].
          - injection W2 as <-. rewrite REST in E; [discriminate|auto]. }
        destruct u1.
        -- pose proof (L0 _ _ _ SR U2) as V2. destruct u; [|auto]. injection E as <-.
           assert (p < 0) by (apply V1; auto). assert (q < 0) by (apply V2; auto). split; [lia|auto].
        -- injection U2 as <-. auto.
    + destruct S as (p & q & SL & ZR & Q & -> & BIG). cbn [mul_lt]. intros E.
      assert (P : r = true <-> p < 0).
      { destruct SL as [(y & -> & ->)|SL]; [|apply (L0 _ _ _ SL E)].
        destruct n as [|n]; [discriminate E|]. cbn in E. injection E as <-. apply Z.ltb_lt. }
      rewrite P. nia.
    + destruct S as (D & SN & BIG). cbn [div_lt]. intros E. rewrite (L0 _ _ _ SN E). nia.
    + destruct S as (V & BIG). cbn [exp_lt]. intros E. injection E as <-. split; [discriminate|lia].
  - destruct (is_int a) eqn:NA.
    + destruct a as [y| | | |]; try discriminate NA. cbn [do_lt]. intros E. injection E as <-. destruct S as (-> & _). apply Z.ltb_lt.
    + intros E. assert (E' : num_gt o a (I k) = Ok r) by (destruct a; try discriminate NA; exact E). clear E.
      unfold num_gt in E'. assert (Q : cnt_eqb a (I k) = false) by (destruct a; try discriminate NA; reflexivity). rewrite Q in E'.
      apply bind_ok in E' as (u & U & E). injection E as <-.
      destruct (IH lim a x k u S K) as (X & _). specialize (X U). pose proof (sized_big _ _ _ S NA).
      destruct u; cbn; [assert (x < k) by (apply X; auto); split; [discriminate|lia]|].
      assert (~ x < k) by (intros Y; apply X in Y; discriminate). split; [lia|auto].
Qed.

(** ** Multiples of powers *)
Lemma products_lt fl n b c e d f r : 2 <= b -> 0 < c -> 0 < d -> ~ (b | c) -> ~ (b | d) -> 0 <= e -> 0 <= f ->
  o_lt (ops_at fl n) (Mul (I c) (Exp b (I e))) (Mul (I d) (Exp b (I f))) = Ok r -> (r = true <-> c * b ^ e < d * b ^ f).
Proof.
  intros B C D NC ND E F. destruct n as [|n]; [discriminate|]. cbn [ops_at o_lt do_lt mul_lt].
  assert (EB : forall x y, cnt_eqb (Exp b (I x)) (Exp b (I y)) = (x =? y)) by (intros; cbn; rewrite Z.eqb_refl; auto).
  assert (IB : forall x y, cnt_eqb (I x) (I y) = (x =? y)) by reflexivity.
  rewrite EB, !IB. cbn [cnt_eqb].
  assert (PE : 0 < b ^ e) by (apply Z.pow_pos_nonneg; lia). assert (PF : 0 < b ^ f) by (apply Z.pow_pos_nonneg; lia).
  destruct n as [|n].
  { destruct (Z.eqb_spec c d); [discriminate|]. destruct (Z.eqb_spec e f); [discriminate|]. rewrite Z.eqb_refl. discriminate. }
  destruct (Z.eqb_spec c d) as [->|NCD].
  { cbn. rewrite Z.eqb_refl. cbn. destruct n; [discriminate|]. cbn. intros X. injection X as <-. rewrite Z.ltb_lt.
    rewrite <- (Z.mul_lt_mono_pos_l d) by lia. apply Z.pow_lt_mono_r_iff; lia. }
  destruct (Z.eqb_spec e f) as [->|NEF].
  { cbn. intros X. injection X as <-. rewrite Z.ltb_lt. nia. }
  rewrite Z.eqb_refl. cbn [ensure bind]. cbn [ops_at o_lt do_lt o_sub do_sub]. unfold ensure at 1.
  destruct (Z.ltb_spec e f) as [L|L]; cbn [bind].
  - replace (d =? 0) with false by (symmetry; apply Z.eqb_neq; lia). replace (0 <=? f - e) with true by (symmetry; apply Z.leb_le; lia).
    cbn. intros X. injection X as <-. rewrite Z.leb_le. replace f with (e + (f - e)) at 2 by lia. rewrite Z.pow_add_r by lia.
    set (m := b ^ (f - e)). assert (M : (b | m)).
    { unfold m. replace (f - e) with (Z.succ (f - e - 1)) by lia. rewrite Z.pow_succ_r by lia. apply Z.divide_factor_l. }
    assert (0 < m) by (unfold m; apply Z.pow_pos_nonneg; lia).
    assert (NE : c <> d * m). { intros ->. apply NC. apply Z.divide_mul_r. auto. }
    unfold ceil_div. pose proof (Z.div_mod (- c) d ltac:(lia)). pose proof (Z.mod_pos_bound (- c) d ltac:(lia)).
    replace (c * b ^ e < d * (b ^ e * m)) with (c * b ^ e < (d * m) * b ^ e) by (f_equal; ring).
    rewrite <- (Z.mul_lt_mono_pos_r (b ^ e)) by auto. set (u := - c / d) in *. split; intros; nia.
  - replace (c =? 0) with false by (symmetry; apply Z.eqb_neq; lia). replace (0 <=? e - f) with true by (symmetry; apply Z.leb_le; lia).
    cbn. intros X. injection X as <-. rewrite Z.ltb_lt. replace e with (f + (e - f)) at 2 by lia. rewrite Z.pow_add_r by lia.
    set (m := b ^ (e - f)). unfold ceil_div. pose proof (Z.div_mod (- d) c ltac:(lia)). pose proof (Z.mod_pos_bound (- d) c ltac:(lia)).
    replace (c * (b ^ f * m) < d * b ^ f) with ((c * m) * b ^ f < d * b ^ f) by (f_equal; ring).
    rewrite <- (Z.mul_lt_mono_pos_r (b ^ f)) by auto. set (u := - d / c) in *. split; intros; nia.
Qed.
