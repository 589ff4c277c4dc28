(** * Proofs about estimates *)
From Coq Require Import QArith Qpower.
From Verif Require Import Base NumModel NumShowModel NumEstModel NumEstSpec.

Local Notation P k := (Qpower (inject_Z 10) k).

Lemma ten_nz : ~ (inject_Z 10 == 0)%Q.
Proof. intros E. discriminate E. Qed.
Lemma P_plus a b : (P (a + b) == P a * P b)%Q.
Proof. apply Qpower_plus. exact ten_nz. Qed.
Lemma P_nat c : 0 <= c -> (P c == inject_Z (10 ^ c))%Q.
Proof. intros L. symmetry. now apply Zpower_Qpower. Qed.
Lemma P_nonneg k : (0 <= P k)%Q.
Proof. apply Qpower_pos. discriminate. Qed.
Lemma P_one c : 0 <= c -> (1 <= P c)%Q.
Proof.
  intros L. rewrite P_nat by exact L. change 1%Q with (inject_Z 1). rewrite <- Zle_Qle.
  pose proof (Z.pow_pos_nonneg 10 c ltac:(lia) L). lia.
Qed.
Lemma P_mono a b : a <= b -> (P a <= P b)%Q.
Proof.
  intros L. replace b with (a + (b - a)) by lia. rewrite P_plus.
  rewrite <- (Qmult_1_r (P a)) at 1. rewrite !(Qmult_comm (P a)). apply Qmult_le_compat_r; [apply P_one; lia|apply P_nonneg].
Qed.
Lemma P_inv c : (P c * P (- c) == 1)%Q.
Proof. rewrite <- P_plus. replace (c + - c) with 0 by lia. reflexivity. Qed.

Lemma mult_le a b c d : (0 <= a)%Q -> (a <= b)%Q -> (0 <= c)%Q -> (c <= d)%Q -> (a * c <= b * d)%Q.
Proof.
  intros A AB C CD. apply (Qle_trans _ (b * c)); [now apply Qmult_le_compat_r|].
  rewrite !(Qmult_comm b). apply Qmult_le_compat_r; [exact CD|exact (Qle_trans _ _ _ A AB)].
Qed.

Lemma sq_nonneg v : (0 <= inject_Z (v * v))%Q.
Proof. change 0%Q with (inject_Z 0). rewrite <- Zle_Qle. nia. Qed.

Lemma size_mul a b j k v w : size a j v -> size b k w -> size (a * b) (j + k) (v + w).
Proof.
  intros [A1 A2] [B1 B2]. unfold size. replace (a * b * (a * b)) with (a * a * (b * b)) by lia. rewrite inject_Z_mult. split.
  - replace (2 * (j + k) - (v + w)) with ((2 * j - v) + (2 * k - w)) by lia. rewrite P_plus.
    apply mult_le; try apply P_nonneg; assumption.
  - replace (2 * (j + k) + (v + w)) with ((2 * j + v) + (2 * k + w)) by lia. rewrite P_plus.
    apply mult_le; try apply sq_nonneg; assumption.
Qed.

Lemma size_weaken a k v w : v <= w -> size a k v -> size a k w.
Proof.
  intros L [A1 A2]. split.
  - apply (Qle_trans _ (P (2 * k - v))); [apply P_mono; lia|exact A1].
  - apply (Qle_trans _ (P (2 * k + v))); [exact A2|apply P_mono; lia].
Qed.

Lemma P_lt_one k : k < 0 -> (P k < 1)%Q.
Proof.
  intros L. apply Qnot_le_lt. intros H. pose proof (P_inv (- k)) as I1. replace (- - k) with k in I1 by lia.
  assert (B : (1 * 10 <= P k * P (- k))%Q).
  { apply mult_le; [discriminate|exact H|discriminate|].
    apply (Qle_trans _ (P 1)); [discriminate|apply P_mono; lia]. }
  rewrite (Qmult_comm (P k)), I1 in B. apply B. reflexivity.
Qed.

Lemma size_one k : size 1 k 1 -> k = 0.
Proof.
  intros [A1 A2]. change (inject_Z (1 * 1)) with 1%Q in *.
  destruct (Z.lt_trichotomy k 0) as [L|[E|L]]; [|exact E|].
  - pose proof (P_lt_one (2 * k + 1) ltac:(lia)) as B. elim (Qlt_not_le _ _ B A2).
  - assert (B : (P 1 <= 1)%Q) by (apply (Qle_trans _ (P (2 * k - 1))); [apply P_mono; lia|exact A1]). elim B. reflexivity.
Qed.

Lemma size_opp a k w : size a k w -> size (- a) k w.
Proof. unfold size. now replace (- a * - a) with (a * a) by lia. Qed.

Lemma size_div q d j k w : 0 < d -> size d k 1 -> size (q * d) j w -> size q (j - k) (w + 1).
Proof.
  intros L [D1 D2] [A1 A2]. unfold size in *. replace (q * d * (q * d)) with (q * q * (d * d)) in * by lia.
  rewrite (inject_Z_mult (q * q) (d * d)) in A1, A2.
  assert (DP : (0 < inject_Z (d * d))%Q) by (change 0%Q with (inject_Z 0); rewrite <- Zlt_Qlt; nia).
  split.
  - replace (2 * (j - k) - (w + 1)) with ((2 * j - w) + - (2 * k + 1)) by lia. rewrite P_plus.
    apply (Qmult_le_r _ _ (P (2 * k + 1))).
    { apply (Qlt_le_trans _ (inject_Z (d * d))); assumption. }
    rewrite <- Qmult_assoc, (Qmult_comm (P (- (2 * k + 1))) (P (2 * k + 1))), P_inv, Qmult_1_r.
    apply (Qle_trans _ _ _ A1). apply mult_le; [apply sq_nonneg|apply Qle_refl|apply sq_nonneg|exact D2].
  - replace (2 * (j - k) + (w + 1)) with ((2 * j + w) + - (2 * k - 1)) by lia. rewrite P_plus.
    assert (PP : (0 < P (2 * k - 1))%Q).
    { apply Qnot_le_lt. intros N. pose proof (P_inv (2 * k - 1)) as I1.
      assert (Z0 : (P (2 * k - 1) == 0)%Q) by (apply Qle_antisym; [exact N|apply P_nonneg]).
      rewrite Z0, Qmult_0_l in I1. discriminate I1. }
    apply (Qmult_le_r _ _ (P (2 * k - 1))); [exact PP|].
    rewrite <- Qmult_assoc, (Qmult_comm (P (- (2 * k - 1))) (P (2 * k - 1))), P_inv, Qmult_1_r.
    refine (Qle_trans _ _ _ _ A2). apply mult_le; [apply sq_nonneg|apply Qle_refl|apply P_nonneg|exact D1].
Qed.

(** A sum of parts of one sign. *)
Lemma size_add a b j k v w : 0 <= a * b -> size a j v -> size b k w -> size (a + b) (Z.max j k) (Z.max v w + 1).
Proof.
  intros S A B. assert (M : forall x y m n s t, 0 <= x * y -> n <= m -> size x m s -> size y n t -> size (x + y) m (Z.max s t + 1)).
  { clear. intros x y m n s t S L A B.
    apply (size_weaken x m s (Z.max s t) (Z.le_max_l s t)) in A. apply (size_weaken y n t (Z.max s t) (Z.le_max_r s t)) in B.
    revert A B. generalize (Z.max s t). clear s t. intros s [A1 A2] [B1 B2]. split.
    - apply (Qle_trans _ (P (2 * m - s))); [apply P_mono; lia|]. apply (Qle_trans _ _ _ A1). rewrite <- Zle_Qle. nia.
    - replace (2 * m + (s + 1)) with ((2 * m + s) + 1) by lia. rewrite P_plus.
      assert (C : (inject_Z (x * x) <= P (2 * m + s))%Q) by exact A2.
      assert (D : (inject_Z (y * y) <= P (2 * m + s))%Q).
      { apply (Qle_trans _ _ _ B2). apply P_mono. lia. }
      apply (Qle_trans _ (inject_Z (2 * (x * x) + 2 * (y * y)))).
      { rewrite <- Zle_Qle. pose proof (Z.square_nonneg (x - y)). lia. }
      rewrite inject_Z_plus, !inject_Z_mult with (x := 2).
      apply (Qle_trans _ (inject_Z 2 * P (2 * m + s) + inject_Z 2 * P (2 * m + s))).
      { apply Qplus_le_compat; apply mult_le; try discriminate; try apply sq_nonneg; assumption. }
      apply (Qle_trans _ (P (2 * m + s) * inject_Z 4)).
      { apply Qle_lteq. right. change (inject_Z 4) with (inject_Z 2 + inject_Z 2)%Q. ring. }
      apply mult_le; [apply P_nonneg|apply Qle_refl|discriminate|discriminate]. }
  destruct (Z.le_ge_cases k j) as [L|L].
  - rewrite (Z.max_l j k) by exact L. now apply (M a b j k).
  - rewrite (Z.max_r j k), (Z.max_comm v w), Z.add_comm by exact L. apply (M b a k j); try assumption. lia.
Qed.

Lemma size_add_int n v k w : Z.abs n <= Z.abs v -> 0 <= n * v -> size v k w -> size (n + v) k (w + 1).
Proof.
  intros L S [A1 A2]. split.
  - apply (Qle_trans _ (P (2 * k - w))); [apply P_mono; lia|]. apply (Qle_trans _ _ _ A1). rewrite <- Zle_Qle. nia.
  - replace (2 * k + (w + 1)) with ((2 * k + w) + 1) by lia. rewrite P_plus.
    apply (Qle_trans _ (inject_Z (v * v * 4))).
    { rewrite <- Zle_Qle. nia. }
    rewrite inject_Z_mult. apply mult_le; [apply sq_nonneg|exact A2|discriminate|discriminate].
Qed.

(** ** Digits *)

Lemma rough_to_int e v w : rough e v w -> to_int e = Some v.
Proof.
  intros R. induction R; cbn [to_int].
  - rewrite (proj2 (Z.ltb_ge x 0)) by lia. reflexivity.
  - rewrite IHR, (proj2 (Z.ltb_ge v 0)) by lia. reflexivity.
  - now rewrite IHR.
  - rewrite IHR. reflexivity.
  - now rewrite IHR1, IHR2.
  - now rewrite IHR.
  - now rewrite IHR1, IHR2.
  - rewrite IHR. destruct (Z.eqb_spec d 0) as [E|_]; [lia|]. now rewrite Z.div_mul by lia.
Qed.
Lemma rough_num e v w : rough e v w -> forall n, e <> I n.
Proof. intros R n. now destruct R. Qed.

Lemma digits_right ff e v w : good_logs ff -> rough e v w -> forall k, digits ff e = Some k -> size v k w.
Proof.
  intros [G1 G2] R. induction R as [b x B X|b x v w B R IH V|n r v w N R IH|r v w R IH|l r a b v w R1 IH1 R2 IH2|n r v w A S R IH|l r a b v w S R1 IH1 R2 IH2|n d q w D R IH];
    intros k E; cbn [digits] in E.
  - now apply (G2 b x).
  - assert (E' : fl_power ff b v = Some k).
    { pose proof (rough_to_int _ _ _ R) as TI. pose proof (rough_num _ _ _ R) as NI.
      destruct x; [elim (NI z eq_refl)| | | |]; cbv beta iota zeta in E;
        match type of E with match ?d with _ => _ end = _ => destruct d as [j|]; [|discriminate E] end;
        (destruct (10 <=? j); [discriminate E|]); rewrite TI in E; exact E. }
    now apply (G2 b v).
  - destruct (digits ff r) as [j|]; [|discriminate E]. rewrite (proj2 (Z.ltb_lt 0 n) N) in E. injection E as <-.
    replace (n * v) with (v * n) by lia. apply size_mul; [now apply IH|now apply G1].
  - destruct (digits ff r) as [j|]; [|discriminate E].
    change (0 <? -1) with false in E. cbv iota in E. change (- -1) with 1 in E.
    rewrite (size_one _ (G1 1 ltac:(lia))) in E. injection E as <-. apply size_opp. apply IH. f_equal. lia.
  - destruct (digits ff r) as [j|]; [|discriminate E]. pose proof (rough_num _ _ _ R1) as NI.
    destruct l; [elim (NI z eq_refl)| | | |]; cbv beta iota zeta in E;
      match type of E with match ?d with _ => _ end = _ => destruct d as [i|] eqn:EL; [|discriminate E] end;
      injection E as <-; rewrite (Z.add_comm j i); (apply size_mul; [now apply IH1|now apply IH2]).
  - destruct (digits ff r) as [j|]; [|discriminate E]. injection E as <-. apply size_add_int; try assumption. now apply IH.
  - destruct (digits ff r) as [j|]; [|discriminate E]. pose proof (rough_num _ _ _ R1) as NI.
    destruct l; [elim (NI z eq_refl)| | | |]; cbv beta iota zeta in E;
      match type of E with match ?d with _ => _ end = _ => destruct d as [i|] eqn:EL; [|discriminate E] end;
      injection E as <-; (apply size_add; [exact S|now apply IH1|now apply IH2]).
  - destruct (digits ff n) as [j|]; [|discriminate E]. injection E as <-. apply (size_div q d); [exact D|now apply G1|now apply IH].
Qed.

Lemma estimate_right ff lt0 e v w neg k : good_logs ff -> rough e v w ->
  estimate ff lt0 e = Power10 neg k -> size v k w /\ 0 < k /\ lt0 = Ok neg.
Proof.
  intros G R. unfold estimate. destruct (3 <? tower_est ff e).
  - destruct lt0 as [[]| | |]; intros E; discriminate E.
  - destruct (digits ff e) as [j|] eqn:D; [|destruct lt0 as [[]| | |]; intros E; discriminate E].
    destruct (Z.ltb_spec 0 j) as [L|L]; [|intros E; discriminate E].
    destruct lt0 as [s| | |]; intros E; try discriminate E. injection E as <- <-.
    split; [now apply (digits_right ff e)|split; [exact L|reflexivity]].
Qed.

(** ** Right logarithms exist *)

Lemma nearest_right n : 0 < n -> forall fuel from, 0 <= from ->
  n * n <= 10 ^ (2 * (from + Z.of_nat fuel) + 1) -> (from = 0 \/ 10 ^ (2 * from - 1) <= n * n) -> size n (nearest fuel from n) 1.
Proof.
  intros N fuel. induction fuel as [|fuel IH]; intros from F U L; cbn [nearest].
  - change (Z.of_nat 0) with 0 in U. rewrite Z.add_0_r in U. split.
    + destruct L as [-> |L].
      * apply (Qle_trans _ 1); [discriminate|]. change 1%Q with (inject_Z 1). rewrite <- Zle_Qle. nia.
      * destruct (Z.eq_dec from 0) as [-> |NZ]; [apply (Qle_trans _ 1); [discriminate|]; change 1%Q with (inject_Z 1); rewrite <- Zle_Qle; nia|].
        rewrite P_nat by lia. now rewrite <- Zle_Qle.
    + rewrite P_nat by lia. now rewrite <- Zle_Qle.
  - destruct (Z.leb_spec (n * n) (10 ^ (2 * from + 1))) as [C|C].
    + split.
      * destruct (Z.eq_dec from 0) as [-> |NZ]; [apply (Qle_trans _ 1); [discriminate|]; change 1%Q with (inject_Z 1); rewrite <- Zle_Qle; nia|].
        destruct L as [E|L]; [contradiction|]. rewrite P_nat by lia. now rewrite <- Zle_Qle.
      * rewrite P_nat by lia. now rewrite <- Zle_Qle.
    + apply IH; [lia| |].
      * replace (from + 1 + Z.of_nat fuel) with (from + Z.of_nat (S fuel)) by lia. exact U.
      * right. replace (2 * (from + 1) - 1) with (2 * from + 1) by lia. lia.
Qed.

Lemma log_near_right n : 0 < n -> size n (log_near n) 1.
Proof.
  intros N. unfold log_near. pose proof (Z.log2_nonneg n). apply nearest_right; [exact N|lia| |now left].
  rewrite Z2Nat.id by lia. replace (2 * (0 + Z.log2 n) + 1) with (Z.log2 n + (Z.log2 n + 1)) by lia.
  destruct (Z.log2_spec n N) as [_ U]. unfold Z.succ in U.
  assert (A : 2 ^ (Z.log2 n) <= 10 ^ (Z.log2 n)) by (apply Z.pow_le_mono_l; lia).
  rewrite !Z.pow_add_r by lia. change (10 ^ 1) with 10. rewrite Z.pow_add_r in U by lia. change (2 ^ 1) with 2 in U. nia.
Qed.

Lemma exact_logs_good : good_logs exact_logs.
Proof.
  split.
  - exact log_near_right.
  - intros b y k B Y E. injection E as <-. apply (size_weaken _ _ 1); [lia|]. apply log_near_right. apply Z.pow_pos_nonneg; lia.
Qed.

Lemma pow_lt_pow n m : 0 <= n -> 4 * n < m -> 10 ^ n < 2 ^ m.
Proof.
  intros L M. assert (A : 10 ^ n <= (2 ^ 4) ^ n) by (apply Z.pow_le_mono_l; lia).
  rewrite <- Z.pow_mul_r in A by lia. apply (Z.le_lt_trans _ _ _ A). apply Z.pow_lt_mono_r; lia.
Qed.
Lemma tower_lt : 10 ^ (10 ^ 10) < 2 ^ (10 ^ 400).
Proof.
  assert (A : 0 <= 10 ^ 10) by (vm_compute; discriminate).
  assert (B : 4 * 10 ^ 10 < 10 ^ 400) by (vm_compute; reflexivity).
  exact (pow_lt_pow _ _ A B).
Qed.
