(** * Remainders, periods and the tables *)
From Coq Require Import Znumtheory Zpow_facts.
From Verif Require Import Base NumTables NumModel NumSpec.

(** ** Periods *)

Lemma period_loop_ok : forall n b m val per k r, 1 < m -> 0 <= k -> val = b ^ k mod m -> per = k + 1 ->
  period_loop n b m val per = r -> 0 < r ->
  k < r /\ b ^ r mod m = 1 /\ forall j, k < j < r -> b ^ j mod m <> 1.
Proof.
  induction n; intros b m val per k r M K V P H R; cbn [period_loop] in H; [lia|].
  assert (V' : (val * b) mod m = b ^ (k + 1) mod m).
  { subst val. rewrite Z.mul_mod_idemp_l by lia. rewrite Z.pow_add_r, Z.pow_1_r by lia. reflexivity. }
  rewrite V' in H. destruct (b ^ (k + 1) mod m =? 1) eqn:E; zb.
  - subst per r. split; [lia|]. split; [auto|]. intros j J. lia.
  - destruct (IHn b m _ (per + 1) (k + 1) r M ltac:(lia) eq_refl ltac:(lia) H R) as (A & B & C).
    split; [lia|]. split; [auto|]. intros j J. destruct (Z.eq_dec j (k + 1)) as [->|]; [auto|]. apply C. lia.
Qed.

Lemma find_period_ok : forall fl b m p, find_period fl b m = p -> 0 < p -> order b m p.
Proof.
  intros fl b m p H P. unfold find_period in H.
  destruct ((b =? 2) && fl_two3 fl m); [lia|].
  destruct (Z.le_gt_cases m 1) as [M|M].
  - replace (Z.to_nat (m - 1)) with 0%nat in H by lia. cbn in H. lia.
  - destruct (period_loop_ok _ b m 1 1 0 p M ltac:(lia) ltac:(now rewrite Z.pow_0_r, Z.mod_1_l by lia) eq_refl H P) as (A & B & C).
    split; [auto|]. split; [auto|]. intros j J. apply C. lia.
Qed.

(** ** Powers modulo m *)

Lemma pow_step : forall b m s p, 1 < m -> 0 <= s -> 0 <= p -> b ^ (s + p) mod m = b ^ s mod m ->
  forall k, 0 <= k -> forall t, 0 <= t -> b ^ (s + p * k + t) mod m = b ^ (s + t) mod m.
Proof.
  intros b m s p M S P H k K. revert k K. apply (natlike_ind (fun k => forall t, 0 <= t -> b ^ (s + p * k + t) mod m = b ^ (s + t) mod m)).
  - intros t T. f_equal. f_equal. lia.
  - intros k K IH t T.
    replace (s + p * Z.succ k + t) with (s + p * k + (p + t)) by lia. rewrite IH by lia.
    replace (s + (p + t)) with (s + p + t) by lia.
    rewrite (Z.pow_add_r b (s + p) t), (Z.pow_add_r b s t) by lia.
    rewrite <- (Z.mul_mod_idemp_l (b ^ (s + p))), <- (Z.mul_mod_idemp_l (b ^ s)) by lia. now rewrite H.
Qed.

Lemma pow_period : forall b m s p, 1 < m -> 0 <= s -> 0 < p -> b ^ (s + p) mod m = b ^ s mod m ->
  forall y, s <= y -> b ^ y mod m = b ^ (s + (y - s) mod p) mod m.
Proof.
  intros b m s p M S P H y Y.
  rewrite <- (pow_step b m s p M S ltac:(lia) H ((y - s) / p)).
  - f_equal. f_equal. pose proof (Z.div_mod (y - s) p). lia.
  - apply Z.div_pos; lia.
  - apply Z.mod_pos_bound. lia.
Qed.

Lemma pow_loop_ok : forall n b e r m, 1 < m -> 0 <= r < m -> 0 <= e < 2 ^ Z.of_nat n ->
  pow_loop n b e r m = (r * b ^ e) mod m.
Proof.
  induction n; intros b e r m M R E; cbn [pow_loop].
  - cbn in E. assert (e = 0) by lia. subst e. rewrite Z.pow_0_r, Z.mul_1_r, Z.mod_small; lia.
  - destruct (e <=? 0) eqn:E0; cbn [orb].
    { zb. assert (e = 0) by lia. subst e. rewrite Z.pow_0_r, Z.mul_1_r, Z.mod_small; lia. }
    destruct (r <=? 0) eqn:R0.
    { zb. assert (r = 0) by lia. subst r. rewrite Z.mul_0_l, Z.mod_0_l; lia. }
    zb. rewrite Nat2Z.inj_succ, Z.pow_succ_r in E by lia.
    assert (HE : 0 <= e / 2 < 2 ^ Z.of_nat n).
    { split; [apply Z.div_pos; lia|]. apply Z.div_lt_upper_bound; lia. }
    assert (EE : e = 2 * (e / 2) + e mod 2) by (apply Z.div_mod; lia).
    pose proof (Z.mod_pos_bound e 2 ltac:(lia)) as EM.
    assert (SQ : forall x, (x * ((b * b) mod m) ^ (e / 2)) mod m = (x * b ^ (2 * (e / 2))) mod m).
    { intros x. rewrite (Z.pow_mul_r b 2) by lia. rewrite Z.pow_2_r.
      rewrite Z.mul_mod, <- Zpower_mod, <- Z.mul_mod by lia. reflexivity. }
    destruct (e mod 2 =? 1) eqn:O; zb.
    + rewrite IHn; [|lia|apply Z.mod_pos_bound; lia|lia].
      rewrite SQ. rewrite Z.mul_mod_idemp_l by lia. f_equal.
      rewrite EE at 2. rewrite O. rewrite Z.pow_add_r, Z.pow_1_r by lia. ring.
    + rewrite IHn by lia. rewrite SQ. f_equal. f_equal. f_equal. lia.
Qed.

Lemma pow_mod : forall n b e m, 1 < m -> 0 <= e < 2 ^ Z.of_nat n -> pow_loop n b e 1 m = b ^ e mod m.
Proof. intros n b e m M E. rewrite pow_loop_ok by lia. now rewrite Z.mul_1_l. Qed.

(** ** The tables *)

(** [v] is 2 to the power [k] modulo [m], where 0 stands for the exponent [m / 3]. *)
Definition entry_ok (m : Z) (kv : Z * Z) : bool :=
  let (k, v) := kv in
  let k := if k =? 0 then m / 3 else k in
  (0 <? k) && (k <? 2 ^ 40) && (pow_loop 40 2 k 1 m =? v).
Definition table_ok (m : Z) : bool :=
  match mod_table m with
  | None => true
  | Some t => (1 <? m) && (0 <? m / 3) && (1 + m / 3 <? 2 ^ 40) && (pow_loop 40 2 (1 + m / 3) 1 m =? 2) && forallb (entry_ok m) t
  end.

Lemma tables_ok : forallb table_ok table_moduli = true.
Proof. vm_compute. reflexivity. Qed.

Lemma table_ok_all : forall m, table_ok m = true.
Proof.
  intros m. destruct (existsb (Z.eqb m) table_moduli) eqn:E.
  - apply existsb_exists in E as (x & I & X). apply Z.eqb_eq in X. subst x.
    exact (proj1 (forallb_forall _ _) tables_ok m I).
  - unfold table_ok, mod_table. cbn [existsb table_moduli] in E.
    repeat (apply orb_false_elim in E as [E0 E]; rewrite E0; clear E0). reflexivity.
Qed.

Lemma assoc_in : forall k l v, assoc k l = Some v -> In (k, v) l.
Proof.
  induction l as [|[a w] l IH]; intros v H; [discriminate|]. cbn in H.
  destruct (a =? k) eqn:E; zb; [inv H; now left|right; auto].
Qed.

Lemma special_ok : forall fl m b y r, 1 <= y -> special_cases fl m b (Ok (y mod (m / 3))) = Ok r ->
  b = 2 /\ r = 2 ^ y mod m.
Proof.
  intros fl m b y r Y H. unfold special_cases in H.
  destruct (b =? 2) eqn:B; [|discriminate]. zb. subst b. cbn [negb orb] in H.
  destruct (fl_two3 fl m); [|discriminate]. cbn [negb bind] in H.
  pose proof (table_ok_all m) as T. unfold table_ok in T.
  destruct (mod_table m) as [t|]; [|discriminate].
  destruct (assoc (y mod (m / 3)) t) as [v|] eqn:A; [|discriminate]. inv H.
  apply andb_prop in T as [T F]. apply andb_prop in T as [T P]. apply andb_prop in T as [T S].
  apply andb_prop in T as [M D]. zb.
  apply assoc_in in A. pose proof (proj1 (forallb_forall _ _) F _ A) as E. unfold entry_ok in E. cbv zeta in E.
  apply andb_prop in E as [E V]. apply andb_prop in E as [K1 K2].
  set (d := m / 3) in *. set (k := if y mod d =? 0 then d else y mod d) in *.
  apply Z.ltb_lt in K1, K2. apply Z.eqb_eq in V.
  rewrite pow_mod in V, P by (change (2 ^ Z.of_nat 40) with (2 ^ 40); lia).
  split; [reflexivity|]. rewrite <- V. symmetry.
  rewrite (pow_period 2 m 1 d M ltac:(lia) D) with (y := y).
  - f_equal. f_equal. unfold k. pose proof (Z.mod_pos_bound y d D) as B.
    pose proof (Z.div_mod y d ltac:(lia)) as DM.
    destruct (y mod d =? 0) eqn:Z0; zb.
    + rewrite <- (Z.mod_unique_pos (y - 1) d (y / d - 1) (d - 1)); nia.
    + rewrite <- (Z.mod_unique_pos (y - 1) d (y / d) (y mod d - 1)); nia.
  - rewrite P, Z.pow_1_r. symmetry. apply Z.mod_small.
    destruct (Z.eq_dec m 2) as [->|]; [|lia]. vm_compute in D. discriminate.
  - lia.
Qed.

(** ** Powers *)

Lemma three_pow : forall k, 0 <= k -> 3 ^ (2 ^ (k + 1)) mod 2 ^ (k + 3) = 1.
Proof.
  intros k K.
  assert (E : exists t, 3 ^ (2 ^ (k + 1)) = 1 + 2 ^ (k + 3) * t).
  { revert k K. apply natlike_ind.
    - exists 1. reflexivity.
    - intros k K [t T]. exists (t + 2 ^ (k + 2) * t * t).
      replace (Z.succ k + 1) with (Z.succ (k + 1)) by lia. rewrite (Z.pow_succ_r 2 (k + 1)) by lia.
      rewrite (Z.mul_comm 2), Z.pow_mul_r, T by lia. rewrite Z.pow_2_r.
      replace (Z.succ k + 3) with (Z.succ (k + 3)) by lia. rewrite Z.pow_succ_r by lia.
      replace (k + 3) with (Z.succ (k + 2)) by lia. rewrite (Z.pow_succ_r 2 (k + 2)) by lia. ring. }
  destruct E as [t ->]. rewrite Z.mul_comm, Z.mod_add by (pose proof (Z.pow_pos_nonneg 2 (k + 3)); lia).
  apply Z.mod_1_l. change 1 with (2 ^ 0). apply Z.pow_lt_mono_r; lia.
Qed.

Lemma finish_ok : forall b e m r, 1 < m -> 0 <= e ->
  (if e =? 0 then Ok 1 else Ok (pow_loop (Z.to_nat (Z.log2 e) + 1) b e 1 m)) = Ok r -> r = b ^ e mod m.
Proof.
  intros b e m r M E H. destruct (e =? 0) eqn:E0; zb; inv H.
  - rewrite Z.pow_0_r, Z.mod_1_l; lia.
  - apply pow_mod; [auto|]. split; [auto|].
    rewrite Nat2Z.inj_add, Z2Nat.id by apply Z.log2_nonneg. change (Z.of_nat 1) with 1.
    pose proof (Z.log2_spec e ltac:(lia)). rewrite Z.add_1_r. tauto.
Qed.

Lemma exp_mod_ok : forall fl emod int exp above b m y r, exact_log2 fl -> 1 <= m -> 2 <= b -> 2 <= y ->
  ~ (b = 2 /\ m = 30) -> ~ (b = 3 /\ m = 4) -> (int = true -> exp = y) ->
  (forall m' x, asks b m m' -> emod m' = Ok x -> x = y mod m') ->
  exp_mod fl emod int above exp b m = Ok r -> r = b ^ y mod m.
Proof.
  intros fl emod int exp above b m y r FL M B Y G1 G2 IE EM H. unfold exp_mod in H.
  destruct (m =? 1) eqn:M1; zb. { subst m. inv H. now rewrite Z.mod_1_r. }
  destruct (m =? b) eqn:MB; zb.
  { subst m. inv H. replace y with (Z.succ (y - 1)) by lia. rewrite Z.pow_succ_r, Z.mul_comm, Z.mod_mul; lia. }
  destruct (m =? 2) eqn:M2; zb.
  { subst m. inv H. destruct (Z.eq_dec (b mod 2) 0) as [E|E].
    - apply Z.mod_divide in E; [|lia]. destruct E as [c ->].
      replace y with (Z.succ (y - 1)) by lia. rewrite Z.pow_succ_r by lia.
      replace (c * 2 * (c * 2) ^ (y - 1)) with (c * (c * 2) ^ (y - 1) * 2) by ring. now rewrite !Z.mod_mul.
    - assert (E1 : b mod 2 = 1) by (pose proof (Z.mod_pos_bound b 2); lia).
      rewrite Zpower_mod by lia. rewrite E1, Z.pow_1_l by lia. reflexivity. }
  destruct (m =? 0) eqn:M0; zb; [lia|].
  destruct (b mod m =? 0); [discriminate|].
  destruct above as [ok| | |]; try discriminate. cbn [bind] in H. unfold ensure in H.
  destruct ok; [|discriminate]. cbv zeta in H.
  assert (P : forall p, find_period fl b m = p -> 0 < p -> order b m p) by (intros; eapply find_period_ok; eauto).
  assert (RED : forall p, order b m p -> forall e, 0 <= e -> b ^ e mod m = b ^ (e mod p) mod m).
  { intros p (P0 & P1 & _) e E0. rewrite (pow_period b m 0 p) with (y := e); try lia.
    - now rewrite Z.sub_0_r.
    - rewrite Z.add_0_l, P1, Z.pow_0_r, Z.mod_1_l; lia. }
  assert (REST : (let period := find_period fl b m in
      if 0 <? period then e <- emod period; (if e =? 0 then Ok 1 else Ok (pow_loop (Z.to_nat (Z.log2 e) + 1) b e 1 m))
      else if int then (if exp =? 0 then Ok 1 else Ok (pow_loop (Z.to_nat (Z.log2 exp) + 1) b exp 1 m))
      else special_cases fl m b (emod (m / 3))) = Ok r -> r = b ^ y mod m).
  { cbv zeta. clear H. intros H. destruct (0 <? find_period fl b m) eqn:F; zb.
    - specialize (P _ eq_refl F). set (p := find_period fl b m) in *.
      destruct (emod p) as [e| | |] eqn:E; try discriminate. cbn [bind] in H.
      apply EM in E; [|split; auto]. subst e.
      apply finish_ok in H; [|lia|apply Z.mod_pos_bound; lia]. rewrite H. symmetry. apply RED; [auto|lia].
    - destruct int.
      + rewrite (IE eq_refl) in H. apply finish_ok in H; auto; lia.
      + destruct (emod (m / 3)) as [e| | |] eqn:E; unfold special_cases in H;
          destruct (negb (b =? 2) || negb (fl_two3 fl m)) eqn:C; try discriminate.
        pose proof C as C'. apply orb_false_elim in C as [C _]. apply negb_false_iff, Z.eqb_eq in C. subst b.
        assert (D : 0 < m / 3).
        { apply Z.div_str_pos. lia. }
        apply EM in E; [|split; [auto|right; right; left; auto]]. subst e.
        assert (H' : special_cases fl m 2 (Ok (y mod (m / 3))) = Ok r) by (unfold special_cases; rewrite C'; exact H).
        apply special_ok in H'; [tauto|lia]. }
  assert (A2 : asks b m 2) by (split; [lia|now left]).
  assert (Y2 : y mod 2 = 0 \/ y mod 2 = 1) by (pose proof (Z.mod_pos_bound y 2); lia).
  assert (Y1 : (y - 1) mod 2 = 1 - y mod 2).
  { pose proof (Z.div_mod y 2 ltac:(lia)). destruct Y2 as [E|E]; rewrite E in *.
    - rewrite <- (Z.mod_unique_pos (y - 1) 2 (y / 2 - 1) 1); lia.
    - rewrite <- (Z.mod_unique_pos (y - 1) 2 (y / 2) 0); lia. }
  assert (Y3 : (y - 2) mod 2 = y mod 2).
  { replace (y - 2) with (y + (-1) * 2) by lia. now rewrite Z.mod_add. }
  destruct (b =? 2) eqn:B2; zb; [subst b|].
  { destruct (m =? 4) eqn:M4; zb.
    { subst m. inv H. rewrite (pow_period 2 4 2 1) with (y := y); try lia; [|reflexivity]. now rewrite Z.mod_1_r. }
    destruct (m =? 6) eqn:M6; zb.
    { subst m. destruct (emod 2) as [e| | |] eqn:E; try discriminate. cbn [bind] in H. apply EM in E; [|auto]. subst e. inv H.
      rewrite (pow_period 2 6 1 2) with (y := y); try lia; [|reflexivity]. rewrite Y1.
      destruct Y2 as [-> | ->]; reflexivity. }
    destruct (m =? 12) eqn:M12; zb.
    { subst m. destruct (emod 2) as [e| | |] eqn:E; try discriminate. cbn [bind] in H. apply EM in E; [|auto]. subst e. inv H.
      rewrite (pow_period 2 12 2 2) with (y := y); try lia; [|reflexivity]. rewrite Y3.
      destruct Y2 as [-> | ->]; reflexivity. }
    destruct (m =? 30) eqn:M30; zb; [tauto|]. auto. }
  destruct (b =? 3) eqn:B3; zb; [subst b|].
  { destruct (m =? 6) eqn:M6; zb.
    { subst m. inv H. rewrite (pow_period 3 6 1 1) with (y := y); try lia; [|reflexivity]. now rewrite Z.mod_1_r. }
    destruct (fl_pow2 fl m) as [k|] eqn:K; [|auto].
    destruct (FL m k ltac:(lia) K) as [K0 MK].
    assert (K3 : 3 <= k).
    { assert (k = 0 \/ k = 1 \/ k = 2 \/ 3 <= k) as [->|[->|[->|?]]] by lia; auto; exfalso; vm_compute in MK; auto. }
    destruct (k <? 2) eqn:KL; zb; [lia|].
    destruct (2 ^ (k - 2) =? 0) eqn:Z2; zb; [discriminate|].
    assert (PP : 0 < 2 ^ (k - 2)) by (apply Z.pow_pos_nonneg; lia).
    assert (T3 : 3 ^ (2 ^ (k - 2)) mod m = 1).
    { subst m. pose proof (three_pow (k - 3) ltac:(lia)) as T. now replace (k - 3 + 1) with (k - 2) in T by lia;
        replace (k - 3 + 3) with k in T by lia. }
    destruct (emod (2 ^ (k - 2))) as [e| | |] eqn:E; try discriminate. cbn [bind] in H.
    apply EM in E.
    2: { split; [auto|]. right; right; right. split; [auto|]. subst m. change 4 with (2 ^ 2). rewrite <- Z.pow_add_r by lia. f_equal. lia. }
    subst e.
    assert (R3 : 3 ^ y mod m = 3 ^ (y mod 2 ^ (k - 2)) mod m).
    { rewrite (pow_period 3 m 0 (2 ^ (k - 2))) with (y := y); try lia.
      - now rewrite Z.sub_0_r.
      - rewrite Z.add_0_l, T3, Z.pow_0_r, Z.mod_1_l; lia. }
    pose proof (Z.mod_pos_bound y (2 ^ (k - 2)) PP) as YB.
    destruct (0 <? find_period fl 3 m) eqn:F; zb.
    - apply finish_ok in H; [|lia|apply Z.mod_pos_bound; lia]. rewrite H, R3. symmetry. apply RED; [auto|lia].
    - apply finish_ok in H; [|lia|lia]. now rewrite H, R3. }
  destruct (b =? 6) eqn:B6; zb; [subst b|].
  { destruct (m =? 10) eqn:M10; zb; [|auto].
    subst m. inv H. rewrite (pow_period 6 10 1 1) with (y := y); try lia; [|reflexivity]. now rewrite Z.mod_1_r. }
  destruct (b =? 7) eqn:B7; zb; [subst b|auto].
  destruct (m =? 12) eqn:M12; zb; [|auto].
  subst m. destruct (emod 2) as [e| | |] eqn:E; try discriminate. cbn [bind] in H. apply EM in E; [|auto]. subst e. inv H.
  rewrite (pow_period 7 12 0 2) with (y := y); try lia; [|reflexivity]. rewrite Z.sub_0_r.
  destruct Y2 as [-> | ->]; reflexivity.
Qed.

Lemma num_mod_ok : forall fl lt, exact_log2 fl -> forall a z m r, zval a z -> safe a m -> 1 <= m ->
  num_mod fl lt a m = Ok r -> r = z mod m.
Proof.
  intros fl lt FL. induction a as [i|l IHl r0 IHr|l IHl r0 IHr|n IHn d|b e IHe]; intros z m r V S M H; cbn [num_mod] in H.
  - cbn in V. subst z. destruct (m =? 0); [discriminate|]. inv H. reflexivity.
  - destruct V as (x & y & X & Y & ->). destruct S as [S1 S2].
    destruct (m =? 1) eqn:M1; zb. { inv H. now rewrite Z.mod_1_r. }
    destruct (num_mod fl lt l m) as [u| | |] eqn:U; try discriminate. cbn [bind] in H.
    destruct (num_mod fl lt r0 m) as [v| | |] eqn:W; try discriminate. cbn [bind] in H. inv H.
    rewrite (IHl x m u), (IHr y m v) by auto. symmetry. apply Z.add_mod. lia.
  - destruct V as (x & y & X & Y & ->). destruct S as [S1 S2].
    destruct (m =? 1) eqn:M1; zb. { inv H. now rewrite Z.mod_1_r. }
    destruct (num_mod fl lt l m) as [u| | |] eqn:U; try discriminate. cbn [bind] in H.
    assert (EU : u = x mod m) by (apply (IHl x m u); auto). rewrite Z.mul_mod, <- EU by lia.
    destruct (u =? 0) eqn:U0; zb. { assert (r = 0) by congruence. rewrite U0. now rewrite Z.mul_0_l, Z.mod_0_l by lia. }
    destruct (num_mod fl lt r0 m) as [v| | |] eqn:W; try discriminate. cbn [bind] in H.
    assert (EV : v = y mod m) by (apply (IHr y m v); auto). rewrite <- EV.
    destruct (v =? 0) eqn:V0; zb. { assert (r = 0) by congruence. rewrite V0. now rewrite Z.mul_0_r, Z.mod_0_l by lia. }
    inv H. reflexivity.
  - destruct V as (D & X).
    destruct (m =? 1) eqn:M1; zb. { inv H. now rewrite Z.mod_1_r. }
    destruct (200 <? depth n); [discriminate|].
    destruct (num_mod fl lt n (m * d)) as [u| | |] eqn:U; try discriminate. cbn [bind] in H.
    unfold ensure in H. destruct (u mod d =? 0); [|discriminate]. inv H.
    apply IHn with (z := z * d) in U; auto; [|nia]. subst u.
    rewrite Z.mul_mod_distr_r by lia.
    rewrite Z.div_mul by lia. apply Z.mod_mod. lia.
  - destruct V as (y & E & B & Y & ->). destruct S as (G1 & G2 & S).
    eapply exp_mod_ok in H; eauto.
    + intros I0. destruct e; try discriminate. cbn in E. congruence.
    + intros m' x A W. eapply IHe; eauto. destruct A; lia.
Qed.
