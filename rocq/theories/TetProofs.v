(** * Proofs about towers (C89) *)
From Verif Require Import Base NumModel TetModel TetSpec.
Local Open Scope Z_scope.

Lemma tower_pos b h : 2 <= b -> 1 <= tower b h.
Proof. intros B. induction h as [|h IH]; cbn [tower]; [lia|]. pose proof (Z.pow_pos_nonneg b (tower b h)). lia. Qed.
Lemma tower_up b h : 2 <= b -> tower b h < tower b (S h).
Proof. intros B. cbn [tower]. apply Z.pow_gt_lin_r; [lia|]. pose proof (tower_pos b h B). lia. Qed.
Lemma tower_mono b h g : 2 <= b -> (h < g)%nat -> tower b h < tower b g.
Proof. intros B L. induction L; [now apply tower_up|]. pose proof (tower_up b m B). lia. Qed.
Lemma tower_ltb b h g : 2 <= b -> 1 <= h -> 1 <= g -> (h <? g) = (tower b (Z.to_nat h) <? tower b (Z.to_nat g)).
Proof.
  intros B H G. destruct (Z.ltb_spec h g) as [L|L]; symmetry.
  - apply Z.ltb_lt. apply tower_mono; [exact B|lia].
  - apply Z.ltb_ge. destruct (Z.eq_dec h g) as [->|N]; [lia|]. apply Z.lt_le_incl, tower_mono; [exact B|lia].
Qed.
Lemma pow_ltb b x y : 2 <= b -> 0 <= x -> 0 <= y -> (x <? y) = (b ^ x <? b ^ y).
Proof.
  intros B X Y. destruct (Z.ltb_spec x y) as [L|L]; symmetry.
  - apply Z.ltb_lt. apply Z.pow_lt_mono_r; lia.
  - apply Z.ltb_ge. apply Z.pow_le_mono_r; lia.
Qed.

Theorem towers_order a b r : sound a -> sound b -> in_kind a b -> t_lt a b = Ok r -> r = (worth a <? worth b).
Proof.
  assert (NO : forall m n, n < m -> false = (m <? n)) by (intros; symmetry; apply Z.ltb_ge; lia).
  assert (YES : forall m n, m < n -> true = (m <? n)) by (intros; symmetry; apply Z.ltb_lt; lia).
  destruct a as [m|b1 x|b1 h|b1 c h], b as [n|b2 y|b2 g|b2 d g]; cbn [sound kind worth t_lt]; intros SA SB [K1 K2]; cbn [kind worth] in K1, K2;
    unfold tet_gt, tet_lt; cbn [t_eqb]; intros E.
  - congruence.
  - inv E. apply YES. lia.
  - inv E. apply YES. lia.
  - inv E. apply YES. lia.
  - inv E. apply NO. lia.
  - destruct (Z.eqb_spec b1 b2) as [->|]; [|discriminate]. inv E. apply pow_ltb; lia.
  - destruct (2 <? g); [|discriminate]. inv E. apply YES. lia.
  - destruct (Z.eqb_spec b1 b2) as [->|]; [|discriminate]. inv E. apply YES. lia.
  - inv E. apply NO. lia.
  - destruct (2 <? h); [|discriminate]. inv E. apply NO. lia.
  - destruct (Z.eqb_spec b1 b2) as [->|]; [|discriminate]. inv E. apply tower_ltb; lia.
  - discriminate.
  - inv E. apply NO. lia.
  - destruct (Z.eqb_spec b1 b2) as [->|]; [|discriminate]. inv E. apply NO. lia.
  - discriminate.
  - destruct (Z.eqb_spec b1 b2) as [->|]; [|discriminate]. destruct (Z.eqb_spec c d) as [->|]; [|discriminate]. inv E.
    rewrite <- pow_ltb; [apply tower_ltb; lia|lia|..].
    + pose proof (tower_pos d (Z.to_nat h)). lia.
    + pose proof (tower_pos d (Z.to_nat g)). lia.
Qed.

Lemma sq_le_pow n : (4 <= n)%nat -> Z.of_nat n * Z.of_nat n <= 2 ^ Z.of_nat n.
Proof.
  intros L. induction L; [cbn; lia|]. rewrite Nat2Z.inj_succ, Z.pow_succ_r by lia. nia.
Qed.
Lemma square_tower b h : 2 <= b -> (1 <= h)%nat -> tower b h * tower b h <= tower b (S h).
Proof.
  intros B H. assert (T : b <= tower b h).
  { destruct h as [|h]; [lia|]. cbn [tower]. pose proof (tower_pos b h B). replace b with (b ^ 1) at 1 by lia. apply Z.pow_le_mono_r; lia. }
  cbn [tower]. remember (tower b h) as t eqn:ET.
  destruct (Z_lt_le_dec t 4) as [S|S].
  - assert (C : t = 2 /\ b = 2 \/ t = 3 /\ (b = 2 \/ b = 3)) by lia. destruct C as [[-> ->]|[-> [->| ->]]]; try (cbn; lia).
    exfalso. destruct h as [|[|h]]; [lia|cbn in ET; lia|]. cbn [tower] in ET.
    assert (4 <= 2 ^ 2 ^ tower 2 h); [|lia]. change 4 with (2 ^ 2). apply Z.pow_le_mono_r; [lia|].
    replace 2 with (2 ^ 1) at 1 by lia. apply Z.pow_le_mono_r; [lia|]. pose proof (tower_pos 2 h). lia.
  - pose proof (sq_le_pow (Z.to_nat t) ltac:(lia)) as P. rewrite Z2Nat.id in P by lia.
    assert (2 ^ t <= b ^ t) by (apply Z.pow_le_mono_l; lia). lia.
Qed.

(** Adding a positive number or multiplying with it, when it is no greater than the tower, does not reach the next one. *)
Theorem towers_height b h other : 2 <= b -> 1 <= h -> sound other -> 1 <= worth other <= worth (TT b h) ->
  worth (tet_add b h other) <= worth (TT b h) + worth other <= worth (TT b (1 + h))
  /\ worth (tet_mul b h other) <= worth (TT b h) * worth other <= worth (TT b (1 + h)).
Proof.
  intros B H S W. cbn [tet_add tet_mul worth] in *. replace (Z.to_nat (1 + h)) with (Datatypes.S (Z.to_nat h)) by lia.
  pose proof (square_tower b (Z.to_nat h) B ltac:(lia)). pose proof (tower_up b (Z.to_nat h) B).
  assert (2 <= tower b (Z.to_nat h)); [|nia]. pose proof (tower_mono b 0 (Z.to_nat h) B ltac:(lia)) as M. cbn [tower] in M. lia.
Qed.

Lemma tet_base_same n f : 2 <= n -> n <> 8 -> (forall r, n <> r * r) -> tet_base f n = n.
Proof.
  intros N N8 R. destruct f; [reflexivity|]. cbn [tet_base].
  destruct (Z.leb_spec n 1); [lia|]. destruct (Z.eqb_spec n 8); [lia|]. destruct (Z.eqb_spec (Z.sqrt n * Z.sqrt n) n) as [E|]; [|reflexivity].
  exfalso. exact (R _ (eq_sym E)).
Qed.
Theorem towers_power n b h : 2 <= n -> 2 <= b -> 1 <= h -> n = b \/ n <> 8 /\ (forall r, n <> r * r) ->
  worth (tet_rpow n b h) = n ^ worth (TT b h) /\ sound (tet_rpow n b h).
Proof.
  intros N B H C. unfold tet_rpow. destruct (Z.eqb_spec n b) as [->|NE].
  - cbn [worth sound]. replace (Z.to_nat (1 + h)) with (S (Z.to_nat h)) by lia. split; [reflexivity|lia].
  - destruct C as [C|[C8 CR]]; [congruence|]. rewrite tet_base_same by assumption. split; [reflexivity|cbn; lia].
Qed.
Theorem towers_minus b h : tet_sub b h (TT b h) = TI 0.
Proof. unfold tet_sub. cbn [t_eqb]. rewrite !Z.eqb_refl. reflexivity. Qed.

(** ** Estimates *)
Lemma pow_wide : 2 ^ (2 ^ 34) < 2 ^ (10 ^ 300).
Proof. apply Z.pow_lt_mono_r; [lia|apply Z.pow_nonneg; lia|]. apply (Z.lt_trans _ (2 ^ 300)); [apply Z.pow_lt_mono_r; lia|apply Z.pow_lt_mono_l; lia]. Qed.
Lemma tower_3 : worth (TT 10 3) < worth (TE 10 (10 ^ 11)).
Proof. change (worth (TT 10 3)) with (10 ^ (10 ^ 10)). cbn [worth]. apply Z.pow_lt_mono_r; lia. Qed.
