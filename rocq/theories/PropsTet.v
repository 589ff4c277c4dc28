(** * Towers of powers (C89) *)
From Verif Require Import Base NumModel NumShowModel NumEstModel NumEstSpec TetModel TetSpec TetProofs.
Local Open Scope Z_scope.

(** Where a tower is only compared with smaller ints and powers (and with towers at will), and a power only with smaller ints, every
    answer is right.  Missing for the full claim: the other comparisons, which are answered wrongly as refuted below. *)
Theorem C89_order_partial : forall a b r, sound a -> sound b -> in_kind a b -> t_lt a b = Ok r -> r = (worth a <? worth b).
Proof. exact towers_order. Qed.
Print Assumptions C89_order_partial.

(** test/test_num.py 931-934, 982-984 and a power below a tower. *)
Example C89_order_case : t_lt (TT 10 2) (TT 10 3) = Ok true /\ t_lt (TT 10 5) (TI 5) = Ok false /\ t_lt (TE 10 7) (TT 10 3) = Ok true
  /\ sound (TE 10 7) /\ sound (TT 10 3) /\ in_kind (TE 10 7) (TT 10 3).
Proof.
  split; [reflexivity|]. split; [reflexivity|]. split; [reflexivity|]. split; [cbn; lia|]. split; [cbn; lia|].
  split; [intros _|cbn; lia]. change (worth (TT 10 3)) with (10 ^ (10 ^ 10)). cbn [worth]. apply Z.pow_lt_mono_r; lia.
Qed.

(** An int is below every tower, and a power with an int exponent below every tower of height 3 or more, whatever they are worth. *)
Theorem C89_order_refuted :
  (t_lt (TI (10 ^ 11)) (TT 10 2) = Ok true /\ worth (TT 10 2) < worth (TI (10 ^ 11)))
  /\ (t_lt (TE 10 (10 ^ 11)) (TT 10 3) = Ok true /\ worth (TT 10 3) < worth (TE 10 (10 ^ 11))).
Proof. split; (split; [reflexivity|]); [reflexivity|exact tower_3]. Qed.
Print Assumptions C89_order_refuted.

(** So estimates compare the wrong way round: 2 ** (2 ** 34) is estimated by a tower, 2 ** (10 ** 300) by a power of ten,
    and the power is taken to be less than the tower. *)
Theorem C89_estimates_refuted : exists e1 e2 v1 v2, to_int e1 = Some v1 /\ to_int e2 = Some v2 /\ v1 < v2 /\
  forall ff k, fl_ten ff 34 = true -> fl_ten ff (10 ^ 300) = true -> fl_power ff 2 34 = Some 10 -> fl_power ff 2 (10 ^ 300) = Some k -> 0 < k ->
  estimate ff (Ok false) e1 = Tower10 3 /\ estimate ff (Ok false) e2 = Power10 false k /\ t_lt (TE 10 k) (TT 10 3) = Ok true.
Proof.
  exists (Exp 2 (Exp 2 (I 34))), (Exp 2 (I (10 ^ 300))), (2 ^ (2 ^ 34)), (2 ^ (10 ^ 300)).
  assert (L : (10 ^ 300 <? 0) = false) by (vm_compute; reflexivity).
  split; [reflexivity|]. split; [cbn [to_int]; rewrite L; reflexivity|]. split; [exact pow_wide|].
  intros ff k T1 T2 P1 P2 K. unfold estimate. cbn [tower_est digits]. rewrite T1, T2, P1, P2. cbn.
  destruct (Z.ltb_spec 0 k); [|lia]. repeat split.
Qed.
Print Assumptions C89_estimates_refuted.

(** Adding a positive number that is no greater than the tower, and multiplying with one, leaves a number between the
    tower that is returned and the next one. *)
Theorem C89_height : forall b h other, 2 <= b -> 1 <= h -> sound other -> 1 <= worth other <= worth (TT b h) ->
  worth (tet_add b h other) <= worth (TT b h) + worth other <= worth (TT b (1 + h))
  /\ worth (tet_mul b h other) <= worth (TT b h) * worth other <= worth (TT b (1 + h)).
Proof. exact towers_height. Qed.
Print Assumptions C89_height.
Example C89_height_case : 1 <= worth (TE 10 10) <= worth (TT 10 3) /\ tet_mul 10 3 (TE 10 10) = TT 10 3.
Proof. split; [|reflexivity]. change (worth (TT 10 3)) with (10 ^ (10 ^ 10)). cbn [worth]. split; [lia|apply Z.pow_le_mono_r; lia]. Qed.

(** Taking a tower from itself leaves 0. *)
Theorem C89_minus : forall b h, tet_sub b h (TT b h) = TI 0.
Proof. exact towers_minus. Qed.
Print Assumptions C89_minus.
(** Taking anything else leaves the tower, even a greater tower, and even if one is left. *)
Theorem C89_minus_refuted : tet_sub 10 2 (TI (10 ^ 10 - 1)) = TT 10 2 /\ worth (TT 10 2) - worth (TI (10 ^ 10 - 1)) = 1
  /\ tet_sub 10 2 (TT 10 3) = TT 10 2 /\ worth (TT 10 2) < worth (TT 10 3).
Proof. split; [reflexivity|]. split; [reflexivity|]. split; [reflexivity|]. apply tower_mono; lia. Qed.
Print Assumptions C89_minus_refuted.

(** A number to the power of a tower is exact, if the number is the base of the tower, or no square and not 8. *)
Theorem C89_power_partial : forall n b h, 2 <= n -> 2 <= b -> 1 <= h -> n = b \/ n <> 8 /\ (forall r, n <> r * r) ->
  worth (tet_rpow n b h) = n ^ worth (TT b h) /\ sound (tet_rpow n b h).
Proof. exact towers_power. Qed.
Print Assumptions C89_power_partial.
(** test/test_num.py 1468-1476. *)
Example C89_power_case : tet_rpow 10 10 2 = TT 10 3 /\ tet_rpow 10 11 2 = TP 10 11 2 /\ forall r, 10 <> r * r.
Proof.
  split; [reflexivity|]. split; [reflexivity|]. intros r E. assert (-4 < r < 4) by nia.
  assert (C : r = -3 \/ r = -2 \/ r = -1 \/ r = 0 \/ r = 1 \/ r = 2 \/ r = 3) by lia.
  repeat destruct C as [->|C]; try discriminate E. subst r. discriminate E.
Qed.
(** For squares and for 8 the base is reduced but the exponent, a tower, is not multiplied: 4 ** (2 ↑↑ 2) becomes 2 ** (2 ↑↑ 2),
    16 instead of 256. *)
Theorem C89_power_refuted : tet_rpow 4 2 2 = TP 2 2 2 /\ worth (TP 2 2 2) = 16 /\ 4 ^ worth (TT 2 2) = 256.
Proof. split; [vm_compute; reflexivity|]. split; vm_compute; reflexivity. Qed.
Print Assumptions C89_power_refuted.
