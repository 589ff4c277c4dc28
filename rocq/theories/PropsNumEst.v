(** * Estimates of numbers (C77) *)
From Coq Require Import QArith.
From Verif Require Import Base NumModel NumShowModel NumEstModel NumEstSpec NumEstProofs.

(** 7 + 5 * 2 ** 100, which is 6.3 * 10 ** 30, is put at 10 ** 31; logarithms that are rounded right exist. *)
Example C77_case :
  let e := Add (I 7) (Mul (I 5) (Exp 2 (I 100))) in
  good_logs exact_logs /\ rough e (7 + 5 * 2 ^ 100) 5 /\ estimate exact_logs (Ok false) e = Power10 false 31.
Proof.
  intros e. split; [exact exact_logs_good|split; [|vm_compute; reflexivity]].
  apply (rough_add_int 7 (Mul (I 5) (Exp 2 (I 100))) (5 * 2 ^ 100) 4); [lia|lia|].
  apply (rough_mul_int 5 (Exp 2 (I 100)) (2 ^ 100) 3); [lia|]. apply rough_exp_int; lia.
Qed.

(** If logarithms are rounded right, and the number has positive multipliers or -1, sums of parts of one sign with no int as
    the greater part, and divisions that come out even, an estimate 10 ** k is right up to half a power of ten for each
    rounding. *)
Theorem C77_estimate_partial ff lt0 e v w neg k : good_logs ff -> rough e v w ->
  estimate ff lt0 e = Power10 neg k -> size v k w /\ 0 < k /\ lt0 = Ok neg.
Proof. exact (estimate_right ff lt0 e v w neg k). Qed.
Print Assumptions C77_estimate_partial.

(** A negative multiplier takes digits away: -1000 * 2 ** 100, beyond -(10 ** 33), is put at -(10 ** 27). *)
Theorem C77_negative_refuted : exists e v, to_int e = Some v /\ v < - 10 ^ 33 /\
  exists ff, good_logs ff /\ estimate ff (Ok true) e = Power10 true 27.
Proof.
  exists (Mul (I (-1000)) (Exp 2 (I 100))), (-1000 * 2 ^ 100). split; [reflexivity|split; [lia|]].
  exists exact_logs. split; [exact exact_logs_good|vm_compute; reflexivity].
Qed.
Print Assumptions C77_negative_refuted.

(** An int in a sum is left out: 10 ** 50 + 2 ** 5 is put at 10 ** 2. *)
Theorem C77_addend_refuted : exists e v, to_int e = Some v /\ 10 ^ 50 < v /\
  exists ff, good_logs ff /\ estimate ff (Ok false) e = Power10 false 2.
Proof.
  exists (Add (I (10 ^ 50)) (Exp 2 (I 5))), (10 ^ 50 + 32). split; [reflexivity|split; [lia|]].
  exists exact_logs. split; [exact exact_logs_good|vm_compute; reflexivity].
Qed.
Print Assumptions C77_addend_refuted.

(** When the exponent is too great for floating point the estimate is a tower of two tens, 10 ** 10, however great the number. *)
Theorem C77_overflow_refuted : exists e, forall ff,
  fl_power ff 2 (10 ^ 400) = None -> fl_ten ff (10 ^ 400) = true ->
  estimate ff (Ok false) e = Tower10 2 /\ exists v, to_int e = Some v /\ 10 ^ (10 ^ 10) < v.
Proof.
  exists (Exp 2 (I (10 ^ 400))). intros ff F1 F2. split.
  - unfold estimate. cbn [tower_est digits]. rewrite F1, F2. reflexivity.
  - assert (L : (10 ^ 400 <? 0) = false) by (vm_compute; reflexivity).
    exists (2 ^ (10 ^ 400)). cbn [to_int]. rewrite L. split; [reflexivity|].
    exact tower_lt.
Qed.
Print Assumptions C77_overflow_refuted.

(** A small number has no estimate at all, and neither has a great negative one. *)
Theorem C77_raises_refuted :
  (exists ff e, good_logs ff /\ to_int e = Some 2 /\ estimate ff (Ok false) e = Raised) /\
  (exists e, rough e (- 2 ^ 65536) 3 /\ forall ff, fl_ten ff 2 = false -> estimate ff (Ok true) e = Raised).
Proof.
  split.
  - exists exact_logs, (Exp 2 (I 1)). split; [exact exact_logs_good|split; vm_compute; reflexivity].
  - exists (Mul (I (-1)) (Exp 2 (Exp 2 (Exp 2 (Exp 2 (I 2)))))). split.
    + apply rough_neg. apply (rough_exp 2 _ 65536 3); [lia| |lia]. apply (rough_exp 2 _ 16 3); [lia| |lia].
      apply (rough_exp 2 _ 4 3); [lia| |lia]. apply (rough_exp_int 2 2); lia.
    + intros ff F. unfold estimate. cbn [tower_est]. rewrite F. reflexivity.
Qed.
Print Assumptions C77_raises_refuted.
