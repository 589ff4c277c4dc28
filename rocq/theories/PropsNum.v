(** * Properties of symbolic numbers (C36-C43, C52)

    Throughout, [ops_at fl n] are the operators with calls nested at most [n] deep, for any [n], and [fl] gives the
    floating point roots and logarithms. *)
From Coq Require Import QArith Qpower Znumtheory.
From Verif Require Import Base NumTables NumModel NumSpec NumProofs NumFree NumMod NumMore NumLtProofs NumRefute.
Local Open Scope Z_scope.

(** C36.  The full statement is false: (-1 + 5^2)/6 + (-1 + 5^2)/8 is 4 + 3, and the sum returned is (-1 + 5^2)/4,
    which is 6. *)
Theorem C36_addition_refuted : exists a b c x y z,
  zval a x /\ zval b y /\ o_add (ops_at exact_fl 20) a b = Ok c /\ zval c z /\ z <> x + y.
Proof. exact add_refuted. Qed.
Print Assumptions C36_addition_refuted.

(** It holds of all expressions without quotients. *)
Theorem C36_exact_without_quotients_partial : forall fl n a b qa qb,
  exact_roots fl -> undivided a -> undivided b -> val a qa -> val b qb ->
  (forall c, o_add (ops_at fl n) a b = Ok c -> undivided c /\ val c (qa + qb)%Q) /\
  (forall c, o_sub (ops_at fl n) a b = Ok c -> undivided c /\ val c (qa - qb)%Q) /\
  (forall c, o_neg (ops_at fl n) a = Ok c -> undivided c /\ val c (- qa)%Q) /\
  (forall c, o_mul (ops_at fl n) a b = Ok c -> undivided c /\ val c (qa * qb)%Q).
Proof. exact arith_undivided. Qed.
Print Assumptions C36_exact_without_quotients_partial.

(** And of expressions in which all divisors are powers of one prime that divides no base. *)
Theorem C36_exact_over_one_prime_partial : forall p fl n a b qa qb,
  prime p -> exact_roots fl -> tame p a -> tame p b -> val a qa -> val b qb ->
  (forall c, o_add (ops_at fl n) a b = Ok c -> tame p c /\ val c (qa + qb)%Q) /\
  (forall c, o_sub (ops_at fl n) a b = Ok c -> tame p c /\ val c (qa - qb)%Q) /\
  (forall c, o_neg (ops_at fl n) a = Ok c -> tame p c /\ val c (- qa)%Q) /\
  (forall c, o_mul (ops_at fl n) a b = Ok c -> tame p c /\ val c (qa * qb)%Q).
Proof. exact arith_tame. Qed.
Print Assumptions C36_exact_over_one_prime_partial.

(** (3 + 2^(2^5)) and 2^(2^5). *)
Definition C36_t : cnt := Exp 2 (Exp 2 (I 5)).
Example C36_case : exact_roots exact_fl /\ undivided (Add (I 3) C36_t) /\ undivided C36_t /\ val C36_t (inject_Z (2 ^ 2 ^ 5)) /\
  o_add (ops_at exact_fl 20) (Add (I 3) C36_t) C36_t = Ok (Add (I 3) (Exp 2 (Add (I 1) (Exp 2 (I 5))))) /\
  o_sub (ops_at exact_fl 20) (Add (I 3) C36_t) C36_t = Ok (I 3) /\
  o_mul (ops_at exact_fl 20) (Add (I 3) C36_t) C36_t = Ok (Mul C36_t (Add (I 3) C36_t)).
Proof.
  split; [exact exact_fl_roots|]. split; [cbn; tauto|]. split; [cbn; tauto|]. split; [|split; [|split]; vm_compute; reflexivity].
  exists (2 ^ 5). split; [|split; [lia|reflexivity]]. exists 5. split; [reflexivity|]. split; [lia|reflexivity].
Qed.

(** (1 + 7^5)/8 + (-1 + 7^6)/16, over the prime 2. *)
Definition C36_d1 : cnt := Div (Add (I 1) (Exp 7 (I 5))) 8.
Definition C36_d2 : cnt := Div (Add (I (-1)) (Exp 7 (I 6))) 16.
Example C36_case_quotients : tame 2 C36_d1 /\ tame 2 C36_d2 /\
  zval C36_d1 ((1 + 7 ^ 5) / 8) /\ zval C36_d2 ((-1 + 7 ^ 6) / 16) /\
  o_add (ops_at exact_fl 20) C36_d1 C36_d2 = Ok (Div (Add (I 1) (Mul (I 9) (Exp 7 (I 5)))) 16).
Proof.
  assert (R : rel_prime 7 2) by (apply Zgcd_1_rel_prime; reflexivity).
  assert (V5 : zval (Add (I 1) (Exp 7 (I 5))) ((1 + 7 ^ 5) / 8 * 8)).
  { exists 1, (7 ^ 5). split; [reflexivity|]. split; [|reflexivity]. exists 5. repeat split; lia. }
  assert (V6 : zval (Add (I (-1)) (Exp 7 (I 6))) ((-1 + 7 ^ 6) / 16 * 16)).
  { exists (-1), (7 ^ 6). split; [reflexivity|]. split; [|reflexivity]. exists 6. repeat split; lia. }
  split; [|split; [|split; [|split]]].
  - cbn [tame C36_d1]. split; [tauto|]. split; [exists 3; split; [lia|reflexivity]|].
    exists (inject_Z ((1 + 7 ^ 5) / 8 * 8)). split; [apply zval_val; exact V5|].
    exists 1, ((1 + 7 ^ 5) / 8). split; [lia|]. split; [apply rel_prime_1|reflexivity].
  - cbn [tame C36_d2]. split; [tauto|]. split; [exists 4; split; [lia|reflexivity]|].
    exists (inject_Z ((-1 + 7 ^ 6) / 16 * 16)). split; [apply zval_val; exact V6|].
    exists 1, ((-1 + 7 ^ 6) / 16). split; [lia|]. split; [apply rel_prime_1|reflexivity].
  - split; [lia|exact V5].
  - split; [lia|exact V6].
  - vm_compute. reflexivity.
Qed.

(** C37.  The full statement is false: ((-6 + 2^2) * (3 * 2^3)) // 12 is returned as -1 * 2^3; it is -48 / 12 = -4. *)
Theorem C37_division_refuted : exists a c z x, zval a z /\ (12 | z) /\
  o_div (ops_at exact_fl 20) a (I 12) = Ok c /\ zval c x /\ x <> z / 12.
Proof. exact div_refuted. Qed.
Print Assumptions C37_division_refuted.

(** It holds of division by a power of a prime that divides no base, other divisors being powers of the same prime. *)
Theorem C37_division_exact_partial : forall p fl n a z k c,
  prime p -> exact_roots fl -> 0 <= k -> tame p a -> val a (inject_Z z) -> (p ^ k | z) ->
  o_div (ops_at fl n) a (I (p ^ k)) = Ok c -> tame p c /\ val c (inject_Z (z / p ^ k)).
Proof. exact div_tame. Qed.
Print Assumptions C37_division_exact_partial.

(** (24 + 8 * 7^5) // 2^4 = (3 + 7^5)/2. *)
Example C37_case : prime 2 /\ exact_roots exact_fl /\ tame 2 (Add (I 24) (Mul (I 8) (Exp 7 (I 5)))) /\
  val (Add (I 24) (Mul (I 8) (Exp 7 (I 5)))) (inject_Z (24 + 8 * 7 ^ 5)) /\ (2 ^ 4 | 24 + 8 * 7 ^ 5) /\
  o_div (ops_at exact_fl 20) (Add (I 24) (Mul (I 8) (Exp 7 (I 5)))) (I (2 ^ 4)) = Ok (Div (Add (I 3) (Exp 7 (I 5))) 2).
Proof.
  split; [exact prime_2|]. split; [exact exact_fl_roots|].
  split; [assert (rel_prime 7 2) by (apply Zgcd_1_rel_prime; reflexivity); cbn; tauto|].
  split; [|split; [exists ((3 + 7 ^ 5) / 2); reflexivity|vm_compute; reflexivity]].
  apply zval_val. exists 24, (8 * 7 ^ 5). split; [reflexivity|]. split; [|reflexivity].
  exists 8, (7 ^ 5). split; [reflexivity|]. split; [|reflexivity]. exists 5. repeat split; lia.
Qed.

(** A power is divided rightly by any positive number, ... *)
Theorem C37_power_by_int_partial : forall p fl n b x q d c, prime p -> exact_roots fl -> tame p (Exp b x) -> val (Exp b x) q ->
  1 <= b -> 1 <= d -> o_div (ops_at fl n) (Exp b x) (I d) = Ok c -> tame p c /\ val c (q / inject_Z d)%Q.
Proof. exact div_power_int. Qed.
Print Assumptions C37_power_by_int_partial.

(** ... and by a power of the same base. *)
Theorem C37_powers_partial : forall p fl n b x y qa qb c, prime p -> exact_roots fl -> tame p (Exp b x) -> tame p (Exp b y) ->
  val (Exp b x) qa -> val (Exp b y) qb -> o_div (ops_at fl n) (Exp b x) (Exp b y) = Ok c -> tame p c /\ val c (qa / qb)%Q.
Proof. exact div_powers. Qed.
Print Assumptions C37_powers_partial.

(** 6^(2^5) // 12 = 3 * 6^(-2 + 2^5), 6^(2^5) // 6^(2^4) = 6^(2^4), and equal powers give 1. *)
Example C37_powers_case :
  tame 5 (Exp 6 (Exp 2 (I 5))) /\ val (Exp 6 (Exp 2 (I 5))) (inject_Z (6 ^ 2 ^ 5)) /\
  o_div (ops_at exact_fl 20) (Exp 6 (Exp 2 (I 5))) (I 12) = Ok (Mul (I 3) (Exp 6 (Add (I (-2)) (Exp 2 (I 5))))) /\
  o_div (ops_at exact_fl 20) (Exp 6 (Exp 2 (I 5))) (Exp 6 (Exp 2 (I 5))) = Ok (I 1) /\
  o_div (ops_at exact_fl 20) (Exp 6 (Exp 2 (I 5))) (Exp 6 (Exp 2 (I 4))) = Ok (Exp 6 (Exp 2 (I 4))).
Proof.
  assert (rel_prime 6 5) by (apply Zgcd_1_rel_prime; reflexivity). assert (rel_prime 2 5) by (apply Zgcd_1_rel_prime; reflexivity).
  split; [cbn; tauto|]. split; [|split; [|split]; vm_compute; reflexivity].
  apply zval_val. exists (2 ^ 5). split; [|repeat split; lia]. exists 5. repeat split; lia.
Qed.

(** C38.  The full statement is false: 2^4 % 30 is returned as 15, and 3^3 % 4 as 1. *)
Theorem C38_remainder_refuted :
  (exists y r, zval (Exp 2 (I y)) (2 ^ y) /\ num_mod exact_fl (o_lt (ops_at exact_fl 20)) (Exp 2 (I y)) 30 = Ok r /\ r <> 2 ^ y mod 30) /\
  (exists y r, zval (Exp 3 (I y)) (3 ^ y) /\ num_mod exact_fl (o_lt (ops_at exact_fl 20)) (Exp 3 (I y)) 4 = Ok r /\ r <> 3 ^ y mod 4).
Proof. exact mod_refuted. Qed.
Print Assumptions C38_remainder_refuted.

(** It holds wherever those two are not met on the way. *)
Theorem C38_remainder_exact_partial : forall fl lt, exact_log2 fl -> forall a z m r, zval a z -> safe a m -> 1 <= m ->
  num_mod fl lt a m = Ok r -> r = z mod m.
Proof. exact num_mod_ok. Qed.
Print Assumptions C38_remainder_exact_partial.

(** 2^(2^5) mod 7. *)
Example C38_case : exact_log2 exact_fl /\ zval (Exp 2 (Exp 2 (I 5))) (2 ^ 2 ^ 5) /\ safe (Exp 2 (Exp 2 (I 5))) 7 /\
  num_mod exact_fl (o_lt (ops_at exact_fl 20)) (Exp 2 (Exp 2 (I 5))) 7 = Ok 4.
Proof.
  split; [exact exact_fl_log2|]. split; [|split; [|vm_compute; reflexivity]].
  - exists (2 ^ 5). split; [|repeat split; lia]. exists 5. repeat split; lia.
  - split; [lia|]. split; [lia|]. intros m' (_ & A). split; [|split; [lia|cbn; auto]].
    intros [_ ->]. destruct A as [A|[(_ & _ & A)|[[_ A]|[A _]]]]; try lia; try discriminate.
    apply (A 3); [lia|reflexivity].
Qed.

(** C39.  [y] is the exponent, of which the function is given the remainder by [m / 3]. *)
Theorem C39_tables_right : forall fl m b y r, 1 <= y -> special_cases fl m b (Ok (y mod (m / 3))) = Ok r ->
  b = 2 /\ r = 2 ^ y mod m.
Proof. exact special_ok. Qed.
Print Assumptions C39_tables_right.
Example C39_case : special_cases exact_fl 54 2 (Ok (100 mod (54 / 3))) = Ok 52.
Proof. vm_compute. reflexivity. Qed.

(** C40.  With logarithms as computed in double precision the statement is false: of 84088900 = 9170^2
    log(84088900, 9170.0) is 1.9999999999999996, and make_exp(84088900, 3) becomes 9170^3. *)
Theorem C40_make_exp_refuted : exists b e c x, zval c x /\
  make_exp ieee_at_84088900 (ops_at ieee_at_84088900 20) b (I e) = Ok c /\ x <> b ^ e.
Proof. exact exp_refuted. Qed.
Print Assumptions C40_make_exp_refuted.

(** It holds wherever roots and logarithms are right. *)
Theorem C40_make_exp_exact_partial : forall fl n b e z c, exact_roots fl -> b <> 0 -> undivided e -> val e (inject_Z z) ->
  make_exp fl (ops_at fl n) b e = Ok c -> undivided c /\ val c (Qpower (inject_Z b) z).
Proof. exact make_exp_free_ok. Qed.
Print Assumptions C40_make_exp_exact_partial.
Example C40_case : undivided (Exp 5 (I 4)) /\ val (Exp 5 (I 4)) (inject_Z (5 ^ 4)) /\
  make_exp exact_fl (ops_at exact_fl 20) 81 (Exp 5 (I 4)) = Ok (Exp 3 (Mul (I 4) (Exp 5 (I 4)))).
Proof.
  split; [exact Logic.I|]. split; [|vm_compute; reflexivity]. exists 4. split; [reflexivity|]. split; [lia|reflexivity].
Qed.

(** C41.  The full statement is false: 2^5 < 3 + 2^5 is returned as False. *)
Theorem C41_comparison_refuted : exists a b x y r, zval a x /\ zval b y /\
  o_lt (ops_at exact_fl 20) a b = Ok r /\ ~ (r = true <-> x < y).
Proof. exact lt_refuted. Qed.
Print Assumptions C41_comparison_refuted.

(** It holds of towers over one base of any heights, if powers exceed all ints in them. *)
Theorem C41_towers_partial : forall fl b lim, 2 <= b -> forall n a c x y r, tower b lim a x -> tower b lim c y ->
  o_lt (ops_at fl n) a c = Ok r -> (r = true <-> x < y).
Proof. exact tower_lt. Qed.
Print Assumptions C41_towers_partial.
Example C41_case : tower 2 6 (Exp 2 (Exp 2 (I 5))) (2 ^ 2 ^ 5) /\ tower 2 6 (Exp 2 (I 6)) (2 ^ 6) /\
  o_lt (ops_at exact_fl 20) (Exp 2 (Exp 2 (I 5))) (Exp 2 (I 6)) = Ok false /\
  o_lt (ops_at exact_fl 20) (Exp 2 (I 6)) (Exp 2 (Exp 2 (I 5))) = Ok true.
Proof.
  split; [|split; [|split; vm_compute; reflexivity]].
  - split; [reflexivity|]. exists (2 ^ 5). split; [|repeat split; lia]. split; [reflexivity|]. exists 5. repeat split; lia.
  - split; [reflexivity|]. exists 6. repeat split; lia.
Qed.

(** It holds of comparisons with an int less than every expression in the number, whatever the bases: this is what decides
    how often a rule applies. *)
Theorem C41_small_ints_partial : forall fl n lim a x k r, sized lim a x -> Z.abs k < lim ->
  (o_lt (ops_at fl n) a (I k) = Ok r -> (r = true <-> x < k)) /\ (o_lt (ops_at fl n) (I k) a = Ok r -> (r = true <-> k < x)).
Proof. exact sized_lt. Qed.
Print Assumptions C41_small_ints_partial.
(** -2 + 2^62, and -5 + (-3 * 7^40 + -(2^9)). *)
Example C41_small_ints_case :
  sized 100 (Add (I (-2)) (Exp 2 (I 62))) (-2 + 2 ^ 62)
  /\ o_lt (ops_at exact_fl 20) (Add (I (-2)) (Exp 2 (I 62))) (I 7) = Ok false
  /\ sized 100 (Add (I (-5)) (Add (Mul (I (-3)) (Exp 7 (I 40))) (Mul (I (-1)) (Exp 2 (I 9))))) (-5 + (-3 * 7 ^ 40 + -1 * 2 ^ 9))
  /\ o_lt (ops_at exact_fl 20) (I 99) (Add (I (-5)) (Add (Mul (I (-3)) (Exp 7 (I 40))) (Mul (I (-1)) (Exp 2 (I 9))))) = Ok false.
Proof.
  assert (P : forall b e, 2 <= b -> 2 <= e -> zval (Exp b (I e)) (b ^ e)) by (intros b e B E; exists e; repeat split; auto).
  assert (M : forall y b e, 2 <= b -> 2 <= e -> 100 <= Z.abs (y * b ^ e) -> sized 100 (Mul (I y) (Exp b (I e))) (y * b ^ e)).
  { intros y b e B E L. exists y, (b ^ e). split; [left; eauto|]. split; [auto|]. split; [apply Z.pow_pos_nonneg; lia|]. auto. }
  split; [|split; [vm_compute; reflexivity|split; [|vm_compute; reflexivity]]].
  - exists (-2), (2 ^ 62). split; [split; [reflexivity|lia]|]. split; [split; [apply P; lia|lia]|]. repeat split; lia.
  - exists (-5), (-3 * 7 ^ 40 + -1 * 2 ^ 9). split; [split; [reflexivity|lia]|]. split; [|repeat split; lia].
    exists (-3 * 7 ^ 40), (-1 * 2 ^ 9). split; [apply M; lia|]. split; [apply M; lia|]. repeat split; lia.
Qed.

(** And of multiples of powers of one base that does not divide the factors. *)
Theorem C41_products_partial : forall fl n b c e d f r, 2 <= b -> 0 < c -> 0 < d -> ~ (b | c) -> ~ (b | d) -> 0 <= e -> 0 <= f ->
  o_lt (ops_at fl n) (Mul (I c) (Exp b (I e))) (Mul (I d) (Exp b (I f))) = Ok r -> (r = true <-> c * b ^ e < d * b ^ f).
Proof. exact products_lt. Qed.
Print Assumptions C41_products_partial.
Example C41_products_case :
  o_lt (ops_at exact_fl 20) (Mul (I 17) (Exp 2 (I 40))) (Mul (I 3) (Exp 2 (I 42))) = Ok false
  /\ o_lt (ops_at exact_fl 20) (Mul (I 17) (Exp 2 (I 40))) (Mul (I 3) (Exp 2 (I 43))) = Ok true /\ ~ (2 | 17) /\ ~ (2 | 3).
Proof. split; [vm_compute; reflexivity|]. split; [vm_compute; reflexivity|]. split; intros (k & X); lia. Qed.

(** C42.  The full statement is false: gcd(6, 9 + 2^5) is 2, gcd(16, 2^3) is 16. *)
Theorem C42_gcd_refuted :
  (exists e z g, zval e z /\ num_gcd exact_fl 6 e = Ok g /\ ~ (g | z)) /\
  (exists e z g, zval e z /\ num_gcd exact_fl 16 e = Ok g /\ ~ (g | z)).
Proof. exact gcd_refuted. Qed.
Print Assumptions C42_gcd_refuted.

(** It always divides the int. *)
Theorem C42_divides_int : forall fl e l g, 0 < l -> num_gcd fl l e = Ok g -> (g | l).
Proof. exact gcd_divides_first. Qed.
Print Assumptions C42_divides_int.

(** It divides both if the int is a power of a prime that divides no base. *)
Theorem C42_divides_both_partial : forall p fl k e z g, prime p -> exact_roots fl -> 0 <= k -> tame p e -> zval e z ->
  num_gcd fl (p ^ k) e = Ok g -> (g | p ^ k) /\ (g | z).
Proof. exact gcd_int_ok. Qed.
Print Assumptions C42_divides_both_partial.
Example C42_case : tame 2 (Add (I 12) (Mul (I 8) (Exp 7 (I 5)))) /\ zval (Add (I 12) (Mul (I 8) (Exp 7 (I 5)))) (12 + 8 * 7 ^ 5) /\
  num_gcd exact_fl (2 ^ 4) (Add (I 12) (Mul (I 8) (Exp 7 (I 5)))) = Ok 4.
Proof.
  split; [assert (rel_prime 7 2) by (apply Zgcd_1_rel_prime; reflexivity); cbn; tauto|].
  split; [|vm_compute; reflexivity].
  exists 12, (8 * 7 ^ 5). split; [reflexivity|]. split; [|reflexivity].
  exists 8, (7 ^ 5). split; [reflexivity|]. split; [|reflexivity]. exists 5. repeat split; lia.
Qed.

(** C43. *)
Theorem C43_find_period : forall fl b m p, find_period fl b m = p -> 0 < p -> order b m p.
Proof. exact find_period_ok. Qed.
Print Assumptions C43_find_period.
Example C43_case : find_period exact_fl 3 7 = 6 /\ find_period exact_fl 10 4 = 0.
Proof. split; vm_compute; reflexivity. Qed.

(** C52.  The full statement is false: divmod((-6 + 2^2) * (3 * 2^3), 12) is (-1 * 2^3, 0). *)
Theorem C52_divmod_refuted : exists a z q x r, zval a z /\
  num_divmod exact_fl (ops_at exact_fl 20) a 12 = Ok (q, r) /\ zval q x /\ z <> x * 12 + r.
Proof. exact divmod_refuted. Qed.
Print Assumptions C52_divmod_refuted.

(** It holds under the hypotheses of C37 and C38. *)
Theorem C52_divmod_partial : forall p fl n a z k q r, prime p -> exact_roots fl -> exact_log2 fl -> 0 <= k ->
  tame p a -> zval a z -> safe a (p ^ k) -> num_divmod fl (ops_at fl n) a (p ^ k) = Ok (q, r) ->
  r = z mod p ^ k /\ tame p q /\ val q (inject_Z (z / p ^ k)).
Proof. exact divmod_ok. Qed.
Print Assumptions C52_divmod_partial.
Example C52_case : tame 2 (Add (I 3) (Exp 7 (I 20))) /\ zval (Add (I 3) (Exp 7 (I 20))) (3 + 7 ^ 20) /\
  safe (Add (I 3) (Exp 7 (I 20))) (2 ^ 3) /\
  num_divmod exact_fl (ops_at exact_fl 20) (Add (I 3) (Exp 7 (I 20))) (2 ^ 3) = Ok (Div (Add (I (-1)) (Exp 7 (I 20))) 8, 4).
Proof.
  split; [assert (rel_prime 7 2) by (apply Zgcd_1_rel_prime; reflexivity); cbn; tauto|].
  split; [|split; [|vm_compute; reflexivity]].
  - exists 3, (7 ^ 20). split; [reflexivity|]. split; [|reflexivity]. exists 20. repeat split; lia.
  - cbn. split; [exact Logic.I|]. split; [lia|]. split; [lia|auto].
Qed.
