(** * Properties of rules over symbolic counts (C63, C64)

    [fl] gives the floating point roots and logarithms, [ops_at fl n] are the operators with calls nested at most
    [n] deep, for any [n]. *)
From Coq Require Import QArith Qpower Znumtheory.
From Verif Require Import Base TapeModel RulesModel NumModel NumSpec NumProofs NumMod NumMore SymModel SymSpec SymProofs.
Local Open Scope Z_scope.

(** C63.  The full statement is false.  From 3^(1+7^4), 3^(2+7^4), 3^(3+7^4), 3^(4+7^4) the sequence "log 3, -1, +2,
    3 to the power" is learned, which triples the count.  The logarithm does not look at the base: 27^10 and 3^30 are
    the same number, and of the first the sequence makes 3^11, of the second 3^31. *)
Definition C63_e (k : Z) : cnt := Exp 3 (Add (I k) (Exp 7 (I 4))).
Theorem C63_depends_on_form_refuted : exists c1 c2 c3 c4 ops c c' z r r' x x',
  calculate_diff exact_fl (ops_at exact_fl 20) c1 c2 c3 c4 = Got (Some (SOps ops))
  /\ zval c z /\ zval c' z
  /\ apply_ops exact_fl (ops_at exact_fl 20) c (I 1) ops = Got r /\ zval r x
  /\ apply_ops exact_fl (ops_at exact_fl 20) c' (I 1) ops = Got r' /\ zval r' x' /\ x <> x'.
Proof.
  exists (C63_e 1), (C63_e 2), (C63_e 3), (C63_e 4). eexists. exists (Exp 27 (I 10)), (Exp 3 (I 30)), (27 ^ 10).
  eexists. eexists. exists (3 ^ 11), (3 ^ 31).
  split; [vm_compute; reflexivity|]. split; [exists 10; repeat split; lia|].
  split; [exists 30; repeat split; try lia|]. split; [vm_compute; reflexivity|]. split; [exists 11; repeat split; lia|].
  split; [vm_compute; reflexivity|]. split; [exists 31; repeat split; lia|]. vm_compute. discriminate.
Qed.
Print Assumptions C63_depends_on_form_refuted.

(** Learning is not total: with 3^(7^4) as first of the samples, an exception that nothing handles is raised. *)
Theorem C63_exception_refuted :
  calculate_diff exact_fl (ops_at exact_fl 20) (Exp 3 (Exp 7 (I 4))) (C63_e 1) (C63_e 2) (C63_e 3) = SFail.
Proof. vm_compute. reflexivity. Qed.
Print Assumptions C63_exception_refuted.

(** What is learned from four counts fits them: a sum each time; a product with a sum the first two times, and the
    third if the quotients agree; a sequence the first time by value, and then literally. *)
Theorem C63_fits_samples_partial : forall p fl n c1 c2 c3 c4 q1 q2 q3 q4 r, prime p -> exact_roots fl ->
  tame p c1 -> tame p c2 -> tame p c3 -> tame p c4 -> val c1 q1 -> val c2 q2 -> val c3 q3 -> val c4 q4 ->
  calculate_diff fl (ops_at fl n) c1 c2 c3 c4 = Got r ->
  match r with
  | None => Qeq q2 q1 /\ Qeq q3 q1 /\ Qeq q4 q1
  | Some (SPlus d) => Qeq q2 (q1 + inject_Z d) /\ Qeq q3 (q2 + inject_Z d) /\ Qeq q4 (q3 + inject_Z d)
  | Some (SMult m a) => exists z1 z2 z3 z4, c1 = I z1 /\ c2 = I z2 /\ c3 = I z3 /\ c4 = I z4
      /\ (0 < z1 -> z2 = m * z1 + a /\ z3 = m * z2 + a /\ (z4 / z3 = z2 / z1 -> z4 = m * z3 + a))
  | Some (SOps ops) => ops_mean ops q1 q2
      /\ apply_ops fl (ops_at fl n) c2 (I 1) ops = Got c3 /\ apply_ops fl (ops_at fl n) c3 (I 1) ops = Got c4
  end.
Proof. exact diff_learned. Qed.
Print Assumptions C63_fits_samples_partial.

(** The sequence learned takes the value of the first count to that of the second, whatever the counts. *)
Theorem C63_sequence_fits_first : forall fl o c1 c2 c3 c4 ops q1 q2,
  calculate_op_seq fl o c1 c2 c3 c4 = Got ops -> val c1 q1 -> val c2 q2 ->
  ops_mean ops q1 q2 /\ apply_ops fl o c2 (I 1) ops = Got c3 /\ apply_ops fl o c3 (I 1) ops = Got c4.
Proof. exact op_seq_learned. Qed.
Print Assumptions C63_sequence_fits_first.

(** Applied [k] times a sequence is exact, or a step is met that is not: a logarithm of a power of another base, a
    quotient that does not come out even, or an exponent that is not an integer. *)
Theorem C63_application_partial : forall p fl n ops c q k r, prime p -> exact_roots fl -> Forall (op_over p) ops ->
  tame p c -> val c q -> 0 <= k -> apply_ops fl (ops_at fl n) c (I k) ops = Got r ->
  (exists y, tame p r /\ val r y /\ times_mean (Z.to_nat k) ops q y)
  \/ exists j c0 ops1 op ops2 c', 0 <= j < k /\ apply_ops fl (ops_at fl n) c (I j) ops = Got c0 /\ ops = ops1 ++ op :: ops2
       /\ apply_ops fl (ops_at fl n) c0 (I 1) ops1 = Got c' /\ stumbles p op c'.
Proof. exact apply_ops_exact. Qed.
Print Assumptions C63_application_partial.

(** A rule has one entry for each position where what is learned is not "no change", at least one of them
    decreasing. *)
Theorem C63_rule_contents : forall fl o k1 k2 k3 k4 r, make_srule fl o k1 k2 k3 k4 = Got (Some r) ->
  NoDup (map fst r)
  /\ (exists i op, In (i, op) r /\ decreases op)
  /\ (forall i op, In (i, op) r -> exists c1 c2 c3 c4, srecorded k1 k2 k3 k4 i c1 c2 c3 c4
        /\ calculate_diff fl o c1 c2 c3 c4 = Got (Some op))
  /\ (forall i c1 c2 c3 c4, srecorded k1 k2 k3 k4 i c1 c2 c3 c4 ->
        calculate_diff fl o c1 c2 c3 c4 = Got None \/ exists op, In (i, op) r).
Proof. exact make_srule_ok. Qed.
Print Assumptions C63_rule_contents.

(** Beside a count that drops by 1. *)
Example C63_case : prime 2 /\ exact_roots exact_fl /\ (forall k, tame 2 (C63_e k))
  /\ (forall k, 0 <= k -> val (C63_e k) (Qpower (inject_Z 3) (k + 7 ^ 4)))
  /\ Forall (op_over 2) [(OLog, 3); (OAdd, -1); (OAdd, 2); (OPow, 3)]
  /\ make_srule exact_fl (ops_at exact_fl 20) ([I 9], [C63_e 1]) ([I 8], [C63_e 2]) ([I 7], [C63_e 3]) ([I 6], [C63_e 4])
     = Got (Some [((false, 0%nat), SPlus (-1)); ((true, 0%nat), SOps [(OLog, 3); (OAdd, -1); (OAdd, 2); (OPow, 3)])])
  /\ apply_ops exact_fl (ops_at exact_fl 20) (C63_e 4) (I 5) [(OLog, 3); (OAdd, -1); (OAdd, 2); (OPow, 3)] = Got (C63_e 9).
Proof.
  split; [exact prime_2|]. split; [exact exact_fl_roots|]. 
  assert (rel_prime 7 2) by (apply Zgcd_1_rel_prime; reflexivity).
  assert (rel_prime 3 2) by (apply Zgcd_1_rel_prime; reflexivity).
  split; [intros k; cbn; tauto|]. split.
  { intros k K. exists (k + 7 ^ 4). split; [|split; [lia|reflexivity]].
    exists (inject_Z k), (inject_Z (7 ^ 4)). split; [reflexivity|]. split; [|rewrite inject_Z_plus; reflexivity].
    exists 4. split; [reflexivity|]. split; [lia|reflexivity]. }
  split; [repeat (apply Forall_cons; [cbn; auto|]); apply Forall_nil|]. split; vm_compute; reflexivity.
Qed.

(** A longer sequence, learned from four towers. *)
Definition C63_ops : opseq :=
  [(OAdd, 6); (OLog, 2); (OAdd, 3); (OPow, 2); (OPow, 2); (OAdd, -3); (OPow, 2); (OAdd, -6)].
Definition C63_next (c : cnt) : cnt := match apply_ops exact_fl (ops_at exact_fl 30) c (I 1) C63_ops with Got x => x | _ => I 0 end.
Example C63_towers : let c1 := C63_next (Add (I (-6)) (Exp 2 (I 13))) in let c2 := C63_next c1 in let c3 := C63_next c2 in
  c1 = Add (I (-6)) (Exp 2 (Add (I (-3)) (Exp 2 (Exp 2 (I 16)))))
  /\ calculate_diff exact_fl (ops_at exact_fl 30) c1 c2 c3 (C63_next c3) = Got (Some (SOps C63_ops)).
Proof. split; vm_compute; reflexivity. Qed.

(** C64.  The full statement is false.  Both counts drop by 1, and the comparison of how often each allows that is
    wrong (C41): the rule is applied 35 times to the counts 36 and 33, which leaves -2. *)
Theorem C64_negative_count_refuted : exists t times t' z, apply_srule exact_fl (ops_at exact_fl 20)
    [((false, 0%nat), SPlus (-1)); ((true, 0%nat), SPlus (-1))] t = Got (Some (times, t'))
  /\ (forall i c, sget t i = Some c -> exists y, zval c y /\ 1 <= y)
  /\ (exists i c, sget t' i = Some c /\ zval c z /\ z < 0).
Proof.
  exists ([Add (I 4) (Exp 2 (I 5))], [Add (I 1) (Exp 2 (I 5))]). eexists. eexists. exists (-2).
  split; [vm_compute; reflexivity|]. split.
  - assert (E : zval (Exp 2 (I 5)) 32) by (exists 5; repeat split; lia).
    intros [[|] [|[|k]]] c G; cbn in G; try discriminate; injection G as <-.
    + exists 33. split; [exists 1, 32; split; [reflexivity|split; [exact E|reflexivity]]|lia].
    + exists 36. split; [exists 4, 32; split; [reflexivity|split; [exact E|reflexivity]]|lia].
  - exists (true, 0%nat). eexists. split; [reflexivity|]. split; [reflexivity|lia].
Qed.
Print Assumptions C64_negative_count_refuted.

(** It is exact for rules of sums and products with sums over one prime: some number [N] of applications, at which some
    decreasing count can drop no further, and [N] applications to each count. *)
Theorem C64_exact_partial : forall p fl n r t times t', prime p -> exact_roots fl -> exact_log2 fl -> NoDup (map fst r) ->
  (forall i op, In (i, op) r -> sop_over p op /\ exists z, counted p t i op z) ->
  apply_srule fl (ops_at fl n) r t = Got (Some (times, t')) ->
  exists N, 0 <= N /\ tame p times /\ val times (inject_Z N)
    /\ (exists i d z, In (i, SPlus d) r /\ d < 0 /\ counted p t i (SPlus d) z /\ 1 <= z + d * N /\ z + d * (N + 1) < 1)
    /\ (forall i op z, In (i, op) r -> counted p t i op z -> exists c, sget t' i = Some c /\ tame p c
          /\ val c (inject_Z (Nat.iter (Z.to_nat N) (bump_sop op) z)))
    /\ (forall i, ~ In i (map fst r) -> sget t' i = sget t i).
Proof. exact apply_srule_exact. Qed.
Print Assumptions C64_exact_partial.

(** With one decreasing entry no count drops below 1 on the way. *)
Theorem C64_positive_partial : forall p fl n r t times t', prime p -> exact_roots fl -> exact_log2 fl -> NoDup (map fst r) ->
  (forall i op, In (i, op) r -> sop_over p op /\ exists z, counted p t i op z) ->
  (forall i j op op', In (i, op) r -> In (j, op') r -> decreases op -> decreases op' -> i = j) ->
  apply_srule fl (ops_at fl n) r t = Got (Some (times, t')) ->
  forall i d z, In (i, SPlus d) r -> counted p t i (SPlus d) z -> exists N, val times (inject_Z N)
    /\ forall k, 0 <= k <= N -> 1 <= z + d * k.
Proof. exact apply_srule_positive. Qed.
Print Assumptions C64_positive_partial.

(** A rule is refused only if nothing decreases, or a count that is an int cannot drop even once. *)
Theorem C64_refused : forall fl o r t, apply_srule fl o r t = Got None ->
  (forall i op, In (i, op) r -> ~ decreases op)
  \/ exists i d c, In (i, SPlus d) r /\ d < 0 /\ sget t i = Some (I c) /\ c + d < 1.
Proof. exact apply_srule_refused. Qed.
Print Assumptions C64_refused.
Example C64_refused_case : apply_srule exact_fl (ops_at exact_fl 20) [((false, 0%nat), SPlus (-2))] ([I 2], []) = Got None.
Proof. reflexivity. Qed.

(** 3^6 drops by 2, 20 + 7^5 is trebled and 1 added, 364 times. *)
Definition C64_rule : srule := [((false, 0%nat), SPlus (-2)); ((true, 0%nat), SMult 3 1)].
Definition C64_tape : scounts := ([Exp 3 (I 6)], [Add (I 20) (Exp 7 (I 5)); I 4]).
Example C64_case : prime 2 /\ exact_roots exact_fl /\ exact_log2 exact_fl /\ NoDup (map fst C64_rule)
  /\ (forall i op, In (i, op) C64_rule -> sop_over 2 op /\ exists z, counted 2 C64_tape i op z)
  /\ (forall i j op op', In (i, op) C64_rule -> In (j, op') C64_rule -> decreases op -> decreases op' -> i = j)
  /\ apply_srule exact_fl (ops_at exact_fl 20) C64_rule C64_tape
     = Got (Some (Div (Add (I (-1)) (Exp 3 (I 6))) 2,
         ([I 1], [Div (Add (I (-1)) (Mul (Add (I 41) (Mul (I 2) (Exp 7 (I 5))))
            (Exp 3 (Div (Add (I (-1)) (Exp 3 (I 6))) 2)))) 2; I 4]))).
Proof.
  assert (R7 : rel_prime 7 2) by (apply Zgcd_1_rel_prime; reflexivity).
  assert (R3 : rel_prime 3 2) by (apply Zgcd_1_rel_prime; reflexivity).
  split; [exact prime_2|]. split; [exact exact_fl_roots|]. split; [exact exact_fl_log2|].
  split. { repeat constructor; cbn; intuition discriminate. }
  split.
  { intros i op [E|[E|[]]]; injection E as <- <-.
    - split; [intros _; exists 1; split; [lia|reflexivity]|].
      exists (3 ^ 6), (Exp 3 (I 6)). split; [reflexivity|]. split; [cbn; tauto|]. split; [exists 6; repeat split; lia|].
      split; [lia|]. intros _. cbn. split; [lia|]. split; [lia|auto].
    - split; [split; [auto|]; exists 1; split; [lia|reflexivity]|].
      exists (20 + 7 ^ 5), (Add (I 20) (Exp 7 (I 5))). split; [reflexivity|]. split; [cbn; tauto|].
      split; [|split; [lia|exact Logic.I]].
      exists 20, (7 ^ 5). split; [reflexivity|]. split; [exists 5; repeat split; lia|reflexivity]. }
  split.
  { intros i j op op' [E|[E|[]]] [E'|[E'|[]]]; injection E as <- <-; injection E' as <- <-; cbn; tauto. }
  vm_compute. reflexivity.
Qed.
