(** * Properties of rules on integer counts (C11 - C15) *)
From Verif Require Import Base TapeModel RulesModel RulesSpec RulesProofs DiffProofs RsGrowProofs.

(** C11: Python apply_rule does what applying the rule one at a time, as often as possible, does. *)
Theorem C11_apply_rule_iterates : forall r t, distinct r -> addressed r t ->
  match py_apply_rule r t with
  | EvIndex => False
  | EvSymbolic => exists i m a, In (i, Mult m a) r
  | EvNone => blocked r t \/ nothing_decreases r
  | EvApplied times t' =>
      exists n, times = Z.of_nat n /\ (1 <= n)%nat /\ same_shape t t'
        /\ (forall i, get_count t' i = bump_n r n (get_count t) i)
        /\ (forall i d k, (k <= n)%nat -> In (i, Plus d) r ->
              exists c, bump_n r k (get_count t) i = Some c /\ 1 <= c)
        /\ (exists i d c, In (i, Plus d) r /\ bump_n r (S n) (get_count t) i = Some c /\ c < 1)
  end.
Proof. exact py_apply_rule_spec. Qed.
Print Assumptions C11_apply_rule_iterates.

Definition rule1 : rule := [((false, 0%nat), Plus (-2)); ((true, 1%nat), Plus (-3)); ((true, 0%nat), Plus 5)].
Definition tape1 : tape := Tape [Blk 1 9] 0 [Blk 2 4; Blk 1 13].

Example C11_case : distinct rule1 /\ addressed rule1 tape1
  /\ py_apply_rule rule1 tape1 = EvApplied 4 (Tape [Blk 1 1] 0 [Blk 2 24; Blk 1 1]).
Proof.
  split; [repeat constructor; cbn; intuition discriminate|]. split; [|reflexivity].
  intros i o H. cbn in H. intuition; match goal with X : (_, _) = _ |- _ => inv X end; eexists; (split; [vm_compute; reflexivity|lia]).
Qed.

(** C11/C12: Rust apply_rule agrees with Python when at most one count decreases and no
    result exceeds u64. *)
Theorem C12_agree_one_decreasing : forall r t,
  additive r -> distinct r -> addressed r t -> one_decreasing r ->
  match py_apply_rule r t with
  | EvNone => rs_apply_rule r t = RsApplied None t
  | EvApplied times t' =>
      (forall i n, get_count t' i = Some n -> n <= u64_max) ->
      rs_apply_rule r t = RsApplied (Some times) t'
  | _ => False
  end.
Proof. exact rs_py_apply_rule. Qed.
Print Assumptions C12_agree_one_decreasing.

Example C12_case : let r := [((false, 0%nat), Plus (-2)); ((true, 0%nat), Plus 5)] in
  additive r /\ distinct r /\ one_decreasing r
  /\ py_apply_rule r tape1 = EvApplied 4 (Tape [Blk 1 1] 0 [Blk 2 24; Blk 1 13]).
Proof.
  cbn zeta. split; [|split; [|split]].
  - intros i o H. cbn in H. intuition; match goal with X : (_, _) = _ |- _ => inv X end; eauto.
  - repeat constructor; cbn; intuition discriminate.
  - intros i d j e H1 H2 L1 L2. cbn in H1, H2.
    intuition; repeat match goal with X : (_, _) = _ |- _ => inv X end; auto; lia.
  - reflexivity.
Qed.

(** C12 is false in general: with two decreasing counts Rust adds where it should subtract. *)
Theorem C12_two_decreasing_refuted : exists r t,
  additive r /\ distinct r /\ addressed r t
  /\ (exists n t1 t2, py_apply_rule r t = EvApplied n t1 /\ rs_apply_rule r t = RsApplied (Some n) t2
      /\ get_count t1 (true, 1%nat) = Some 1 /\ get_count t2 (true, 1%nat) = Some 25).
Proof.
  exists [((false, 0%nat), Plus (-2)); ((true, 1%nat), Plus (-3))], tape1. split; [|split; [|split]].
  - intros i o H. cbn in H. intuition; match goal with X : (_, _) = _ |- _ => inv X end; eauto.
  - repeat constructor; cbn; intuition discriminate.
  - intros i o H. cbn in H. intuition; match goal with X : (_, _) = _ |- _ => inv X end; eexists; (split; [vm_compute; reflexivity|lia]).
  - do 3 eexists. vm_compute. repeat split; reflexivity.
Qed.
Print Assumptions C12_two_decreasing_refuted.

(** C11 in Rust: a [None] result does not mean that nothing was changed. *)
Theorem C11_rust_none_untouched_refuted : exists r t t',
  additive r /\ distinct r /\ addressed r t
  /\ rs_apply_rule r t = RsApplied None t' /\ t' <> t.
Proof.
  exists [((false, 0%nat), Plus (-1)); ((true, 0%nat), Plus (2 ^ 30))],
    (Tape [Blk 1 (2 ^ 40)] 0 [Blk 1 1]), (Tape [Blk 1 1] 0 [Blk 1 1]).
  split; [|split; [|split; [|split]]].
  - intros i o H. cbn in H. intuition; match goal with X : (_, _) = _ |- _ => inv X end; eauto.
  - repeat constructor; cbn; intuition discriminate.
  - intros i o H. cbn in H. intuition; match goal with X : (_, _) = _ |- _ => inv X end; eexists; (split; [vm_compute; reflexivity|lia]).
  - vm_compute. reflexivity.
  - intros H. inv H.
Qed.
Print Assumptions C11_rust_none_untouched_refuted.

(** C13 *)
Theorem C13_apply_mult_closed_form : forall c n m a, 2 <= m -> (1 <= n)%nat ->
  apply_mult c (Z.of_nat n) m a = Nat.iter n (fun x => m * x + a) c.
Proof. exact apply_mult_iter. Qed.
Print Assumptions C13_apply_mult_closed_form.

Example C13_case : apply_mult 5 4 3 (-2) = 3 * (3 * (3 * (3 * 5 - 2) - 2) - 2) - 2.
Proof. reflexivity. Qed.

(** C14: additive differences explain all four counts; a pair explains the first three, and
    the fourth if its quotient is the same. *)
Theorem C14_same : forall a b c d, py_calculate_diff a b c d = DNone -> b = a /\ c = a /\ d = a.
Proof. exact py_diff_none. Qed.
Print Assumptions C14_same.

Theorem C14_plus : forall a b c d p, py_calculate_diff a b c d = DGot (Plus p) ->
  p <> 0 /\ b = a + p /\ c = b + p /\ d = c + p.
Proof. exact py_diff_plus. Qed.
Print Assumptions C14_plus.

Theorem C14_mult_partial : forall a b c d m k, 0 < a -> py_calculate_diff a b c d = DGot (Mult m k) ->
  2 <= m /\ a < b < c /\ c < d /\ b = m * a + k /\ c = m * b + k /\ (d / c = b / a -> d = m * c + k).
Proof. exact py_diff_mult. Qed.
Print Assumptions C14_mult_partial.

Theorem C14_no_zero_division : forall a b c d, 0 < a -> py_calculate_diff a b c d <> DZeroDiv.
Proof. exact py_diff_zero. Qed.
Print Assumptions C14_no_zero_division.

Example C14_case : py_calculate_diff 5 13 29 61 = DGot (Mult 2 3) /\ py_calculate_diff 9 7 5 3 = DGot (Plus (-2))
  /\ py_calculate_diff 5 9 17 33 = DGot (Mult 2 (-1)).
Proof. vm_compute. auto. Qed.

(** The pair need not explain the fourth count: 3, 7, 19, 36 gives (3, -2), but 3*19-2 = 55. *)
Theorem C14_fourth_count_refuted : exists a b c d m k,
  0 < a /\ py_calculate_diff a b c d = DGot (Mult m k) /\ m * c + k <> d.
Proof. exists 3, 7, 19, 36, 3, (-2). repeat split; try lia. Qed.
Print Assumptions C14_fourth_count_refuted.

(** C14 for Rust, counts below 2^31. *)
Theorem C14_rust : forall a b c d,
  1 <= a < 2 ^ 31 -> 1 <= b < 2 ^ 31 -> 1 <= c < 2 ^ 31 -> 1 <= d < 2 ^ 31 ->
  match rs_calculate_diff (as_i32 a) (as_i32 b) (as_i32 c) (as_i32 d) with
  | RsSame => a = b /\ b = c /\ c = d
  | RsGot (Plus p) => p <> 0 /\ explains (Plus p) a b c d
  | RsGot (Mult m k) => 2 <= m /\ explains (Mult m k) a b c d
  | RsUnknown => True
  | RsPanic => False
  end.
Proof. exact rs_diff_spec. Qed.
Print Assumptions C14_rust.

Example C14_rust_case : rs_calculate_diff (as_i32 5) (as_i32 13) (as_i32 29) (as_i32 61) = RsGot (Mult 2 3).
Proof. reflexivity. Qed.

(** It gives up only if nothing changes the counts from each to the next: no number to be added, and no
    factor with a remainder less than the first count. *)
Theorem C14_rust_unknown : forall a b c d,
  1 <= a < 2 ^ 31 -> 1 <= b < 2 ^ 31 -> 1 <= c < 2 ^ 31 -> 1 <= d < 2 ^ 31 ->
  rs_calculate_diff (as_i32 a) (as_i32 b) (as_i32 c) (as_i32 d) = RsUnknown ->
  ~ (a = b /\ b = c /\ c = d)
  /\ (forall p, ~ explains (Plus p) a b c d) /\ (forall m k, 1 <= m -> 0 <= k < a -> ~ explains (Mult m k) a b c d).
Proof. exact rs_unknown. Qed.
Print Assumptions C14_rust_unknown.
Example C14_rust_unknown_case : rs_calculate_diff (as_i32 5) (as_i32 13) (as_i32 29) (as_i32 62) = RsUnknown.
Proof. reflexivity. Qed.

(** ... and the bound is needed: larger counts are cut to 32 bits and "do not change". *)
Theorem C14_rust_large_refuted : exists a b c d, 1 <= a < b /\ b < c < d
  /\ rs_calculate_diff (as_i32 a) (as_i32 b) (as_i32 c) (as_i32 d) = RsSame.
Proof. exists 1, (1 + 2 ^ 32), (1 + 2 ^ 33), (1 + 3 * 2 ^ 32). repeat split; lia || reflexivity. Qed.
Print Assumptions C14_rust_large_refuted.

(** C15 *)
Theorem C15_infinite_iff_nothing_decreases : forall k1 k2 k3 k4, positive_counts k1 ->
  py_make_rule k1 k2 k3 k4 = RInfinite <->
  (forall i a b c d, recorded k1 k2 k3 k4 i a b c d ->
     a <= b /\ (py_calculate_diff a b c d = DNone \/ exists o, py_calculate_diff a b c d = DGot o)).
Proof. exact make_rule_infinite_iff. Qed.
Print Assumptions C15_infinite_iff_nothing_decreases.

Theorem C15_rule_contents : forall k1 k2 k3 k4 r, positive_counts k1 ->
  py_make_rule k1 k2 k3 k4 = RRule r ->
  distinct r
  /\ (exists i d, In (i, Plus d) r /\ d < 0)
  /\ (forall i a b c d, recorded k1 k2 k3 k4 i a b c d ->
        (a = b /\ b = c /\ c = d /\ forall o, ~ In (i, o) r)
        \/ exists o, In (i, o) r /\ b <> a /\ bump_op o a = b /\ bump_op o b = c
             /\ (d / c = b / a -> bump_op o c = d) /\ (forall p, o = Plus p -> bump_op o c = d))
  /\ (forall i o, In (i, o) r -> exists a b c d, recorded k1 k2 k3 k4 i a b c d).
Proof. exact make_rule_rule. Qed.
Print Assumptions C15_rule_contents.

Example C15_case :
  positive_counts ([9; 2], [3; 5]) /\
  py_make_rule ([9; 2], [3; 5]) ([7; 2], [7; 6]) ([5; 2], [15; 7]) ([3; 2], [31; 8])
    = RRule [((false, 0%nat), Plus (-2)); ((true, 0%nat), Mult 2 1); ((true, 1%nat), Plus 1)]
  /\ py_make_rule ([9; 2], [3; 5]) ([11; 2], [7; 6]) ([13; 2], [15; 7]) ([15; 2], [31; 8]) = RInfinite.
Proof.
  split; [|split; reflexivity].
  intros [[|] i] n H; do 3 (destruct i as [|i]; [vm_compute in H; inv H; lia|]); destruct i; discriminate.
Qed.

(** C15 for Rust, counts below 2^31: one entry for each count that changed, saying how; something decreases in
    the rule just if some count went down; no rule just if some count is not explained; and no panic. *)
Theorem C15_rust : forall k1 k2 k3 k4, small_counts k1 -> small_counts k2 -> small_counts k3 -> small_counts k4 ->
  match rs_make_rule k1 k2 k3 k4 with
  | RsRule r => distinct r
      /\ (forall i a b c d, recorded k1 k2 k3 k4 i a b c d ->
            (a = b /\ b = c /\ c = d) \/ exists o, In (i, o) r /\ explains o a b c d)
      /\ (forall i o, In (i, o) r -> exists a b c d, recorded k1 k2 k3 k4 i a b c d /\ ~ (a = b /\ b = c /\ c = d) /\ explains o a b c d)
      /\ (forall i m k, In (i, Mult m k) r -> 2 <= m /\ 0 <= k)
      /\ (nothing_decreases r <-> forall i a b c d, recorded k1 k2 k3 k4 i a b c d -> a <= b)
  | RsNoRule => exists i a b c d, recorded k1 k2 k3 k4 i a b c d /\ ~ (a = b /\ b = c /\ c = d)
      /\ (forall p, ~ explains (Plus p) a b c d) /\ (forall m k, 1 <= m -> 0 <= k < a -> ~ explains (Mult m k) a b c d)
  | RsRulePanic => False
  end.
Proof. exact rs_make_rule_contents. Qed.
Print Assumptions C15_rust.

Example C15_rust_case :
  small_counts ([9; 2], [3; 5]) /\ small_counts ([7; 2], [7; 6]) /\ small_counts ([5; 2], [15; 7]) /\ small_counts ([3; 2], [31; 8])
  /\ rs_make_rule ([9; 2], [3; 5]) ([7; 2], [7; 6]) ([5; 2], [15; 7]) ([3; 2], [31; 8])
    = RsRule [((false, 0%nat), Plus (-2)); ((true, 0%nat), Mult 2 1); ((true, 1%nat), Plus 1)]
  /\ rs_make_rule ([9; 2], [3; 5]) ([7; 2], [7; 6]) ([5; 2], [15; 7]) ([3; 2], [32; 8]) = RsNoRule.
Proof.
  do 4 (split; [intros [[|] i] n H; do 3 (destruct i as [|i]; [vm_compute in H; inv H; lia|]); destruct i; discriminate|]).
  split; reflexivity.
Qed.
