(** Lemmas about calculate_diff, make_rule, apply_mult and the Rust counterparts. *)
From Verif Require Import Base TapeModel RulesModel RulesSpec RulesProofs.

(** ** apply_mult *)

Lemma geometric m n : 2 <= m -> exists g, m ^ (Z.of_nat (S n)) - m = (m - 1) * g
  /\ forall c a, Nat.iter (S n) (fun x => m * x + a) c = c * m ^ (Z.of_nat (S n)) + a * (1 + g).
Proof.
  intros Hm. induction n as [|n (g & A & B)].
  - exists 0. change (Z.of_nat 1) with 1. rewrite Z.pow_1_r. split; [lia|]. intros. cbn. lia.
  - exists (g * m + m). replace (Z.of_nat (S (S n))) with (Z.succ (Z.of_nat (S n))) by lia.
    rewrite Z.pow_succ_r by lia. split.
    + nia.
    + intros c a. specialize (B c a).
      change (Nat.iter (S (S n)) (fun x => m * x + a) c) with (m * Nat.iter (S n) (fun x => m * x + a) c + a).
      rewrite B. ring.
Qed.

Lemma apply_mult_iter c n m a : 2 <= m -> (1 <= n)%nat ->
  apply_mult c (Z.of_nat n) m a = Nat.iter n (fun x => m * x + a) c.
Proof.
  intros Hm Hn. destruct n as [|n]; [lia|]. destruct (geometric m n Hm) as (g & A & B).
  rewrite B. unfold apply_mult.
  assert (E : (if Z.of_nat (S n) =? 1 then m else m ^ Z.of_nat (S n)) = m ^ Z.of_nat (S n)).
  { destruct (Z.eqb_spec (Z.of_nat (S n)) 1) as [->|]; auto. rewrite Z.pow_1_r. auto. }
  rewrite E, A. rewrite (Z.mul_comm (m - 1) g), Z.div_mul by lia.
  destruct (Z.eqb_spec a 0); subst; lia.
Qed.

(** ** calculate_diff *)

Lemma suspect_cases c1 c2 c3 c4 ps :
  suspect c1 c2 c3 c4 ps = DUnknown \/ exists x y, suspect c1 c2 c3 c4 ps = DSuspected x y.
Proof.
  induction ps as [|[x y] ps IH]; cbn; auto.
  destruct (_ && _); eauto.
Qed.

Ltac nosus :=
  match goal with H : suspect ?a ?b ?c ?d ?l = _ |- _ =>
    exfalso; destruct (suspect_cases a b c d l) as [Q|(? & ? & Q)]; rewrite Q in H; discriminate
  end.

Lemma py_diff_none a b c d : py_calculate_diff a b c d = DNone -> b = a /\ c = a /\ d = a.
Proof.
  unfold py_calculate_diff, py_diff_tail. intros H.
  destruct ((b =? a) && (c =? a) && (d =? a)) eqn:E; [zb; lia|].
  repeat match type of H with (if ?x then _ else _) = _ => destruct x end; try discriminate;
    nosus.
Qed.

Lemma py_diff_plus a b c d p : py_calculate_diff a b c d = DGot (Plus p) ->
  p <> 0 /\ b = a + p /\ c = b + p /\ d = c + p.
Proof.
  unfold py_calculate_diff, py_diff_tail. intros H.
  destruct ((b =? a) && (c =? a) && (d =? a)) eqn:E; [discriminate|].
  destruct ((c - b =? b - a) && (d - c =? b - a)) eqn:E2.
  - inv H. zb. repeat split; lia.
  - repeat match type of H with (if ?x then _ else _) = _ => destruct x end; try discriminate;
    nosus.
Qed.

Lemma py_diff_mult a b c d m k : 0 < a -> py_calculate_diff a b c d = DGot (Mult m k) ->
  2 <= m /\ a < b < c /\ c < d /\ b = m * a + k /\ c = m * b + k /\ (d / c = b / a -> d = m * c + k).
Proof.
  unfold py_calculate_diff, py_diff_tail. intros Ha H.
  destruct ((b =? a) && (c =? a) && (d =? a)) eqn:E; [discriminate|].
  destruct ((c - b =? b - a) && (d - c =? b - a)) eqn:E2; [discriminate|].
  destruct (negb ((a <? b) && (b <? c) && (c <? d))) eqn:E3; [discriminate|].
  destruct ((a =? 0) || (b =? 0) || (c =? 0)) eqn:E4; [discriminate|].
  apply negb_false_iff in E3. zb.
  pose proof (Z.div_mod b a ltac:(lia)) as D1. pose proof (Z.mod_pos_bound b a ltac:(lia)) as M1.
  pose proof (Z.div_mod c b ltac:(lia)) as D2. pose proof (Z.mod_pos_bound c b ltac:(lia)) as M2.
  pose proof (Z.div_mod d c ltac:(lia)) as D3. pose proof (Z.mod_pos_bound d c ltac:(lia)) as M3.
  set (q1 := b / a) in *. set (r1 := b mod a) in *.
  set (q2 := c / b) in *. set (r2 := c mod b) in *.
  set (q3 := d / c) in *. set (r3 := d mod c) in *.
  clearbody q1 r1 q2 r2 q3 r3.
  assert (Q1 : 1 <= q1) by nia.
  destruct (Z.eqb_spec q2 q1) as [X1|X1]; cbn [negb] in H; [|discriminate].
  assert (TAIL : (if (c - b * (1 + q2) =? b - a * (1 + q1)) && (d - c * (1 + q3) =? b - a * (1 + q1))
       then DGot (Mult (1 + q1) (b - a * (1 + q1)))
       else suspect a b c d possible_rule_pairs) = DGot (Mult m k) ->
       2 <= m /\ a < b < c /\ c < d /\ b = m * a + k /\ c = m * b + k /\ (q3 = q1 -> d = m * c + k)).
  { intros HT. destruct (_ && _) eqn:E5 in HT; [|nosus].
    inv HT. zb. repeat split; try lia; intros; subst; lia. }
  destruct (Z.eqb_spec r2 r1) as [X2|X2]; cbn [negb] in H; [|auto].
  destruct (Z.eqb_spec q3 q1) as [X3|X3]; cbn [negb] in H; [|discriminate].
  destruct (Z.eqb_spec r3 r1) as [X4|X4]; cbn [negb] in H; [|auto].
  inv H. repeat split; try lia; try nia.
Qed.

Lemma py_diff_zero a b c d : 0 < a -> py_calculate_diff a b c d <> DZeroDiv.
Proof.
  unfold py_calculate_diff, py_diff_tail. intros Ha H.
  destruct ((b =? a) && (c =? a) && (d =? a)) eqn:E; [discriminate|].
  destruct ((c - b =? b - a) && (d - c =? b - a)) eqn:E2; [discriminate|].
  destruct (negb ((a <? b) && (b <? c) && (c <? d))) eqn:E3; [discriminate|].
  apply negb_false_iff in E3. zb.
  destruct ((a =? 0) || (b =? 0) || (c =? 0)) eqn:E4.
  - rewrite !orb_true_iff, !Z.eqb_eq in E4. lia.
  - repeat match type of H with (if ?x then _ else _) = _ => destruct x end; try discriminate;
    nosus.
Qed.

(** ** make_rule *)

Definition side_recorded (zs : list (Z * Z * Z * Z)) (n : nat) (a b c d : Z) : Prop :=
  nth_error zs n = Some (a, b, c, d).

Lemma rule_side_spec s : forall zs i,
  match py_rule_side s i zs with
  | RRule r =>
      (forall j o, In (j, o) r -> exists n a b c d, j = (s, (i + n)%nat) /\ side_recorded zs n a b c d
          /\ py_calculate_diff a b c d = DGot o)
      /\ (forall n a b c d, side_recorded zs n a b c d ->
            py_calculate_diff a b c d = DNone
            \/ exists o, py_calculate_diff a b c d = DGot o /\ In ((s, (i + n)%nat), o) r)
      /\ distinct r
  | RNone => exists n a b c d, side_recorded zs n a b c d /\ py_calculate_diff a b c d = DUnknown
  | RSuspected x y => exists n a b c d, side_recorded zs n a b c d /\ py_calculate_diff a b c d = DSuspected x y
  | RZeroDiv => exists n a b c d, side_recorded zs n a b c d /\ py_calculate_diff a b c d = DZeroDiv
  | RInfinite => False
  end.
Proof.
  induction zs as [|[[[a b] c] d] zs IH]; intros i; cbn [py_rule_side].
  - split; [intros ? ? []|]. split; [|constructor]. intros [|n]; discriminate.
  - assert (L : forall P, (exists n a b c d, side_recorded zs n a b c d /\ P a b c d) ->
       exists n a' b' c' d', side_recorded ((a, b, c, d) :: zs) n a' b' c' d' /\ P a' b' c' d').
    { intros P (n & a' & b' & c' & d' & X). exists (S n), a', b', c', d'. exact X. }
    destruct (py_calculate_diff a b c d) as [|o| |x y|] eqn:E.
    + specialize (IH (S i)). destruct (py_rule_side s (S i) zs) as [r| | | |] eqn:F; auto; try (apply L; auto).
      destruct IH as (A & B & C). split; [|split; auto].
      * intros j o Hj. destruct (A j o Hj) as (n & a' & b' & c' & d' & X & Y).
        exists (S n), a', b', c', d'. split; [rewrite X; f_equal; lia|auto].
      * intros [|n] a' b' c' d' H.
        -- inv H. auto.
        -- destruct (B n a' b' c' d' H) as [X|(o & X & Y)]; auto. right. exists o. split; auto.
           replace (i + S n)%nat with (S i + n)%nat by lia. auto.
    + specialize (IH (S i)). destruct (py_rule_side s (S i) zs) as [r| | | |] eqn:F; auto; try (apply L; auto).
      destruct IH as (A & B & C). split; [|split].
      * intros j o' [X|Hj].
        -- inv X. exists 0%nat, a, b, c, d. split; [f_equal; lia|]. split; [reflexivity|auto].
        -- destruct (A j o' Hj) as (n & a' & b' & c' & d' & X & Y).
           exists (S n), a', b', c', d'. split; [rewrite X; f_equal; lia|auto].
      * intros [|n] a' b' c' d' H.
        -- inv H. right. exists o. split; auto. left. f_equal. f_equal. lia.
        -- destruct (B n a' b' c' d' H) as [X|(o' & X & Y)]; auto. right. exists o'. split; auto.
           right. replace (i + S n)%nat with (S i + n)%nat by lia. auto.
      * constructor; auto. cbn. intros X. apply in_map_iff in X. destruct X as ([j o'] & X1 & X2).
        destruct (A j o' X2) as (n & _ & _ & _ & _ & Y & _). cbn in X1. rewrite Y in X1. injection X1; lia.
    + exists 0%nat, a, b, c, d. split; [reflexivity|auto].
    + exists 0%nat, a, b, c, d. split; [reflexivity|auto].
    + exists 0%nat, a, b, c, d. split; [reflexivity|auto].
Qed.

Lemma zip4_nth : forall a b c d n w x y z,
  nth_error (zip4 a b c d) n = Some (w, x, y, z) <->
  nth_error a n = Some w /\ nth_error b n = Some x /\ nth_error c n = Some y /\ nth_error d n = Some z.
Proof.
  induction a as [|a0 a IH]; intros b c d n w x y z.
  { destruct n; cbn; split; try discriminate; intros (? & _); discriminate. }
  destruct b as [|b0 b]. { destruct n; cbn; split; try discriminate; intros (? & ? & _); discriminate. }
  destruct c as [|c0 c]. { destruct n; cbn; split; try discriminate; intros (? & ? & ? & _); discriminate. }
  destruct d as [|d0 d]. { destruct n; cbn; split; try discriminate; intros (? & ? & ? & ?); discriminate. }
  destruct n; cbn.
  - split; [intros X; inv X; auto|intros (A & B & C & D); congruence].
  - apply IH.
Qed.

Definition zipped (k1 k2 k3 k4 : counts_t) (s : bool) :=
  if s then zip4 (snd k1) (snd k2) (snd k3) (snd k4) else zip4 (fst k1) (fst k2) (fst k3) (fst k4).

Lemma recorded_zip k1 k2 k3 k4 s n a b c d :
  side_recorded (zipped k1 k2 k3 k4 s) n a b c d <-> recorded k1 k2 k3 k4 (s, n) a b c d.
Proof. unfold side_recorded, recorded, counts_at, zipped. cbn. destruct s; apply zip4_nth. Qed.

Definition collected (k1 k2 k3 k4 : counts_t) (r : rule) : Prop :=
  (forall i o, In (i, o) r -> exists a b c d, recorded k1 k2 k3 k4 i a b c d /\ py_calculate_diff a b c d = DGot o)
  /\ (forall i a b c d, recorded k1 k2 k3 k4 i a b c d ->
        py_calculate_diff a b c d = DNone
        \/ exists o, py_calculate_diff a b c d = DGot o /\ In (i, o) r)
  /\ distinct r.

Definition failed (k1 k2 k3 k4 : counts_t) (f : diff_res) : Prop :=
  exists i a b c d, recorded k1 k2 k3 k4 i a b c d /\ py_calculate_diff a b c d = f.

Lemma make_rule_spec k1 k2 k3 k4 :
  match py_make_rule k1 k2 k3 k4 with
  | RRule r => collected k1 k2 k3 k4 r /\ forallb nonneg_plus r = false
  | RInfinite => exists r, collected k1 k2 k3 k4 r /\ forallb nonneg_plus r = true
  | RNone => failed k1 k2 k3 k4 DUnknown
  | RSuspected x y => failed k1 k2 k3 k4 (DSuspected x y)
  | RZeroDiv => failed k1 k2 k3 k4 DZeroDiv
  end.
Proof.
  unfold py_make_rule.
  assert (LF : forall s f, (exists n a b c d, side_recorded (zipped k1 k2 k3 k4 s) n a b c d /\ py_calculate_diff a b c d = f) ->
            failed k1 k2 k3 k4 f).
  { intros s f (n & a & b & c & d & X & Y). exists (s, n), a, b, c, d. split; auto. apply recorded_zip; auto. }
  pose proof (rule_side_spec false (zipped k1 k2 k3 k4 false) 0) as S1.
  pose proof (rule_side_spec true (zipped k1 k2 k3 k4 true) 0) as S2.
  change (zip4 (fst k1) (fst k2) (fst k3) (fst k4)) with (zipped k1 k2 k3 k4 false).
  change (zip4 (snd k1) (snd k2) (snd k3) (snd k4)) with (zipped k1 k2 k3 k4 true).
  destruct (py_rule_side false 0 (zipped k1 k2 k3 k4 false)) as [r1| | |x y|]; try (eapply LF; eauto; fail); [|tauto].
  destruct (py_rule_side true 0 (zipped k1 k2 k3 k4 true)) as [r2| | |x y|]; try (eapply LF; eauto; fail); [|tauto].
  destruct S1 as (A1 & B1 & C1), S2 as (A2 & B2 & C2).
  assert (CO : collected k1 k2 k3 k4 (r1 ++ r2)).
  { split; [|split].
    - intros i o H. apply in_app_or in H. destruct H as [H|H].
      + destruct (A1 i o H) as (n & a & b & c & d & -> & X & Y). exists a, b, c, d. split; auto. apply recorded_zip; auto.
      + destruct (A2 i o H) as (n & a & b & c & d & -> & X & Y). exists a, b, c, d. split; auto. apply recorded_zip; auto.
    - intros [s n] a b c d H. apply recorded_zip in H. destruct s.
      + destruct (B2 n a b c d H) as [X|(o & X & Y)]; auto. right. exists o. split; auto. apply in_or_app; auto.
      + destruct (B1 n a b c d H) as [X|(o & X & Y)]; auto. right. exists o. split; auto. apply in_or_app; auto.
    - unfold distinct. rewrite map_app. clear B1 B2.
      assert (DJ : forall x, In x (map fst r1) -> In x (map fst r2) -> False).
      { intros x X1 X2. apply in_map_iff in X1, X2. destruct X1 as ([j1 o1] & <- & X1), X2 as ([j2 o2] & E & X2).
        destruct (A1 _ _ X1) as (? & ? & ? & ? & ? & Y1 & _). destruct (A2 _ _ X2) as (? & ? & ? & ? & ? & Y2 & _).
        cbn in E. congruence. }
      clear A1 A2. unfold distinct in C1. induction (map fst r1); cbn; auto. inv C1. constructor.
      + intros X. apply in_app_or in X. destruct X as [X|X]; [auto|]. eapply DJ; [left; reflexivity|auto].
      + apply IHl; auto. intros; eapply DJ; [right|]; eauto. }
  destruct (forallb nonneg_plus (r1 ++ r2)) eqn:E; eauto.
Qed.

(** Positivity of all recorded counts. *)
Definition positive_counts (k : counts_t) : Prop := forall i n, counts_at k i = Some n -> 1 <= n.

Lemma got_sign a b c d o : 0 < a -> py_calculate_diff a b c d = DGot o ->
  (nonneg_plus ((false, 0%nat), o) = true <-> a <= b) /\ (b < a -> exists e, o = Plus e /\ e < 0)
  /\ (nonneg_plus ((false, 0%nat), o) = true -> b <= c <= d).
Proof.
  intros Ha H. destruct o as [p|m k]; unfold nonneg_plus; cbn.
  - apply py_diff_plus in H. split; [|split].
    + split; intros; zb; try lia.
    + intros. exists p. split; auto. lia.
    + intros; zb; lia.
  - apply py_diff_mult in H; auto. split; [|split]; try tauto; try lia.
Qed.

Lemma make_rule_infinite_iff k1 k2 k3 k4 : positive_counts k1 ->
  py_make_rule k1 k2 k3 k4 = RInfinite <->
  (forall i a b c d, recorded k1 k2 k3 k4 i a b c d ->
     a <= b /\ (py_calculate_diff a b c d = DNone \/ exists o, py_calculate_diff a b c d = DGot o)).
Proof.
  intros P. pose proof (make_rule_spec k1 k2 k3 k4) as MS. split.
  - intros E. rewrite E in MS. destruct MS as (r & (A & B & C) & F). intros i a b c d H.
    assert (0 < a) by (assert (1 <= a) by (eapply P; apply H); lia).
    destruct (B i a b c d H) as [X|(o & X & Y)].
    + split; auto. apply py_diff_none in X. lia.
    + split; eauto. rewrite forallb_forall in F. specialize (F _ Y).
      apply (got_sign a b c d o); auto.
  - intros G.
    assert (NF : forall f, failed k1 k2 k3 k4 f -> f = DNone \/ exists o, f = DGot o).
    { intros f (i & a & b & c & d & H & <-). destruct (G _ _ _ _ _ H) as (_ & X). auto. }
    destruct (py_make_rule k1 k2 k3 k4) as [r| | |x y|] eqn:E; auto;
      try (destruct (NF _ MS) as [?|(? & ?)]; discriminate).
    destruct MS as ((A & B & C) & F). exfalso.
    assert (forallb nonneg_plus r = true) as Z; [|congruence].
    apply forallb_forall. intros [i o] H. destruct (A i o H) as (a & b & c & d & R & D).
    assert (0 < a) by (assert (1 <= a) by (eapply P; apply R); lia).
    apply (got_sign a b c d o); auto. apply (G i a b c d R).
Qed.

Lemma make_rule_rule k1 k2 k3 k4 r : positive_counts k1 ->
  py_make_rule k1 k2 k3 k4 = RRule r ->
  distinct r
  /\ (exists i d, In (i, Plus d) r /\ d < 0)
  /\ (forall i a b c d, recorded k1 k2 k3 k4 i a b c d ->
        (a = b /\ b = c /\ c = d /\ forall o, ~ In (i, o) r)
        \/ exists o, In (i, o) r /\ b <> a /\ bump_op o a = b /\ bump_op o b = c
             /\ (d / c = b / a -> bump_op o c = d) /\ (forall p, o = Plus p -> bump_op o c = d))
  /\ (forall i o, In (i, o) r -> exists a b c d, recorded k1 k2 k3 k4 i a b c d).
Proof.
  intros P E. pose proof (make_rule_spec k1 k2 k3 k4) as MS. rewrite E in MS.
  destruct MS as ((A & B & C) & F). split; auto. split; [|split].
  - assert (G : exists e, In e r /\ nonneg_plus e = false).
    { clear -F. induction r as [|e r IH]; cbn in F; [discriminate|].
      destruct (nonneg_plus e) eqn:N; [destruct (IH F) as (x & ? & ?); exists x; split; [right|]; auto|].
      exists e. split; [left; auto|auto]. }
    destruct G as ([i o] & I1 & N1). destruct o as [d|m k]; [|discriminate].
    unfold nonneg_plus in N1. cbn in N1. zb. eauto.
  - intros i a b c d H.
    assert (0 < a) by (assert (1 <= a) by (eapply P; apply H); lia).
    destruct (B i a b c d H) as [X|(o & X & Y)].
    + pose proof (py_diff_none _ _ _ _ X). left. repeat split; try lia.
      intros o Ho. destruct (A i o Ho) as (a' & b' & c' & d' & R & D).
      destruct H as (V1 & V2 & V3 & V4), R as (R1 & R2 & R3 & R4). congruence.
    + right. exists o. split; auto. destruct o as [p|m k]; cbn.
      * apply py_diff_plus in X. repeat split; try lia.
      * apply py_diff_mult in X; auto. repeat split; try lia; try discriminate.
  - intros i o H. destruct (A i o H) as (a & b & c & d & R & _). eauto.
Qed.

(** ** Rust calculate_diff *)

Lemma as_i32_small n : 0 <= n < 2 ^ 31 -> as_i32 n = n.
Proof. intros H. unfold as_i32. rewrite Z.mod_small; lia. Qed.

Lemma in_i32_iff n : in_i32 n = true <-> - 2 ^ 31 <= n < 2 ^ 31.
Proof. unfold in_i32. rewrite andb_true_iff, Z.leb_le, Z.ltb_lt. tauto. Qed.

Lemma rs_diff_spec a b c d : 1 <= a < 2 ^ 31 -> 1 <= b < 2 ^ 31 -> 1 <= c < 2 ^ 31 -> 1 <= d < 2 ^ 31 ->
  match rs_calculate_diff (as_i32 a) (as_i32 b) (as_i32 c) (as_i32 d) with
  | RsSame => a = b /\ b = c /\ c = d
  | RsGot (Plus p) => p <> 0 /\ explains (Plus p) a b c d
  | RsGot (Mult m k) => 2 <= m /\ explains (Mult m k) a b c d
  | RsUnknown => True
  | RsPanic => False
  end.
Proof.
  intros Ha Hb Hc Hd. rewrite !as_i32_small by lia. unfold rs_calculate_diff.
  destruct ((a =? b) && (b =? c) && (c =? d)) eqn:E1; [zb; lia|].
  replace (in_i32 (b - a)) with true by (symmetry; apply in_i32_iff; lia).
  replace (in_i32 (c - b)) with true by (symmetry; apply in_i32_iff; lia).
  replace (in_i32 (d - c)) with true by (symmetry; apply in_i32_iff; lia).
  cbn [negb].
  assert (DM : forall x y, 1 <= x -> 1 <= y -> rs_divmod x y = Some (x / y, x mod y)).
  { intros x y Hx Hy. unfold rs_divmod.
    replace ((y =? 0) || ((x =? - 2 ^ 31) && (y =? -1))) with false.
    - rewrite Z.quot_div_nonneg, Z.rem_mod_nonneg by lia. auto.
    - symmetry. rewrite orb_false_iff, andb_false_iff, !Z.eqb_neq. lia. }
  rewrite !DM by lia.
  replace ((a =? 0) || (b =? 0)) with false by (symmetry; rewrite orb_false_iff, !Z.eqb_neq; lia).
  assert (NP : ~ (c - b = b - a /\ d - c = c - b) ->
    match (if (b / a =? c / b) && (b mod a =? c mod b)
      then if (c / b =? d / c) && (c mod b =? d mod c) then RsGot (Mult (b / a) (b mod a)) else RsUnknown
      else RsUnknown) with
    | RsSame => a = b /\ b = c /\ c = d
    | RsGot (Plus p) => p <> 0 /\ explains (Plus p) a b c d
    | RsGot (Mult m k) => 2 <= m /\ explains (Mult m k) a b c d
    | RsUnknown => True
    | RsPanic => False
    end).
  { intros NL. destruct ((b / a =? c / b) && (b mod a =? c mod b)) eqn:E2; auto.
    destruct ((c / b =? d / c) && (c mod b =? d mod c)) eqn:E3; auto. zb.
    pose proof (Z.div_mod b a ltac:(lia)) as D1. pose proof (Z.mod_pos_bound b a ltac:(lia)) as M1.
    pose proof (Z.div_mod c b ltac:(lia)) as D2. pose proof (Z.mod_pos_bound c b ltac:(lia)) as M2.
    pose proof (Z.div_mod d c ltac:(lia)) as D3. pose proof (Z.mod_pos_bound d c ltac:(lia)) as M3.
    unfold explains, bump_op.
    set (q1 := b / a) in *. set (r1 := b mod a) in *.
    set (q2 := c / b) in *. set (r2 := c mod b) in *.
    set (q3 := d / c) in *. set (r3 := d mod c) in *.
    clearbody q1 r1 q2 r2 q3 r3. subst q2 r2 q3 r3.
    assert (q1 <> 0) by (intros ->; nia).
    assert (q1 <> 1) by (intros ->; nia).
    assert (0 < q1) by nia.
    repeat split; nia. }
  destruct (Z.eqb_spec (b - a) (c - b)) as [X|X]; [|apply NP; lia].
  destruct (Z.eqb_spec (c - b) (d - c)) as [Y|Y]; [|apply NP; lia].
  unfold explains, bump_op. repeat split; try lia.
Qed.

(** ** Rust apply_rule *)

Definition additive (r : rule) : Prop := forall i o, In (i, o) r -> exists d, o = Plus d.

Definition one_decreasing (r : rule) : Prop :=
  forall i d j e, In (i, Plus d) r -> In (j, Plus e) r -> d < 0 -> e < 0 -> i = j.

Definition to_rs_apps (a : apps_res) : rs_apps :=
  match a with AIndex => RAPanic | ANone => RANone | ASome t p r => RASome t p r end.

Lemma rs_py_count_apps r t : additive r -> forall apps,
  rs_count_apps r t (to_rs_apps apps) = to_rs_apps (py_count_apps r t apps).
Proof.
  intros AD. induction r as [|[i o] r IH]; intros apps; auto.
  assert (AD' : additive r) by (intros j o' H; apply (AD j o'); right; auto).
  destruct (AD i o (or_introl eq_refl)) as (d & ->). cbn [rs_count_apps py_count_apps].
  destruct (0 <=? d); [apply IH; auto|].
  destruct (get_count t i) as [c|]; auto.
  destruct (c <=? Z.abs d); auto.
  destruct (if 0 <? c mod Z.abs d then _ else _) as [ti res].
  destruct apps as [| |t0 p0 r0]; cbn [to_rs_apps].
  - rewrite <- (IH AD' (ASome ti i res)). auto.
  - rewrite <- (IH AD' (ASome ti i res)). auto.
  - destruct (ti <? t0).
    + rewrite <- (IH AD' (ASome ti i res)). auto.
    + rewrite <- (IH AD' (ASome t0 p0 r0)). auto.
Qed.

Lemma rs_py_apply_loop T p res : 0 <= T -> forall r t t',
  additive r -> distinct r -> addressed r t ->
  (forall d, In (p, Plus d) r -> d < 0) ->
  (forall i d, In (i, Plus d) r -> i <> p -> 0 <= d) ->
  (forall i n, get_count t' i = Some n -> n <= u64_max) ->
  py_apply_loop r t T p res = EvApplied T t' ->
  rs_apply_loop r t T p res = RsApplied (Some T) t'.
Proof.
  intros HT. induction r as [|[i o] r IH]; intros t t' AD D A HP HN HU E.
  - cbn in *. inv E. auto.
  - destruct (AD i o (or_introl eq_refl)) as (d & ->).
    pose proof (apply_loop_spec T p res ((i, Plus d) :: r) t D A) as SP. rewrite E in SP.
    destruct SP as (_ & _ & _ & GI & _).
    cbn [py_apply_loop rs_apply_loop] in *.
    destruct (A i (Plus d) (or_introl eq_refl)) as (c & Gc & Pc). rewrite Gc in *.
    specialize (GI i (Plus d) c (or_introl eq_refl) Gc). cbn [target] in GI.
    assert (REC : forall v t1, set_count t i v = Some t1 -> py_apply_loop r t1 T p res = EvApplied T t' ->
       rs_apply_loop r t1 T p res = RsApplied (Some T) t').
    { intros v t1 S1 E1. inv D. apply IH; auto.
      - intros j o' H. apply (AD j o'). right; auto.
      - intros j o' Hj. destruct (set_count_spec t i v c Gc) as (t1' & S1' & _ & G1). rewrite S1 in S1'. inv S1'.
        rewrite G1. destruct (index_eqb_spec j i) as [->|N].
        + exfalso. apply H1. apply (in_map fst) in Hj. auto.
        + apply (A j o'). right; auto.
      - intros d' H. apply HP. right; auto.
      - intros j d' H N. apply (HN j d'); auto. right; auto. }
    destruct (index_eqb_spec i p) as [->|N]; cbn [negb] in *.
    + replace (d <? 0) with true by (symmetry; apply Z.ltb_lt; apply HP; left; auto).
      destruct (set_count t p res) as [t1|] eqn:S1; [|discriminate]. eapply REC; eauto.
    + assert (Hd : 0 <= d) by (apply (HN i d); auto; left; auto).
      apply HU in GI. unfold rs_apply_plus. rewrite Z.abs_eq by lia.
      assert (0 <= d * T) by nia.
      destruct (Z.ltb_spec u64_max (d * T)); [lia|].
      destruct (Z.ltb_spec u64_max (c + d * T)); [lia|].
      destruct (set_count t i (c + d * T)) as [t1|] eqn:S1; [|discriminate]. eapply REC; eauto.
Qed.

Lemma rs_py_apply_rule r t :
  additive r -> distinct r -> addressed r t -> one_decreasing r ->
  match py_apply_rule r t with
  | EvNone => rs_apply_rule r t = RsApplied None t
  | EvApplied times t' =>
      (forall i n, get_count t' i = Some n -> n <= u64_max) ->
      rs_apply_rule r t = RsApplied (Some times) t'
  | _ => False
  end.
Proof.
  intros AD D A OD.
  pose proof (py_apply_rule_spec r t D A) as SP.
  unfold py_apply_rule, rs_apply_rule in *.
  change RANone with (to_rs_apps ANone). rewrite (rs_py_count_apps r t AD ANone).
  pose proof (count_apps_spec r t ANone A I) as CA.
  destruct (py_count_apps r t ANone) as [| |T p res]; cbn [to_rs_apps]; auto.
  destruct CA as (T1 & [X|(d0 & c0 & I0 & Hd0 & G0 & R0 & B0)] & _); [discriminate|].
  pose proof (apply_loop_spec T p res r t D A) as AL.
  destruct (py_apply_loop r t T p res) as [| | |T' t'] eqn:E; try tauto.
  - destruct AL as (i & m & a & H). destruct (AD _ _ H). discriminate.
  - destruct AL as (-> & _). intros HU. eapply rs_py_apply_loop; eauto; [lia| |].
    + intros d H. assert (rule_at r p = Some (Plus d)) by (apply rule_at_In; auto).
      assert (rule_at r p = Some (Plus d0)) by (apply rule_at_In; auto). congruence.
    + intros i d H N. destruct (Z.le_gt_cases 0 d); auto. exfalso. apply N. eapply OD; eauto.
Qed.
