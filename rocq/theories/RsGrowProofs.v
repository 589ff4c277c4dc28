(** * Rust: what make_rule puts into a rule, and what an infrul means when the rules held are laws *)
From Verif Require Import Base TM TMFacts ProgModel TapeModel TapeSpec TapeProofs RulesModel RulesSpec RulesProofs
  DiffProofs PastModel EnumModel QuickModel QuickProofs ProverModel MachineProofs EdgeProofs LawSpec LawProofs RsLawProofs.

(** ** make_rule *)
Notation rs_diff a b c d := (rs_calculate_diff (as_i32 a) (as_i32 b) (as_i32 c) (as_i32 d)).
Lemma rs_rule_side_spec s : forall zs i,
  match rs_rule_side s i zs with
  | RsRule r =>
      (forall j o, In (j, o) r -> exists n a b c d, j = (s, (i + n)%nat) /\ side_recorded zs n a b c d /\ rs_diff a b c d = RsGot o)
      /\ (forall n a b c d, side_recorded zs n a b c d ->
            rs_diff a b c d = RsSame \/ exists o, rs_diff a b c d = RsGot o /\ In ((s, (i + n)%nat), o) r)
  | RsNoRule => exists n a b c d, side_recorded zs n a b c d /\ rs_diff a b c d = RsUnknown
  | RsRulePanic => exists n a b c d, side_recorded zs n a b c d /\ rs_diff a b c d = RsPanic
  end.
Proof.
  induction zs as [|[[[a b] c] d] zs IH]; intros i; cbn [rs_rule_side].
  - split; [intros ? ? []|]. intros [|n]; discriminate.
  - assert (L : forall P, (exists n a b c d, side_recorded zs n a b c d /\ P a b c d) ->
       exists n a' b' c' d', side_recorded ((a, b, c, d) :: zs) n a' b' c' d' /\ P a' b' c' d').
    { intros P (n & a' & b' & c' & d' & X). exists (S n), a', b', c', d'. exact X. }
    destruct (rs_diff a b c d) as [| |o|] eqn:E.
    + specialize (IH (S i)). destruct (rs_rule_side s (S i) zs) as [r| |] eqn:F;
        try (apply (L (fun a b c d => rs_diff a b c d = _)); exact IH).
      destruct IH as (A & B). split.
      * intros j o Hj. destruct (A j o Hj) as (n & a' & b' & c' & d' & X & Y).
        exists (S n), a', b', c', d'. split; [rewrite X; f_equal; lia|auto].
      * intros [|n] a' b' c' d' H.
        -- inv H. auto.
        -- destruct (B n a' b' c' d' H) as [X|(o & X & Y)]; auto. right. exists o. split; auto.
           replace (i + S n)%nat with (S i + n)%nat by lia. auto.
    + exists 0%nat, a, b, c, d. split; [reflexivity|auto].
    + specialize (IH (S i)). destruct (rs_rule_side s (S i) zs) as [r| |] eqn:F;
        try (apply (L (fun a b c d => rs_diff a b c d = _)); exact IH).
      destruct IH as (A & B). split.
      * intros j o' [X|Hj].
        -- inv X. exists 0%nat, a, b, c, d. split; [f_equal; lia|]. split; [reflexivity|auto].
        -- destruct (A j o' Hj) as (n & a' & b' & c' & d' & X & Y).
           exists (S n), a', b', c', d'. split; [rewrite X; f_equal; lia|auto].
      * intros [|n] a' b' c' d' H.
        -- inv H. right. exists o. split; auto. left. f_equal. f_equal. lia.
        -- destruct (B n a' b' c' d' H) as [X|(o' & X & Y)]; auto. right. exists o'. split; auto.
           right. replace (i + S n)%nat with (S i + n)%nat by lia. auto.
    + exists 0%nat, a, b, c, d. split; [reflexivity|auto].
Qed.

Lemma rs_make_rule_spec k1 k2 k3 k4 :
  match rs_make_rule k1 k2 k3 k4 with
  | RsRule r => distinct r
      /\ (forall i o, In (i, o) r -> exists a b c d, recorded k1 k2 k3 k4 i a b c d /\ rs_diff a b c d = RsGot o)
      /\ (forall i a b c d, recorded k1 k2 k3 k4 i a b c d -> rs_diff a b c d = RsSame \/ exists o, rs_diff a b c d = RsGot o /\ In (i, o) r)
  | RsNoRule => exists i a b c d, recorded k1 k2 k3 k4 i a b c d /\ rs_diff a b c d = RsUnknown
  | RsRulePanic => exists i a b c d, recorded k1 k2 k3 k4 i a b c d /\ rs_diff a b c d = RsPanic
  end.
Proof.
  destruct (rs_make_rule k1 k2 k3 k4) as [r| |] eqn:E.
  1: assert (DS : distinct r) by (eapply rs_make_rule_distinct; eauto).
  all: unfold rs_make_rule in E;
    pose proof (rs_rule_side_spec false (zipped k1 k2 k3 k4 false) 0) as S1;
    pose proof (rs_rule_side_spec true (zipped k1 k2 k3 k4 true) 0) as S2;
    change (zip4 (fst k1) (fst k2) (fst k3) (fst k4)) with (zipped k1 k2 k3 k4 false) in E;
    change (zip4 (snd k1) (snd k2) (snd k3) (snd k4)) with (zipped k1 k2 k3 k4 true) in E;
    destruct (rs_rule_side false 0 (zipped k1 k2 k3 k4 false)) as [r1| |]; try discriminate E;
    try match type of E with context [rs_rule_side true] =>
      destruct (rs_rule_side true 0 (zipped k1 k2 k3 k4 true)) as [r2| |]; try discriminate E end.
  - injection E as <-. destruct S1 as (A1 & B1), S2 as (A2 & B2). split; [exact DS|]. split.
    + intros i o H. apply in_app_or in H. destruct H as [H|H].
      * destruct (A1 i o H) as (n & a & b & c & d & -> & X & Y). exists a, b, c, d. split; auto. apply recorded_zip; auto.
      * destruct (A2 i o H) as (n & a & b & c & d & -> & X & Y). exists a, b, c, d. split; auto. apply recorded_zip; auto.
    + intros [s n] a b c d H. apply recorded_zip in H. destruct s.
      * destruct (B2 n a b c d H) as [X|(o & X & Y)]; auto. right. exists o. split; auto. apply in_or_app; auto.
      * destruct (B1 n a b c d H) as [X|(o & X & Y)]; auto. right. exists o. split; auto. apply in_or_app; auto.
  - destruct S2 as (n & a & b & c & d & X & Y). exists (true, n), a, b, c, d. split; auto. apply recorded_zip; auto.
  - destruct S1 as (n & a & b & c & d & X & Y). exists (false, n), a, b, c, d. split; auto. apply recorded_zip; auto.
  - destruct S2 as (n & a & b & c & d & X & Y). exists (true, n), a, b, c, d. split; auto. apply recorded_zip; auto.
  - destruct S1 as (n & a & b & c & d & X & Y). exists (false, n), a, b, c, d. split; auto. apply recorded_zip; auto.
Qed.

(** All counts positive and less than 2^31. *)
Definition small_counts (k : counts_t) : Prop := forall i n, counts_at k i = Some n -> 1 <= n < 2 ^ 31.
Lemma rs_mult_add a b c d m k : 1 <= a < 2 ^ 31 -> 1 <= b < 2 ^ 31 -> 1 <= c < 2 ^ 31 -> 1 <= d < 2 ^ 31 ->
  rs_diff a b c d = RsGot (Mult m k) -> 0 <= k.
Proof.
  intros Ha Hb Hc Hd. rewrite !as_i32_small by lia. unfold rs_calculate_diff.
  destruct (_ && _ && _); [discriminate|]. destruct (negb (in_i32 (b - a))); [discriminate|]. destruct (negb (in_i32 (c - b))); [discriminate|].
  assert (X : (if (a =? 0) || (b =? 0) then RsUnknown
      else match rs_divmod b a, rs_divmod c b with
           | Some (q1, r1), Some (q2, r2) =>
               if (q1 =? q2) && (r1 =? r2)
               then match rs_divmod d c with
                    | None => RsPanic
                    | Some (q3, r3) => if (q2 =? q3) && (r2 =? r3) then RsGot (Mult q1 r1) else RsUnknown
                    end
               else RsUnknown
           | _, _ => RsPanic
           end) = RsGot (Mult m k) -> 0 <= k).
  { destruct (_ || _); [discriminate|]. unfold rs_divmod at 1. destruct ((a =? 0) || _); [discriminate|].
    destruct (rs_divmod c b) as [[q2 r2]|]; [|discriminate]. destruct (_ && _); [|discriminate].
    destruct (rs_divmod d c) as [[q3 r3]|]; [|discriminate]. destruct (_ && _); [|discriminate].
    intros Y. injection Y as _ <-. pose proof (Z.rem_bound_pos b a). lia. }
  cbn zeta. destruct (b - a =? c - b); [|exact X]. destruct (negb (in_i32 (d - c))); [discriminate|]. destruct (c - b =? d - c); [discriminate|exact X].
Qed.

Lemma rs_unknown a b c d : 1 <= a < 2 ^ 31 -> 1 <= b < 2 ^ 31 -> 1 <= c < 2 ^ 31 -> 1 <= d < 2 ^ 31 ->
  rs_diff a b c d = RsUnknown ->
  ~ (a = b /\ b = c /\ c = d) /\ (forall p, ~ explains (Plus p) a b c d) /\ (forall m k, 1 <= m -> 0 <= k < a -> ~ explains (Mult m k) a b c d).
Proof.
  intros Ha Hb Hc Hd. rewrite !as_i32_small by lia. unfold rs_calculate_diff.
  destruct ((a =? b) && (b =? c) && (c =? d)) eqn:E1; [discriminate|].
  replace (in_i32 (b - a)) with true by (symmetry; apply in_i32_iff; lia).
  replace (in_i32 (c - b)) with true by (symmetry; apply in_i32_iff; lia).
  replace (in_i32 (d - c)) with true by (symmetry; apply in_i32_iff; lia).
  cbn [negb].
  assert (DM : forall x y, 1 <= x -> 1 <= y -> rs_divmod x y = Some (x / y, x mod y)).
  { intros x y Hx Hy. unfold rs_divmod.
    replace ((y =? 0) || ((x =? - 2 ^ 31) && (y =? -1))) with false.
    - rewrite Z.quot_div_nonneg, Z.rem_mod_nonneg by lia. auto.
    - symmetry. rewrite orb_false_iff, andb_false_iff, !Z.eqb_neq. lia. }
  rewrite !DM by lia.
  replace ((a =? 0) || (b =? 0)) with false by (symmetry; rewrite orb_false_iff, !Z.eqb_neq; lia).
  cbn zeta. intros U.
  assert (P : ~ (b - a = c - b /\ c - b = d - c)).
  { intros (X & Y). apply Z.eqb_eq in X, Y. rewrite X, Y in U. discriminate. }
  assert (V : (if (b / a =? c / b) && (b mod a =? c mod b)
      then if (c / b =? d / c) && (c mod b =? d mod c) then RsGot (Mult (b / a) (b mod a)) else RsUnknown
      else RsUnknown) = RsUnknown).
  { destruct (b - a =? c - b); [|exact U]. destruct (c - b =? d - c); [discriminate|exact U]. }
  clear U. split; [lia|]. split.
  - intros p (X & Y & Z). cbn in X, Y, Z. lia.
  - intros m k Hm Hk (X & Y & Z). cbn in X, Y, Z.
    assert (AB : a <= b) by (clear - X Hm Hk; nia). assert (BC : b <= c) by (clear - Y Hm Hk Hb; nia).
    assert (U : forall x y, y = m * x + k -> k < x -> y / x = m /\ y mod x = k).
    { clear - Hk. intros x y E L. split; symmetry; [apply (Z.div_unique_pos y x m k)|apply (Z.mod_unique_pos y x m k)]; lia. }
    destruct (U a b) as (Q1 & R1); [lia|lia|]. destruct (U b c) as (Q2 & R2); [lia|lia|]. destruct (U c d) as (Q3 & R3); [lia|lia|].
    rewrite Q1, R1, Q2, R2, Q3, R3, !Z.eqb_refl in V. discriminate.
Qed.

Lemma rs_make_rule_contents k1 k2 k3 k4 : small_counts k1 -> small_counts k2 -> small_counts k3 -> small_counts k4 ->
  match rs_make_rule k1 k2 k3 k4 with
  | RsRule r => distinct r
      /\ (forall i a b c d, recorded k1 k2 k3 k4 i a b c d ->
            (a = b /\ b = c /\ c = d) \/ exists o, In (i, o) r /\ explains o a b c d)
      /\ (forall i o, In (i, o) r -> exists a b c d, recorded k1 k2 k3 k4 i a b c d /\ ~ (a = b /\ b = c /\ c = d) /\ explains o a b c d)
      /\ (forall i m k, In (i, Mult m k) r -> 2 <= m /\ 0 <= k)
      /\ (nothing_decreases r <-> forall i a b c d, recorded k1 k2 k3 k4 i a b c d -> a <= b)
  | RsNoRule => exists i a b c d, recorded k1 k2 k3 k4 i a b c d /\ ~ (a = b /\ b = c /\ c = d)
      /\ (forall p, ~ explains (Plus p) a b c d) /\ (forall m k, 1 <= m -> 0 <= k < a -> ~ explains (Mult m k) a b c d)
  | RsRulePanic => False
  end.
Proof.
  intros P1 P2 P3 P4. pose proof (rs_make_rule_spec k1 k2 k3 k4) as S.
  assert (SM : forall i a b c d, recorded k1 k2 k3 k4 i a b c d -> 1 <= a < 2 ^ 31 /\ 1 <= b < 2 ^ 31 /\ 1 <= c < 2 ^ 31 /\ 1 <= d < 2 ^ 31).
  { intros i a b c d (A & B & C & D). split; [apply (P1 i); auto|]. split; [apply (P2 i); auto|]. split; [apply (P3 i)|apply (P4 i)]; auto. }
  destruct (rs_make_rule k1 k2 k3 k4) as [r| |]; auto.
  - destruct S as (DS & A & B).
    assert (EX : forall i a b c d o, recorded k1 k2 k3 k4 i a b c d -> rs_diff a b c d = RsGot o ->
      explains o a b c d /\ ~ (a = b /\ b = c /\ c = d) /\ (nonneg_plus (i, o) = true <-> a <= b)).
    { intros i a b c d o R G. destruct (SM _ _ _ _ _ R) as (Ha & Hb & Hc & Hd). pose proof (rs_diff_spec a b c d Ha Hb Hc Hd) as X.
      rewrite G in X. destruct o as [p|m k].
      - destruct X as (X1 & X2). split; auto. destruct X2 as (X2 & X3 & X4). cbn in X2, X3, X4. split; [lia|].
        unfold nonneg_plus. cbn. rewrite Z.leb_le. lia.
      - destruct X as (X1 & X2). pose proof (rs_mult_add a b c d m k Ha Hb Hc Hd G) as K. split; auto.
        destruct X2 as (X2 & X3 & X4). cbn in X2, X3, X4. split; [nia|]. cbn. split; [nia|auto]. }
    split; auto. split; [|split; [|split]].
    + intros i a b c d R. destruct (B i a b c d R) as [X|(o & X & Y)].
      * left. destruct (SM _ _ _ _ _ R) as (Ha & Hb & Hc & Hd). pose proof (rs_diff_spec a b c d Ha Hb Hc Hd) as Z. rewrite X in Z. exact Z.
      * right. exists o. split; auto. apply (EX i a b c d o R X).
    + intros i o I. destruct (A i o I) as (a & b & c & d & R & G). exists a, b, c, d. split; auto.
      destruct (EX i a b c d o R G) as (X & Y & _). auto.
    + intros i m k I. destruct (A i _ I) as (a & b & c & d & R & G). destruct (SM _ _ _ _ _ R) as (Ha & Hb & Hc & Hd).
      pose proof (rs_diff_spec a b c d Ha Hb Hc Hd) as Z. rewrite G in Z. destruct Z. split; auto. exact (rs_mult_add a b c d m k Ha Hb Hc Hd G).
    + assert (NN : nothing_decreases r <-> forallb nonneg_plus r = true).
      { rewrite forallb_forall. split.
        - intros N [i [p|m k]] I; cbn; auto. apply Z.leb_le. eapply N; eauto.
        - intros N i p I. specialize (N _ I). cbn in N. apply Z.leb_le; auto. }
      rewrite NN, forallb_forall. split.
      * intros F i a b c d R. destruct (B i a b c d R) as [X|(o & X & Y)].
        -- destruct (SM _ _ _ _ _ R) as (Ha & Hb & Hc & Hd). pose proof (rs_diff_spec a b c d Ha Hb Hc Hd) as Z. rewrite X in Z. lia.
        -- apply (EX i a b c d o R X). apply F. auto.
      * intros F [i o] I. destruct (A i o I) as (a & b & c & d & R & G). apply (EX i a b c d o R G). eapply F; eauto.
  - destruct S as (i & a & b & c & d & R & G). destruct (SM _ _ _ _ _ R) as (Ha & Hb & Hc & Hd).
    exists i, a, b, c, d. split; auto. apply rs_unknown; auto.
  - destruct S as (i & a & b & c & d & R & G). destruct (SM _ _ _ _ _ R) as (Ha & Hb & Hc & Hd).
    pose proof (rs_diff_spec a b c d Ha Hb Hc Hd) as Z. rewrite G in Z. exact Z.
Qed.

(** ** Growth seen *)
Section law.
Variable (M : program).
Definition goes (state : Z) (t : tape) (s : Z) (t' : tape) : Prop :=
  forall c, represents t c -> c_state c = state -> exists m c', steps M m c = Some c' /\ c_state c' = s /\ represents t' c'.

Lemma lasts_less k k' : k <= k' -> lasts M k' -> lasts M k.
Proof. intros L H n N. apply H. lia. Qed.

Lemma rs_simulate_goes pv : lawful M pv -> pv_plain pv -> (forall s ms r, holds_rule pv s ms r -> one_goes_down r) ->
  forall k state t s t' n c, steps M n init = Some c -> canon t -> represents t c -> c_state c = state ->
  rs_simulate M pv k state t = SimEnd s t' -> lasts M (2 ^ 64) \/ (canon t' /\ goes state t s t').
Proof.
  intros L D O. induction k as [|k IH]; intros state t s t' n c E C R S H; cbn [rs_simulate] in H.
  - inv H. right. split; auto. intros c2 R2 S2. exists 0%nat, c2. auto.
  - pose proof (canon_wf _ C) as W.
    assert (G : match M state (t_scan t) with
        | None => SimKey t
        | Some (color, shift, next_state) => rs_simulate M pv k next_state (fst (rs_step t shift color (state =? next_state)))
        end = SimEnd s t' -> lasts M (2 ^ 64) \/ (canon t' /\ goes state t s t')).
    { clear H. destruct (M state (t_scan t)) as [[[color shift] next]|] eqn:EM; [|discriminate]. intros H.
      destruct (rs_step t shift color (state =? next)) as [t1 j] eqn:ES. pose proof ES as ES'. rewrite <- py_rs_step in ES' by auto.
      destruct (prog_step M _ _ _ _ _ _ _ _ C R S EM ES') as (_ & C1 & c1 & A1 & R1 & S1).
      destruct (IH next t1 s t' (n + Z.to_nat j)%nat c1) as [X|(C' & X)]; auto.
      { rewrite (steps_add_some _ _ _ _ _ E). auto. }
      right. split; auto. intros c2 R2 S2.
      destruct (prog_step M _ _ _ _ _ _ _ _ C R2 S2 EM ES') as (_ & _ & c3 & A3 & R3 & S3).
      destruct (X c3 R3 S3) as (m & c' & A' & Y). exists (Z.to_nat j + m)%nat, c'. rewrite (steps_add_some _ _ _ _ _ A3). auto. }
    destruct (get_rule pv state (t_scan t) (t_signature t)) as [r|] eqn:GR; [|auto].
    destruct (get_rule_covers _ _ _ _ GR) as (ms & HR & CV). destruct (D _ _ _ HR) as (DD & DA).
    destruct (rs_apply_rule r t) as [x t1|] eqn:AP; [|discriminate].
    destruct (rs_law_applied M state r t x t1 n c C DD DA (O _ _ _ HR) (L _ _ _ _ _ HR CV C) E R S AP) as [X|X]; [auto|].
    destruct x as [times|]; [|subst t1; auto].
    destruct X as (C1 & _ & L1). destruct (L1 c R S) as (j & c1 & _ & A1 & S1 & R1).
    destruct (IH state t1 s t' (n + j)%nat c1) as [X|(C' & X)]; auto.
    { rewrite (steps_add_some _ _ _ _ _ E). auto. }
    right. split; auto. intros c2 R2 S2. destruct (L1 c2 R2 S2) as (j' & c3 & _ & A3 & S3 & R3).
    destruct (X c3 R3 S3) as (m & c' & A' & Y). exists (j' + m)%nat, c'. rewrite (steps_add_some _ _ _ _ _ A3). auto.
Qed.

Lemma rs_delta_counts_leads pv state t0 : lawful M pv -> pv_plain pv -> (forall s ms r, holds_rule pv s ms r -> one_goes_down r) ->
  forall ds t cs n c, steps M n init = Some c -> canon t -> represents t c -> c_state c = state ->
  rs_delta_counts M pv state (t_signature t0) ds t = inl cs ->
  lasts M (2 ^ 64) \/ exists ts, cs = map t_counts ts /\ length ts = length ds
    /\ Forall (fun u => canon u /\ t_sig_compatible u (t_signature t0) = true /\ exists m d, steps M m init = Some d /\ represents u d) ts
    /\ (forall u v a b, t :: ts = a ++ u :: v :: b -> leads 0 M state u v).
Proof.
  intros L D O. induction ds as [|d ds IH]; intros t cs n c E C R S H; cbn [rs_delta_counts] in H.
  - inv H. right. exists []. repeat split; auto. intros u v a b X. destruct a as [|? [|? ?]]; discriminate.
  - destruct (rs_simulate M pv (Z.to_nat d) state t) as [s t1| | |] eqn:SM; try discriminate.
    destruct (negb (s =? state) || negb (t_sig_compatible t1 (t_signature t0))) eqn:Q; [discriminate|].
    apply orb_false_iff in Q as (Q1 & Q2). apply negb_false_iff in Q1, Q2. zb. subst s.
    destruct (rs_simulate_goes pv L D O _ _ _ _ _ _ _ E C R S SM) as [X|(C1 & GO)]; [auto|].
    destruct (rs_delta_counts M pv state (t_signature t0) ds t1) as [cs'|] eqn:DC; [|discriminate]. inv H.
    destruct (GO c R eq_refl) as (m & c1 & A1 & S1 & R1).
    assert (E1 : steps M (n + m) init = Some c1) by (rewrite (steps_add_some _ _ _ _ _ E); auto).
    destruct (IH t1 cs' (n + m)%nat c1 E1 C1 R1 S1 DC) as [X|(ts & -> & LN & F & P)]; [auto|].
    right. exists (t1 :: ts). split; auto. split; [cbn; lia|]. split; [constructor; eauto 8|].
    intros u v a b X. destruct a as [|x a]; cbn in X; inv X; [|eapply P; eauto].
    intros c2 R2 S2. destruct (GO c2 R2 S2) as (m2 & c3 & X). exists m2, c3. split; [lia|auto].
Qed.

Lemma rs_grown t t1 t2 t3 state r : canon t -> canon t1 -> canon t2 -> canon t3 ->
  leads 0 M state t t1 -> leads 0 M state t1 t2 -> leads 0 M state t2 t3 ->
  (forall u, u = t1 \/ u = t2 \/ u = t3 -> t_sig_compatible u (t_signature t) = true) ->
  (forall u, u = t \/ u = t1 \/ u = t2 \/ u = t3 -> total u < 2 ^ 31) ->
  rs_make_rule (t_counts t) (t_counts t1) (t_counts t2) (t_counts t3) = RsRule r -> forallb nonneg_plus r = true ->
  grows M state t r.
Proof.
  intros C C1 C2 C3 L1 L2 L3 SC SM E F.
  assert (SK : forall u, canon u -> total u < 2 ^ 31 -> small_counts (t_counts u)).
  { intros u CU TU i n G. rewrite counts_at_get in G. apply get_count_total in G; [lia|apply canon_wf; auto]. }
  pose proof (rs_make_rule_contents (t_counts t) (t_counts t1) (t_counts t2) (t_counts t3)
    (SK t C ltac:(apply SM; auto)) (SK t1 C1 ltac:(apply SM; auto)) (SK t2 C2 ltac:(apply SM; auto)) (SK t3 C3 ltac:(apply SM; auto))) as MS.
  rewrite E in MS. destruct MS as (DS & A & B & MK & G).
  assert (ND : nothing_decreases r).
  { rewrite forallb_forall in F. intros i d I. specialize (F _ I). unfold nonneg_plus in F. cbn in F. zb. auto. }
  split; [exact ND|].
  exists t1, t2, t3. split; auto. split; auto. split; auto. split; [intros u U; apply compatible_shape; auto|].
  intros i a Ga.
  assert (U : forall u, u = t1 \/ u = t2 \/ u = t3 -> exists b, get_count u i = Some b).
  { intros u U. destruct (compatible_shape t u (SC u U)) as (_ & X & Y). eapply get_prefix; eauto. }
  destruct (U t1) as (b & Gb); auto. destruct (U t2) as (c & Gc); auto. destruct (U t3) as (d & Gd); auto.
  exists b, c, d. split; auto. split; auto. split; auto.
  assert (RC : recorded (t_counts t) (t_counts t1) (t_counts t2) (t_counts t3) i a b c d).
  { repeat split; rewrite counts_at_get; auto. }
  assert (AB : a <= b) by (eapply G; eauto).
  unfold bump. rewrite Ga, Gb.
  assert (1 <= a) by (eapply wf_count; [apply canon_wf; exact C|exact Ga]).
  destruct (A i a b c d RC) as [X|(o & X & Y)].
  - rewrite rule_at_None.
    + split; [f_equal; lia|]. split; [f_equal; lia|lia].
    + intros o I. destruct (B i o I) as (a' & b' & c' & d' & (R1 & R2 & R3 & R4) & Y & _).
      destruct RC as (R1' & R2' & R3' & R4'). apply Y. assert (a' = a) by congruence. assert (b' = b) by congruence.
      assert (c' = c) by congruence. assert (d' = d) by congruence. lia.
  - rewrite (rule_at_In _ _ _ DS X). cbn [option_map]. destruct Y as (Y1 & Y2 & Y3).
    split; [f_equal; auto|]. split; [f_equal; auto|].
    rewrite forallb_forall in F. specialize (F _ X). destruct o as [p|m k]; cbn in *; zb; [lia|].
    destruct (MK i m k X). nia.
Qed.

(** ** try_rule *)
Lemma rs_try_rule_infinite pv cycle state t pv' n c : pv_plain pv ->
  rs_try_rule M pv cycle state t = (pv', TInfinite) ->
  lawful M pv' -> (forall s ms r, holds_rule pv' s ms r -> one_goes_down r) ->
  steps M n init = Some c -> canon t -> represents t c -> c_state c = state ->
  lasts M (2 ^ 31) \/ exists r, grows M state t r.
Proof.
  intros D E L O ER C R S. unfold rs_try_rule in E. cbn zeta in E.
  destruct (get_rule pv state (t_scan t) (t_signature t)) as [r|]; [discriminate|].
  destruct (cfg_get (pv_configs pv) (t_signature t)) as [past|]; [|destruct (_ <? _); discriminate].
  destruct (pcs_next_deltas past state cycle) as [past' d].
  set (pv1 := PV (pv_rules pv) (cfg_set (pv_configs pv) (t_signature t) past')) in *.
  assert (D1 : pv_plain pv1) by exact D.
  destruct d as [| |d1 d2 d3]; try discriminate. destruct (_ || _); [discriminate|].
  destruct (rs_delta_counts M pv1 state (t_signature t) [d1; d2; d3] t) as [cs|r] eqn:DC.
  2:{ exfalso. assert (X : r = TNone \/ r = TErr); [|destruct X; subst; discriminate].
      revert DC. clear. clearbody pv1. generalize (t_signature t), [d1; d2; d3]. intros sg ds. revert t.
      induction ds as [|d ds IH]; intros t0 E; cbn [rs_delta_counts] in E; [discriminate|].
      destruct (rs_simulate _ _ _ _ _) as [s t1| | |]; try (inv E; auto; fail).
      destruct (_ || _); [inv E; auto|]. destruct (rs_delta_counts _ _ _ _ _ _) eqn:X; inv E. eauto. }
  destruct cs as [|c1 [|c2 [|c3 [|? ?]]]]; try discriminate.
  destruct (rs_make_rule (t_counts t) c1 c2 c3) as [r| |] eqn:MR; try discriminate.
  destruct (forallb nonneg_plus r) eqn:NN.
  2:{ destruct (existsb is_mult r); [discriminate|]. destruct (swap_rule r t); [discriminate|].
      destruct (rs_min_sig _ _ _ _ _ _); discriminate. }
  injection E as <-.
  destruct (rs_delta_counts_leads pv1 state t L D1 O _ _ _ _ _ ER C R S DC) as [X|(ts & ET & LN & F & P)].
  { left. eapply lasts_less; [|exact X]. lia. }
  destruct ts as [|t1 [|t2 [|t3 [|? ?]]]]; cbn in LN; try discriminate. cbn in ET. inv ET.
  inv F. inv H2. inv H4. destruct H1 as (K1 & G1 & m1 & x1 & T1 & Y1), H3 as (K2 & G2 & m2 & x2 & T2 & Y2), H2 as (K3 & G3 & m3 & x3 & T3 & Y3).
  pose proof (total_at_most M _ _ _ ER C R). pose proof (total_at_most M _ _ _ T1 K1 Y1).
  pose proof (total_at_most M _ _ _ T2 K2 Y2). pose proof (total_at_most M _ _ _ T3 K3 Y3).
  destruct (Z_lt_ge_dec (total t) (2 ^ 31)) as [B0|B0]; [|left; eapply lasts_by; [exact ER|lia]].
  destruct (Z_lt_ge_dec (total t1) (2 ^ 31)) as [B1|B1]; [|left; eapply lasts_by; [exact T1|lia]].
  destruct (Z_lt_ge_dec (total t2) (2 ^ 31)) as [B2|B2]; [|left; eapply lasts_by; [exact T2|lia]].
  destruct (Z_lt_ge_dec (total t3) (2 ^ 31)) as [B3|B3]; [|left; eapply lasts_by; [exact T3|lia]].
  right. exists r. apply (rs_grown t t1 t2 t3); auto.
  - apply (P t t1 [] [t2; t3]); auto.
  - apply (P t1 t2 [t] [t3]); auto.
  - apply (P t2 t3 [t; t1] []); auto.
  - intros u [->|[->| ->]]; auto.
  - intros u [->|[->|[->| ->]]]; auto.
Qed.

(** ** The loop *)
Definition grows_or (r : machine_result) : Prop := mr_result r = infrul -> never_halts M
  \/ exists n c t ru, steps M n init = Some c /\ represents t c /\ mr_marks r = t_marks t
      /\ grows M (c_state c) t ru /\ (law M (c_state c) ru t -> never_halts M).

Lemma rs_loop_grows fuel : forall cycle pv t state step blanks rulapp r pvx c n,
  rinv M t blanks state step rulapp c n -> pv_plain pv ->
  rs_prover_loop M fuel cycle pv t state step blanks rulapp = Some (r, pvx) ->
  lawful M pvx -> (forall s ms r, holds_rule pvx s ms r -> one_goes_down r) ->
  lasts M (2 ^ 31) \/ grows_or r.
Proof.
  induction fuel as [|fuel IH]; intros cycle pv t state step blanks rulapp r pvx c n I D E L O.
  - cbn in E. inv E. right. intros X. discriminate X.
  - rewrite rs_prover_loop_S in E. cbn zeta in E.
    pose proof I as [Hr Hrep Hc Hst Hs Hb]. pose proof (canon_wf _ Hc) as W.
    destruct (rs_try_rule M pv cycle state t) as [pv' tr] eqn:TR.
    destruct (rs_try_rule_good _ _ _ _ _ _ _ D TR) as (SM & D' & TG).
    assert (G : rs_go M fuel cycle pv' state step blanks rulapp t = Some (r, pvx) ->
      lasts M (2 ^ 31) \/ grows_or r).
    { clear E. intros E. unfold rs_go in E. cbn zeta in E.
      destruct (M state (t_scan t)) as [[[color shift] next]|] eqn:EG.
      2:{ inv E. right. intros X. discriminate X. }
      destruct ((state =? next) && t_at_edge t shift) eqn:ES.
      { inv E. right. intros X. discriminate X. }
      destruct (rs_step t shift color (state =? next)) as [tp' k] eqn:ESTEP.
      pose proof ESTEP as ESTEP'. rewrite <- py_rs_step in ESTEP' by auto.
      destruct (prog_step M _ _ _ _ _ _ _ _ Hc Hrep Hst EG ESTEP') as (K & C' & c' & A' & R' & S').
      assert (RUN : steps M (n + Z.to_nat k) init = Some c') by (rewrite (steps_add_some _ _ _ _ _ Hr); auto).
      assert (BL : forall s j, In (s, j) blanks -> exists k0, (1 <= k0 <= n + Z.to_nat k)%nat /\ j <= Z.of_nat k0 /\ blank_at M s (Z.of_nat k0)).
      { intros s j X. destruct (Hb s j X) as (k0 & P & Q). exists k0. split; [lia|auto]. }
      assert (GO : forall b, (forall s j, In (s, j) b -> exists k0, (1 <= k0 <= n + Z.to_nat k)%nat /\ j <= Z.of_nat k0 /\ blank_at M s (Z.of_nat k0)) ->
        rs_prover_loop M fuel (cycle + 1) pv' tp' next (step + k) b rulapp = Some (r, pvx) ->
        lasts M (2 ^ 31) \/ grows_or r).
      { intros b HB E0. eapply (IH (cycle + 1) pv' tp' next (step + k) b rulapp r pvx c' (n + Z.to_nat k)%nat); eauto.
        constructor; auto. lia. }
      destruct ((color =? 0) && t_blank tp') eqn:EB; [|apply (GO blanks); auto].
      zb. assert (BA : blank_at M next (Z.of_nat (n + Z.to_nat k))).
      { split; [lia|]. exists c'. rewrite Nat2Z.id. split; auto. split; auto. eapply represents_blank; eauto. }
      assert (B2 : forall s j, In (s, j) ((next, step + k) :: blanks) -> exists k0, (1 <= k0 <= n + Z.to_nat k)%nat /\ j <= Z.of_nat k0 /\ blank_at M s (Z.of_nat k0)).
      { intros s j [X|X]; [|auto]. inv X. exists (n + Z.to_nat k)%nat. split; [lia|]. split; [lia|auto]. }
      destruct (blanks_has blanks next) eqn:EH.
      - right. intros _. left. apply blanks_has_In in EH as (j & EH). destruct (Hb _ _ EH) as (k0 & P & _ & Q).
        apply (two_blanks_loop M next (Z.of_nat k0) (Z.of_nat (n + Z.to_nat k))); auto. lia.
      - destruct (next =? 0) eqn:EZ; [|apply (GO ((next, step + k) :: blanks)); auto].
        right. intros _. left. apply Z.eqb_eq in EZ. rewrite EZ in BA. eapply (two_blanks_loop M 0 0); [|exact BA|lia].
        split; [lia|]. exists init. repeat split. }
    destruct tr as [ |rl| | | |a b| | ]; try discriminate; auto;
      try (injection E as <- <-; right; intros X; discriminate X).
    2:{ injection E as <- <-. destruct (rs_try_rule_infinite pv cycle state t pv' n c D TR L O Hr Hc Hrep Hst) as [X|(ru & X)]; [auto|].
        right. intros _. right. exists n, c, t, ru. rewrite Hst. split; auto. split; auto. split; auto. split; auto.
        intros LW. eapply (law_forever M state ru t c n); eauto. apply X. }
    destruct (rs_apply_rule rl t) as [x t'|] eqn:A; [|discriminate].
    destruct (TG rl eq_refl) as (ms & H & CV).
    assert (KP : same_or_more pv' pvx).
    { destruct x as [times|]; [eapply rs_loop_keeps; eauto|].
      clear - E D'. unfold rs_go in E. cbn zeta in E. assert (S0 : same_or_more pv' pv') by (intros ? ? ? X; exact X).
      destruct (M state (t_scan t')) as [[[color shift] next]|]; [|inv E; auto].
      destruct (_ && t_at_edge _ _); [inv E; auto|]. destruct (rs_step _ _ _ _) as [t1 k].
      destruct (_ && t_blank _); [|eapply rs_loop_keeps; eauto]. destruct (blanks_has _ _); [inv E; auto|]. destruct (next =? 0); [inv E; auto|eapply rs_loop_keeps; eauto]. }
    destruct (D' _ _ _ H) as (DD & DA).
    destruct (rs_law_applied M state rl t x t' n c Hc DD DA (O _ _ _ (KP _ _ _ H)) (L _ _ _ _ _ (KP _ _ _ H) CV Hc) Hr Hrep Hst A) as [X|X].
    { left. eapply lasts_less; [|exact X]. lia. }
    destruct x as [times|].
    + destruct X as (C' & TM & LD). destruct (leads_go _ _ _ _ _ _ _ LD Hr Hrep Hst) as (n' & c' & N' & R' & S' & P').
      eapply (IH (cycle + 1) pv' t' state step blanks (rulapp + times) r pvx c' n'); eauto.
      constructor; auto; [lia|]. intros s j X. destruct (Hb s j X) as (k0 & P & Q). exists k0. split; [lia|auto].
    + subst t'. auto.
Qed.

(** ** run_for_infrul *)
Lemma rs_infrul_prover fuel : forall cycle pv t state step blanks rulapp,
  rs_infrul_loop M fuel cycle pv t state = Some true ->
  exists r pvx, rs_prover_loop M fuel cycle pv t state step blanks rulapp = Some (r, pvx) /\ mr_result r = infrul.
Proof.
  induction fuel as [|fuel IH]; intros cycle pv t state step blanks rulapp E; [discriminate|].
  rewrite rs_prover_loop_S. cbn [rs_infrul_loop] in E. cbn zeta.
  destruct (rs_try_rule M pv cycle state t) as [pv' tr].
  assert (G : forall t, match M state (t_scan t) with
        | None => Some false
        | Some (color, shift, next_state) =>
            let same := state =? next_state in
            if same && t_at_edge t shift then Some false
            else rs_infrul_loop M fuel (cycle + 1) pv' (fst (rs_step t shift color same)) next_state
        end = Some true -> exists r pvx, rs_go M fuel cycle pv' state step blanks rulapp t = Some (r, pvx) /\ mr_result r = infrul).
  { clear E. intros t1 E. unfold rs_go. cbn zeta in *. destruct (M state (t_scan t1)) as [[[color shift] next]|]; [|discriminate].
    destruct (_ && t_at_edge _ _); [discriminate|]. destruct (rs_step _ _ _ _) as [t' k]. cbn [fst] in E.
    destruct (_ && t_blank _); [|eauto]. destruct (blanks_has _ _); [eexists _, _; split; reflexivity|].
    destruct (next =? 0); [eexists _, _; split; reflexivity|eauto]. }
  destruct tr as [ |rl| | | |a b| | ]; try discriminate; auto; [|eexists _, _; split; reflexivity].
  destruct (rs_apply_rule rl t) as [[times|] t'|]; try discriminate; eauto.
Qed.
End law.

(** ** Statements *)
Lemma rs_run_lawful_infrul M lim r pv : rs_run_prover M lim = Some r -> rs_run_prover_end M lim = Some pv ->
  lawful M pv -> (forall s ms ru, holds_rule pv s ms ru -> one_goes_down ru) -> mr_result r = infrul ->
  lasts M (2 ^ 31) \/ never_halts M
  \/ exists n c t ru, steps M n init = Some c /\ represents t c /\ mr_marks r = t_marks t
      /\ grows M (c_state c) t ru /\ (law M (c_state c) ru t -> never_halts M).
Proof.
  unfold rs_run_prover, rs_run_prover_end. intros E F L O Q.
  destruct (rs_prover_loop M lim 0 pv_new (Tape [] 0 []) 0 0 [] 0) as [[r' pvx]|] eqn:E'; [|discriminate].
  cbn in E, F. inv E. inv F.
  destruct (rs_loop_grows M lim 0 pv_new init_tape 0 0 [] 0 r pv init 0) as [X|X]; auto.
  { constructor; cbn; auto using canon_init, represents_init; try lia; intros ? ? []. }
  { intros s ms ru (v & [] & _). }
Qed.

Lemma rs_run_for_infrul_prover M lim : rs_run_for_infrul M lim = Some true ->
  exists r pv, rs_run_prover M lim = Some r /\ rs_run_prover_end M lim = Some pv /\ mr_result r = infrul.
Proof.
  intros E. destruct (rs_infrul_prover M lim 0 pv_new (Tape [] 0 []) 0 0 [] 0 E) as (r & pv & A & B).
  exists r, pv. unfold rs_run_prover, rs_run_prover_end. rewrite A. auto.
Qed.
