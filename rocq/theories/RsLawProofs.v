(** * Rust's run_prover when the rules held are laws *)
From Verif Require Import Base TM TMFacts ProgModel TapeModel TapeSpec TapeProofs RulesModel RulesSpec RulesProofs
  DiffProofs PastModel EnumModel QuickModel QuickProofs ProverModel MachineProofs EdgeProofs LawSpec LawProofs.

(** ** The cells a run has been to *)
Lemma used_cells M n : forall c, steps M n init = Some c ->
  exists lo hi, lo <= 0 <= hi /\ hi - lo <= Z.of_nat n /\ lo <= c_pos c <= hi /\ forall i, c_tape c i <> 0 -> lo <= i <= hi.
Proof.
  induction n as [|n IH]; intros c E.
  - cbn in E. inv E. exists 0, 0. cbn. split; [lia|]. split; [lia|]. split; [lia|]. intros i H; exfalso; apply H; reflexivity.
  - rewrite steps_S_r in E. destruct (steps M n init) as [c0|]; [|discriminate].
    destruct (IH c0 eq_refl) as (lo & hi & A & B & C & D). unfold step in E.
    destruct (M (c_state c0) (c_tape c0 (c_pos c0))) as [[[color shift] next]|]; [|discriminate]. inv E. cbn [c_pos c_tape]. unfold move, write.
    exists (Z.min lo (if shift then c_pos c0 + 1 else c_pos c0 - 1)), (Z.max hi (if shift then c_pos c0 + 1 else c_pos c0 - 1)).
    split; [lia|]. split; [destruct shift; lia|]. split; [destruct shift; lia|].
    intros i Hi. destruct (Z.eqb_spec i (c_pos c0)) as [Q|Q]; [destruct shift; lia|]. apply D in Hi. destruct shift; lia.
Qed.

Lemma last_cell s : canon_span s -> s <> [] -> 1 <= span_total s /\ cell s (span_total s - 1) <> 0.
Proof.
  induction s as [|b s IH]; intros C N; [congruence|]. destruct C as (C1 & C2 & C3). cbn [cell span_total].
  destruct s as [|b' s].
  - cbn. replace (b_count b + 0 - 1 <? b_count b) with true by (symmetry; apply Z.ltb_lt; lia). split; [lia|auto].
  - destruct (IH C3 ltac:(discriminate)) as (A & B). split; [lia|].
    replace (b_count b + span_total (b' :: s) - 1 <? b_count b) with false by (symmetry; apply Z.ltb_ge; lia).
    replace (b_count b + span_total (b' :: s) - 1 - b_count b) with (span_total (b' :: s) - 1) by lia. auto.
Qed.

Lemma total_at_most M n c t : steps M n init = Some c -> canon t -> represents t c -> total t <= Z.of_nat n.
Proof.
  intros E (CL & CR) R. destruct (used_cells _ _ _ E) as (lo & hi & A & B & C & D). unfold total.
  assert (X : c_pos c + span_total (t_rspan t) <= hi).
  { destruct (t_rspan t) as [|b s] eqn:Q; [cbn; lia|]. rewrite <- Q in *.
    destruct (last_cell _ CR ltac:(congruence)) as (P1 & P2).
    assert (c_tape c (c_pos c + span_total (t_rspan t)) <> 0) as U.
    { rewrite R. unfold tape_cell. destruct (Z.eqb_spec (span_total (t_rspan t)) 0); [lia|].
      destruct (Z.ltb_spec 0 (span_total (t_rspan t))); [auto|lia]. }
    apply D in U. lia. }
  assert (Y : lo <= c_pos c - span_total (t_lspan t)).
  { destruct (t_lspan t) as [|b s] eqn:Q; [cbn; lia|]. rewrite <- Q in *.
    destruct (last_cell _ CL ltac:(congruence)) as (P1 & P2).
    assert (c_tape c (c_pos c + - span_total (t_lspan t)) <> 0) as U.
    { rewrite R. unfold tape_cell. destruct (Z.eqb_spec (- span_total (t_lspan t)) 0); [lia|].
      destruct (Z.ltb_spec 0 (- span_total (t_lspan t))); [lia|].
      replace (- - span_total (t_lspan t) - 1) with (span_total (t_lspan t) - 1) by lia. auto. }
    apply D in U. lia. }
  lia.
Qed.

Lemma lasts_by M n c k : steps M n init = Some c -> k <= Z.of_nat n -> lasts M k.
Proof. intros E L m Hm. eapply steps_le; [|exact E]. lia. Qed.

(** ** apply_rule *)
Lemma rs_count_apps_at r t : wf_tape t -> forall apps T p res, rs_count_apps r t apps = RASome T p res ->
  apps = RASome T p res \/ (1 <= T /\ 1 <= res /\ exists d c, In (p, Plus d) r /\ d < 0 /\ get_count t p = Some c /\ res = c + d * T).
Proof.
  intros W. induction r as [|[i [d|m a]] r IH]; intros apps T p res E; cbn in E; [auto| |discriminate].
  assert (UP : (1 <= T /\ 1 <= res /\ exists d c, In (p, Plus d) r /\ d < 0 /\ get_count t p = Some c /\ res = c + d * T) ->
    1 <= T /\ 1 <= res /\ exists d0 c, In (p, Plus d0) ((i, Plus d) :: r) /\ d0 < 0 /\ get_count t p = Some c /\ res = c + d0 * T).
  { intros (A & B & d0 & c & X & Y). split; auto. split; auto. exists d0, c. split; [right; auto|auto]. }
  destruct (0 <=? d) eqn:D; [destruct (IH _ _ _ _ E); auto|]. zb.
  destruct (get_count t i) as [count|] eqn:GC; [|discriminate].
  pose proof (wf_count _ _ _ W GC) as PC.
  destruct (count <=? Z.abs d) eqn:C; [discriminate|]. zb.
  set (q := if 0 <? count mod Z.abs d then (count / Z.abs d, count mod Z.abs d) else (count / Z.abs d - 1, Z.abs d)) in *.
  assert (P : 1 <= fst q /\ 1 <= snd q /\ snd q = count + d * fst q).
  { unfold q. pose proof (Z.div_mod count (Z.abs d) ltac:(lia)). pose proof (Z.mod_pos_bound count (Z.abs d) ltac:(lia)).
    destruct (0 <? count mod Z.abs d) eqn:X; zb; cbn [fst snd]; repeat split; nia. }
  destruct q as [tm mr]. cbn [fst snd] in P. destruct P as (P1 & P2 & P3).
  assert (NEW : RASome tm i mr = RASome T p res -> 1 <= T /\ 1 <= res /\ exists d0 c, In (p, Plus d0) ((i, Plus d) :: r) /\ d0 < 0 /\ get_count t p = Some c /\ res = c + d0 * T).
  { intros X. inversion X; subst. split; auto. split; auto. exists d, count. split; [left; auto|auto]. }
  destruct (IH _ _ _ _ E) as [X|X]; [|auto].
  destruct apps as [| |ta pa ra]; auto. destruct (tm <? ta); auto.
Qed.

Lemma set_count_some t i v t1 j : set_count t i v = Some t1 -> get_count t1 j <> None -> get_count t j <> None.
Proof.
  intros S N X. assert (exists c, get_count t i = Some c) as (c & G).
  { unfold set_count, t_set_count in S. unfold get_count, t_get_count.
    destruct (nth_error (if fst i then t_rspan t else t_lspan t) (snd i)) as [b|] eqn:Q; [cbn; eauto|]. exfalso.
    destruct i as [[|] i]; cbn in *; (replace (set_nth_count _ i v) with (@None span) in S; [discriminate|]);
      clear - Q; revert i Q; generalize (t_rspan t), (t_lspan t).
    - intros s _. induction s as [|b s IH]; intros [|i] Q; cbn in *; try discriminate; auto. rewrite <- IH; auto.
    - intros _ s. induction s as [|b s IH]; intros [|i] Q; cbn in *; try discriminate; auto. rewrite <- IH; auto. }
  destruct (set_count_spec t i v c G) as (t1' & S' & _ & GG). rewrite S in S'. inv S'.
  rewrite GG in N. destruct (index_eqb_spec j i) as [->|]; congruence.
Qed.

Lemma rs_apply_loop_at T p res : forall r t, match rs_apply_loop r t T p res with
  | RsApplied (Some n) _ => n = T /\ forall i o, In (i, o) r -> get_count t i <> None
  | RsApplied None _ => exists i d, In (i, Plus d) r /\ i <> p /\ get_count t i <> None /\ u64_max < Z.abs d * T
  | RsApplyPanic => True
  end.
Proof.
  induction r as [|[i [d|m a]] r IH]; intros t; cbn [rs_apply_loop]; auto.
  assert (SET : forall v, match match set_count t i v with
                         | None => RsApplyPanic
                         | Some t => rs_apply_loop r t T p res
                         end with
    | RsApplied (Some n) _ => n = T /\ forall j o, In (j, o) ((i, Plus d) :: r) -> get_count t j <> None
    | RsApplied None _ => exists j e, In (j, Plus e) ((i, Plus d) :: r) /\ j <> p /\ get_count t j <> None /\ u64_max < Z.abs e * T
    | RsApplyPanic => True
    end).
  { intros v. destruct (set_count t i v) as [t1|] eqn:E; auto. specialize (IH t1).
    destruct (rs_apply_loop r t1 T p res) as [[n|] t'|]; auto.
    - destruct IH as (A & B). split; auto. intros j o [X|X].
      + inversion X; subst j o. eapply set_count_some; [exact E|]. unfold set_count in E.
        destruct (get_count t i) as [c|] eqn:G.
        * destruct (set_count_spec t i v c G) as (t1' & S' & _ & GG). unfold set_count in S'. rewrite E in S'. inv S'. rewrite GG.
          destruct (index_eqb_spec i i); congruence.
        * exfalso. revert E G. unfold t_set_count, get_count, t_get_count. clear. destruct i as [[|] i]; cbn.
          -- destruct (nth_error (t_rspan t) i) eqn:Q; [discriminate|]. intros E _.
             replace (set_nth_count (t_rspan t) i v) with (@None span) in E; [discriminate|].
             clear - Q; revert i Q; generalize (t_rspan t). intros s. induction s as [|b s IH]; intros [|i] Q; cbn in *; try discriminate; auto. rewrite <- IH; auto.
          -- destruct (nth_error (t_lspan t) i) eqn:Q; [discriminate|]. intros E _.
             replace (set_nth_count (t_lspan t) i v) with (@None span) in E; [discriminate|].
             clear - Q; revert i Q; generalize (t_lspan t). intros s. induction s as [|b s IH]; intros [|i] Q; cbn in *; try discriminate; auto. rewrite <- IH; auto.
      + eapply set_count_some; [exact E|]. eapply B; eauto.
    - destruct IH as (j & e & A & B & C & D). exists j, e. split; [right; auto|]. split; auto. split; auto.
      eapply set_count_some; eauto. }
  cbn zeta. destruct (index_eqb_spec i p) as [->|N]; [destruct (d <? 0); [apply SET|exact I]|].
  destruct (get_count t i) as [count|] eqn:G; [|exact I].
  unfold rs_apply_plus. cbn zeta. destruct (u64_max <? Z.abs d * T) eqn:X.
  - zb. exists i, d. split; [left; auto|]. split; auto. split; [congruence|auto].
  - destruct (u64_max <? count + Z.abs d * T); [exact I|apply SET].
Qed.

Section law.
Variable (M : program).

(** Where nothing but the count of [p] goes down, and that stays positive, the law may be followed. *)
Lemma law_follow state r t T p d c : canon t -> distinct r -> one_goes_down r -> law M state r t ->
  In (p, Plus d) r -> d < 0 -> get_count t p = Some c -> 1 <= c + d * T -> 1 <= T ->
  exists tT, after r (Z.to_nat T) t tT /\ canon tT /\ leads 1 M state t tT.
Proof.
  intros C D O L I N G P HT. pose proof (canon_wf _ C) as W.
  destruct (after_exists r (Z.to_nat T) t) as (tT & A). exists tT. split; auto.
  destruct (law_iterates M state r t (Z.to_nat T) W L) with (tn := tT) as (W' & L'); auto.
  - intros k tk K (SK & CK) (i & e & x & I' & Neg & G' & B).
    assert (i = p) by (eapply O; eauto). subst i.
    assert (e = d). { pose proof (rule_at_In _ _ _ D I) as X. rewrite (rule_at_In _ _ _ D I') in X. congruence. } subst e.
    rewrite CK, (bump_n_Plus r k _ p d c) in G'; auto; [|apply rule_at_In; auto]. inv G'. nia.
  - split; [eapply canon_shape; eauto; apply A|]. intros x R S. destruct (L' x R S) as (m & c' & M1 & X). exists m, c'. split; [lia|auto].
Qed.

Lemma rs_law_applied state r t x t' n c : canon t -> distinct r -> additive r -> one_goes_down r -> law M state r t ->
  steps M n init = Some c -> represents t c -> c_state c = state ->
  rs_apply_rule r t = RsApplied x t' ->
  lasts M (2 ^ 64) \/ match x with None => t' = t | Some times => canon t' /\ 1 <= times /\ leads (Z.to_nat times) M state t t' end.
Proof.
  intros C D AD O L E R S A. pose proof (canon_wf _ C) as W. pose proof A as A0. unfold rs_apply_rule in A.
  destruct (rs_count_apps r t RANone) as [| |T p res] eqn:CA; [discriminate|inv A; auto|].
  destruct (rs_count_apps_at r t W _ _ _ _ CA) as [X|(T1 & R1 & d & c0 & I & N & G & RS)]; [discriminate|].
  destruct (law_follow state r t T p d c0 C D O L I N G ltac:(lia) T1) as (tT & AF & CT & LD).
  destruct (LD c R S) as (m & cT & _ & ET & _ & RT).
  assert (RUN : steps M (n + m) init = Some cT) by (rewrite (steps_add_some _ _ _ _ _ E); auto).
  assert (BIG : forall i v, get_count tT i = Some v -> u64_max < v -> lasts M (2 ^ 64)).
  { intros i v G' B. apply get_count_total in G'; [|apply canon_wf; auto].
    pose proof (total_at_most M _ _ _ RUN CT RT). eapply lasts_by; [exact RUN|]. unfold u64_max in B. lia. }
  pose proof (rs_apply_loop_at T p res r t) as LA. rewrite A in LA. destruct x as [T'|].
  - destruct LA as (-> & LA).
    assert (AR : addressed r t).
    { intros i o X. specialize (LA i o X). destruct (get_count t i) as [v|] eqn:Q; [|congruence]. exists v. split; auto. eapply wf_count; eauto. }
    pose proof (rs_py_apply_rule r t AD D AR O) as PY.
    destruct (py_apply_rule r t) as [| | |times t''] eqn:PA; try contradiction.
    { rewrite A0 in PY. discriminate. }
    destruct (law_applied_times M state r t times t'' C D L PA) as (C'' & T'' & L'').
    destruct (L'' c R S) as (m2 & c2 & _ & E2 & _ & R2).
    assert (RUN2 : steps M (n + m2) init = Some c2) by (rewrite (steps_add_some _ _ _ _ _ E); auto).
    pose proof (total_at_most M _ _ _ RUN2 C'' R2) as TT.
    destruct (Z_le_gt_dec (total t'') u64_max) as [LE|GT].
    + right. rewrite PY in A0; [inv A0; auto|]. intros i v G'. apply get_count_total in G'; [lia|apply canon_wf; auto].
    + left. eapply lasts_by; [exact RUN2|]. unfold u64_max in GT. lia.
  - destruct LA as (i & e & I' & NP & G' & B). left.
    destruct (get_count t i) as [v|] eqn:Q; [|congruence].
    apply (BIG i (v + e * Z.of_nat (Z.to_nat T))).
    + destruct AF as (_ & CK). rewrite CK. rewrite (bump_n_Plus r (Z.to_nat T) _ i e v); auto. apply rule_at_In; auto.
    + pose proof (wf_count _ _ _ W Q). assert (0 <= e) by (destruct (Z.le_gt_cases 0 e); auto; exfalso; apply NP; eapply O; eauto).
      rewrite Z2Nat.id by lia. rewrite Z.abs_eq in B by lia. lia.
Qed.

(** ** try_rule *)
Lemma rs_min_sig_covers pv n state t m :
  rs_min_sig M pv n state (to_enum t) (t_signature t) = MsGot m -> covers m t /\ sg_scan (fst m) = t_scan t.
Proof.
  intros E. destruct (rs_min_sig_edges _ _ _ _ _ _ E) as (lo & ro & le & re & -> & A & B). split; [|reflexivity].
  cbn -[t_signature]. split; auto.
  split; [exists (skipn lo (sg_l (t_signature t)))|exists (skipn ro (sg_r (t_signature t)))]; rewrite firstn_skipn; split; auto; intros X.
  - rewrite (A X). apply skipn_all2. cbn. rewrite map_length. auto.
  - rewrite (B X). apply skipn_all2. cbn. rewrite map_length. auto.
Qed.

Lemma rs_rule_side_at s : forall zs i r, rs_rule_side s i zs = RsRule r ->
  NoDup (map fst r) /\ forall j o, In (j, o) r -> fst j = s /\ (i <= snd j)%nat.
Proof.
  induction zs as [|[[[a b] c] d] zs IH]; intros i r E; cbn in E.
  { inv E. split; [constructor|intros ? ? []]. }
  destruct (rs_calculate_diff _ _ _ _) as [| |o|]; try discriminate.
  - destruct (IH _ _ E) as (A & B). split; auto. intros j o X. destruct (B j o X). split; [auto|lia].
  - destruct (rs_rule_side s (S i) zs) as [r'| |] eqn:E'; try discriminate. inv E.
    destruct (IH _ _ E') as (A & B). split.
    + cbn. constructor; auto. intros X. apply in_map_iff in X as ([j o'] & X & Y). cbn in X. subst j. destruct (B _ _ Y). cbn in *. lia.
    + intros j o' [X|X]; [inv X; cbn; auto|]. destruct (B j o' X). split; [auto|lia].
Qed.

Lemma rs_make_rule_distinct k1 k2 k3 k4 r : rs_make_rule k1 k2 k3 k4 = RsRule r -> distinct r.
Proof.
  unfold rs_make_rule. destruct (rs_rule_side false _ _) as [r1| |] eqn:A; try discriminate.
  destruct (rs_rule_side true _ _) as [r2| |] eqn:B; try discriminate. intros E. inv E.
  destruct (rs_rule_side_at _ _ _ _ A) as (N1 & P1). destruct (rs_rule_side_at _ _ _ _ B) as (N2 & P2).
  unfold distinct. rewrite map_app. clear A B. induction r1 as [|[j o] r1 IH]; cbn; auto. inv N1. constructor.
  - intros X. apply in_app_or in X as [X|X]; auto. apply in_map_iff in X as ([j' o'] & X & Y). cbn in X. subst j'.
    destruct (P2 _ _ Y). destruct (P1 j o (or_introl eq_refl)). congruence.
  - apply IH; auto. intros j' o' X. apply (P1 j' o'). right. auto.
Qed.

(** Each rule held is a dict of additions. *)
Definition pv_plain (pv : prover) : Prop := forall s ms r, holds_rule pv s ms r -> distinct r /\ additive r.

Lemma rs_try_rule_good pv cycle state t pv' res : pv_plain pv ->
  rs_try_rule M pv cycle state t = (pv', res) ->
  same_or_more pv pv' /\ pv_plain pv' /\ forall r, res = TRule r -> exists ms, holds_rule pv' (state, t_scan t) ms r /\ covers ms t.
Proof.
  intros D E. unfold rs_try_rule in E. cbn zeta in E.
  assert (SM : forall cf, same_or_more pv (PV (pv_rules pv) cf) /\ pv_plain (PV (pv_rules pv) cf)) by (split; [intros ? ? ? X; exact X|exact D]).
  assert (S0 : same_or_more pv pv) by (intros ? ? ? X; exact X).
  destruct (get_rule pv state (t_scan t) (t_signature t)) as [r|] eqn:GR.
  { inv E. split; auto. split; auto. intros r' X. inv X. apply get_rule_covers; auto. }
  destruct (cfg_get (pv_configs pv) (t_signature t)) as [past|].
  2:{ destruct (_ <? _); inv E; [split; [|split]; auto; discriminate|]. destruct (SM (cfg_set (pv_configs pv) (t_signature t) (pcs_new state cycle))).
      split; [|split]; auto; discriminate. }
  destruct (pcs_next_deltas past state cycle) as [past' d].
  set (pv1 := PV (pv_rules pv) (cfg_set (pv_configs pv) (t_signature t) past')) in *.
  assert (S1 : same_or_more pv pv1 /\ pv_plain pv1) by apply SM. destruct S1 as (S1 & D1).
  destruct d as [| |d1 d2 d3]; try (inv E; split; [|split]; auto; discriminate).
  destruct (_ || _); [inv E; split; [|split]; auto; discriminate|].
  assert (DC : forall r, rs_delta_counts M pv1 state (t_signature t) [d1; d2; d3] t = inr r -> r = TNone \/ r = TErr).
  { clear. generalize [d1; d2; d3], t at 2. intros ds. induction ds as [|d ds IH]; intros t0 r E; cbn [rs_delta_counts] in E; [discriminate|].
    destruct (rs_simulate _ _ _ _ _) as [s t1| | |]; try (inv E; auto; fail).
    destruct (_ || _); [inv E; auto|]. destruct (rs_delta_counts _ _ _ _ _ _) eqn:X; inv E. eauto. }
  destruct (rs_delta_counts M pv1 state (t_signature t) [d1; d2; d3] t) as [cs|r].
  2:{ inv E. split; auto. split; auto. intros r' ->. destruct (DC _ eq_refl); discriminate. }
  destruct cs as [|c1 [|c2 [|c3 [|? ?]]]]; try (inv E; split; [|split]; auto; discriminate).
  destruct (rs_make_rule (t_counts t) c1 c2 c3) as [r| |] eqn:MR; try (inv E; split; [|split]; auto; discriminate).
  destruct (forallb nonneg_plus r); [inv E; split; [|split]; auto; discriminate|].
  destruct (existsb is_mult r) eqn:IM; [inv E; split; [|split]; auto; discriminate|].
  destruct (swap_rule r t); [inv E; split; [|split]; auto; discriminate|].
  set (pv2 := PV (pv_rules pv1) (cfg_set (pv_configs pv1) (t_signature t) (pcs_delete past' state))) in *.
  assert (S2 : same_or_more pv pv2 /\ pv_plain pv2) by apply SM. destruct S2 as (S2 & D2).
  destruct (rs_min_sig M pv2 (Z.to_nat d1) state (to_enum t) (t_signature t)) as [m| |] eqn:MS;
      try (inv E; split; [|split]; auto; discriminate).
  inv E. destruct (rs_min_sig_covers _ _ _ _ _ MS) as (CV & SC).
  split.
  { intros s ms r' H. apply S2 in H. destruct H as (v & A & B). destruct (rules_add_keeps _ (state, sg_scan (fst m)) (m, r) _ _ _ A B) as (v' & A' & B').
    exists v'. auto. }
  split.
  { intros s ms r' (v & A & B). cbn [set_rule pv_rules] in A. destruct (rules_add_only _ _ _ _ _ _ A B) as [X|(v' & A' & B')].
    - inv X. split; [eapply rs_make_rule_distinct; eauto|]. intros i o I. destruct o as [d|mm a]; [eauto|]. exfalso.
      assert (existsb is_mult r = true) by (apply existsb_exists; exists (i, RulesModel.Mult mm a); auto). congruence.
    - apply (D2 s ms r'). exists v'. auto. }
  intros r' X. inv X. exists m. split; auto. rewrite <- SC. apply rules_add_in.
Qed.

(** ** The loop *)
Lemma rs_loop_keeps fuel : forall cycle pv t state step blanks rulapp r pvx, pv_plain pv ->
  rs_prover_loop M fuel cycle pv t state step blanks rulapp = Some (r, pvx) -> same_or_more pv pvx.
Proof.
  induction fuel as [|fuel IH]; intros cycle pv t state step blanks rulapp r pvx D E.
  { cbn in E. inv E. intros ? ? ? X; exact X. }
  rewrite rs_prover_loop_S in E. cbn zeta in E. destruct (rs_try_rule M pv cycle state t) as [pv' tr] eqn:TR.
  destruct (rs_try_rule_good _ _ _ _ _ _ D TR) as (S1 & D' & _).
  assert (G : forall t step cyc state b ra, rs_prover_loop M fuel cyc pv' t state step b ra = Some (r, pvx) -> same_or_more pv pvx).
  { intros. intros s ms r' X. eapply IH; eauto. }
  assert (G' : forall t, rs_go M fuel cycle pv' state step blanks rulapp t = Some (r, pvx) -> same_or_more pv pvx).
  { clear E. intros t1 E. unfold rs_go in E. cbn zeta in E. destruct (M state (t_scan t1)) as [[[color shift] next]|]; [|inv E; auto].
    destruct (_ && t_at_edge _ _); [inv E; auto|]. destruct (rs_step _ _ _ _) as [t' n].
    destruct (_ && t_blank _); [|eauto]. destruct (blanks_has _ _); [inv E; auto|]. destruct (next =? 0); [inv E; auto|eauto]. }
  destruct tr as [ |rl| | | |a b| | ]; try discriminate; try (inv E; auto; fail); eauto.
  destruct (rs_apply_rule rl t) as [[times|] t'|]; try discriminate; eauto.
Qed.

Record rinv (t : tape) (blanks : blanks_t) (state step rulapp : Z) (c : config) (n : nat) : Prop := {
  r_run : steps M n init = Some c;
  r_rep : represents t c;
  r_can : canon t;
  r_st : c_state c = state;
  r_step : 0 <= step /\ 0 <= rulapp /\ step + rulapp <= Z.of_nat n;
  r_bl : forall s j, In (s, j) blanks -> exists k, (1 <= k <= n)%nat /\ j <= Z.of_nat k /\ blank_at M s (Z.of_nat k)
}.

Definition rlaw_ok (r : machine_result) (least : nat) : Prop :=
  exists n c, steps M n init = Some c /\ marks_are (c_tape c) (mr_marks r) /\ (0 <= mr_steps r /\ 0 <= mr_rulapp r /\ mr_steps r + mr_rulapp r <= Z.of_nat n)
  /\ (forall s j, In (s, j) (mr_blanks r) -> exists k, (1 <= k <= n)%nat /\ j <= Z.of_nat k /\ blank_at M s (Z.of_nat k))
  /\ match mr_result r with
     | undfnd => mr_last_slot r = Some (c_state c, c_tape c (c_pos c)) /\ M (c_state c) (c_tape c (c_pos c)) = None
     | spnout => spins_out_from M c
     | xlimit => (least <= n)%nat
     | _ => True
     end.

Lemma rs_loop_law fuel : forall cycle pv t state step blanks rulapp r pvx c n,
  rinv t blanks state step rulapp c n -> pv_plain pv ->
  rs_prover_loop M fuel cycle pv t state step blanks rulapp = Some (r, pvx) ->
  lawful M pvx -> (forall s ms r, holds_rule pvx s ms r -> one_goes_down r) ->
  lasts M (2 ^ 64) \/ rlaw_ok r (n + fuel).
Proof.
  induction fuel as [|fuel IH]; intros cycle pv t state step blanks rulapp r pvx c n I D E L O.
  - destruct I as [Hr Hrep Hc Hst Hs Hb]. cbn in E. inv E. right. exists n, c. cbn.
    split; auto. split; [eapply marks_represents; eauto; apply canon_wf; auto|]. split; auto. split; auto. lia.
  - rewrite rs_prover_loop_S in E. cbn zeta in E.
    pose proof I as [Hr Hrep Hc Hst Hs Hb]. pose proof (canon_wf _ Hc) as W.
    assert (HS : c_tape c (c_pos c) = t_scan t) by (apply represents_iff; auto).
    destruct (rs_try_rule M pv cycle state t) as [pv' tr] eqn:TR.
    destruct (rs_try_rule_good _ _ _ _ _ _ D TR) as (SM & D' & TG).
    assert (FIN : forall e cyc l, match e with
       | undfnd => l = Some (state, t_scan t) /\ M state (t_scan t) = None
       | spnout => spins_out_from M c
       | xlimit => False
       | _ => True
       end -> rlaw_ok (MR e step cyc (t_marks t) rulapp blanks l) (n + S fuel)).
    { intros e cyc l A. exists n, c. cbn. rewrite Hst, HS. split; auto.
      split; [eapply marks_represents; eauto|]. split; auto. split; auto. destruct e; auto; tauto. }
    assert (G : rs_go M fuel cycle pv' state step blanks rulapp t = Some (r, pvx) ->
      lasts M (2 ^ 64) \/ rlaw_ok r (n + S fuel)).
    { clear E. intros E. unfold rs_go in E. cbn zeta in E.
      destruct (M state (t_scan t)) as [[[color shift] next]|] eqn:EG.
      2:{ inv E. right. apply FIN. auto. }
      destruct ((state =? next) && t_at_edge t shift) eqn:ES.
      { inv E. right. apply FIN. zb. subst next. apply (spin_out_lemma _ c shift color).
        - unfold t_at_edge in H0. zb. rewrite H in EG. exact EG.
        - intros i Hi. eapply represents_edge; eauto. }
      destruct (rs_step t shift color (state =? next)) as [tp' k] eqn:ESTEP.
      pose proof ESTEP as ESTEP'. rewrite <- py_rs_step in ESTEP' by auto.
      destruct (prog_step M _ _ _ _ _ _ _ _ Hc Hrep Hst EG ESTEP') as (K & C' & c' & A' & R' & S').
      assert (RUN : steps M (n + Z.to_nat k) init = Some c') by (rewrite (steps_add_some _ _ _ _ _ Hr); auto).
      assert (BL : forall s j, In (s, j) blanks -> exists k0, (1 <= k0 <= n + Z.to_nat k)%nat /\ j <= Z.of_nat k0 /\ blank_at M s (Z.of_nat k0)).
      { intros s j X. destruct (Hb s j X) as (k0 & P & Q). exists k0. split; [lia|auto]. }
      assert (GO : forall b, (forall s j, In (s, j) b -> exists k0, (1 <= k0 <= n + Z.to_nat k)%nat /\ j <= Z.of_nat k0 /\ blank_at M s (Z.of_nat k0)) ->
        rs_prover_loop M fuel (cycle + 1) pv' tp' next (step + k) b rulapp = Some (r, pvx) ->
        lasts M (2 ^ 64) \/ rlaw_ok r (n + S fuel)).
      { intros b HB E0. destruct (IH (cycle + 1) pv' tp' next (step + k) b rulapp r pvx c' (n + Z.to_nat k)%nat) as [X|(n2 & c2 & I2 & I3 & I4 & I5 & E2)]; auto.
        { constructor; auto. lia. }
        right. exists n2, c2. split; auto. split; auto. split; auto. split; auto. destruct (mr_result r); auto. lia. }
      destruct ((color =? 0) && t_blank tp') eqn:EB; [|apply (GO blanks); auto].
      zb. assert (BA : blank_at M next (Z.of_nat (n + Z.to_nat k))).
      { split; [lia|]. exists c'. rewrite Nat2Z.id. split; auto. split; auto. eapply represents_blank; eauto. }
      assert (B2 : forall s j, In (s, j) ((next, step + k) :: blanks) -> exists k0, (1 <= k0 <= n + Z.to_nat k)%nat /\ j <= Z.of_nat k0 /\ blank_at M s (Z.of_nat k0)).
      { intros s j [X|X]; [|auto]. inv X. exists (n + Z.to_nat k)%nat. split; [lia|]. split; [lia|auto]. }
      assert (NH : forall b, (forall s j, In (s, j) b -> exists k0, (1 <= k0 <= n + Z.to_nat k)%nat /\ j <= Z.of_nat k0 /\ blank_at M s (Z.of_nat k0)) ->
        rlaw_ok (MR infrul (step + k) 0 (t_marks tp') rulapp b None) (n + S fuel)).
      { intros b HB. exists (n + Z.to_nat k)%nat, c'. cbn. split; auto.
        split; [eapply marks_represents; eauto; apply canon_wf; auto|]. split; [lia|]. split; auto. }
      destruct (blanks_has blanks next); [inv E; right; apply NH; auto|].
      destruct (next =? 0); [inv E; right; apply NH; auto|apply (GO ((next, step + k) :: blanks)); auto]. }
    destruct tr as [ |rl| | | |a b| | ]; try discriminate; try (inv E; right; apply FIN; auto; fail); auto.
    destruct (rs_apply_rule rl t) as [x t'|] eqn:A; [|discriminate].
    destruct (TG rl eq_refl) as (ms & H & CV).
    assert (KP : same_or_more pv' pvx).
    { destruct x as [times|]; [eapply rs_loop_keeps; eauto|].
      clear - E D'. unfold rs_go in E. cbn zeta in E. assert (S0 : same_or_more pv' pv') by (intros ? ? ? X; exact X).
      destruct (M state (t_scan t')) as [[[color shift] next]|]; [|inv E; auto].
      destruct (_ && t_at_edge _ _); [inv E; auto|]. destruct (rs_step _ _ _ _) as [t1 k].
      destruct (_ && t_blank _); [|eapply rs_loop_keeps; eauto]. destruct (blanks_has _ _); [inv E; auto|]. destruct (next =? 0); [inv E; auto|eapply rs_loop_keeps; eauto]. }
    destruct (D' _ _ _ H) as (DD & DA).
    destruct (rs_law_applied state rl t x t' n c Hc DD DA (O _ _ _ (KP _ _ _ H)) (L _ _ _ _ _ (KP _ _ _ H) CV Hc) Hr Hrep Hst A) as [X|X]; [auto|].
    destruct x as [times|].
    + destruct X as (C' & TM & LD). destruct (leads_go _ _ _ _ _ _ _ LD Hr Hrep Hst) as (n' & c' & N' & R' & S' & P').
      destruct (IH (cycle + 1) pv' t' state step blanks (rulapp + times) r pvx c' n') as [X|(n2 & c2 & I2 & I3 & I4 & I5 & E2)]; auto.
      { constructor; auto; [lia|]. intros s j X. destruct (Hb s j X) as (k0 & P & Q). exists k0. split; [lia|auto]. }
      right. exists n2, c2. split; auto. split; auto. split; auto. split; auto. destruct (mr_result r); auto. lia.
    + subst t'. auto.
Qed.
End law.

(** ** Statements *)
Lemma rs_run_lawful M lim r pv : rs_run_prover M lim = Some r -> rs_run_prover_end M lim = Some pv ->
  lawful M pv -> (forall s ms ru, holds_rule pv s ms ru -> one_goes_down ru) ->
  lasts M (2 ^ 64)
  \/ exists n c, steps M n init = Some c
  /\ (0 <= mr_steps r /\ 0 <= mr_rulapp r /\ mr_steps r + mr_rulapp r <= Z.of_nat n)
  /\ marks_are (c_tape c) (mr_marks r)
  /\ (mr_result r = undfnd -> exists s, mr_last_slot r = Some s /\ halts_at M n s)
  /\ (mr_result r = spnout -> never_halts M /\ spins_out_from M c)
  /\ (mr_result r = xlimit -> (lim <= n)%nat)
  /\ (forall s j, In (s, j) (mr_blanks r) -> exists k d, (1 <= k <= n)%nat /\ j <= Z.of_nat k
       /\ steps M k init = Some d /\ c_state d = s /\ is_blank d).
Proof.
  unfold rs_run_prover, rs_run_prover_end. intros E F L O.
  destruct (rs_prover_loop M lim 0 pv_new (Tape [] 0 []) 0 0 [] 0) as [[r' pvx]|] eqn:E'; [|discriminate].
  cbn in E, F. inv E. inv F.
  destruct (rs_loop_law M lim 0 pv_new init_tape 0 0 [] 0 r pv init 0) as [X|(n & c & Hr & Hm & Hs & Hb & X)]; auto.
  { constructor; cbn; auto using canon_init, represents_init; try lia; intros ? ? []. }
  { intros s ms ru (v & [] & _). }
  right. exists n, c. split; auto. split; auto. split; auto. split; [|split; [|split]].
  - intros Q. rewrite Q in X. destruct X as (X & Y). eexists. split; [exact X|]. exists c. cbn. auto.
  - intros Q. rewrite Q in X. split; auto. eapply spins_out_never_halts; eauto.
  - intros Q. rewrite Q in X. auto.
  - intros s j Q. destruct (Hb s j Q) as (k & P & B & _ & d & D & R). rewrite Nat2Z.id in D. exists k, d. auto.
Qed.

Lemma lawful_agree M lim r pv : let m := py_machine_run (plain M) lim in
  lawful M (m_prover m) ->
  rs_run_prover M lim = Some r -> rs_run_prover_end M lim = Some pv ->
  lawful M pv -> (forall s ms ru, holds_rule pv s ms ru -> one_goes_down ru) ->
  forall s s', m_end m = MUndfnd s -> mr_result r = undfnd -> mr_last_slot r = Some s' ->
  lasts M (2 ^ 64) \/ (s' = s /\ mr_marks r = t_marks (m_tape m)).
Proof.
  intros m LP E F L O s s' U U' SL. destruct (rs_run_lawful M lim r pv E F L O) as [X|(n & c & Hr & _ & HM & HU & _)]; [auto|].
  right. destruct (HU U') as (s1 & E1 & H1). assert (s1 = s') by congruence. subst s1. clear HU.
  destruct (run_lawful M lim LP) as (n0 & c0 & Hr0 & _ & _ & HM0 & HU0 & _). fold m in HM0, HU0. specialize (HU0 s U).
  destruct (halts_at_unique _ _ _ _ _ H1 HU0) as (-> & ->). split; auto.
  rewrite Hr in Hr0. inv Hr0. eapply marks_unique; eauto.
Qed.

Lemma lawful_steps_short M lim r pv n s : rs_run_prover M lim = Some r -> rs_run_prover_end M lim = Some pv ->
  lawful M pv -> (forall s ms ru, holds_rule pv s ms ru -> one_goes_down ru) ->
  mr_undfnd r = Some (n, s) ->
  lasts M (2 ^ 64) \/ exists n', halts_at M (Z.to_nat n') s /\ n + mr_rulapp r <= n'.
Proof.
  intros E F L O U. destruct (rs_run_lawful M lim r pv E F L O) as [X|(k & c & Hr & HS & _ & HU & _)]; [auto|].
  right. unfold mr_undfnd in U. destruct (mr_result r) eqn:ER; try discriminate. destruct (HU eq_refl) as (s1 & E1 & H1).
  rewrite E1 in U. inv U. exists (Z.of_nat k). rewrite Nat2Z.id. split; auto. lia.
Qed.
