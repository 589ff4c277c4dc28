(** * The three questions: halting, erasing, spinning out *)
From Verif Require Import Base TM TMFacts ProgModel TapeModel TermRecModel ParseModel ParseProofs NormModel NormProofs GraphModel GraphSpec GraphProofs ReasonModel ReasonSpec ReasonProofs ReasonSound.

Lemma wf_init s l r : wf (BK (HT 0 (Tape [] s [])) l r).
Proof. intros []; constructor. Qed.

(** ** Halting *)
Lemma range_in n x : In x (range n) <-> 0 <= x < n.
Proof.
  unfold range. rewrite in_map_iff. split; [intros (k & <- & I); apply in_seq in I; lia|].
  intro H. exists (Z.to_nat x). rewrite in_seq. lia.
Qed.
Lemma max_key_ge comp : forall a b, let m := fold_left (fun acc (e : slot * instr) => (Z.max (fst acc) (fst (fst e)), Z.max (snd acc) (snd (fst e)))) comp (a, b) in
  a <= fst m /\ b <= snd m /\ forall e, In e comp -> fst (fst e) <= fst m /\ snd (fst e) <= snd m.
Proof.
  induction comp as [|e comp IH]; intros a b; cbn [fold_left]; cbv zeta.
  - cbn. split; [lia|]. split; [lia|intros ? []].
  - destruct (IH (Z.max a (fst (fst e))) (Z.max b (snd (fst e)))) as (A & B & C). cbn [fst snd] in *. split; [lia|]. split; [lia|].
    intros e' [<-|I]; [lia|auto].
Qed.
Lemma halt_configs_in comp c : In c (halt_configs comp) <-> exists s x, 0 <= s <= fst (max_key comp) /\ 0 <= x <= snd (max_key comp) /\
  comp_get comp (s, x) = None /\ c = rc_new s (init_halt x).
Proof.
  unfold halt_configs. destruct (max_key comp) as [ms mc]. cbn [fst snd].
  rewrite in_flat_map. split.
  - intros (s & Hs & H). apply in_flat_map in H. destruct H as (x & Hx & H). apply range_in in Hs. apply range_in in Hx.
    destruct (comp_get comp (s, x)) eqn:E; [contradiction|]. destruct H as [<-|[]]. exists s, x. split; [lia|]. split; [lia|]. auto.
  - intros (s & x & Hs & Hx & E & ->). exists s. split; [apply range_in; lia|]. apply in_flat_map. exists x. split; [apply range_in; lia|].
    rewrite E. cbn; auto.
Qed.

Lemma run_in_table comp n c : NoDup (map fst comp) -> named (machine_of comp) -> steps (machine_of comp) n init = Some c ->
  0 <= c_state c <= fst (max_key comp) /\ forall p, 0 <= c_tape c p <= snd (max_key comp).
Proof.
  intros ND [M0 Hn].
  assert (Key : forall s x, machine_of comp s x <> None -> s <= fst (max_key comp) /\ x <= snd (max_key comp)).
  { intros s x H. unfold machine_of in H. destruct (comp_get comp (s, x)) as [i|] eqn:E; [|congruence].
    apply (proj2 (comp_get_in comp (s, x) i ND)) in E. destruct (max_key_ge comp 0 0) as (_ & _ & G). apply G in E. auto. }
  assert (Z0 : 0 <= fst (max_key comp) /\ 0 <= snd (max_key comp)).
  { destruct (max_key_ge comp 0 0) as (A & B & _). auto. }
  revert c. induction n; intros c H.
  - cbn in H. inv H. cbn. unfold blank_tape. split; [lia|intro; lia].
  - rewrite steps_S_r in H. destruct (steps _ n init) as [d|]; [|discriminate]. destruct (IHn d eq_refl) as [A B].
    unfold step in H. destruct (machine_of comp (c_state d) (c_tape d (c_pos d))) as [[[pr sh] t]|] eqn:E; [|discriminate]. inv H.
    destruct (Hn _ _ _ _ _ E) as (T0 & P0 & (s1 & c1 & L1 & K1) & (s2 & c2 & L2 & K2)).
    destruct (Key _ _ K1). destruct (Key _ _ K2). cbn. split; [lia|]. intro p. unfold write. bdestr; [lia|auto].
Qed.

Lemma cant_halt_sound comp depth r : NoDup (map fst comp) -> restartable (machine_of comp) -> named (machine_of comp) ->
  cant_halt comp depth = OSome r -> never_halts (machine_of comp).
Proof.
  intros ND RS NM H. apply never_halts_iff. intros (n & slot & c & E & A & B & N).
  destruct n as [|n]; [cbn in E; inv E; cbn in *; destruct NM as [N0 _]; destruct slot; cbn in *; subst; unfold blank_tape in N; congruence|].
  assert (D0 : forall m s Q, deriv comp (halt_configs comp) m s Q -> (0 < m)%nat -> machine_of comp s (k_scan Q) <> None).
  { intros m s Q D L. inv D; [lia|]. rewrite back_scan. unfold machine_of. apply (proj1 (comp_get_in comp _ _ ND)) in H1. congruence. }
  refine (reach_sound comp ND (halt_configs comp) _ RS (S n) _ c E _ _ depth r H).
  - intros x I. apply halt_configs_in in I. destruct I as (s & y & _ & _ & _ & ->). apply wf_init.
  - lia.
  - exists (init_halt (snd slot)). split.
    + exists (rc_new (c_state c) (init_halt (snd slot))). split; [|auto]. apply halt_configs_in. exists (c_state c), (snd slot).
      destruct (run_in_table comp (S n) c ND NM E) as [G1 G2]. rewrite <- B. split; [auto|]. split; [auto|]. split; [|auto].
      rewrite A, B. exact N.
    + split; [auto|]. intros []; apply side_nil; discriminate.
  - intros m s P Q Bc d Lm (x & I & <- & <-) DQ EB MP MQ Ed Es MQd. apply halt_configs_in in I. destruct I as (s & y & _ & _ & N' & ->). cbn [r_state r_tape rc_new] in *.
    assert (Sc : k_scan Q = y). { destruct MP as [MP _], MQ as [MQ _]. cbn in MP. congruence. }
    destruct m.
    + split; auto. inv DQ. destruct H0 as (x & I & Ex1 & <-). apply halt_configs_in in I. destruct I as (s' & y' & _ & _ & _ & ->).
      cbn in *. exact MQd.
    + exfalso. apply (D0 (S m) s Q DQ); [lia|]. rewrite Sc. exact N'.
Qed.

(** ** Erasing *)
Lemma erase_in comp c : In c (erase_configs comp) <-> exists s x sh t, In ((s, x), (0, sh, t)) comp /\ x <> 0 /\ c = rc_new s (init_blank x).
Proof.
  unfold erase_configs. rewrite in_flat_map. split.
  - intros ([[s x] [[pr sh] t]] & I & H). destruct (Z.eqb_spec pr 0); [|contradiction]. destruct (Z.eqb_spec x 0); [contradiction|].
    cbn in H. destruct H as [<-|[]]. subst. exists s, x, sh, t. auto.
  - intros (s & x & sh & t & I & N & ->). exists ((s, x), (0, sh, t)). split; auto. rewrite Z.eqb_refl. destruct (Z.eqb_spec x 0); [congruence|]. cbn; auto.
Qed.
Lemma erase_target comp d : NoDup (map fst comp) -> (target (erase_configs comp) d <->
  exists sh t, machine_of comp (c_state d) (scan_of d) = Some (0, sh, t) /\ scan_of d <> 0 /\ forall p, p <> c_pos d -> c_tape d p = 0).
Proof.
  intro ND. split.
  - intros (T & (x & I & E1 & E2) & Mt). apply erase_in in I. destruct I as (s & y & sh & t & I & N & ->). cbn in E1, E2. subst.
    destruct Mt as [A B]. cbn in A. exists sh, t. split; [apply (proj1 (comp_get_in comp _ _ ND)); rewrite A; auto|]. split; [congruence|].
    intros p Np. destruct (Z.lt_ge_cases p (c_pos d)).
    + pose proof (proj1 (side_nil _ _) (B false) eq_refl (Z.to_nat (c_pos d - 1 - p))) as F. unfold cells in F. rewrite <- F. f_equal. lia.
    + pose proof (proj1 (side_nil _ _) (B true) eq_refl (Z.to_nat (p - c_pos d - 1))) as F. unfold cells in F. rewrite <- F. f_equal. lia.
  - intros (sh & t & E & N & F). exists (init_blank (scan_of d)). split.
    + exists (rc_new (c_state d) (init_blank (scan_of d))). split; [|auto]. apply erase_in. exists (c_state d), (scan_of d), sh, t.
      split; [apply (proj2 (comp_get_in comp _ _ ND)); exact E|auto].
    + split; [auto|]. intros []; apply side_nil; intros _ i; unfold cells; apply F; lia.
Qed.

Lemma cells_same c d T : matches T c -> matches T d -> (forall dir, k_end T dir = true) -> scan_of c = scan_of d /\ forall dir i, cells c dir i = cells d dir i.
Proof.
  intros [A B] [A' B'] E. split; [congruence|]. intros dir i.
  destruct (B dir) as [B1 B2], (B' dir) as [B1' B2'].
  destruct (nth_error (slice_far (k_span T dir)) i) as [x|] eqn:F; [rewrite (B1 _ _ F), (B1' _ _ F); auto|].
  apply nth_error_None in F. rewrite B2, B2'; auto.
Qed.
Lemma matches_same c d T : scan_of c = scan_of d -> (forall dir i, cells c dir i = cells d dir i) -> matches T c -> matches T d.
Proof.
  intros E F [A B]. split; [congruence|]. intro dir. eapply side_ext; [|apply B]. auto.
Qed.

Lemma no_erase comp depth r : NoDup (map fst comp) -> restartable (machine_of comp) -> cant_blank comp depth = OSome r ->
  forall n c, steps (machine_of comp) n init = Some c -> ~ target (erase_configs comp) c.
Proof.
  intros ND RS H n. induction n as [n IH] using (well_founded_induction lt_wf). intros c E T.
  destruct n as [|n].
  { cbn in E. inv E. apply (erase_target comp init ND) in T. destruct T as (sh & t & _ & N & _). apply N. reflexivity. }
  refine (reach_sound comp ND (erase_configs comp) _ RS (S n) _ c E T _ depth r H).
  - intros x I. apply erase_in in I. destruct I as (s & y & ? & ? & _ & _ & ->). apply wf_init.
  - lia.
  - intros m s P Q B d Lm IP DQ EB MP MQ Ed Es MQd.
    assert (En : forall dir, k_end Q dir = true).
    { clear - DQ. induction DQ; intro dir; [|rewrite back_end; auto]. destruct H as (x & I & _ & <-). apply erase_in in I.
      destruct I as (s' & y & ? & ? & _ & _ & ->). destruct dir; reflexivity. }
    destruct (cells_same B d Q MQ MQd En) as [F1 F2]. pose proof (matches_same B d P F1 F2 MP) as MPd.
    split; auto. destruct m; auto. exfalso. apply (IH (S n - S m)%nat) with (c := d); auto; [lia|].
    exists P. split; [subst s; rewrite Es|]; auto.
Qed.

Lemma support comp n : forall c, steps (machine_of comp) n init = Some c -> Z.abs (c_pos c) <= Z.of_nat n /\ forall p, Z.of_nat n < Z.abs p -> c_tape c p = 0.
Proof.
  induction n; intros c H.
  - cbn in H. inv H. cbn. split; [lia|auto].
  - rewrite steps_S_r in H. destruct (steps _ n init) as [d|]; [|discriminate]. destruct (IHn d eq_refl) as [A B].
    unfold step in H. destruct (machine_of comp _ _) as [[[pr sh] t]|]; [|discriminate]. inv H. cbn. unfold move, write.
    split; [destruct sh; lia|]. intros p L. bdestr; [lia|]. apply B. lia.
Qed.

Lemma dec_range (P : Z -> Prop) : (forall p, {P p} + {~ P p}) -> forall a k, (forall p, a <= p < a + Z.of_nat k -> P p) \/ (exists p, ~ P p).
Proof.
  intros D a k. induction k; [left; intros; lia|]. destruct IHk as [IH|E]; auto.
  destruct (D (a + Z.of_nat k)) as [Y|N]; [|right; eauto]. left. intros p L. destruct (Z.eq_dec p (a + Z.of_nat k)); [subst; auto|apply IH; lia].
Qed.

Lemma cant_blank_sound comp depth r : NoDup (map fst comp) -> restartable (machine_of comp) ->
  cant_blank comp depth = OSome r -> never_erases (machine_of comp).
Proof.
  intros ND RS H.
  assert (G : forall m c c', steps (machine_of comp) m init = Some c -> (exists p, c_tape c p <> 0) -> step (machine_of comp) c = Some c' -> exists p, c_tape c' p <> 0).
  { intros m c c' E (p & Np) S.
    destruct (dec_range (fun p => p = c_pos c \/ c_tape c p = 0)) with (a := - Z.of_nat m) (k := (2 * m + 1)%nat) as [Y|(q & Nq)].
    - intro q. destruct (Z.eq_dec q (c_pos c)); [left; auto|]. destruct (Z.eq_dec (c_tape c q) 0); [left; auto|right; tauto].
    - assert (Z0 : forall q, q <> c_pos c -> c_tape c q = 0).
      { intros q Nq. destruct (Z.lt_ge_cases (Z.of_nat m) (Z.abs q)) as [L|L]; [apply (proj2 (support comp m c E)); auto|].
        destruct (Y q); [lia|congruence|auto]. }
      assert (p = c_pos c) by (destruct (Z.eq_dec p (c_pos c)); auto; exfalso; apply Np; auto). subst p.
      unfold step in S. destruct (machine_of comp _ _) as [[[pr sh] t]|] eqn:F; [|discriminate]. inv S. cbn.
      exists (c_pos c). unfold write. rewrite Z.eqb_refl. intros ->.
      apply (no_erase comp depth r ND RS H m c E). apply erase_target; auto. exists sh, t. auto.
    - unfold step in S. destruct (machine_of comp _ _) as [[[pr sh] t]|] eqn:F; [|discriminate]. inv S. cbn.
      exists q. unfold write. bdestr; [tauto|tauto]. }
  intros m n c d L Ec Mc Ed B. replace n with (m + (n - m))%nat in Ed by lia. revert d Ed B. clear L. generalize (n - m)%nat.
  assert (K : forall k d, steps (machine_of comp) (m + k) init = Some d -> exists p, c_tape d p <> 0).
  { induction k; intros d E; [rewrite Nat.add_0_r in E; rewrite Ec in E; inv E; auto|].
    rewrite Nat.add_succ_r, steps_S_r in E. destruct (steps _ (m + k) init) as [e|] eqn:F; [|discriminate]. eapply G; eauto. }
  intros k d E B. destruct (K k d E) as [p N]. apply N, B.
Qed.

(** ** Spinning out *)
Lemma spin_in comp c : In c (zero_reflexive_configs comp) <-> exists s pr sh, In ((s, 0), (pr, sh, s)) comp /\ c = rc_new s (init_spinout sh).
Proof.
  unfold zero_reflexive_configs. rewrite in_flat_map. split.
  - intros ([[s x] [[pr sh] t]] & I & H). destruct (Z.eqb_spec x 0); [|contradiction]. destruct (Z.eqb_spec t s); [|contradiction].
    cbn in H. destruct H as [<-|[]]. subst. exists s, pr, sh. auto.
  - intros (s & pr & sh & I & ->). exists ((s, 0), (pr, sh, s)). split; auto. rewrite !Z.eqb_refl. cbn; auto.
Qed.
Lemma spin_matches sh d : matches (init_spinout sh) d <-> scan_of d = 0 /\ forall i, cells d sh i = 0.
Proof.
  unfold matches. split.
  - intros [A B]. split; auto. specialize (B sh). assert (k_end (init_spinout sh) sh = true /\ k_span (init_spinout sh) sh = []) as [E1 E2] by (destruct sh; auto).
    rewrite E1, E2 in B. exact (proj1 (side_nil _ _) B eq_refl).
  - intros [A B]. split; auto. intro dir. replace (k_span (init_spinout sh) dir) with (@nil block) by (destruct sh, dir; auto). cbn [slice_far]. apply side_nil.
    intros E i. destruct (Bool.bool_dec dir sh) as [->|N]; auto. destruct dir, sh; try congruence; discriminate.
Qed.

Lemma no_spin comp depth r : NoDup (map fst comp) -> restartable (machine_of comp) -> cant_spin_out comp depth = OSome r ->
  forall n c, steps (machine_of comp) n init = Some c -> ~ target (zero_reflexive_configs comp) c.
Proof.
  intros ND RS H. set (M := machine_of comp).
  assert (U : forall s x i j, In ((s, x), i) comp -> In ((s, x), j) comp -> i = j).
  { intros s x i j A B. apply (proj1 (comp_get_in comp _ _ ND)) in A. apply (proj1 (comp_get_in comp _ _ ND)) in B. congruence. }
  assert (S1 : forall n c, (1 <= n)%nat -> steps M n init = Some c -> ~ target (zero_reflexive_configs comp) c).
  { intro n. induction n as [n IH] using (well_founded_induction lt_wf). intros c L E T.
    refine (reach_sound comp ND (zero_reflexive_configs comp) _ RS n L c E T _ depth r H).
    { intros x I. apply spin_in in I. destruct I as (s & pr & sh & _ & ->). destruct sh; apply wf_init. }
    intros m s P Q B d Lm (x & I & <- & <-) DQ EB MP MQ Ed Es MQd. apply spin_in in I. destruct I as (s & pr & dir & I & ->).
    cbn [r_state r_tape rc_new] in *. apply spin_matches in MP.
    assert (G : forall m Q, deriv comp (zero_reflexive_configs comp) m s Q -> forall B d, c_state B = s -> c_state d = s ->
      scan_of B = 0 /\ (forall i, cells B dir i = 0) -> matches Q B -> matches Q d -> scan_of d = 0 /\ forall i, cells d dir i = 0).
    { clear - U I ND H. induction m as [|m IH]; intros Q DQ B d EB Es SB MB Md.
      - inv DQ. destruct H0 as (x & I' & Ex & <-). apply spin_in in I'. destruct I' as (s' & pr' & sh' & I' & ->). cbn in *. subst.
        pose proof (U _ _ _ _ I I') as E. inv E. apply spin_matches in Md. auto.
      - inversion DQ as [|k0 s1 Q1 s' rd pr1 sh DQ1 I1 K1]; subst.
        assert (rd = 0). { destruct MB as [A _]. rewrite back_scan in A. destruct SB. congruence. } subst rd.
        assert (EB : c_state B = c_state d) by congruence.
        assert (IB : In ((c_state B, 0), (pr1, sh, s1)) comp) by (rewrite EB; rewrite EB in I1; exact I1).
        rewrite EB in I, I1, IH.
        pose proof (U _ _ _ _ I I1) as E. inv E.
        pose proof (proj1 (comp_get_in comp _ _ ND) I1) as IM. pose proof (proj1 (comp_get_in comp _ _ ND) IB) as IBM.
        destruct (fwd_lemma (machine_of comp) B pr1 sh (c_state d) Q1 0 IBM (deriv_wf comp (zero_reflexive_configs comp) ltac:(intros x J; apply spin_in in J; destruct J as (? & ? & [] & _ & ->); apply wf_init) _ _ _ DQ1) K1 MB) as (B1 & SB1 & EB1 & MB1).
        destruct (fwd_lemma (machine_of comp) d pr1 sh (c_state d) Q1 0 IM (deriv_wf comp (zero_reflexive_configs comp) ltac:(intros x J; apply spin_in in J; destruct J as (? & ? & [] & _ & ->); apply wf_init) _ _ _ DQ1) K1 Md) as (d1 & Sd1 & Ed1 & Md1).
        assert (Sd : scan_of d = 0). { destruct Md as [A _]. rewrite back_scan in A. auto. }
        assert (IMd : machine_of comp (c_state d) (scan_of d) = Some (pr1, sh, c_state d)) by (rewrite Sd; exact IM).
        assert (IMB : machine_of comp (c_state B) (scan_of B) = Some (pr1, sh, c_state d)) by (rewrite (proj1 SB); exact IBM).
        destruct (step_cells _ _ _ _ _ _ IMd Sd1) as (_ & F2 & F3 & _ & _). destruct (step_cells _ _ _ _ _ _ IMB SB1) as (_ & F2' & F3' & _ & _).
        destruct (IH Q1 DQ1 B1 d1 EB1 Ed1) as [G1 G2]; auto.
        { split; [rewrite F2'; apply SB|]. intro i. rewrite F3'. apply SB. }
        split; auto. intros [|i]; [rewrite <- F2; auto|]. rewrite <- F3. auto. }
    pose proof (G m Q DQ B d EB Es MP MQ MQd) as Sp.
    assert (Mt : matches (init_spinout dir) d) by (apply spin_matches; auto).
    split; auto. destruct m; auto. exfalso. apply (IH (n - S m)%nat) with (c := d); auto; try lia.
    exists (init_spinout dir). split; auto. exists (rc_new s (init_spinout dir)). split; [apply spin_in; eauto|auto]. }
  intros [|n] c E T; [|eapply (S1 (S n)); eauto; lia].
  destruct T as (T & (x & I & Ex & Et) & Mt). apply spin_in in I. destruct I as (s & pr & dir & I & ->). cbn in Ex, Et. subst.
  apply spin_matches in Mt.
  pose proof (proj1 (comp_get_in comp _ _ ND) I) as IM.
  assert (IMd : machine_of comp (c_state c) (scan_of c) = Some (pr, dir, c_state c)) by (rewrite (proj1 Mt); exact IM).
  assert (exists c', step M c = Some c') as [c' S] by (unfold step, M; unfold scan_of in IMd; rewrite IMd; eauto).
  destruct (step_cells _ _ _ _ _ _ IMd S) as (F1 & F2 & F3 & _ & _).
  apply (S1 1%nat c'); [lia|cbn in *; inv E; rewrite S; auto|].
  exists (init_spinout dir). split; [exists (rc_new (c_state c) (init_spinout dir)); split; [apply spin_in; eauto|cbn; auto]|].
  apply spin_matches. split; [rewrite F2; apply Mt|]. intro i. rewrite F3. apply Mt.
Qed.

Lemma cant_spin_out_sound comp depth r : NoDup (map fst comp) -> restartable (machine_of comp) ->
  cant_spin_out comp depth = OSome r -> never_spins_out (machine_of comp).
Proof.
  intros ND RS H n c E (dir & Sp). apply (no_spin comp depth r ND RS H n c E).
  set (M := machine_of comp) in *.
  destruct (Sp 0%nat) as (d0 & E0 & _ & _ & Z0). cbn in E0. inv E0.
  destruct (Sp 1%nat) as (d1 & E1 & A1 & P1 & _). cbn in E1. unfold step in E1.
  destruct (M (c_state d0) (c_tape d0 (c_pos d0))) as [[[pr sh] t]|] eqn:F; [|discriminate]. inv E1. cbn in A1, P1. subst t. rewrite Z0 in F.
  assert (sh = dir) by (unfold move in P1; destruct sh, dir; auto; lia). subst sh.
  assert (K : forall k d, steps M k d0 = Some d -> forall p, (if dir then c_pos d0 + Z.of_nat k <= p else p <= c_pos d0 - Z.of_nat k) -> c_tape d p = c_tape d0 p).
  { induction k; intros d E' p L; [cbn in E'; inv E'; auto|]. rewrite steps_S_r in E'. destruct (Sp k) as (e & Ee & Se & Pe & Re). rewrite Ee in E'.
    unfold step in E'. destruct (M (c_state e) (c_tape e (c_pos e))) as [[[pr' sh'] t']|]; [|discriminate]. inv E'. cbn. unfold write.
    rewrite Pe. assert (c_tape e p = c_tape d0 p) by (apply IHk; auto; destruct dir; lia). destruct dir; bdestr; auto; lia. }
  exists (init_spinout dir). split.
  - exists (rc_new (c_state d0) (init_spinout dir)). split; [|auto]. apply spin_in. exists (c_state d0), pr, dir. split; [|auto].
    apply (proj2 (comp_get_in comp _ _ ND)). exact F.
  - apply spin_matches. split; [exact Z0|]. intro i. destruct (Sp (S i)) as (d & Ed & _ & Pd & Rd).
    rewrite (K _ _ Ed) in Rd by (rewrite Pd; destruct dir; lia). rewrite Pd in Rd. unfold cells. rewrite <- Rd. f_equal. destruct dir; lia.
Qed.

(** ** Depth *)
Lemma loop_depth ep : forall f f' step configs blanks r, (f <= f')%nat -> reach_loop ep f step configs blanks = OSome r ->
  reach_loop ep f' step configs blanks = OSome r /\ step <= r < step + Z.of_nat f.
Proof.
  induction f; intros f' step configs blanks r L H; cbn [reach_loop] in H; [discriminate|]. destruct f' as [|f']; [lia|]. cbn [reach_loop].
  destruct (get_valid_steps ep configs) as [[|v valid]| |]; try discriminate; [inv H; split; [auto|lia]|].
  destruct (46 <? _); [discriminate|]. destruct (step_configs _ _ _) as [[st bl]|]; [|discriminate].
  destruct (IHf f' _ _ _ _ ltac:(lia) H). split; [auto|lia].
Qed.
Lemma cant_reach_depth comp d d' configs r : (d <= d')%nat -> cant_reach comp d configs = OSome r ->
  cant_reach comp d' configs = OSome r /\ (r = 0 \/ 0 <= r < Z.of_nat d).
Proof.
  unfold cant_reach. destruct configs as [|c configs]; [intros _ H; inv H; auto|].
  intros L H. destruct (loop_depth _ _ _ _ _ _ _ L H). split; [auto|lia].
Qed.
Lemma reason_total comp d : cant_halt comp d <> OPanic /\ cant_blank comp d <> OPanic /\ cant_spin_out comp d <> OPanic.
Proof. repeat split; apply cant_reach_no_panic. Qed.
Lemma reason_depth comp d d' f r : In f [cant_halt; cant_blank; cant_spin_out] -> (d <= d')%nat -> f comp d = OSome r ->
  f comp d' = OSome r /\ (r = 0 \/ 0 <= r < Z.of_nat d).
Proof. intros [<-|[<-|[<-|[]]]] L H; exact (cant_reach_depth comp d d' _ r L H). Qed.

(** ** Counterexamples *)
Definition halt_bug : comp_prog := [((0,0),(1,true,1)); ((0,1),(0,false,1)); ((1,1),(1,false,2)); ((2,0),(1,true,1)); ((2,1),(1,true,1))].
Lemma cant_halt_wrong : NoDup (map fst halt_bug) /\ named (machine_of halt_bug) /\ cant_halt halt_bug 2 = OSome 1 /\ halts (machine_of halt_bug).
Proof.
  split; [repeat constructor; cbn; intuition congruence|]. split; [|split; [vm_compute; auto|]].
  - split; [vm_compute; discriminate|]. intros s c pr sh t E. unfold machine_of in E.
    apply (proj2 (comp_get_in halt_bug (s, c) _ ltac:(repeat constructor; cbn; intuition congruence))) in E.
    assert (A : exists s' c', 2 <= s' /\ machine_of halt_bug s' c' <> None) by (exists 2, 0; split; [lia|vm_compute; discriminate]).
    assert (B : exists s' c', 1 <= c' /\ machine_of halt_bug s' c' <> None) by (exists 2, 1; split; [lia|vm_compute; discriminate]).
    destruct A as (a & a' & LA & A), B as (b & b' & LB & B).
    cbn in E. repeat (destruct E as [E|E]; [inv E; split; [lia|]; split; [lia|]; split; [exists a, a'; split; [lia|auto]|exists b, b'; split; [lia|auto]]|]). contradiction.
  - exists 1%nat, (1, 0). eexists. split; [vm_compute; reflexivity|]. repeat split; vm_compute; auto.
Qed.
Definition uncovered : comp_prog := [((0,0),(1,true,1)); ((0,1),(1,true,0))].
Lemma cant_halt_uncovered : NoDup (map fst uncovered) /\ restartable (machine_of uncovered) /\ cant_halt uncovered 1 = OSome 0 /\ halts (machine_of uncovered).
Proof.
  split; [repeat constructor; cbn; intuition congruence|]. split; [|split; [vm_compute; auto|]].
  - exists (fun s => s = 0). split; [auto|]. intros s ->. exists 0. split; [auto|]. exists 1, 1, true. reflexivity.
  - exists 1%nat, (1, 0). eexists. split; [vm_compute; reflexivity|]. repeat split; vm_compute; auto.
Qed.
Definition spin_bug : comp_prog := [((0,0),(1,true,1)); ((1,0),(1,true,1)); ((1,1),(0,true,2)); ((2,1),(1,false,1))].
Lemma cant_spin_out_wrong : NoDup (map fst spin_bug) /\ cant_spin_out spin_bug 2 = OSome 1 /\ ~ never_spins_out (machine_of spin_bug).
Proof.
  split; [repeat constructor; cbn; intuition congruence|]. split; [vm_compute; auto|]. intro H.
  eapply (H 1%nat); [reflexivity|]. eapply (spin_out_lemma _ _ true 1); [reflexivity|]. intros i L. cbn [c_tape c_pos move].
  unfold write, blank_tape. bdestr; [lia|auto].
Qed.
Definition blank_bug : comp_prog := [((0,0),(1,true,1)); ((0,1),(0,true,2)); ((1,0),(0,false,3)); ((1,1),(1,true,1)); ((2,0),(1,true,2)); ((3,0),(0,false,2)); ((3,1),(0,false,2))].
Lemma cant_blank_wrong : NoDup (map fst blank_bug) /\ cant_blank blank_bug 3 = OSome 2 /\ ~ never_erases (machine_of blank_bug).
Proof.
  split; [repeat constructor; cbn; intuition congruence|]. split; [vm_compute; auto|]. intro H.
  eapply (H 1%nat 3%nat); [lia|reflexivity|exists 0; vm_compute; discriminate|reflexivity|].
  intro p. cbn [c_tape c_pos move write]. unfold write, blank_tape. cbn. bdestr; auto; lia.
Qed.
