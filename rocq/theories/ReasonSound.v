(** * Soundness of cant_halt, cant_blank, cant_spin_out *)
From Verif Require Import Base TM TMFacts ProgModel TapeModel TermRecModel ParseModel NormModel NormProofs GraphModel GraphSpec GraphProofs ReasonModel ReasonSpec ReasonProofs.

Section Reach.
Variable comp : comp_prog.
Hypothesis ND : NoDup (map fst comp).
Variable configs0 : list rconf.
Hypothesis C0 : forall c, In c configs0 -> wf (r_tape c).
Let M := machine_of comp.
Variable restart : restartable M.

Definition initial (s : Z) (T : backstepper) : Prop := exists c, In c configs0 /\ r_state c = s /\ r_tape c = T.
Definition target (d : config) : Prop := exists T, initial (c_state d) T /\ matches T d.

Inductive deriv : nat -> Z -> backstepper -> Prop :=
  | d_init s T : initial s T -> deriv 0 s T
  | d_step k s T s' rd pr sh : deriv k s T -> In ((s', rd), (pr, sh, s)) comp -> check_step T sh pr <> None ->
      deriv (S k) s' (backstep T sh rd).

Lemma deriv_wf k s T : deriv k s T -> wf T.
Proof. induction 1; [destruct H as (c & I & _ & <-); auto|apply wf_back; auto]. Qed.

Lemma M_in s c i : M s c = Some i <-> In ((s, c), i) comp.
Proof. unfold M, machine_of. symmetry. apply (comp_get_in comp (s, c) i ND). Qed.

Lemma matches_scan k s T d : deriv k s T -> matches T d -> scan_of d = k_scan T.
Proof. intros _ [A _]. auto. Qed.

(** states from which the entry points are complete *)
Lemma run_full : exists R : Z -> Prop, ep_full comp R (get_entrypoints comp) /\
  forall n d, steps M n init = Some d -> R (c_state d).
Proof.
  destruct restart as (K & K0 & KE).
  exists (fun s => K s \/ exists n d, steps M n init = Some d /\ c_state d = s). split; [|eauto].
  apply entry_full. intros s [Ks|(n & d & E & <-)].
  - destruct (KE s Ks) as (s' & Ks' & c & pr & sh & E). exists s', c, pr, sh. split; auto. apply M_in; auto.
  - destruct n.
    + cbn in E. inv E. cbn. destruct (KE 0 K0) as (s' & Ks' & c & pr & sh & E). exists s', c, pr, sh. split; auto. apply M_in; auto.
    + rewrite steps_S_r in E. destruct (steps M n init) as [e|] eqn:E'; [|discriminate].
      unfold step in E. destruct (M (c_state e) (c_tape e (c_pos e))) as [[[pr sh] t]|] eqn:F; [|discriminate]. inv E. cbn.
      exists (c_state e), (c_tape e (c_pos e)), pr, sh. split; [right; eauto|]. apply M_in; auto.
Qed.

Variable n : nat.
Hypothesis n1 : (1 <= n)%nat.
Variable cn : config.
Hypothesis run : steps M n init = Some cn.
Hypothesis hit : target cn.

Hypothesis base : forall m s P Q B d, (m < n)%nat -> initial s P -> deriv m s Q -> c_state B = s -> matches P B -> matches Q B ->
  steps M (n - m) init = Some d -> c_state d = s -> matches Q d -> m = 0%nat /\ matches P d.

Lemma prev_step k d : (k < n)%nat -> steps M (n - k) init = Some d ->
  exists e pr sh, steps M (n - S k) init = Some e /\ step M e = Some d /\ M (c_state e) (scan_of e) = Some (pr, sh, c_state d).
Proof.
  intros L E. replace (n - k)%nat with (S (n - S k)) in E by lia. rewrite steps_S_r in E.
  destruct (steps M (n - S k) init) as [e|] eqn:F; [|discriminate]. exists e. unfold step in *.
  unfold scan_of. destruct (M (c_state e) (c_tape e (c_pos e))) as [[[pr sh] t]|]; [|discriminate]. inv E. cbn. eauto.
Qed.

Lemma skip m : forall j s P Q B d, (m < n)%nat -> (j <= m)%nat -> deriv j s P -> deriv m s Q -> c_state B = s -> matches P B -> matches Q B ->
  steps M (n - m) init = Some d -> c_state d = s -> matches Q d -> j = m /\ matches P d.
Proof.
  induction m; intros j s P Q B d Lm Lj DP DQ EB MP MQ Ed Es MQd.
  - assert (j = 0%nat) by lia. subst j. inv DP. destruct (base 0 (c_state B) P Q B d) as [_ H']; auto.
  - destruct j.
    + inv DP. destruct (base (S m) (c_state B) P Q B d) as [H' _]; auto. discriminate.
    + inversion DP as [|j' s1 P1 s1' rd1 pr1 sh1 DP1 I1 K1]; subst; clear DP.
      inversion DQ as [|m' s2 Q2 s2' rd2 pr2 sh2 DQ2 I2 K2]; subst; clear DQ.
      assert (rd1 = rd2). { destruct MP as [A _], MQ as [A' _]. rewrite back_scan in A, A'. congruence. } subst rd2.
      assert (E : (pr1, sh1, s1) = (pr2, sh2, s2)).
      { apply M_in in I1. apply M_in in I2. congruence. }
      inv E. apply M_in in I1.
      destruct (fwd_lemma M B pr2 sh2 s2 P1 rd1 I1 (deriv_wf _ _ _ DP1) K1 MP) as (B1 & SB & EB1 & MP1).
      destruct (fwd_lemma M B pr2 sh2 s2 Q2 rd1 I1 (deriv_wf _ _ _ DQ2) K2 MQ) as (B1' & SB' & _ & MQ1).
      rewrite SB in SB'. inv SB'.
      assert (Id : M (c_state d) rd1 = Some (pr2, sh2, c_state B1')) by (rewrite Es; auto).
      destruct (fwd_lemma M d pr2 sh2 (c_state B1') Q2 rd1 Id (deriv_wf _ _ _ DQ2) K2 MQd) as (d1 & Sd & Ed1 & MQd1).
      assert (Sn : steps M (n - m) init = Some d1).
      { replace (n - m)%nat with (S (n - S m)) by lia. rewrite steps_S_r, Ed. auto. }
      destruct (IHm j (c_state B1') P1 Q2 B1' d1 ltac:(lia) ltac:(lia) DP1 DQ2 eq_refl MP1 MQ1 Sn Ed1 MQd1) as [-> MPd].
      split; auto.
      assert (Sc : scan_of d = rd1). { destruct MQd as [A _]. rewrite back_scan in A. auto. }
      rewrite <- Sc. rewrite <- Sc in Id. destruct (back_lemma M d d1 pr2 sh2 (c_state B1') P1 Id Sd (deriv_wf _ _ _ DP1) MPd) as [_ H].
      exact H.
Qed.

Lemma skip_blank m j s P Q d : (m < n)%nat -> (j <= m)%nat -> deriv j s P -> deriv m s Q -> bk_blank P = true -> bk_blank Q = true ->
  steps M (n - m) init = Some d -> c_state d = s -> matches Q d -> j = m /\ matches P d.
Proof.
  intros. apply (skip m j s P Q (Cfg s 0 blank_tape) d); auto.
  - apply (blank_matches P (Cfg s 0 blank_tape)); auto. eapply deriv_wf; eauto. intro; reflexivity.
  - apply (blank_matches Q (Cfg s 0 blank_tape)); auto. eapply deriv_wf; eauto. intro; reflexivity.
Qed.

(** ** One level *)
Definition covers (k : nat) (configs : list rconf) : Prop :=
  exists c d, In c configs /\ steps M (n - k) init = Some d /\ c_state d = r_state c /\ matches (r_tape c) d.
Definition derived (k : nat) (configs : list rconf) (blanks : list Z) : Prop :=
  (forall c, In c configs -> deriv k (r_state c) (r_tape c)) /\
  (forall s, In s blanks -> exists j P, (j <= k)%nat /\ deriv j s P /\ bk_blank P = true /\
     (j = k -> exists c, In c configs /\ r_state c = s /\ r_tape c = P)).

Lemma step_instrs_spec k c instrs : forall stepped blanks stepped' blanks',
  (k < n)%nat -> deriv k (r_state c) (r_tape c) ->
  (forall rd sh s', In (rd, sh, s') instrs -> exists pr, In ((s', rd), (pr, sh, r_state c)) comp /\ check_step (r_tape c) sh pr <> None) ->
  derived (S k) stepped blanks -> step_instrs c instrs stepped blanks = Some (stepped', blanks') ->
  derived (S k) stepped' blanks' /\ incl stepped stepped' /\
  forall rd sh s' d, In (rd, sh, s') instrs -> steps M (n - S k) init = Some d -> c_state d = s' -> matches (backstep (r_tape c) sh rd) d ->
    (S k < n)%nat /\ covers (S k) stepped'.
Proof.
  induction instrs as [|[[rd sh] s] instrs IH]; intros stepped blanks stepped' blanks' Lk Dc Hin Dv H; cbn [step_instrs] in H.
  - inv H. split; [auto|]. split; [apply incl_refl|]. intros ? ? ? ? [].
  - set (T := backstep (r_tape c) sh rd) in *.
    destruct (Hin rd sh s (or_introl eq_refl)) as (pr & I & K).
    assert (DT : deriv (S k) s T) by (econstructor; eauto).
    assert (Hin' : forall rd sh s', In (rd, sh, s') instrs -> exists pr, In ((s', rd), (pr, sh, r_state c)) comp /\ check_step (r_tape c) sh pr <> None)
      by (intros; apply Hin; right; auto).
    destruct (bk_blank T && (s =? 0)) eqn:B0; [discriminate|].
    assert (NI : forall d, steps M (n - S k) init = Some d -> c_state d = s -> matches T d -> (S k < n)%nat).
    { intros d E1 E2 E3. destruct (Nat.eq_dec (S k) n); [|lia]. exfalso. replace (n - S k)%nat with 0%nat in E1 by lia. cbn in E1. inv E1.
      cbn in *. apply (blank_matches T init) in E3; [|eapply deriv_wf; eauto|intro; reflexivity]. rewrite E3 in B0. discriminate. }
    destruct (bk_blank T && mem s blanks) eqn:B1.
    + destruct (IH _ _ _ _ Lk Dc Hin' Dv H) as (A1 & A2 & A3). split; [auto|]. split; [auto|].
      intros rd' sh' s' d [E|J] E1 E2 E3; [|eapply A3; eauto]. inv E. fold T in E3. pose proof (NI d E1 eq_refl E3) as Ln. split; auto.
      zb. apply mem_in in H1. destruct (proj2 Dv _ H1) as (j & P & Lj & DP & BP & F).
      destruct (skip_blank (S k) j (c_state d) P T d Ln Lj DP DT BP H0 E1 eq_refl E3) as [-> MP].
      destruct (F eq_refl) as (c' & J & J1 & J2). exists c', d. split; [apply A2; auto|]. split; [auto|]. split; [auto|]. rewrite J2; exact MP.
    + set (bl := if bk_blank T then s :: blanks else blanks) in *.
      assert (G : forall r, r_state r = s -> r_tape r = T ->
        derived (S k) (stepped ++ [r]) bl /\
        (step_instrs c instrs (stepped ++ [r]) bl = Some (stepped', blanks') ->
         derived (S k) stepped' blanks' /\ incl stepped stepped' /\
         forall rd' sh' s' d, In (rd', sh', s') ((rd, sh, s) :: instrs) -> steps M (n - S k) init = Some d -> c_state d = s' -> matches (backstep (r_tape c) sh' rd') d ->
         (S k < n)%nat /\ covers (S k) stepped')).
      { intros r Er1 Er2.
        assert (Dv' : derived (S k) (stepped ++ [r]) bl).
        { destruct Dv as [V1 V2]. split.
          - intros x J. apply in_app_iff in J. destruct J as [J|[<-|[]]]; [auto|]. rewrite Er1, Er2. auto.
          - intros x J. assert (J' : (x = s /\ bk_blank T = true) \/ In x blanks).
            { unfold bl in J. destruct (bk_blank T); [destruct J; auto|auto]. }
            destruct J' as [[-> BT]|J'].
            + exists (S k), T. split; [auto|]. split; [auto|]. split; [auto|]. intros _. exists r. split; [apply in_app_iff; cbn; auto|auto].
            + destruct (V2 x J') as (j & P & A1 & A2 & A3 & A4). exists j, P. split; [auto|]. split; [auto|]. split; [auto|].
              intro E. destruct (A4 E) as (c' & I' & Q). exists c'. split; [apply in_app_iff; auto|auto]. }
        split; [auto|]. intro H'. destruct (IH _ _ _ _ Lk Dc Hin' Dv' H') as (A1 & A2 & A3).
        split; [auto|]. split; [intros x J; apply A2; apply in_app_iff; auto|].
        intros rd' sh' s' d [E|J] E1 E2 E3; [|eapply A3; eauto]. inv E. fold T in E3. pose proof (NI d E1 (eq_sym H3) E3) as Ln. split; auto.
        exists r, d. split; [apply A2; apply in_app_iff; cbn; auto|]. split; [auto|]. split; [congruence|]. rewrite Er2; auto. }
      destruct (lin_rec _).
      * destruct (1 <? _); [discriminate|].
        match type of H with step_instrs _ _ (_ ++ [?r]) _ = _ => exact (proj2 (G r eq_refl eq_refl) H) end.
      * match type of H with step_instrs _ _ (_ ++ [?r]) _ = _ => exact (proj2 (G r eq_refl eq_refl) H) end.
Qed.

Lemma covers_incl k a b : incl a b -> covers k a -> covers k b.
Proof. intros I (c & d & A & R). exists c, d. split; auto. Qed.

Lemma step_configs_spec k configs : forall stepped blanks stepped' blanks',
  (k < n)%nat -> (forall l c, In (l, c) configs -> deriv k (r_state c) (r_tape c) /\
     forall rd sh s', In (rd, sh, s') l -> exists pr, In ((s', rd), (pr, sh, r_state c)) comp /\ check_step (r_tape c) sh pr <> None) ->
  derived (S k) stepped blanks -> step_configs configs stepped blanks = Some (stepped', blanks') ->
  derived (S k) stepped' blanks' /\ incl stepped stepped' /\
  forall l c rd sh s' d, In (l, c) configs -> In (rd, sh, s') l -> steps M (n - S k) init = Some d -> c_state d = s' -> matches (backstep (r_tape c) sh rd) d ->
    (S k < n)%nat /\ covers (S k) stepped'.
Proof.
  induction configs as [|[l c] configs IH]; intros stepped blanks stepped' blanks' Lk Hin Dv H; cbn [step_configs] in H.
  - inv H. split; [auto|]. split; [apply incl_refl|]. intros ? ? ? ? ? ? [].
  - destruct (step_instrs c l stepped blanks) as [[st1 bl1]|] eqn:E; [|discriminate].
    destruct (Hin l c (or_introl eq_refl)) as [Dc Hl].
    destruct (step_instrs_spec k c l _ _ _ _ Lk Dc Hl Dv E) as (A1 & A2 & A3).
    destruct (IH _ _ _ _ Lk (fun l c J => Hin l c (or_intror J)) A1 H) as (B1 & B2 & B3).
    split; [auto|]. split; [eapply incl_tran; eauto|].
    intros l' c' rd sh s' d [J|J] J' E1 E2 E3; [|eapply B3; eauto]. inv J.
    destruct (A3 rd sh _ d J' E1 eq_refl E3) as [? Cv]. split; auto. eapply covers_incl; eauto.
Qed.

Lemma loop_sound : forall fuel k configs blanks step, (k < n)%nat -> covers k configs -> derived k configs blanks ->
  forall r, reach_loop (get_entrypoints comp) fuel step configs blanks <> OSome r.
Proof.
  induction fuel; intros k configs blanks step Lk Cv Dv r H; cbn [reach_loop] in H; [discriminate|].
  destruct (get_valid_steps (get_entrypoints comp) configs) as [valid| |] eqn:V; try discriminate.
  pose proof (valid_steps_in _ _ _ V) as VI.
  destruct Cv as (c & d & Ic & Ed & Es & Md).
  destruct (prev_step k d Lk Ed) as (e & pr & sh & Ee & Se & Ie).
  destruct run_full as (R & [NDe Full] & HR).
  assert (Ie' : In ((c_state e, scan_of e), (pr, sh, c_state d)) comp) by (apply M_in; auto).
  destruct (Full _ _ _ _ _ Ie' (HR _ _ Ee)) as (eps & Ip & Ix).
  apply pair_dget in Ip; auto.
  assert (W : wf (r_tape c)) by (eapply deriv_wf, (proj1 Dv); auto).
  destruct (back_lemma M e d pr sh (c_state d) (r_tape c) Ie Se W Md) as [Ck Mb].
  assert (exists l, In (l, c) valid /\ In (scan_of e, sh, c_state e) l) as (l & Il & Il').
  { assert (G : exists l, good_steps (r_state c) (r_tape c) eps = OSome l).
    { clear - V Ic Ip Es. revert valid V. induction configs as [|c0 cs IH]; intros valid V; [contradiction|]. cbn [get_valid_steps] in V.
      destruct (dget (get_entrypoints comp) (r_state c0)) as [eps0|] eqn:D0; [|discriminate].
      destruct (good_steps (r_state c0) (r_tape c0) eps0) as [g| |] eqn:G; try discriminate.
      destruct (get_valid_steps (get_entrypoints comp) cs) as [v| |] eqn:V'; try discriminate.
      destruct Ic as [->|Ic]; [|eapply IH; eauto]. rewrite Es in Ip. assert (eps0 = eps) by congruence. subst. eauto. }
    destruct G as [l G]. exists l.
    assert (J : In (scan_of e, sh, c_state e) l) by (apply (proj2 (good_steps_in _ _ _ _ G _ _ _)); exists pr, (c_state d); auto).
    split; auto. apply VI. split; [intro Z0; rewrite Z0 in J; auto|]. split; auto. exists eps. split; [congruence|auto]. }
  destruct valid as [|v valid]; [contradiction|].
  destruct (46 <? _); [discriminate|].
  destruct (step_configs (v :: valid) [] blanks) as [[st bl]|] eqn:E; [|discriminate].
  assert (Dv0 : derived (S k) [] blanks).
  { split; [intros ? []|]. intros s J. destruct (proj2 Dv s J) as (j & P & A1 & A2 & A3 & A4). exists j, P. split; [lia|]. split; [auto|]. split; [auto|]. lia. }
  assert (Hin : forall l c, In (l, c) (v :: valid) -> deriv k (r_state c) (r_tape c) /\
     forall rd sh s', In (rd, sh, s') l -> exists pr, In ((s', rd), (pr, sh, r_state c)) comp /\ check_step (r_tape c) sh pr <> None).
  { intros l' c' J. apply VI in J. destruct J as (_ & J & eps' & D' & G'). split; [apply (proj1 Dv); auto|].
    intros rd' sh' s' J'. apply (proj1 (good_steps_in _ _ _ _ G' _ _ _)) in J'. destruct J' as (pr' & t' & J' & K').
    apply dget_pair in D'. destruct (entry_sound comp _ _ _ D' J') as [J1 J2]. cbn in J2. subst t'. eauto. }
  destruct (step_configs_spec k (v :: valid) [] blanks st bl Lk Hin Dv0 E) as (B1 & _ & B3).
  destruct (B3 l c (scan_of e) sh (c_state e) e Il Il' Ee eq_refl Mb) as [Ln Cv'].
  exact (IHfuel (S k) st bl (step + 1) Ln Cv' B1 r H).
Qed.

Lemma reach_sound depth r : cant_reach comp depth configs0 <> OSome r.
Proof.
  unfold cant_reach. destruct hit as (T & (c & Ic & Es & ET) & Mt).
  destruct configs0 as [|c1 cs] eqn:E0; [contradiction|]. rewrite <- E0 in *.
  assert (Key : exists l, dget (get_entrypoints comp) (c_state cn) = Some l).
  { assert (R0 : steps M (n - 0) init = Some cn) by (replace (n - 0)%nat with n by lia; auto).
    destruct (prev_step 0 cn n1 R0) as (e & pr & sh & Ee & Se & Ie). destruct run_full as (R & [NDe Full] & HR).
    apply M_in in Ie. destruct (Full _ _ _ _ _ Ie (HR _ _ Ee)) as (l & Ip & _). exists l. apply pair_dget; auto. }
  set (cf := filter (fun c => match dget (get_entrypoints comp) (r_state c) with Some _ => true | None => false end) configs0) in *.
  assert (Icf : In c cf). { apply filter_In. split; auto. destruct Key as [l K]. rewrite Es, K. auto. }
  assert (Sub : forall x, In x cf -> initial (r_state x) (r_tape x)). { intros x J. apply filter_In in J. exists x. intuition. }
  apply (loop_sound depth 0 cf); auto; try lia.
  - exists c, cn. replace (n - 0)%nat with n by lia. rewrite ET. auto.
  - split; [intros x J; constructor; auto|]. intros s J. apply in_map_iff in J. destruct J as (x & <- & J). apply filter_In in J. destruct J as [J1 J2].
    exists 0%nat, (r_tape x). split; [lia|]. split; [constructor; auto|]. split; [auto|]. intros _. exists x; auto.
Qed.
End Reach.
