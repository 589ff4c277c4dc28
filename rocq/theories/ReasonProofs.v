(** * Soundness of backward reasoning *)
From Verif Require Import Base TM TMFacts ProgModel TapeModel TermRecModel ParseModel NormModel NormProofs GraphModel GraphSpec GraphProofs ReasonModel ReasonSpec.

(** ** Patterns *)
Definition k_span (T : backstepper) (dir : bool) : span := if dir then k_rspan T else k_lspan T.
Definition k_end (T : backstepper) (dir : bool) : bool := if dir then k_rend T else k_lend T.

Definition wf_span (s : span) : Prop := Forall (fun b => 1 <= b_count b) s.
Definition wf (T : backstepper) : Prop := forall dir, wf_span (k_span T dir).

Definition side (f : nat -> Z) (l : list Z) (b : bool) : Prop :=
  (forall i x, nth_error l i = Some x -> f i = x) /\ (b = true -> forall i, (length l <= i)%nat -> f i = 0).

Definition cells (c : config) (dir : bool) (i : nat) : Z :=
  c_tape c (if dir then c_pos c + 1 + Z.of_nat i else c_pos c - 1 - Z.of_nat i).
Definition scan_of (c : config) : Z := c_tape c (c_pos c).

Definition matches (T : backstepper) (c : config) : Prop :=
  scan_of c = k_scan T /\ forall dir, side (cells c dir) (slice_far (k_span T dir)) (k_end T dir).

Lemma side_cons f x l b : side f (x :: l) b <-> f 0%nat = x /\ side (fun i => f (S i)) l b.
Proof.
  unfold side. split.
  - intros [A B]. split; [apply (A 0%nat); auto|]. split; [intros i y H; apply (A (S i)); auto|].
    intros E i L. apply B; auto. cbn; lia.
  - intros [E [A B]]. split; [intros [|i] y H; cbn in H; [congruence|apply A; auto]|].
    intros E' [|i] L; cbn in L; [lia|]. apply B; auto; lia.
Qed.
Lemma side_nil f b : side f [] b <-> (b = true -> forall i, f i = 0).
Proof.
  unfold side. split; [intros [A B] E i; apply B; auto; cbn; lia|].
  intro A. split; [intros [|i] x H; discriminate|auto].
Qed.
Lemma side_ext f g l b : (forall i, f i = g i) -> side f l b -> side g l b.
Proof.
  intros E [A B]. split; [intros i x H; rewrite <- E; auto|]. intros E' i L. rewrite <- E; auto.
Qed.

Lemma far_cons b s : 1 <= b_count b -> slice_far (b :: s) = b_color b :: slice_far (pull_one (b :: s)).
Proof.
  intro L. cbn [slice_far pull_one]. destruct (b_count b =? 1) eqn:E.
  - zb. rewrite E. reflexivity.
  - cbn [slice_far b_color b_count]. zb. replace (Z.to_nat (b_count b)) with (S (Z.to_nat (b_count b - 1))) by lia. reflexivity.
Qed.
Lemma far_push s e x : wf_span s -> slice_far (push_one s e x) =
  if negb (x =? 0) || negb (match s with [] => true | _ => false end) || negb e then x :: slice_far s else [].
Proof.
  intro W. unfold push_one. destruct (negb (x =? 0) || _ || _) eqn:E.
  - destruct s as [|b s]; [reflexivity|]. inv W. destruct (b_color b =? x) eqn:F; [|reflexivity].
    zb. cbn [slice_far b_color b_count]. replace (Z.to_nat (b_count b + 1)) with (S (Z.to_nat (b_count b))) by lia. rewrite F. reflexivity.
  - destruct s; [reflexivity|]. rewrite !orb_true_r in E. discriminate.
Qed.
Lemma wf_pull s : wf_span s -> wf_span (pull_one s).
Proof. intro W. destruct W; cbn; [constructor|]. destruct (b_count x =? 1) eqn:E; auto. zb. constructor; auto. cbn. lia. Qed.
Lemma wf_push s e x : wf_span s -> wf_span (push_one s e x).
Proof.
  intro W. unfold push_one. destruct (_ || _); auto. destruct W; [repeat constructor; cbn; lia|].
  destruct (_ =? x); (constructor; [cbn; lia|]); auto; constructor; auto.
Qed.

Lemma back_span_pull T sh rd : k_span (backstep T sh rd) (negb sh) = pull_one (k_span T (negb sh)).
Proof. destruct sh; reflexivity. Qed.
Lemma back_span_push T sh rd : k_span (backstep T sh rd) sh = push_one (k_span T sh) (k_end T sh) (k_scan T).
Proof. destruct sh; reflexivity. Qed.
Lemma back_end T sh rd dir : k_end (backstep T sh rd) dir = k_end T dir.
Proof. destruct sh, dir; reflexivity. Qed.
Lemma back_scan T sh rd : k_scan (backstep T sh rd) = rd.
Proof. destruct sh; reflexivity. Qed.
Lemma wf_back T sh rd : wf T -> wf (backstep T sh rd).
Proof.
  intros W dir. destruct (Bool.bool_dec dir sh) as [->|N].
  - rewrite back_span_push. apply wf_push; auto.
  - assert (dir = negb sh) as -> by (destruct dir, sh; cbn; congruence). rewrite back_span_pull. apply wf_pull; auto.
Qed.
Lemma check_span T sh pr : check_step T sh pr <> None <->
  match k_span T (negb sh) with [] => k_end T (negb sh) = true -> pr = 0 | b :: _ => pr = b_color b end.
Proof.
  unfold check_step. destruct sh; cbn [negb k_span k_end].
  - destruct (k_lspan T) as [|b l]; [destruct (k_lend T)|].
    + destruct (Z.eqb_spec pr 0); split; try congruence. intros H. specialize (H eq_refl). congruence.
    + split; congruence.
    + destruct (Z.eqb_spec pr (b_color b)); split; congruence.
  - destruct (k_rspan T) as [|b l]; [destruct (k_rend T)|].
    + destruct (Z.eqb_spec pr 0); split; try congruence. intros H. specialize (H eq_refl). congruence.
    + split; congruence.
    + destruct (Z.eqb_spec pr (b_color b)); split; congruence.
Qed.

Lemma step_cells M c c' pr sh t : M (c_state c) (scan_of c) = Some (pr, sh, t) -> step M c = Some c' ->
  c_state c' = t /\ scan_of c' = cells c sh 0 /\ (forall i, cells c' sh i = cells c sh (S i)) /\
  cells c' (negb sh) 0 = pr /\ (forall i, cells c' (negb sh) (S i) = cells c (negb sh) i).
Proof.
  unfold scan_of, cells, step. intros E H. rewrite E in H. inv H. cbn.
  unfold move, write. destruct sh; cbn [negb].
  - split; [auto|]. split; [bdestr; [lia|f_equal; lia]|].
    split; [intro i; bdestr; [lia|f_equal; lia]|]. split; [bdestr; [auto|lia]|]. intro i; bdestr; [lia|f_equal; lia].
  - split; [auto|]. split; [bdestr; [lia|f_equal; lia]|].
    split; [intro i; bdestr; [lia|f_equal; lia]|]. split; [bdestr; [auto|lia]|]. intro i; bdestr; [lia|f_equal; lia].
Qed.

Lemma back_lemma M c c' pr sh t T : M (c_state c) (scan_of c) = Some (pr, sh, t) -> step M c = Some c' ->
  wf T -> matches T c' -> check_step T sh pr <> None /\ matches (backstep T sh (scan_of c)) c.
Proof.
  intros E H W [A B]. destruct (step_cells _ _ _ _ _ _ E H) as (F1 & F2 & F3 & F4 & F5).
  split.
  - apply check_span. pose proof (B (negb sh)) as S. pose proof (W (negb sh)) as W'.
    destruct (k_span T (negb sh)) as [|b s].
    + intro K. apply (proj1 (side_nil _ _)) with (i := 0%nat) in S; auto. congruence.
    + inv W'. rewrite far_cons in S by auto. apply side_cons in S. destruct S as [S _]. congruence.
  - split; [rewrite back_scan; auto|]. intro dir. rewrite back_end. destruct (Bool.bool_dec dir sh) as [->|N].
    + rewrite back_span_push, far_push by auto. destruct (_ || _) eqn:K.
      * apply side_cons. split; [congruence|]. eapply side_ext; [exact F3|]. apply B.
      * apply side_nil. intros _ i. apply orb_false_iff in K. destruct K as [K K3]. apply orb_false_iff in K. destruct K as [K1 K2].
        pose proof (B sh) as S. destruct (k_span T sh); [|discriminate]. apply (proj1 (side_nil _ _)) with (i := pred i) in S; [|destruct (k_end T sh); auto].
        destruct i; [|cbn in S; rewrite <- F3; auto]. rewrite <- F2, A. destruct (k_scan T =? 0) eqn:Z0; [zb; auto|discriminate].
    + assert (dir = negb sh) as -> by (destruct dir, sh; cbn; congruence). rewrite back_span_pull.
      pose proof (B (negb sh)) as S. pose proof (W (negb sh)) as W'.
      destruct (k_span T (negb sh)) as [|b s].
      * cbn [pull_one slice_far] in *. apply side_nil. intros K i. rewrite <- F5.
        exact (proj1 (side_nil _ _) S K (Datatypes.S i)).
      * inv W'. rewrite far_cons in S by auto. apply side_cons in S. destruct S as [_ S].
        eapply side_ext; [|exact S]. intro i; apply F5.
Qed.

Lemma fwd_lemma M c pr sh t T rd : M (c_state c) rd = Some (pr, sh, t) -> wf T -> check_step T sh pr <> None ->
  matches (backstep T sh rd) c -> exists c', step M c = Some c' /\ c_state c' = t /\ matches T c'.
Proof.
  intros E W K [A B]. rewrite back_scan in A. rewrite <- A in E.
  assert (exists c', step M c = Some c') as [c' H] by (unfold step; unfold scan_of in E; rewrite E; eauto).
  exists c'. split; auto. destruct (step_cells _ _ _ _ _ _ E H) as (F1 & F2 & F3 & F4 & F5). split; auto.
  assert (P : scan_of c' = k_scan T /\ side (cells c' sh) (slice_far (k_span T sh)) (k_end T sh)).
  { specialize (B sh). rewrite back_end, back_span_push, far_push in B by auto. destruct (_ || _) eqn:Q.
    - apply side_cons in B. destruct B as [B1 B2]. split; [congruence|]. eapply side_ext; [|exact B2]. intro i; auto.
    - apply orb_false_iff in Q. destruct Q as [Q K3]. apply orb_false_iff in Q. destruct Q as [K1 K2].
      destruct (k_span T sh); [|discriminate]. assert (K4 : k_end T sh = true) by (destruct (k_end T sh); auto).
      pose proof (proj1 (side_nil _ _) B K4) as Z0.
      split; [rewrite F2, Z0; destruct (k_scan T =? 0) eqn:Z1; [zb; auto|discriminate]|].
      apply side_nil. intros _ i. rewrite F3. apply Z0. }
  split; [apply P|]. intro dir. destruct (Bool.bool_dec dir sh) as [->|N]; [apply P|].
  assert (dir = negb sh) as -> by (destruct dir, sh; cbn; congruence).
  specialize (B (negb sh)). rewrite back_end, back_span_pull in B.
  apply check_span in K. specialize (W (negb sh)).
  destruct (k_span T (negb sh)) as [|b s].
  - cbn [pull_one slice_far] in *. apply side_nil. intros K' i.
    destruct i; [rewrite F4; auto|]. rewrite F5. exact (proj1 (side_nil _ _) B K' i).
  - inv W. rewrite far_cons by auto. apply side_cons. split; [congruence|].
    eapply side_ext; [|exact B]. intro i. cbn. auto.
Qed.

Lemma in_far s x : wf_span s -> (In x (slice_far s) <-> exists b, In b s /\ b_color b = x).
Proof.
  intro W. induction W as [|b s L W IH]; cbn [slice_far].
  - split; [contradiction|intros (b & [] & _)].
  - rewrite in_app_iff, IH. split.
    + intros [H|(b' & H & E)]; [|exists b'; cbn; auto]. apply repeat_spec in H. exists b; cbn; auto.
    + intros (b' & [<-|H] & E); [left|right; eauto]. rewrite E.
      replace (Z.to_nat (b_count b)) with (S (Z.to_nat (b_count b - 1))) by lia. cbn; auto.
Qed.
Lemma blank_spec T : bk_blank T = true <-> k_scan T = 0 /\ forall dir b, In b (k_span T dir) -> b_color b = 0.
Proof.
  unfold bk_blank. rewrite andb_true_iff, forallb_forall, Z.eqb_eq. split; intros [A B]; split; auto.
  - intros dir b H. specialize (B b). rewrite in_app_iff, Z.eqb_eq in B. apply B. destruct dir; auto.
  - intros b H. apply Z.eqb_eq. apply in_app_iff in H. destruct H as [H|H]; [apply (B false)|apply (B true)]; auto.
Qed.
Lemma blank_matches T c : wf T -> is_blank c -> (matches T c <-> bk_blank T = true).
Proof.
  intros W Z0. rewrite blank_spec. unfold matches, scan_of. rewrite Z0. split; intros [A B]; split; auto.
  - intros dir b H. assert (I : In (b_color b) (slice_far (k_span T dir))) by (apply in_far; eauto).
    apply In_nth_error in I. destruct I as [i I]. destruct (B dir) as [B' _]. apply B' in I. unfold cells in I. rewrite Z0 in I. auto.
  - intro dir. split; [|intros; unfold cells; auto]. intros i x H. apply nth_error_In, in_far in H; auto.
    destruct H as (b & H & <-). rewrite (B dir b H). unfold cells; auto.
Qed.

(** ** Entry points *)
Definition ep_sound (comp : comp_prog) (ep : entries) : Prop :=
  forall t l x, In (t, l) ep -> In x l -> In x comp /\ snd (snd x) = t.
Definition ep_full (comp : comp_prog) (R : Z -> Prop) (ep : entries) : Prop :=
  NoDup (map fst ep) /\
  forall s c pr sh t, In ((s, c), (pr, sh, t)) comp -> R s -> exists l, In (t, l) ep /\ In ((s, c), (pr, sh, t)) l.
Definition ep_closed (ep : entries) : Prop :=
  forall t l x, In (t, l) ep -> In x l -> In (fst (fst x)) (map fst ep).

Lemma all_entry_inv (comp done : comp_prog) (ep : entries) :
  NoDup (map fst ep) /\ ep_sound done ep /\ (forall x, In x done -> exists l, In (snd (snd x), l) ep /\ In x l) ->
  let ep' := fold_left (fun (ep : entries) (e : slot * instr) =>
    let '(_, _, state) := snd e in
    dset ep state ((match dget ep state with Some l => l | None => [] end) ++ [e])) comp ep in
  NoDup (map fst ep') /\ ep_sound (done ++ comp) ep' /\ (forall x, In x (done ++ comp) -> exists l, In (snd (snd x), l) ep' /\ In x l).
Proof.
  revert done ep. induction comp as [|[[s c] [[pr sh] t]] comp IH]; intros done ep H; cbn [fold_left]; [rewrite app_nil_r; auto|].
  assert (SA : done ++ ((s, c), (pr, sh, t)) :: comp = (done ++ [((s, c), (pr, sh, t))]) ++ comp) by (rewrite <- app_assoc; auto).
  cbv zeta. unfold slot, instr in *. rewrite SA.
  apply IH. destruct H as (A & B & C). cbn [snd].
  set (l0 := match dget ep t with Some l => l | None => [] end).
  assert (L0 : forall y, In y l0 -> In y done /\ snd (snd y) = t).
  { intros y I. unfold l0 in I. destruct (dget ep t) eqn:E; [|contradiction]. apply dget_pair in E; auto. eapply B; eauto. }
  assert (N : NoDup (map fst (dset ep t (l0 ++ [((s, c), (pr, sh, t))])))) by (apply dset_nodup; auto).
  split; [auto|]. split.
  - intros t' l x I J. apply pair_dget in I; auto. rewrite dget_dset in I. destruct (t =? t') eqn:E; zb.
    + inv I. apply in_app_iff in J. rewrite in_app_iff. destruct J as [J|[<-|[]]]; [apply L0 in J; intuition|cbn; auto].
    + apply dget_pair in I. rewrite in_app_iff. destruct (B _ _ _ I J); auto.
  - intros x I. apply in_app_iff in I.
    assert (G : forall t' l, In (t', l) ep -> In x l -> exists l', In (t', l') (dset ep t (l0 ++ [((s, c), (pr, sh, t))])) /\ In x l').
    { intros t' l J K. destruct (Z.eq_dec t t') as [->|NE].
      - exists (l0 ++ [((s, c), (pr, sh, t'))]). split; [apply dget_pair; rewrite dget_dset, Z.eqb_refl; auto|].
        apply in_app_iff. left. unfold l0. apply pair_dget in J; auto. rewrite J. auto.
      - exists l. split; [|auto]. apply dget_pair. rewrite dget_dset. replace (t =? t') with false by (symmetry; apply Z.eqb_neq; auto).
        apply pair_dget; auto. }
    destruct I as [I|[<-|[]]].
    + destruct (C x I) as (l & J & K). eapply G; eauto.
    + exists (l0 ++ [((s, c), (pr, sh, t))]). split; [apply dget_pair; cbn; rewrite dget_dset, Z.eqb_refl; auto|].
      apply in_app_iff; cbn; auto.
Qed.

Lemma in_keys {V} (d : list (Z * V)) k v : In (k, v) d -> In k (map fst d).
Proof. intro H. apply in_map_iff. exists (k, v). auto. Qed.

Lemma prune_in ep t l : In (t, l) (prune_round ep) <->
  exists l0, In (t, l0) ep /\ l = filter (fun x : slot * instr => mem (fst (fst x)) (map fst ep)) l0 /\ l <> [].
Proof.
  unfold prune_round. rewrite filter_In, in_map_iff. cbn [snd fst]. split.
  - intros [([t0 l0] & E & I) N]. cbn in E. inv E. exists l0. split; auto. split; auto. destruct (filter _ l0); [discriminate|congruence].
  - intros (l0 & I & -> & N). split; [exists (t, l0); auto|]. destruct (filter _ l0); [congruence|auto].
Qed.
Lemma prune_keys ep : incl (map fst (prune_round ep)) (map fst ep).
Proof.
  intros t H. apply in_map_iff in H. destruct H as ([t' l] & <- & H). apply prune_in in H. destruct H as (l0 & H & _). cbn. eapply in_keys; eauto.
Qed.
Lemma prune_nodup ep : NoDup (map fst ep) -> NoDup (map fst (prune_round ep)).
Proof.
  unfold prune_round. set (F := fun e : Z * list (slot * instr) => (fst e, filter (fun x : slot * instr => mem (fst (fst x)) (map fst ep)) (snd e))).
  assert (E : forall l, map fst (map F l) = map fst l) by (intro l; rewrite map_map; apply map_ext; auto).
  intro N. rewrite <- (E ep) in N. revert N. generalize (map F ep). intro l.
  induction l as [|e l IH]; cbn; auto. intro N. inv N. destruct (snd e); cbn; auto. constructor; auto.
  intro H. apply H1. apply in_map_iff in H. destruct H as (x & E' & H). apply filter_In in H. apply in_map_iff. exists x. intuition.
Qed.

Lemma prune_full comp (R : Z -> Prop) ep : (forall s, R s -> exists s' c pr sh, R s' /\ In ((s', c), (pr, sh, s)) comp) ->
  ep_full comp R ep -> ep_full comp R (prune_round ep).
Proof.
  intros HR [N F]. split; [apply prune_nodup; auto|]. intros s c pr sh t I Rs.
  destruct (F _ _ _ _ _ I Rs) as (l & A & B).
  assert (C : In ((s, c), (pr, sh, t)) (filter (fun x : slot * instr => mem (fst (fst x)) (map fst ep)) l)).
  { apply filter_In. split; auto. apply mem_in. cbn. destruct (HR s Rs) as (s' & c' & pr' & sh' & Rs' & I').
    destruct (F _ _ _ _ _ I' Rs') as (l' & A' & _). eapply in_keys; eauto. }
  exists (filter (fun x : slot * instr => mem (fst (fst x)) (map fst ep)) l). split; [|auto]. apply prune_in. exists l. split; auto. split; auto. intro Z0. rewrite Z0 in C. auto.
Qed.
Lemma prune_sound comp ep : ep_sound comp ep -> ep_sound comp (prune_round ep).
Proof.
  intros S t l x I J. apply prune_in in I. destruct I as (l0 & I & -> & _). apply filter_In in J. eapply S; [exact I|tauto].
Qed.
Lemma prune_loop_ind (P : entries -> Prop) : (forall ep, P ep -> P (prune_round ep)) -> forall f ep, P ep -> P (prune f ep).
Proof. intros HP f. induction f; cbn; auto. intros ep H. destruct (Nat.eqb _ _); auto. Qed.

Lemma prune_length ep : (length (prune_round ep) <= length ep)%nat.
Proof.
  unfold prune_round. etransitivity; [|rewrite <- (map_length (fun e : Z * list (slot * instr) => (fst e, filter (fun x : slot * instr => mem (fst (fst x)) (map fst ep)) (snd e))) ep); reflexivity].
  generalize (map (fun e : Z * list (slot * instr) => (fst e, filter (fun x : slot * instr => mem (fst (fst x)) (map fst ep)) (snd e))) ep).
  induction l as [|e l IH]; cbn; [lia|]. destruct (snd e); cbn; lia.
Qed.
Lemma prune_closed_same ep : NoDup (map fst ep) -> length (prune_round ep) = length ep -> ep_closed (prune_round ep).
Proof.
  intros N L. assert (K : incl (map fst ep) (map fst (prune_round ep))).
  { apply NoDup_length_incl; [apply prune_nodup; auto|rewrite !map_length; lia|apply prune_keys]. }
  intros t l x I J. apply prune_in in I. destruct I as (l0 & I & -> & _). apply filter_In in J.
  apply K. apply mem_in. apply J.
Qed.
Lemma prune_closed f : forall ep, NoDup (map fst ep) -> (length ep <= f)%nat -> ep_closed (prune f ep).
Proof.
  induction f; intros ep N L; cbn.
  - destruct ep; [|cbn in L; lia]. intros t l x [].
  - destruct (Nat.eqb_spec (length (prune_round ep)) (length ep)) as [E|E]; [apply prune_closed_same; auto|].
    apply IHf; [apply prune_nodup; auto|]. pose proof (prune_length ep). lia.
Qed.

Lemma all_entry comp : NoDup (map fst (all_entrypoints comp)) /\ ep_sound comp (all_entrypoints comp) /\
  forall x, In x comp -> exists l, In (snd (snd x), l) (all_entrypoints comp) /\ In x l.
Proof.
  apply (all_entry_inv comp [] []). split; [constructor|]. split; [intros ? ? ? []|intros ? []].
Qed.
Lemma entry_sound comp : ep_sound comp (get_entrypoints comp).
Proof. apply (prune_loop_ind (ep_sound comp)); [apply prune_sound|apply all_entry]. Qed.
Lemma entry_nodup comp : NoDup (map fst (get_entrypoints comp)).
Proof. apply (prune_loop_ind (fun ep => NoDup (map fst ep))); [apply prune_nodup|apply all_entry]. Qed.
Lemma entry_closed comp : ep_closed (get_entrypoints comp).
Proof. apply prune_closed; [apply all_entry|lia]. Qed.
Lemma entry_full comp (R : Z -> Prop) : (forall s, R s -> exists s' c pr sh, R s' /\ In ((s', c), (pr, sh, s)) comp) ->
  ep_full comp R (get_entrypoints comp).
Proof.
  intro HR. apply (prune_loop_ind (ep_full comp R)); [intros ep; apply prune_full; auto|].
  destruct (all_entry comp) as (A & _ & B). split; auto. intros s c pr sh t I _. apply (B ((s, c), (pr, sh, t)) I).
Qed.

(** ** No panic *)
Lemma good_steps_in state tape eps l : good_steps state tape eps = OSome l ->
  forall rd sh s', In (rd, sh, s') l <-> exists pr t, In ((s', rd), (pr, sh, t)) eps /\ check_step tape sh pr <> None.
Proof.
  revert l. induction eps as [|[[s0 rd0] [[pr0 sh0] t0]] eps IH]; intros l H rd sh s'; cbn [good_steps] in H.
  - inv H. split; [contradiction|intros (pr & t & [] & _)].
  - destruct (check_step tape sh0 pr0) as [e|] eqn:K.
    + destruct (e && _ && _); [discriminate|]. destruct (good_steps state tape eps) as [l0| |]; try discriminate. inv H.
      cbn [In]. rewrite (IH l0 eq_refl). split.
      * intros [E|(pr & t & I & C)]; [inv E; exists pr0, t0; split; [auto|congruence]|exists pr, t; auto].
      * intros (pr & t & [E|I] & C); [inv E; auto|right; eauto].
    + rewrite (IH l H). split; intros (pr & t & I & C); exists pr, t; [split; [right|]; auto|].
      destruct I as [E|I]; [inv E; congruence|auto].
Qed.
Lemma good_steps_no_panic state tape eps : good_steps state tape eps <> OPanic.
Proof.
  induction eps as [|[[s0 rd0] [[pr0 sh0] t0]] eps IH]; cbn [good_steps]; [discriminate|].
  destruct (check_step tape sh0 pr0) as [e|]; auto. destruct (e && _ && _); [discriminate|].
  destruct (good_steps state tape eps); congruence.
Qed.
Lemma valid_steps_in ep configs valid : get_valid_steps ep configs = OSome valid ->
  forall l c, In (l, c) valid <-> l <> [] /\ In c configs /\ exists eps, dget ep (r_state c) = Some eps /\ good_steps (r_state c) (r_tape c) eps = OSome l.
Proof.
  revert valid. induction configs as [|c0 configs IH]; intros valid H l c; cbn [get_valid_steps] in H.
  - inv H. cbn. tauto.
  - destruct (dget ep (r_state c0)) as [eps|] eqn:D; [|discriminate].
    destruct (good_steps (r_state c0) (r_tape c0) eps) as [g| |] eqn:G; try discriminate.
    destruct (get_valid_steps ep configs) as [v| |] eqn:V; try discriminate. inv H. specialize (IH v eq_refl).
    destruct g as [|i g].
    + rewrite IH. cbn [In]. split; [intuition|]. intros (N & [<-|I] & eps' & D' & G'); [|intuition eauto]. congruence.
    + cbn [In]. rewrite IH. split.
      * intros [E|H]; [inv E; split; [congruence|split; eauto]|intuition].
      * intros (N & [<-|I] & eps' & D' & G'); [left; congruence|right; intuition eauto].
Qed.

Lemma step_instrs_states c instrs : forall stepped blanks stepped' blanks',
  step_instrs c instrs stepped blanks = Some (stepped', blanks') ->
  forall x, In x stepped' -> In x stepped \/ exists rd sh, In (rd, sh, r_state x) instrs.
Proof.
  induction instrs as [|[[rd sh] s] instrs IH]; intros stepped blanks stepped' blanks' H x I; cbn [step_instrs] in H; [inv H; auto|].
  destruct (_ && (s =? 0)); [discriminate|].
  assert (W : forall r, (In x (stepped ++ [r]) -> r_state r = s -> In x stepped \/ exists rd0 sh0, In (rd0, sh0, r_state x) ((rd, sh, s) :: instrs))).
  { intros r J E. apply in_app_iff in J. destruct J as [J|[<-|[]]]; auto. right. exists rd, sh. left. congruence. }
  destruct (_ && mem s blanks).
  - destruct (IH _ _ _ _ H x I) as [?|(? & ? & ?)]; auto. right. cbn. eauto.
  - destruct (lin_rec _).
    + destruct (1 <? _); [discriminate|]. destruct (IH _ _ _ _ H x I) as [J|(? & ? & ?)]; [apply W in J; auto|right; cbn; eauto].
    + destruct (IH _ _ _ _ H x I) as [J|(? & ? & ?)]; [apply W in J; auto|right; cbn; eauto].
Qed.
Lemma step_configs_states configs : forall stepped blanks stepped' blanks',
  step_configs configs stepped blanks = Some (stepped', blanks') ->
  forall x, In x stepped' -> In x stepped \/ exists l c rd sh, In (l, c) configs /\ In (rd, sh, r_state x) l.
Proof.
  induction configs as [|[l c] configs IH]; intros stepped blanks stepped' blanks' H x I; cbn [step_configs] in H; [inv H; auto|].
  destruct (step_instrs c l stepped blanks) as [[st1 bl1]|] eqn:E; [|discriminate].
  destruct (IH _ _ _ _ H x I) as [J|(l' & c' & rd & sh & A & B)]; [|right; exists l', c', rd, sh; cbn; auto].
  destruct (step_instrs_states _ _ _ _ _ _ E x J) as [?|(rd & sh & ?)]; auto. right. exists l, c, rd, sh. cbn; auto.
Qed.

Lemma valid_no_panic ep configs : (forall c, In c configs -> In (r_state c) (map fst ep)) -> get_valid_steps ep configs <> OPanic.
Proof.
  induction configs as [|c configs IH]; intro H; cbn [get_valid_steps]; [discriminate|].
  pose proof (H c (or_introl eq_refl)) as K. apply dget_in in K. destruct K as [eps ->].
  pose proof (good_steps_no_panic (r_state c) (r_tape c) eps). destruct (good_steps _ _ _); try congruence.
  assert (K : get_valid_steps ep configs <> OPanic) by (apply IH; intros; apply H; cbn; auto).
  destruct (get_valid_steps ep configs); congruence.
Qed.
Lemma reach_loop_no_panic ep : NoDup (map fst ep) -> ep_closed ep -> forall fuel step configs blanks,
  (forall c, In c configs -> In (r_state c) (map fst ep)) -> reach_loop ep fuel step configs blanks <> OPanic.
Proof.
  intros N C. induction fuel; intros step configs blanks H; cbn [reach_loop]; [discriminate|].
  pose proof (valid_no_panic ep configs H) as V. destruct (get_valid_steps ep configs) as [valid| |] eqn:G; try congruence.
  destruct valid as [|v valid]; [congruence|]. destruct (46 <? _); [congruence|].
  destruct (step_configs _ _ _) as [[st bl]|] eqn:E; [|congruence]. apply IHfuel. intros c I.
  destruct (step_configs_states _ _ _ _ _ E c I) as [[]|(l & c0 & rd & sh & A & B)].
  apply (proj1 (valid_steps_in _ _ _ G _ _)) in A. destruct A as (_ & _ & eps & D & S).
  apply (proj1 (good_steps_in _ _ _ _ S _ _ _)) in B. destruct B as (pr & t & B & _).
  apply dget_pair in D. exact (C _ _ _ D B).
Qed.
Lemma cant_reach_no_panic comp depth configs : cant_reach comp depth configs <> OPanic.
Proof.
  unfold cant_reach. destruct configs as [|c configs]; [discriminate|].
  apply reach_loop_no_panic; [apply entry_nodup|apply entry_closed|]. intros x I. apply filter_In in I.
  apply dget_in. destruct I as [_ I]. destruct (dget _ _); [eauto|discriminate].
Qed.
