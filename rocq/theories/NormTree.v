(** tree_norm leaves a program alone whose run is in order. *)
From Verif Require Import Base TM TMFacts ProgModel TapeModel TapeSpec TapeProofs ParseModel ParseSpec ParseProofs
  NormModel NormSpec NormProofs NormFull.

Lemma step_between M t c shift color next skip t' n :
  wf_tape t -> represents t c ->
  M (c_state c) (t_scan t) = Some (color, shift, next) ->
  (skip = true -> next = c_state c) ->
  rs_step t shift color skip = (t', n) ->
  forall j, 0 <= j < n -> exists d, steps M (Z.to_nat j) c = Some d /\ c_state d = c_state c
    /\ c_tape d (c_pos d) = t_scan t.
Proof.
  intros W R HM HS E j Hj. rewrite side_step_eq in E.
  apply represents_iff in R. destruct R as (R0 & R).
  destruct (rs_pull (side t shift) (t_scan t) skip) as [[nx k] pull] eqn:EP.
  destruct (rs_pull_spec _ _ _ _ _ _ (wf_side _ _ W) EP) as (K & WP & P1 & P2 & P3 & P4).
  cbn [fst snd] in E. injection E as <- <-.
  destruct (Z.eq_dec j 0) as [->|J].
  { exists c. repeat split; auto. }
  assert (skip = true) as -> by (destruct skip; auto; specialize (P4 eq_refl); lia).
  rewrite HS in * by auto.
  destruct (run_over M shift color (t_scan t) (Z.to_nat (j - 1)) c R0 HM) as (d & A & B & C & D).
  { intros i Hi. rewrite (R shift i) by lia. apply P1. lia. }
  exists d. replace (Z.to_nat j) with (S (Z.to_nat (j - 1))) by lia.
  split; auto. split; auto. rewrite Z2Nat.id in C, D by lia. rewrite D, C.
  pose proof (R shift (j - 1) ltac:(lia)) as X. rewrite P1 in X by lia. unfold half in X.
  destruct shift; bdestr; try lia; rewrite <- X; f_equal; lia.
Qed.

Record tn_inv (M : program) (t : tn_state) (k : nat) (c : config) : Prop := {
  v_run : steps M k init = Some c;
  v_rep : represents (tn_tape t) c;
  v_can : canon (tn_tape t);
  v_st : c_state c = tn_st t;
  v_seen : forall m d, (m < k)%nat -> steps M m init = Some d ->
             c_state d < tn_avs t /\ c_tape d (c_pos d) < tn_avc t;
  v_s : 1 <= tn_avs t; v_c : 1 <= tn_avc t
}.

Lemma tn_fix M n : (forall s c, n_get n s c = M s c) -> states_in_order M -> colors_in_order M ->
  forall turns t n' k c, tn_norm t = n -> tn_inv M t k c -> tn_loop turns t = Some n' -> n' = n.
Proof.
  intros HG SO CO. induction turns as [|turns IH]; intros t n' k c HN V E; cbn [tn_loop] in E; [congruence|].
  destruct V as [Vr Vp Vc Vs Vn V1 V2].
  assert (HS : c_tape c (c_pos c) = t_scan (tn_tape t)) by (apply represents_iff; auto).
  assert (L1 : tn_st t <= tn_avs t).
  { rewrite <- Vs. destruct (Z.le_gt_cases 1 (c_state c)) as [X|X]; [|lia].
    destruct (SO k c Vr X) as (m & d & Hm & Ed & Sd). destruct (Vn m d Hm Ed). lia. }
  assert (L2 : t_scan (tn_tape t) <= tn_avc t).
  { rewrite <- HS. destruct (Z.le_gt_cases 1 (c_tape c (c_pos c))) as [X|X]; [|lia].
    destruct (CO k c Vr X) as (m & d & Hm & Ed & Sd). destruct (Vn m d Hm Ed). lia. }
  unfold tn_turn in E. cbv zeta in E.
  destruct (tn_st t >? tn_avs t) eqn:G1; [zb; lia|]. destruct (t_scan (tn_tape t) >? tn_avc t) eqn:G2; [zb; lia|].
  assert (A1 : exists avs, (if tn_st t =? tn_avs t then Some (tn_norm t, tn_avs t + 1) else Some (tn_norm t, tn_avs t))
     = Some (tn_norm t, avs) /\ tn_avs t <= avs /\ tn_st t < avs).
  { destruct (tn_st t =? tn_avs t) eqn:X; zb; eexists; (split; [reflexivity|lia]). }
  destruct A1 as (avs & EA & A1 & A2). rewrite EA in E.
  assert (B1 : exists avc, (if t_scan (tn_tape t) =? tn_avc t then Some (tn_norm t, tn_avc t + 1) else Some (tn_norm t, tn_avc t))
     = Some (tn_norm t, avc) /\ tn_avc t <= avc /\ t_scan (tn_tape t) < avc).
  { destruct (t_scan (tn_tape t) =? tn_avc t) eqn:X; zb; eexists; (split; [reflexivity|lia]). }
  destruct B1 as (avc & EB & B1 & B2). rewrite EB in E.
  destruct (n_colors (tn_norm t)) as [colors|]; [|discriminate].
  destruct (_ && _); [congruence|].
  destruct (n_get (tn_norm t) (tn_st t) (t_scan (tn_tape t))) as [[[color shift] next]|] eqn:GI; [|discriminate].
  destruct (py_step (tn_tape t) shift color (tn_st t =? next)) as [tp x] eqn:ST.
  rewrite py_rs_step in ST by (apply canon_wf; auto).
  rewrite HN, HG in GI.
  destruct (rs_step_refines M (tn_tape t) c shift color next (tn_st t =? next) tp x) as (N & W & _ & d & D1 & D2 & D3 & D4); auto.
  { apply canon_wf; auto. } { rewrite Vs; auto. } { intros X. zb. congruence. }
  apply (IH _ n' (k + Z.to_nat x)%nat d) in E; auto. constructor; cbn; auto; try lia.
  - rewrite (steps_add_some _ _ _ _ _ Vr). auto.
  - eapply rs_step_canon; eauto.
  - intros m e Hm Ee. destruct (Nat.lt_ge_cases m k) as [Y|Y].
    + destruct (Vn m e Y Ee). lia.
    + destruct (step_between M (tn_tape t) c shift color next (tn_st t =? next) tp x) with (j := Z.of_nat (m - k)) as (e' & F1 & F2 & F3); auto.
      { apply canon_wf; auto. } { rewrite Vs; auto. } { intros X. zb. congruence. } { lia. }
      replace m with (k + (m - k))%nat in Ee by lia. rewrite (steps_add_some _ _ _ _ _ Vr) in Ee.
      rewrite Nat2Z.id in F1. rewrite F1 in Ee. inversion Ee; subst e'. lia.
Qed.

Lemma tree_norm_in_order g s s' cols p : prog_text g s -> rectangular g cols -> (length g <= 26)%nat -> (1 <= cols <= 10)%nat ->
  from_str s = Some p -> states_in_order (machine_of p) -> colors_in_order (machine_of p) ->
  tree_norm s = Some s' ->
  exists p', from_str s' = Some p' /\ forall st co, machine_of p' st co = machine_of p st co.
Proof.
  intros HT HR HS HC Ep SO CO. unfold tree_norm. rewrite (parse_text _ _ HT).
  destruct (tn_loop 1000 (TN (norm_of g) 0 init_tape 1 1)) as [n'|] eqn:E; [|discriminate]. intros X. inversion X; subst s'.
  pose proof (norm_shape g cols HR) as H.
  assert (HS1 : (1 <= length g)%nat) by (inv HT; cbn; lia).
  assert (HB : bounded (n_get (norm_of g)) 10 26).
  { intros st co pr sh tr Y. rewrite norm_get in Y. eapply text_shows_ok; eauto. }
  destruct (parse_table _ _ HT) as (p0 & Ep0 & Gp). rewrite Ep in Ep0. inversion Ep0; subst p0.
  assert (M1 : forall st co, n_get (norm_of g) st co = machine_of p st co).
  { intros st co. unfold machine_of. rewrite Gp. apply norm_get. }
  apply (tn_fix (machine_of p) (norm_of g) M1 SO CO 1000 _ n' 0%nat init) in E; [|reflexivity|].
  2:{ constructor; cbn; auto using represents_init, canon_init; try lia. }
  subst n'. pose proof (repr_text (norm_of g) _ _ H HS1 ltac:(lia) HB) as HT'.
  destruct (parse_table _ _ HT') as (p' & Ep' & Gp').
  exists p'. split; auto. intros st co. rewrite <- M1. unfold machine_of. rewrite Gp'. rewrite <- norm_get.
  destruct (rows_norm (norm_of g) _ _ H) as (-> & _). reflexivity.
Qed.
