(** Lemmas about run_quick_machine. *)
From Verif Require Import Base TM TMFacts ProgModel TapeModel TapeSpec TapeProofs QuickModel.

Definition blank_at (M : program) (state step : Z) : Prop :=
  0 <= step /\ exists c, steps M (Z.to_nat step) init = Some c /\ c_state c = state /\ is_blank c.

Record inv (M : program) (tp : tape) (blanks : blanks_t) (state k : Z) (c : config) : Prop := {
  i_k : 0 <= k;
  i_run : steps M (Z.to_nat k) init = Some c;
  i_rep : represents tp c;
  i_can : canon tp;
  i_st : c_state c = state;
  i_bl : forall s j, In (s, j) blanks -> blank_at M s j /\ j <= k
}.

Lemma blanks_has_In b s : blanks_has b s = true -> exists j, In (s, j) b.
Proof.
  induction b as [|[k j] b IH]; cbn; [discriminate|].
  intros H. apply orb_true_iff in H. destruct H as [H|H].
  - zb. subst. eauto.
  - destruct (IH H) as (j' & ?). eauto.
Qed.

Lemma represents_blank tp c : canon tp -> represents tp c -> t_blank tp = true -> is_blank c.
Proof.
  intros C R B0 p. pose proof (proj1 (blank_iff tp C) B0) as B.
  specialize (R (p - c_pos c)). replace (c_pos c + (p - c_pos c)) with p in R by lia.
  rewrite R. auto.
Qed.

Lemma represents_edge tp c dir : canon tp -> represents tp c -> t_at_edge tp dir = true ->
  forall i, 0 <= i -> c_tape c (if dir then c_pos c + i else c_pos c - i) = 0.
Proof.
  intros C R B i Hi. pose proof (proj1 (at_edge_iff tp dir C) B i Hi) as X.
  rewrite <- X, <- (R (if dir then i else - i)). f_equal. destruct dir; lia.
Qed.

Lemma two_blanks_loop M s j k : blank_at M s j -> blank_at M s k -> j < k -> never_halts M.
Proof.
  intros (Hj & c & Ec & Sc & Bc) (Hk & d & Ed & Sd & Bd) L.
  eapply never_halts_from; [exact Ec|].
  apply (shifted_loop_forever M c d (Z.to_nat (k - j)) (c_pos d - c_pos c)).
  - lia.
  - rewrite <- (steps_add_some _ _ _ _ _ Ec). rewrite <- Ed. f_equal. lia.
  - split; [congruence|]. split; [lia|]. intro p. rewrite Bc, Bd. auto.
Qed.

(** What one successful machine step of the loop does to the invariant. *)
Lemma inv_step M tp blanks state k c color shift next tp' n :
  inv M tp blanks state k c ->
  M state (t_scan tp) = Some (color, shift, next) ->
  rs_step tp shift color (state =? next) = (tp', n) ->
  1 <= n /\ exists c', inv M tp' blanks next (k + n) c'.
Proof.
  intros [Hk Hr Hrep Hc Hst Hb] HM E.
  destruct (rs_step_refines M tp c shift color next (state =? next) tp' n) as (N & W & _ & d & A & B & C & D).
  - apply canon_wf; auto.
  - auto.
  - rewrite Hst. auto.
  - intros X. zb. congruence.
  - auto.
  - split; auto. exists d. constructor; auto.
    + lia.
    + rewrite Z2Nat.inj_add by lia. rewrite (steps_add_some _ _ _ _ _ Hr). auto.
    + eapply rs_step_canon; eauto.
    + intros s j Hin. destruct (Hb s j Hin). split; auto. lia.
Qed.

(** The meaning of the various outcomes. *)
Definition result_ok (M : program) (r : machine_result) : Prop :=
  0 <= mr_steps r
  /\ (forall s j, In (s, j) (mr_blanks r) -> blank_at M s j /\ j <= mr_steps r)
  /\ (exists c, steps M (Z.to_nat (mr_steps r)) init = Some c /\ marks_are (c_tape c) (mr_marks r)
      /\ match mr_result r with
         | undfnd => mr_last_slot r = Some (c_state c, c_tape c (c_pos c))
                     /\ M (c_state c) (c_tape c (c_pos c)) = None
         | spnout => spins_out_from M c
         | infrul => never_halts M /\ is_blank c
         | xlimit => True
         | _ => False
         end).

Lemma quick_loop_ok comp fuel : forall cycle tp blanks state k c,
  inv (machine_of comp) tp blanks state k c ->
  let r := quick_loop comp fuel cycle tp blanks state k in
  result_ok (machine_of comp) r
  /\ (mr_result r = xlimit -> k + Z.of_nat fuel <= mr_steps r).
Proof.
  induction fuel as [|fuel IH]; intros cycle tp blanks state k c I.
  - destruct I as [Hk Hr Hrep Hc Hst Hb]. cbn. split; [|lia].
    split; cbn; auto. split; auto. exists c. repeat split; auto.
    eapply marks_represents; eauto. apply canon_wf; auto.
  - pose proof I as [Hk Hr Hrep Hc Hst Hb]. cbn zeta. cbn [quick_loop].
    assert (HS : c_tape c (c_pos c) = t_scan tp) by (apply represents_iff; auto).
    destruct (comp_get comp (state, t_scan tp)) as [[[color shift] next]|] eqn:EG.
    2:{ cbn. split; [|discriminate]. split; cbn; auto. split; auto. exists c.
        repeat split; auto.
        - eapply marks_represents; eauto. apply canon_wf; auto.
        - congruence.
        - rewrite HS, Hst. exact EG. }
    destruct ((state =? next) && t_at_edge tp shift) eqn:ES.
    { zb. subst next. split; [|discriminate]. split; cbn; auto. split; auto. exists c.
      split; auto. split; [eapply marks_represents; eauto; apply canon_wf; auto|].
      apply (spin_out_lemma _ c shift color).
      - unfold t_at_edge in H0. zb. rewrite H in EG. rewrite Hst. exact EG.
      - intros i Hi. eapply represents_edge; eauto. }
    destruct (rs_step tp shift color (state =? next)) as [tp' n] eqn:ESTEP.
    destruct (inv_step (machine_of comp) tp blanks state k c color shift next tp' n I EG ESTEP) as (N & c' & I').
    pose proof I' as [Hk' Hr' Hrep' Hc' Hst' Hb'].
    destruct ((color =? 0) && t_blank tp') eqn:EB.
    + zb. assert (BA : blank_at (machine_of comp) next (k + n)).
      { split; [lia|]. exists c'. repeat split; auto. eapply represents_blank; eauto. }
      destruct (blanks_has blanks next) eqn:EH.
      * split; [|discriminate]. split; cbn; auto. split; auto. exists c'.
        split; auto. split; [eapply marks_represents; eauto; apply canon_wf; auto|]. split.
        -- destruct (blanks_has_In _ _ EH) as (j & Hj). destruct (Hb _ _ Hj).
           apply (two_blanks_loop _ next j (k + n)); auto. lia.
        -- eapply represents_blank; eauto.
      * destruct (next =? 0) eqn:EZ.
        -- zb. rewrite EZ in *. split; [|discriminate]. split; cbn; auto. split.
           ++ intros s j [X|X]; [inv X; split; auto; lia|auto].
           ++ exists c'. split; auto. split; [eapply marks_represents; eauto; apply canon_wf; auto|]. split.
              ** apply (two_blanks_loop _ 0 0 (k + n)); auto; [|lia].
                 split; [lia|]. exists init. repeat split.
              ** eapply represents_blank; eauto.
        -- assert (I2 : inv (machine_of comp) tp' ((next, k + n) :: blanks) next (k + n) c').
           { constructor; auto. intros s j [X|X]; [inv X; split; auto; lia|auto]. }
           destruct (IH (cycle + 1) tp' _ next (k + n) c' I2) as (A & B).
           split; auto. intros X. specialize (B X). lia.
    + destruct (IH (cycle + 1) tp' blanks next (k + n) c' I') as (A & B).
      split; auto. intros X. specialize (B X). lia.
Qed.

Lemma quick_ok comp lim :
  result_ok (machine_of comp) (run_quick_machine comp lim)
  /\ (mr_result (run_quick_machine comp lim) = xlimit ->
      Z.of_nat lim <= mr_steps (run_quick_machine comp lim)).
Proof.
  destruct (quick_loop_ok comp lim 0 init_tape [] 0 0 init) as (A & B).
  - constructor; cbn; auto using canon_init, represents_init; try lia.
    all: intros ? ? [].
  - split; auto.
Qed.

Lemma quick_undfnd comp lim n s :
  mr_undfnd (run_quick_machine comp lim) = Some (n, s) ->
  0 <= n /\ halts_at (machine_of comp) (Z.to_nat n) s
  /\ exists c, steps (machine_of comp) (Z.to_nat n) init = Some c
     /\ marks_are (c_tape c) (mr_marks (run_quick_machine comp lim)).
Proof.
  destruct (quick_ok comp lim) as ((A & _ & c & E & MK & B) & _).
  unfold mr_undfnd. destruct (mr_result _) eqn:R; try discriminate.
  destruct B as (B1 & B2). rewrite B1. intros X. inv X.
  split; auto. split; [|eauto]. exists c. cbn. auto.
Qed.

Lemma quick_spnout comp lim :
  mr_result (run_quick_machine comp lim) = spnout ->
  never_halts (machine_of comp)
  /\ exists c, steps (machine_of comp) (Z.to_nat (mr_steps (run_quick_machine comp lim))) init = Some c
     /\ spins_out_from (machine_of comp) c
     /\ marks_are (c_tape c) (mr_marks (run_quick_machine comp lim)).
Proof.
  destruct (quick_ok comp lim) as ((A & _ & c & E & MK & B) & _). intros R. rewrite R in B.
  split; [eapply spins_out_never_halts; eauto|eauto].
Qed.

Lemma quick_blanks comp lim s n :
  In (s, n) (mr_blanks (run_quick_machine comp lim)) ->
  0 <= n /\ exists c, steps (machine_of comp) (Z.to_nat n) init = Some c /\ c_state c = s /\ is_blank c.
Proof.
  destruct (quick_ok comp lim) as ((A & B & _) & _). intros H. destruct (B _ _ H) as (X & _). exact X.
Qed.

Lemma quick_infrul comp lim :
  mr_result (run_quick_machine comp lim) = infrul -> never_halts (machine_of comp).
Proof.
  destruct (quick_ok comp lim) as ((A & _ & c & E & MK & B) & _). intros R. rewrite R in B. tauto.
Qed.

Lemma quick_complete comp lim n s :
  halts_at (machine_of comp) n s -> (n < lim)%nat ->
  mr_undfnd (run_quick_machine comp lim) = Some (Z.of_nat n, s).
Proof.
  intros H L.
  destruct (quick_ok comp lim) as ((A & _ & c & E & MK & B) & X).
  destruct (mr_result (run_quick_machine comp lim)) eqn:R.
  - specialize (X eq_refl).
    rewrite (halts_at_stops _ _ _ H) in E; [discriminate|lia].
  - tauto.
  - exfalso. eapply halts_not_never; [|exact (proj1 B)]. exists n, s; auto.
  - exfalso. eapply halts_not_never; [|eapply spins_out_never_halts; eauto]. exists n, s; auto.
  - destruct B as (B1 & B2). unfold mr_undfnd. rewrite R, B1.
    destruct (halts_at_unique _ n (Z.to_nat (mr_steps (run_quick_machine comp lim))) s
                (c_state c, c_tape c (c_pos c)) H) as (U1 & U2).
    + exists c. cbn. auto.
    + subst s. repeat f_equal. lia.
  - tauto.
Qed.
