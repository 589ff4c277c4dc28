(** Lemmas about the run-length tapes. *)
From Coq Require FinFun.
From Verif Require Import Base TM TMFacts TapeModel TapeSpec.

Lemma canon_nil : canon_span [].
Proof. exact I. Qed.
#[export] Hint Resolve canon_nil : core.

Lemma canon_wf_span s : canon_span s -> wf_span s.
Proof.
  induction s as [|b s IH]; cbn; intros H; constructor; try tauto; apply IH; tauto.
Qed.

Lemma canon_wf t : canon t -> wf_tape t.
Proof. intros (A & B); split; apply canon_wf_span; auto. Qed.

Lemma canon_tail b s : canon_span (b :: s) -> canon_span s.
Proof. cbn; tauto. Qed.

Lemma canon_span_recount b s k : canon_span (b :: s) -> 1 <= k ->
  canon_span (Blk (b_color b) k :: s).
Proof. cbn. destruct s; cbn; intuition lia. Qed.

(** ** pull *)

Lemma cell_neg s n : n < 0 -> wf_span s -> s <> [] -> cell s n = cell s 0.
Proof.
  intros H W N. destruct s as [|b s]; [congruence|]. inv W. cbn.
  destruct (n <? b_count b) eqn:E, (0 <? b_count b) eqn:F; zb; auto; lia.
Qed.

Lemma rs_pull_spec s scan skip nx k s' :
  wf_span s -> rs_pull s scan skip = (nx, k, s') ->
  1 <= k /\ wf_span s'
  /\ (forall n, 0 <= n < k - 1 -> cell s n = scan)
  /\ cell s (k - 1) = nx
  /\ (forall n, 0 <= n -> cell s' n = cell s (n + k))
  /\ (skip = false -> k = 1).
Proof.
  unfold rs_pull. intros W E.
  assert (P : forall (s : span) (st nx k : Z) (s' : span), wf_span s ->
    match s with
    | [] => (0, st, s)
    | np :: s' => if b_count np >? 1 then (b_color np, st, Blk (b_color np) (b_count np - 1) :: s')
                  else (b_color np, st, s')
    end = (nx, k, s') ->
    k = st /\ wf_span s' /\ cell s 0 = nx /\ (forall n, 0 <= n -> cell s' n = cell s (n + 1))).
  { clear. intros s st nx k s' W E. destruct s as [|b s]; cbn in E.
    - inv E. repeat split; auto.
    - inv W. destruct (b_count b >? 1) eqn:G; inv E; zb.
      + repeat split.
        * constructor; cbn; auto; lia.
        * cbn. destruct (0 <? b_count b) eqn:F; zb; auto; lia.
        * intros n Hn. cbn.
          destruct (n <? b_count b - 1) eqn:F, (n + 1 <? b_count b) eqn:F'; zb; auto; try lia.
          f_equal; lia.
      + assert (b_count b = 1) by lia. repeat split; auto.
        * cbn. destruct (0 <? b_count b) eqn:F; zb; auto; lia.
        * intros n Hn. cbn. destruct (n + 1 <? b_count b) eqn:F'; zb; try lia. f_equal; lia. }
  destruct s as [|b s0].
  - inv E. repeat split; auto; try lia.
  - destruct (skip && (b_color b =? scan)) eqn:G.
    + zb. inv W. destruct (P _ _ _ _ _ H4 E) as (-> & W' & C0 & C).
      split; [lia|]. split; [auto|]. split; [|split; [|split]].
      * intros n Hn. cbn. bdestr; auto; lia.
      * cbn. bdestr; try lia. rewrite <- C0. f_equal; lia.
      * intros n Hn. rewrite C by auto. cbn. bdestr; try lia. f_equal; lia.
      * intros; congruence.
    + destruct (P _ _ _ _ _ W E) as (-> & W' & C0 & C).
      split; [lia|]. split; [auto|]. split; [intros; lia|]. split; [exact C0|]. split; auto.
Qed.

Lemma rs_push_spec s print k :
  wf_span s -> 1 <= k ->
  wf_span (rs_push s print k)
  /\ forall n, 0 <= n -> cell (rs_push s print k) n = if n <? k then print else cell s (n - k).
Proof.
  intros W K. destruct s as [|b s]; cbn.
  - destruct (print =? 0) eqn:E; cbn.
    + zb. split; auto. intros. subst. destruct (n <? k); auto.
    + split; [constructor; cbn; auto|]. intros. auto.
  - inv W. destruct (b_color b =? print) eqn:E; cbn; zb.
    + split; [constructor; cbn; auto; lia|].
      intros n Hn.
      destruct (n <? b_count b + k) eqn:F, (n <? k) eqn:G, (n - k <? b_count b) eqn:F'; zb; auto; try lia.
      f_equal; lia.
    + split; [repeat constructor; cbn; auto; lia|]. auto.
Qed.

(** ** Python step = Rust step *)

Lemma py_rs_step t shift color skip :
  wf_tape t -> py_step t shift color skip = rs_step t shift color skip.
Proof.
  intros (WL & WR).
  assert (G : forall pull push scan, wf_span pull -> wf_span push ->
    (let '(pb, pull1) := py_skip_block pull scan skip in
     let '(nx, pull2, pb') := py_pull_one pull1 pb in
     (nx, py_stepped pb, pull2, py_push push pb' color (py_stepped pb)))
    = (let '(nx, st, pull2) := rs_pull pull scan skip in (nx, st, pull2, rs_push push color st))).
  { clear. intros pull push scan WP WQ.
    assert (PI : forall pb st, py_stepped pb = st ->
               forall pb', (pb' = pb \/ (pb = None /\ exists b, pb' = Some b /\ b_count b = 0)) ->
               py_push push pb' color st = rs_push push color st).
    { intros pb st E pb' H. unfold py_push, rs_push, py_insert.
      destruct push as [|b p].
      - destruct (color =? 0) eqn:Z0; cbn; auto. f_equal.
        destruct H as [->|(-> & b & -> & B)]; cbn in E; subst.
        + destruct pb; cbn; f_equal; lia.
        + cbn. rewrite B. auto.
      - destruct (b_color b =? color); auto. f_equal.
        destruct H as [->|(-> & b' & -> & B)]; cbn in E; subst.
        + destruct pb; cbn; f_equal; lia.
        + cbn. rewrite B. auto. }
    unfold py_skip_block, rs_pull.
    destruct pull as [|b pull].
    - cbn. f_equal. apply (PI None 1 eq_refl); auto.
    - apply Forall_cons_iff in WP; destruct WP as [Wb Wp].
      destruct (skip && (b_color b =? scan)).
      + unfold py_pull_one. destruct pull as [|b' pull]; cbn [py_stepped].
        * f_equal. apply (PI (Some b) _ eq_refl); auto.
        * apply Forall_cons_iff in Wp; destruct Wp as [Wb' Wp]. destruct (b_count b' =? 1) eqn:E1; zb; cbn [negb].
          -- rewrite E1. cbn. f_equal. apply (PI (Some b) _ eq_refl); auto.
          -- destruct (b_count b' >? 1) eqn:E2; zb; try lia. f_equal. apply (PI (Some b) _ eq_refl); auto.
      + unfold py_pull_one. cbn [py_stepped].
        destruct (b_count b =? 1) eqn:E1; zb; cbn [negb].
        * rewrite E1. cbn. f_equal. apply (PI None _ eq_refl); auto. right. split; auto. eexists; split; eauto.
        * destruct (b_count b >? 1) eqn:E2; zb; try lia. f_equal. apply (PI None _ eq_refl); auto. }
  unfold py_step, rs_step.
  destruct shift.
  - specialize (G (t_rspan t) (t_lspan t) (t_scan t) WR WL).
    destruct (py_skip_block _ _ _) as [pb pull1].
    destruct (py_pull_one _ _) as [[nx pull2] pb'].
    destruct (rs_pull _ _ _) as [[nx' st'] pull'].
    injection G. intros. subst. f_equal. f_equal; congruence.
  - specialize (G (t_lspan t) (t_rspan t) (t_scan t) WL WR).
    destruct (py_skip_block _ _ _) as [pb pull1].
    destruct (py_pull_one _ _) as [[nx pull2] pb'].
    destruct (rs_pull _ _ _) as [[nx' st'] pull'].
    injection G. intros. subst. f_equal. f_equal; congruence.
Qed.

(** ** Refinement of one step *)

(** View of a half tape of a configuration: [n] cells beyond the head in direction [dir]. *)
Definition half (c : config) (dir : bool) (n : Z) : Z :=
  c_tape c (if dir then c_pos c + 1 + n else c_pos c - 1 - n).

Definition side (t : tape) (dir : bool) : span := if dir then t_rspan t else t_lspan t.

Lemma represents_iff t c :
  represents t c <->
  c_tape c (c_pos c) = t_scan t
  /\ (forall dir n, 0 <= n -> half c dir n = cell (side t dir) n).
Proof.
  unfold represents, half, side, tape_cell. split.
  - intros H. split.
    + specialize (H 0). rewrite Z.add_0_r in H. exact H.
    + intros dir n Hn. destruct dir.
      * specialize (H (1 + n)). rewrite <- Z.add_assoc. rewrite H.
        destruct (1 + n =? 0) eqn:E; zb; try lia.
        destruct (0 <? 1 + n) eqn:F; zb; try lia. f_equal; lia.
      * specialize (H (- 1 - n)). replace (c_pos c - 1 - n) with (c_pos c + (- 1 - n)) by lia. rewrite H.
        destruct (- 1 - n =? 0) eqn:E; zb; try lia.
        destruct (0 <? - 1 - n) eqn:F; zb; try lia. f_equal; lia.
  - intros (H0 & H) i.
    destruct (i =? 0) eqn:E; zb; [subst; rewrite Z.add_0_r; auto|].
    destruct (0 <? i) eqn:F; zb.
    + rewrite <- (H true (i - 1)) by lia. f_equal. lia.
    + rewrite <- (H false (- i - 1)) by lia. f_equal. lia.
Qed.

(** [k] moves of the plain machine over cells that all hold the scanned colour. *)
Lemma run_over M (dir : bool) color scan k : forall c,
  c_tape c (c_pos c) = scan ->
  M (c_state c) scan = Some (color, dir, c_state c) ->
  (forall n, 0 <= n < Z.of_nat k -> half c dir n = scan) ->
  exists d, steps M (S k) c = Some d
    /\ c_state d = c_state c
    /\ c_pos d = (if dir then c_pos c + (Z.of_nat k + 1) else c_pos c - (Z.of_nat k + 1))
    /\ forall p, c_tape d p =
         if dir then (if (c_pos c <=? p) && (p <=? c_pos c + Z.of_nat k) then color else c_tape c p)
         else (if (c_pos c - Z.of_nat k <=? p) && (p <=? c_pos c) then color else c_tape c p).
Proof.
  induction k as [|k IH]; intros c H0 HM Hrun.
  - exists (Cfg (c_state c) (move dir (c_pos c)) (write (c_tape c) (c_pos c) color)).
    cbn [steps]. unfold step. rewrite H0, HM. cbn. repeat split.
    intro p. unfold write. destruct dir; bdestr; auto; lia.
  - set (c1 := Cfg (c_state c) (move dir (c_pos c)) (write (c_tape c) (c_pos c) color)).
    assert (E : step M c = Some c1) by (unfold step; rewrite H0, HM; auto).
    destruct (IH c1) as (d & A & B & C & D).
    + cbn. unfold write, half in *. specialize (Hrun 0 ltac:(lia)).
      rewrite Z.add_0_r, Z.sub_0_r in Hrun. destruct dir; cbn; bdestr; auto; lia.
    + exact HM.
    + intros n Hn. unfold half in *. cbn. unfold write.
      rewrite <- (Hrun (1 + n)) by lia. destruct dir; cbn; bdestr; try lia; f_equal; lia.
    + exists d. split; [change (steps M (S (S k)) c) with (match step M c with Some c' => steps M (S k) c' | None => None end);
        rewrite E; exact A|]. repeat split; auto.
      * rewrite C. cbn [c_pos c1]. destruct dir; cbn [move]; lia.
      * intro p. rewrite D. cbn [c_pos c_tape c1]. unfold write. destruct dir; cbn [move]; bdestr; auto; lia.
Qed.

Lemma side_step_eq t shift color skip :
  rs_step t shift color skip =
  let '(nx, k, pull) := rs_pull (side t shift) (t_scan t) skip in
  let push := rs_push (side t (negb shift)) color k in
  (if shift then Tape push nx pull else Tape pull nx push, k).
Proof. unfold rs_step, side. destruct shift; cbn; destruct (rs_pull _ _ _) as [[? ?] ?]; auto. Qed.

Lemma wf_side t dir : wf_tape t -> wf_span (side t dir).
Proof. intros (A & B); destruct dir; auto. Qed.

Lemma rs_step_refines M t c shift color next skip t' n :
  wf_tape t -> represents t c ->
  M (c_state c) (t_scan t) = Some (color, shift, next) ->
  (skip = true -> next = c_state c) ->
  rs_step t shift color skip = (t', n) ->
  1 <= n /\ wf_tape t' /\ (skip = false -> n = 1) /\
  exists d, steps M (Z.to_nat n) c = Some d /\ represents t' d
    /\ c_state d = next
    /\ c_pos d = (if shift then c_pos c + n else c_pos c - n).
Proof.
  intros W R HM HS E. rewrite side_step_eq in E.
  apply represents_iff in R. destruct R as (R0 & R).
  destruct (rs_pull (side t shift) (t_scan t) skip) as [[nx k] pull] eqn:EP.
  destruct (rs_pull_spec _ _ _ _ _ _ (wf_side _ _ W) EP) as (K & WP & P1 & P2 & P3 & P4).
  destruct (rs_push_spec (side t (negb shift)) color k (wf_side _ _ W) K) as (WQ & Q).
  cbn [fst snd] in E. injection E as <- <-.
  split; [exact K|]. split; [destruct shift; split; auto|]. split; [exact P4|].
  assert (HD : exists d, steps M (Z.to_nat k) c = Some d
    /\ c_state d = next
    /\ c_pos d = (if shift then c_pos c + k else c_pos c - k)
    /\ forall p, c_tape d p =
         if shift then (if (c_pos c <=? p) && (p <=? c_pos c + (k - 1)) then color else c_tape c p)
         else (if (c_pos c - (k - 1) <=? p) && (p <=? c_pos c) then color else c_tape c p)).
  { destruct (Z.eq_dec k 1) as [->|K1].
    - exists (Cfg next (move shift (c_pos c)) (write (c_tape c) (c_pos c) color)).
      change (Z.to_nat 1) with 1%nat. cbn [steps]. unfold step. rewrite R0, HM.
      split; [auto|]. split; [auto|]. split; [destruct shift; auto|].
      intro p. cbn. unfold write. destruct shift; bdestr; auto; lia.
    - assert (skip = true) as -> by (destruct skip; auto; specialize (P4 eq_refl); lia).
      rewrite HS in * by auto.
      destruct (run_over M shift color (t_scan t) (Z.to_nat (k - 1)) c R0 HM) as (d & A & B & C & D).
      + intros i Hi. rewrite (R shift i) by lia. apply P1. lia.
      + exists d. replace (Z.to_nat k) with (S (Z.to_nat (k - 1))) by lia.
        rewrite Z2Nat.id in C, D by lia.
        split; [auto|]. split; [auto|]. split; [rewrite C; destruct shift; lia|]. auto. }
  destruct HD as (d & A & B & C & D).
  exists d. split; [auto|]. split; [|split; auto].
  apply represents_iff. split.
  - rewrite D, C. assert (HN : c_tape c (if shift then c_pos c + k else c_pos c - k) = nx).
    { rewrite <- P2, <- (R shift (k - 1)) by lia. unfold half. f_equal. destruct shift; lia. }
    destruct shift; cbn; bdestr; auto; lia.
  - intros dir i Hi. unfold half. rewrite D, C.
    destruct (Bool.bool_dec dir shift) as [->|NE].
    + assert (HN : half c shift (i + k) = cell pull i) by (rewrite P3 by lia; apply R; lia).
      rewrite <- HN || idtac.
      destruct shift; cbn [side t_lspan t_rspan]; rewrite <- HN; unfold half; bdestr; try lia; f_equal; lia.
    + assert (dir = negb shift) as -> by (destruct dir, shift; cbn; congruence).
      assert (HQ : cell (rs_push (side t (negb shift)) color k) i
                   = if i <? k then color else half c (negb shift) (i - k)).
      { rewrite Q by lia. bdestr; auto. symmetry; apply R; lia. }
      destruct shift; cbn [side t_lspan t_rspan negb] in *; rewrite HQ; unfold half; bdestr; try lia; f_equal; lia.
Qed.

(** ** Canonical form *)

Lemma rs_pull_canon s scan skip nx k s' :
  canon_span s -> rs_pull s scan skip = (nx, k, s') ->
  canon_span s' /\ (skip = true -> nx <> scan \/ (scan = 0 /\ s = [])).
Proof.
  intros C E. unfold rs_pull in E.
  destruct s as [|b s].
  - inv E. split; auto. intros _. destruct (Z.eq_dec 0 scan); auto.
  - destruct (skip && (b_color b =? scan)) eqn:G.
    + zb. destruct s as [|b' s].
      * inv E. split; auto. intros _. cbn in C. left. intros ?; lia.
      * pose proof (canon_tail _ _ C) as C'.
        destruct (b_count b' >? 1) eqn:F; inv E; zb.
        -- split; [apply canon_span_recount; auto; lia|]. intros _. left. cbn in C. lia.
        -- split; [eapply canon_tail; eauto|]. intros _. left. cbn in C. lia.
    + destruct (b_count b >? 1) eqn:F; inv E; zb.
      * split; [apply canon_span_recount; auto; lia|]. intros ->. cbn in G. zb. auto.
      * split; [eapply canon_tail; eauto|]. intros ->. cbn in G. zb. auto.
Qed.

Lemma rs_push_canon s print k : canon_span s -> 1 <= k -> canon_span (rs_push s print k).
Proof.
  intros C K. destruct s as [|b s]; cbn [rs_push].
  - destruct (print =? 0) eqn:E; zb; cbn; auto.
  - destruct (b_color b =? print) eqn:E; zb.
    + apply canon_span_recount; auto. cbn in C. lia.
    + cbn in *. intuition.
Qed.

Lemma canon_side t dir : canon t -> canon_span (side t dir).
Proof. intros (A & B); destruct dir; auto. Qed.

Lemma rs_step_canon t shift color skip t' n :
  canon t -> rs_step t shift color skip = (t', n) -> canon t'.
Proof.
  intros C E. rewrite side_step_eq in E.
  destruct (rs_pull (side t shift) (t_scan t) skip) as [[nx k] pull] eqn:EP.
  destruct (rs_pull_spec _ _ _ _ _ _ (wf_side _ _ (canon_wf _ C)) EP) as (K & _).
  destruct (rs_pull_canon _ _ _ _ _ _ (canon_side _ _ C) EP) as (CP & _).
  pose proof (rs_push_canon _ color k (canon_side _ (negb shift) C) K) as CQ.
  injection E as <- <-. destruct shift; split; auto.
Qed.

(** With [skip], the step stops exactly at the end of the run of scanned cells. *)
Lemma rs_step_maximal t c shift color t' n :
  canon t -> represents t c -> rs_step t shift color true = (t', n) ->
  (forall i, 0 <= i < n -> c_tape c (if shift then c_pos c + i else c_pos c - i) = t_scan t)
  /\ (t_at_edge t shift = false ->
      c_tape c (if shift then c_pos c + n else c_pos c - n) <> t_scan t).
Proof.
  intros C R E. rewrite side_step_eq in E.
  apply represents_iff in R. destruct R as (R0 & R).
  destruct (rs_pull (side t shift) (t_scan t) true) as [[nx k] pull] eqn:EP.
  destruct (rs_pull_spec _ _ _ _ _ _ (wf_side _ _ (canon_wf _ C)) EP) as (K & _ & P1 & P2 & _).
  destruct (rs_pull_canon _ _ _ _ _ _ (canon_side _ _ C) EP) as (_ & CP).
  injection E as <- <-. split.
  - intros i Hi. destruct (Z.eq_dec i 0) as [->|NZ].
    + rewrite Z.add_0_r, Z.sub_0_r. destruct shift; auto.
    + rewrite <- (P1 (i - 1)) by lia. rewrite <- (R shift (i - 1)) by lia.
      unfold half. f_equal. destruct shift; lia.
  - intros HE. assert (nx <> t_scan t).
    { destruct (CP eq_refl) as [|(Z0 & SN)]; auto. exfalso.
      unfold t_at_edge in HE. rewrite Z0 in HE. cbn in HE. unfold side in SN.
      destruct shift; rewrite SN in HE; discriminate. }
    intro X. apply H. rewrite <- X, <- P2, <- (R shift (k - 1)) by lia.
    unfold half. f_equal. destruct shift; lia.
Qed.

(** A canonical non-empty span holds a mark. *)
Lemma canon_nonblank s : canon_span s -> s <> [] -> exists n, 0 <= n /\ cell s n <> 0.
Proof.
  induction s as [|b s IH]; [congruence|]. intros C _. destruct s as [|b' s].
  - exists 0. cbn in *. split; [lia|]. bdestr; lia.
  - destruct IH as (n & Hn & N); [eapply canon_tail; eauto|congruence|].
    exists (n + b_count b). cbn in C. split; [lia|].
    change (cell (b :: b' :: s) (n + b_count b)) with
      (if n + b_count b <? b_count b then b_color b else cell (b' :: s) (n + b_count b - b_count b)).
    destruct (Z.ltb_spec (n + b_count b) (b_count b)); [lia|].
    replace (n + b_count b - b_count b) with n by lia. auto.
Qed.

Lemma canon_blank s : canon_span s -> (s = [] <-> forall n, 0 <= n -> cell s n = 0).
Proof.
  intros C. split; [intros ->; auto|]. intros H. destruct s as [|b s]; auto.
  destruct (canon_nonblank (b :: s)) as (n & Hn & N); [auto|congruence|].
  exfalso; apply N; auto.
Qed.

Lemma canon_unique s : forall s', canon_span s -> canon_span s' ->
  (forall n, 0 <= n -> cell s n = cell s' n) -> s = s'.
Proof.
  induction s as [|b s IH]; intros s' C C' H.
  - symmetry. apply canon_blank; auto. intros; rewrite <- H; auto.
  - destruct s' as [|b' s'].
    + apply canon_blank; auto.
    + assert (EC : b_color b = b_color b').
      { specialize (H 0 ltac:(lia)). cbn in C, C', H.
        destruct (Z.ltb_spec 0 (b_count b)), (Z.ltb_spec 0 (b_count b')); auto; lia. }
      assert (LT : forall (b b' : block) s s', canon_span (b :: s) -> canon_span (b' :: s') ->
         (forall n, 0 <= n -> cell (b :: s) n = cell (b' :: s') n) -> b_color b = b_color b' ->
         b_count b < b_count b' -> False).
      { clear. intros b b' s s' C C' H EC L.
        assert (1 <= b_count b) by (cbn in C; tauto).
        specialize (H (b_count b) ltac:(lia)). cbn [cell] in H.
        destruct (Z.ltb_spec (b_count b) (b_count b)); [lia|].
        destruct (Z.ltb_spec (b_count b) (b_count b')); [|lia].
        rewrite Z.sub_diag in H. destruct s as [|b2 s].
        - cbn in *. lia.
        - cbn in C, H. destruct (Z.ltb_spec 0 (b_count b2)); lia. }
      assert (EN : b_count b = b_count b').
      { destruct (Z.lt_trichotomy (b_count b) (b_count b')) as [L|[L|L]]; auto; exfalso.
        - eapply (LT b b'); eauto.
        - eapply (LT b' b); eauto. intros; symmetry; auto. }
      assert (b = b') by (destruct b, b'; cbn in *; congruence). subst b'. f_equal.
      apply IH; try (eapply canon_tail; eauto).
      intros n Hn. assert (1 <= b_count b) by (cbn in C; tauto).
      specialize (H (n + b_count b) ltac:(lia)). cbn [cell] in H.
      destruct (Z.ltb_spec (n + b_count b) (b_count b)); [lia|].
      replace (n + b_count b - b_count b) with n in H by lia. auto.
Qed.

Lemma tape_cell_scan t : tape_cell t 0 = t_scan t.
Proof. reflexivity. Qed.

Lemma tape_cell_side t (dir : bool) n : 0 <= n ->
  tape_cell t (if dir then 1 + n else - 1 - n) = cell (side t dir) n.
Proof.
  intros H. unfold tape_cell, side. destruct dir; bdestr; try lia; f_equal; lia.
Qed.

Lemma canon_tape_unique t t' : canon t -> canon t' ->
  (forall i, tape_cell t i = tape_cell t' i) -> t = t'.
Proof.
  intros C C' H.
  assert (E : forall dir, side t dir = side t' dir).
  { intro dir. apply canon_unique; try apply canon_side; auto.
    intros n Hn. rewrite <- !tape_cell_side by auto. apply H. }
  specialize (H 0). rewrite !tape_cell_scan in H.
  pose proof (E true). pose proof (E false). destruct t, t'; cbn in *; congruence.
Qed.

Lemma blank_iff t : canon t -> (t_blank t = true <-> forall i, tape_cell t i = 0).
Proof.
  intros C. split.
  - unfold t_blank. intros H i. zb. destruct t as [l s r]; cbn in *.
    destruct l, r; try discriminate. unfold tape_cell; cbn. bdestr; auto.
  - intros H. assert (t = init_tape) as ->; auto.
    apply canon_tape_unique; auto; [split; cbn; auto|].
    intro i. rewrite H. unfold tape_cell; cbn. bdestr; auto.
Qed.

Lemma at_edge_iff t (dir : bool) : canon t ->
  (t_at_edge t dir = true <-> forall i, 0 <= i -> tape_cell t (if dir then i else - i) = 0).
Proof.
  intros C. assert (XE : t_at_edge t dir = (t_scan t =? 0) && is_nil (side t dir)) by reflexivity.
  rewrite XE. clear XE.
  split.
  - intros H i Hi. zb. destruct (side t dir) eqn:E; [|discriminate].
    destruct (Z.eq_dec i 0) as [->|N].
    + destruct dir; exact H.
    + pose proof (tape_cell_side t dir (i - 1) ltac:(lia)) as X. rewrite E in X. cbn in X.
      rewrite <- X. f_equal. destruct dir; lia.
  - intros H. apply andb_true_iff. split.
    + specialize (H 0 ltac:(lia)). apply Z.eqb_eq. destruct dir; exact H.
    + assert (side t dir = []) as ->; auto.
      apply canon_blank; [apply canon_side; auto|].
      intros n Hn. rewrite <- (tape_cell_side t dir n) by auto.
      rewrite <- (H (1 + n)) by lia. f_equal. destruct dir; lia.
Qed.

(** ** marks *)

Lemma NoDup_app {A} (l l' : list A) :
  NoDup l -> NoDup l' -> (forall x, In x l -> ~ In x l') -> NoDup (l ++ l').
Proof.
  induction l as [|x l IH]; cbn; intros N N' D; auto.
  apply NoDup_cons_iff in N. destruct N. constructor.
  - rewrite in_app_iff. intros [X|X]; [tauto|]. apply (D x); auto.
  - apply IH; auto.
Qed.

Fixpoint mark_positions (s : span) (o : Z) : list Z :=
  match s with
  | [] => []
  | b :: s =>
      (if b_color b =? 0 then [] else map (fun i => o + Z.of_nat i) (seq 0 (Z.to_nat (b_count b))))
      ++ mark_positions s (o + b_count b)
  end.

Lemma mark_positions_spec s : forall o, wf_span s ->
  NoDup (mark_positions s o)
  /\ (forall p, In p (mark_positions s o) <-> o <= p /\ cell s (p - o) <> 0)
  /\ Z.of_nat (length (mark_positions s o)) = span_marks s.
Proof.
  induction s as [|b s IH]; intros o W.
  - cbn. repeat split; try constructor; try tauto; lia.
  - apply Forall_cons_iff in W. destruct W as [Wb Ws].
    destruct (IH (o + b_count b) Ws) as (ND & IN & LN).
    assert (INB : forall p, In p (map (fun i => o + Z.of_nat i) (seq 0 (Z.to_nat (b_count b)))) <->
                    o <= p < o + b_count b).
    { intro p. rewrite in_map_iff. split.
      - intros (i & <- & Hi). apply in_seq in Hi. lia.
      - intros Hp. exists (Z.to_nat (p - o)). split; [lia|]. apply in_seq. lia. }
    cbn [mark_positions span_marks]. split; [|split].
    + destruct (b_color b =? 0); [auto|].
      apply NoDup_app; auto.
      * apply FinFun.Injective_map_NoDup; [intros x y; lia|apply seq_NoDup].
      * intros x X Y. apply INB in X. apply IN in Y. lia.
    + intro p. rewrite in_app_iff, IN. cbn [cell].
      destruct (Z.eqb_spec (b_color b) 0) as [Z0|NZ].
      * cbn [In]. split.
        -- intros [[]|(A & B)]. split; [lia|]. bdestr; try lia.
           replace (p - o - b_count b) with (p - (o + b_count b)) by lia. auto.
        -- intros (A & B). right. destruct (Z.ltb_spec (p - o) (b_count b)); [congruence|].
           split; [lia|]. replace (p - (o + b_count b)) with (p - o - b_count b) by lia. auto.
      * rewrite INB. split.
        -- intros [A|(A & B)].
           ++ split; [lia|]. bdestr; auto; lia.
           ++ split; [lia|]. bdestr; try lia.
              replace (p - o - b_count b) with (p - (o + b_count b)) by lia. auto.
        -- intros (A & B). destruct (Z.ltb_spec (p - o) (b_count b)); [left; lia|right].
           split; [lia|]. replace (p - (o + b_count b)) with (p - o - b_count b) by lia. auto.
    + rewrite app_length, Nat2Z.inj_add, LN.
      destruct (b_color b =? 0); [cbn; lia|]. rewrite map_length, seq_length. lia.
Qed.

Lemma marks_spec t : wf_tape t -> marks_are (tape_cell t) (t_marks t).
Proof.
  intros (WL & WR).
  destruct (mark_positions_spec (t_rspan t) 1 WR) as (NR & IR & LR).
  destruct (mark_positions_spec (t_lspan t) 1 WL) as (NL & IL & LL).
  exists ((if t_scan t =? 0 then [] else [0])
          ++ map Z.opp (mark_positions (t_lspan t) 1) ++ mark_positions (t_rspan t) 1).
  assert (IL' : forall p, In p (map Z.opp (mark_positions (t_lspan t) 1)) <->
                 p <= -1 /\ cell (t_lspan t) (- p - 1) <> 0).
  { intro p. rewrite in_map_iff. split.
    - intros (q & <- & Hq). apply IL in Hq. rewrite Z.opp_involutive. split; [lia|tauto].
    - intros (A & B). exists (- p). split; [lia|]. apply IL. split; [lia|auto]. }
  split; [|split].
  - apply NoDup_app; [destruct (t_scan t =? 0); repeat constructor; cbn; tauto| |].
    + apply NoDup_app; auto.
      * apply FinFun.Injective_map_NoDup; [intros x y; lia|auto].
      * intros x X Y. apply IL' in X. apply IR in Y. lia.
    + intros x X Y. assert (x = 0) by (destruct (t_scan t =? 0); cbn in X; intuition).
      apply in_app_iff in Y. destruct Y as [Y|Y]; [apply IL' in Y|apply IR in Y]; lia.
  - intro p. rewrite !in_app_iff, IL', IR. unfold tape_cell. split.
    + intros [X|[(A & B)|(A & B)]].
      * destruct (Z.eqb_spec (t_scan t) 0); cbn in X; [tauto|]. destruct X as [<-|[]]. bdestr; auto; lia.
      * bdestr; auto; lia.
      * bdestr; auto; lia.
    + intros H. destruct (Z.eqb_spec p 0) as [P0|NZ].
      * left. destruct (Z.eqb_spec (t_scan t) 0); [congruence|left; auto].
      * right. destruct (Z.ltb_spec 0 p); [right|left]; split; auto; lia.
  - rewrite !app_length, map_length, !Nat2Z.inj_add, LL, LR. unfold t_marks.
    destruct (t_scan t =? 0); cbn; lia.
Qed.

Lemma marks_are_ext f g k : (forall p, f p = g p) -> marks_are f k -> marks_are g k.
Proof.
  intros H (ps & A & B & C). exists ps. repeat split; auto.
  - intro X. rewrite <- H. apply B; auto.
  - intro X. apply B. rewrite H. auto.
Qed.

Lemma marks_are_shift f g k o : (forall p, g (o + p) = f p) -> marks_are f k -> marks_are g k.
Proof.
  intros H (ps & A & B & C). exists (map (Z.add o) ps). repeat split.
  - apply FinFun.Injective_map_NoDup; auto. intros x y; lia.
  - rewrite in_map_iff. intros (q & <- & Hq). rewrite H. apply B; auto.
  - intro N. apply in_map_iff. exists (p - o). split; [lia|]. apply B. rewrite <- H.
    replace (o + (p - o)) with p by lia. auto.
  - rewrite map_length. auto.
Qed.

Lemma marks_represents t c : wf_tape t -> represents t c -> marks_are (c_tape c) (t_marks t).
Proof.
  intros W R. eapply marks_are_shift; [|apply marks_spec; eauto]. exact R.
Qed.

Lemma represents_init : represents init_tape init.
Proof. intro i. cbn. unfold tape_cell. cbn. unfold blank_tape. bdestr; auto. Qed.

Lemma canon_init : canon init_tape.
Proof. split; cbn; auto. Qed.

(** ** Statements used by PropsTape.v *)

(** Tapes reachable from the blank tape by any history of Python steps. *)
Inductive py_history : tape -> Prop :=
| ph_init : py_history init_tape
| ph_step t shift color skip : py_history t -> py_history (fst (py_step t shift color skip)).

Inductive rs_history : tape -> Prop :=
| rh_init : rs_history init_tape
| rh_step t shift color skip : rs_history t -> rs_history (fst (rs_step t shift color skip)).

Lemma py_step_canon t shift color skip : canon t -> canon (fst (py_step t shift color skip)).
Proof.
  intros C. rewrite py_rs_step by (apply canon_wf; auto).
  destruct (rs_step t shift color skip) as [t' n] eqn:E. cbn. eapply rs_step_canon; eauto.
Qed.

Lemma py_history_canon t : py_history t -> canon t.
Proof. induction 1; [apply canon_init|apply py_step_canon; auto]. Qed.

Lemma rs_history_canon t : rs_history t -> canon t.
Proof.
  induction 1; [apply canon_init|].
  destruct (rs_step t shift color skip) as [t' n] eqn:E. eapply rs_step_canon; eauto.
Qed.

Lemma py_rs_history t : py_history t <-> rs_history t.
Proof.
  split; induction 1; try constructor.
  - rewrite py_rs_step by (apply canon_wf, py_history_canon; auto). constructor; auto.
  - rewrite <- py_rs_step by (apply canon_wf, rs_history_canon; auto). constructor; auto.
Qed.

Lemma py_step_refines_lemma M t c shift color next skip :
  wf_tape t -> represents t c ->
  M (c_state c) (t_scan t) = Some (color, shift, next) ->
  (skip = true -> next = c_state c) ->
  let '(t', n) := py_step t shift color skip in
  1 <= n /\ wf_tape t' /\ (skip = false -> n = 1) /\
  exists d, steps M (Z.to_nat n) c = Some d /\ represents t' d
    /\ c_state d = next
    /\ c_pos d = (if shift then c_pos c + n else c_pos c - n).
Proof.
  intros W R HM HS. rewrite py_rs_step by auto.
  destruct (rs_step t shift color skip) as [t' n] eqn:E.
  eapply rs_step_refines; eauto.
Qed.

Lemma rs_step_refines_lemma M t c shift color next skip :
  wf_tape t -> represents t c ->
  M (c_state c) (t_scan t) = Some (color, shift, next) ->
  (skip = true -> next = c_state c) ->
  let '(t', n) := rs_step t shift color skip in
  1 <= n /\ wf_tape t' /\ (skip = false -> n = 1) /\
  exists d, steps M (Z.to_nat n) c = Some d /\ represents t' d
    /\ c_state d = next
    /\ c_pos d = (if shift then c_pos c + n else c_pos c - n).
Proof.
  intros W R HM HS. destruct (rs_step t shift color skip) as [t' n] eqn:E.
  eapply rs_step_refines; eauto.
Qed.

Lemma py_step_maximal_lemma t shift color :
  canon t ->
  let n := snd (py_step t shift color true) in
  (forall i, 0 <= i < n -> tape_cell t (if shift then i else - i) = t_scan t)
  /\ (t_at_edge t shift = false -> tape_cell t (if shift then n else - n) <> t_scan t).
Proof.
  intros C. rewrite py_rs_step by (apply canon_wf; auto).
  destruct (rs_step t shift color true) as [t' n] eqn:E. cbn.
  set (c := Cfg 0 0 (tape_cell t)).
  destruct (rs_step_maximal t c shift color t' n C ltac:(intro i; reflexivity) E) as (A & B).
  { split.
    + intros i Hi. specialize (A i Hi). cbn in A. rewrite <- A. f_equal; destruct shift; lia.
    + intros HE. specialize (B HE). cbn in B.
      replace (if shift then n else - n) with (if shift then 0 + n else 0 - n) by (destruct shift; lia).
      exact B. }
Qed.

Lemma canon_facts_lemma t : py_history t ->
  canon t
  /\ (t_blank t = true <-> forall i, tape_cell t i = 0)
  /\ (forall dir : bool, t_at_edge t dir = true <-> forall i, 0 <= i -> tape_cell t (if dir then i else - i) = 0)
  /\ (forall t', py_history t' -> (t = t' <-> forall i, tape_cell t i = tape_cell t' i)).
Proof.
  intros H. apply py_history_canon in H. split; [auto|]. split; [apply blank_iff; auto|].
  split; [intro; apply at_edge_iff; auto|].
  intros t' H'. split; [intros ->; auto|]. apply canon_tape_unique; auto. apply py_history_canon; auto.
Qed.
