(** Lemmas about quick_term_or_rec: translated cyclers never halt. *)
From Verif Require Import Base TM TMFacts ProgModel TapeModel TapeSpec TapeProofs QuickProofs TermRecModel TermRecSpec.

(** ** Locality of runs *)

(** [d] looks like [c] moved by [k], as far as the cells of region [R] are concerned. *)
Definition agree (R : Z -> Prop) (k : Z) (c d : config) : Prop :=
  c_state d = c_state c /\ c_pos d = c_pos c + k /\ forall p, R p -> c_tape d (p + k) = c_tape c p.

(** The heads at the first [n] moments of the run from [c] are in [R]. *)
Definition stays (M : program) (R : Z -> Prop) (n : nat) (c : config) : Prop :=
  forall j, (j < n)%nat -> exists e, steps M j c = Some e /\ R (c_pos e).

Lemma agree_step M R k c d c' : agree R k c d -> R (c_pos c) -> step M c = Some c' ->
  exists d', step M d = Some d' /\ agree R k c' d'.
Proof.
  intros (A & B & C) HR E. unfold step in *. rewrite A, B, C by auto.
  destruct (M (c_state c) (c_tape c (c_pos c))) as [[[co dir] nx]|]; [|discriminate].
  inv E. eexists; split; [reflexivity|]. split; [|split]; cbn; auto.
  - unfold move. destruct dir; lia.
  - intros p Hp. unfold write. destruct (Z.eqb_spec p (c_pos c)), (Z.eqb_spec (p + k) (c_pos c + k)); try lia; auto.
Qed.

Lemma agree_steps M R k n : forall c d c', agree R k c d -> stays M R n c -> steps M n c = Some c' ->
  exists d', steps M n d = Some d' /\ agree R k c' d'.
Proof.
  induction n; intros c d c' A S E.
  - cbn in *. inv E. eauto.
  - cbn in E. destruct (step M c) as [c1|] eqn:E1; [|discriminate].
    destruct (S 0%nat ltac:(lia)) as (e0 & E0 & R0). cbn in E0. inv E0.
    destruct (agree_step M R k e0 d c1 A R0 E1) as (d1 & D1 & A1).
    cbn. rewrite D1. apply (IHn c1 d1 c' A1); auto.
    intros j Hj. destruct (S (Datatypes.S j) ltac:(lia)) as (e & Ee & Re).
    cbn in Ee. rewrite E1 in Ee. eauto.
Qed.

Lemma stays_le M R n m c : (m <= n)%nat -> stays M R n c -> stays M R m c.
Proof. intros L S j Hj. apply S. lia. Qed.

Lemma agree_loop M (R : Z -> Prop) k n c c' : (0 < n)%nat ->
  (forall p, R p -> R (p + k)) ->
  steps M n c = Some c' -> stays M R n c -> agree R k c c' ->
  forall m, exists e, steps M m c = Some e.
Proof.
  intros Hn HR E S A.
  assert (G : forall j, exists e e', steps M (j * n) c = Some e /\ steps M n e = Some e'
                        /\ stays M R n e /\ agree R k e e').
  { induction j as [|j (e & e' & F1 & F2 & F3 & F4)].
    - exists c, c'. auto.
    - exists e'. destruct (agree_steps M R k n e e' e' F4 F3 F2) as (e'' & G1 & G2).
      exists e''. split; [|split; [auto|split; [|auto]]].
      + replace (Datatypes.S j * n)%nat with (j * n + n)%nat by lia.
        rewrite (steps_add_some _ _ _ _ _ F1). auto.
      + intros i Hi. destruct (F3 i Hi) as (x & Ex & Rx).
        destruct (agree_steps M R k i e e' x F4 (stays_le M R n i e ltac:(lia) F3) Ex) as (y & Ey & Ay).
        exists y. split; auto. destruct Ay as (_ & P & _). rewrite P. auto. }
  intro m. destruct (G m) as (e & _ & F & _).
  apply (steps_le M (m * n) m c e); [nia|auto].
Qed.

Lemma pos_lipschitz M n : forall c d, steps M n c = Some d ->
  c_pos c - Z.of_nat n <= c_pos d <= c_pos c + Z.of_nat n.
Proof.
  induction n; intros c d E; cbn in E.
  - inv E. lia.
  - unfold step in E. destruct (M _ _) as [[[co dir] nx]|]; [|discriminate].
    apply IHn in E. cbn in E. unfold move in E. destruct dir; lia.
Qed.

Lemma stays_app M R n m c d : stays M R n c -> steps M n c = Some d -> stays M R m d ->
  stays M R (n + m) c.
Proof.
  intros A E B j Hj. destruct (le_lt_dec n j) as [L|L].
  - replace j with (n + (j - n))%nat by lia. rewrite (steps_add_some _ _ _ _ _ E). apply B. lia.
  - apply A. lia.
Qed.

(** A run whose end is as far away as possible passes only between its ends. *)
Lemma straight_stays M (R : Z -> Prop) n c d : steps M n c = Some d ->
  Z.abs (c_pos d - c_pos c) = Z.of_nat n ->
  (forall p, (c_pos c <= p <= c_pos d \/ c_pos d <= p <= c_pos c) -> R p) ->
  stays M R n c.
Proof.
  intros E A H j Hj.
  destruct (steps_le M n j c d ltac:(lia) E) as (e & Ee). exists e. split; auto.
  apply H. replace n with (j + (n - j))%nat in E by lia. rewrite (steps_add_some _ _ _ _ _ Ee) in E.
  apply pos_lipschitz in E. apply pos_lipschitz in Ee. lia.
Qed.

(** ** Slices *)

Lemma cell_ge s n b : cell (b :: s) n = if n <? b_count b then b_color b else cell s (n - b_count b).
Proof. reflexivity. Qed.

Lemma nth_repeat_lt (a d : Z) n i : (i < n)%nat -> nth i (repeat a n) d = a.
Proof. revert i; induction n; intros [|i] H; cbn; auto; try lia. apply IHn. lia. Qed.

Lemma slice_near_spec s : forall rem l r, wf_span s -> 0 <= rem -> slice_near s rem = (l, r) ->
  0 <= r /\ Z.of_nat (length l) + r = rem
  /\ forall i, (i < Z.to_nat rem)%nat -> nth i (l ++ repeat 0 (Z.to_nat r)) 0 = cell s (Z.of_nat i).
Proof.
  induction s as [|b s IH]; intros rem l r W H E.
  - cbn in E. inv E. cbn [length cell app]. split; [lia|]. split; [lia|].
    intros i Hi. rewrite nth_repeat_lt; auto.
  - cbn [slice_near] in E.
    destruct (slice_near s (rem - Z.min (b_count b) rem)) as [l' r'] eqn:E'.
    apply Forall_cons_iff in W. destruct W as (Wb & W).
    destruct (IH (rem - Z.min (b_count b) rem) l' r' W ltac:(lia) E') as (A & B & C).
    inv E. rewrite app_length, repeat_length. split; [lia|]. split; [lia|].
    intros i Hi. rewrite <- app_assoc, cell_ge.
    destruct (lt_dec i (Z.to_nat (Z.min (b_count b) rem))) as [L|L].
    + rewrite app_nth1 by (rewrite repeat_length; auto). rewrite nth_repeat_lt by auto.
      destruct (Z.ltb_spec (Z.of_nat i) (b_count b)); auto; lia.
    + rewrite app_nth2 by (rewrite repeat_length; lia). rewrite repeat_length.
      destruct (Z.ltb_spec (Z.of_nat i) (b_count b)); [lia|].
      rewrite C by lia. f_equal. lia.
Qed.

Lemma slice_eqb_eq a : forall b, slice_eqb a b = true -> a = b.
Proof. induction a as [|x a IH]; intros [|y b] H; cbn in H; try discriminate; auto. zb. f_equal; auto. Qed.

Lemma span_eqb_eq a : forall b, span_eqb a b = true -> a = b.
Proof.
  induction a as [|x a IH]; intros [|y b] H; cbn in H; try discriminate; auto.
  zb. destruct x, y. cbn in *. unfold block_eqb in H. cbn in H. zb. subst. f_equal; auto.
Qed.

(** The first [diff] entries of a slice are the cells next to the head. *)
Lemma get_slice_nth t start (ltr : bool) i :
  wf_tape (h_tape t) ->
  0 <= i < (if ltr then h_head t - start else start - h_head t) ->
  nth (Z.to_nat i) (ht_get_slice t start ltr) 0 = cell (side (h_tape t) (negb ltr)) i.
Proof.
  intros W H. unfold ht_get_slice.
  assert (G : forall near far diff, wf_span near -> 0 <= i < diff ->
    nth (Z.to_nat i) ((if 0 <? diff
       then let '(n, remaining) := slice_near near diff in
            n ++ (if 0 <? remaining then repeat 0 (Z.to_nat remaining) else [])
       else []) ++ far) 0 = cell near i).
  { intros near far diff Wn Hd. destruct (Z.ltb_spec 0 diff); [|lia].
    destruct (slice_near near diff) as [l r] eqn:E.
    destruct (slice_near_spec near diff l r Wn ltac:(lia) E) as (A & B & C).
    assert (X : (if 0 <? r then repeat 0 (Z.to_nat r) else []) = repeat 0 (Z.to_nat r)).
    { destruct (Z.ltb_spec 0 r); auto. replace r with 0 by lia. reflexivity. }
    rewrite X, app_nth1.
    - rewrite C by lia. f_equal. lia.
    - rewrite app_length, repeat_length. lia. }
  destruct W as (WL & WR).
  destruct ltr; cbn [negb] in *; unfold side; apply G; auto.
Qed.

Lemma aligned_agree c d lm rm ht hr :
  wf_tape (h_tape ht) -> wf_tape (h_tape hr) ->
  represents (h_tape hr) c -> represents (h_tape ht) d ->
  c_pos c = h_head hr -> c_pos d = h_head ht -> c_state c = c_state d ->
  lm <= c_pos c <= rm ->
  ht_aligns_with ht hr lm rm = true ->
  exists (R : Z -> Prop) k, agree R k c d
    /\ ((k = 0 /\ forall p, R p) \/ (0 < k /\ forall p, lm <= p -> R p) \/ (k < 0 /\ forall p, p <= rm -> R p)).
Proof.
  intros Wd Wc Rc Rd Pc Pd St Hlr H. unfold ht_aligns_with in H.
  apply represents_iff in Rc. destruct Rc as (Sc & Hc).
  apply represents_iff in Rd. destruct Rd as (Sd & Hd).
  assert (X : forall e (dir : bool) p, (if dir then c_pos e < p else p < c_pos e) ->
     c_tape e p = half e dir (if dir then p - c_pos e - 1 else c_pos e - p - 1)).
  { intros e dir p L. unfold half. f_equal. destruct dir; lia. }
  destruct (t_scan (h_tape ht) =? t_scan (h_tape hr)) eqn:ES; cbn [negb] in H; [|discriminate].
  set (diff := h_head ht - h_head hr) in *.
  destruct (Z.ltb_spec 0 diff) as [L|L]; [|destruct (Z.ltb_spec diff 0) as [L'|L']]; zb.
  - exists (fun p => lm <= p), diff. split; [|right; left; split; auto].
    apply span_eqb_eq in H1. apply slice_eqb_eq in H0.
    split; [congruence|]. split; [lia|]. intros p Hp.
    destruct (Z.lt_trichotomy p (c_pos c)) as [Q|[Q|Q]].
    + rewrite (X d false), (X c false) by lia. rewrite Hd, Hc by lia.
      pose proof (get_slice_nth hr lm true (c_pos c - p - 1) Wc ltac:(lia)) as N1.
      pose proof (get_slice_nth ht (lm + diff) true (c_pos c - p - 1) Wd ltac:(lia)) as N2.
      rewrite H0 in N1. cbn [negb] in *. rewrite <- N1, N2. f_equal. lia.
    + subst p. replace (c_pos c + diff) with (c_pos d) by lia. congruence.
    + rewrite (X d true), (X c true) by lia. rewrite Hd, Hc by lia.
      unfold side. rewrite H1. f_equal. lia.
  - exists (fun p => p <= rm), diff. split; [|right; right; split; auto].
    apply span_eqb_eq in H1. apply slice_eqb_eq in H0.
    split; [congruence|]. split; [lia|]. intros p Hp.
    destruct (Z.lt_trichotomy p (c_pos c)) as [Q|[Q|Q]].
    + rewrite (X d false), (X c false) by lia. rewrite Hd, Hc by lia.
      unfold side. rewrite H1. f_equal. lia.
    + subst p. replace (c_pos c + diff) with (c_pos d) by lia. congruence.
    + rewrite (X d true), (X c true) by lia. rewrite Hd, Hc by lia.
      pose proof (get_slice_nth hr rm false (p - c_pos c - 1) Wc ltac:(lia)) as N1.
      pose proof (get_slice_nth ht (rm + diff) false (p - c_pos c - 1) Wd ltac:(lia)) as N2.
      rewrite H0 in N1. cbn [negb] in *. rewrite <- N1, N2. f_equal. lia.
  - exists (fun _ => True), 0. split; [|left; auto].
    apply span_eqb_eq in H1. apply span_eqb_eq in H0.
    split; [congruence|]. split; [lia|]. intros p _. rewrite Z.add_0_r.
    destruct (Z.lt_trichotomy p (c_pos c)) as [Q|[Q|Q]].
    + rewrite (X d false), (X c false) by lia. rewrite Hd, Hc by lia.
      unfold side. rewrite H1. f_equal. lia.
    + subst p. replace (c_pos c) with (c_pos d) at 1 by lia. congruence.
    + rewrite (X d true), (X c true) by lia. rewrite Hd, Hc by lia.
      unfold side. rewrite H0. f_equal. lia.
Qed.

(** ** The loop *)

Record tinv (M : program) (state : Z) (tp : head_tape) (c : config) : Prop := {
  t_run : exists n, steps M n init = Some c;
  t_rep : represents (h_tape tp) c;
  t_can : canon (h_tape tp);
  t_pos : c_pos c = h_head tp;
  t_st : c_state c = state
}.

Record rinv (M : program) (rt : head_tape) (rs lm rm : Z) (c : config) (cr : config) (n : nat) : Prop := {
  r_inv : tinv M rs rt cr;
  r_run : steps M n cr = Some c;
  r_bnd : lm <= c_pos cr <= rm /\ lm <= c_pos c <= rm;
  r_stay : stays M (fun p => lm <= p <= rm) n cr
}.

Lemma stays_weaken M (R R' : Z -> Prop) n c : (forall p, R p -> R' p) -> stays M R n c -> stays M R' n c.
Proof. intros H S j Hj. destruct (S j Hj) as (e & ? & ?). eauto. Qed.

Lemma spin_recurs M n c (dir : bool) color : steps M n init = Some c ->
  M (c_state c) 0 = Some (color, dir, c_state c) ->
  (forall i, 0 <= i -> c_tape c (if dir then c_pos c + i else c_pos c - i) = 0) -> recurs M.
Proof.
  intros E HM HB. assert (H0 : c_tape c (c_pos c) = 0).
  { specialize (HB 0 ltac:(lia)). rewrite Z.add_0_r, Z.sub_0_r in HB. destruct dir; auto. }
  exists n, 1%nat, c, (Cfg (c_state c) (move dir (c_pos c)) (write (c_tape c) (c_pos c) color)), (if dir then 1 else -1).
  split; [lia|]. split; [auto|]. split; [cbn; unfold step; rewrite H0, HM; auto|]. split; [auto|].
  split; [destruct dir; cbn; lia|]. right. destruct dir; [left|right]; (split; [lia|]);
    intros [|j] e p J Ee P; try lia; injection Ee as <-; cbn [c_tape]; unfold write.
  - destruct (Z.eqb_spec (p + 1) (c_pos c)); [lia|].
    pose proof (HB (p - c_pos c) ltac:(lia)) as X. pose proof (HB (p + 1 - c_pos c) ltac:(lia)) as Y.
    replace (c_pos c + (p - c_pos c)) with p in X by lia. replace (c_pos c + (p + 1 - c_pos c)) with (p + 1) in Y by lia. congruence.
  - destruct (Z.eqb_spec (p + -1) (c_pos c)); [lia|].
    pose proof (HB (c_pos c - p) ltac:(lia)) as X. pose proof (HB (c_pos c - (p + -1)) ltac:(lia)) as Y.
    replace (c_pos c - (c_pos c - p)) with p in X by lia. replace (c_pos c - (c_pos c - (p + -1))) with (p + -1) in Y by lia. congruence.
Qed.

(** What the definition says, with a region. *)
Lemma recurs_region M : recurs M -> exists n m c d k (R : Z -> Prop), (0 < m)%nat /\ steps M n init = Some c
  /\ steps M m c = Some d /\ agree R k c d /\ stays M R m c /\ (forall p, R p -> R (p + k))
  /\ ((k = 0 /\ forall p, R p) \/ (0 < k /\ forall p q, R p -> p <= q -> R q) \/ (k < 0 /\ forall p q, R p -> q <= p -> R q)).
Proof.
  intros (n & m & c & d & k & Hm & E & F & A & B & C). exists n, m, c, d, k.
  assert (ST : forall j, (j < m)%nat -> exists e, steps M j c = Some e).
  { intros j J. apply (steps_le M m j c d); [lia|auto]. }
  destruct C as [(-> & C)|[(L & C)|(L & C)]].
  - exists (fun _ => True). do 3 (split; [auto|]). split; [split; auto; split; auto; intros; rewrite Z.add_0_r; auto|].
    split; [intros j J; destruct (ST j J) as (e & ?); eauto|]. auto.
  - exists (fun p => exists j e, (j < m)%nat /\ steps M j c = Some e /\ c_pos e <= p). do 3 (split; [auto|]).
    split; [split; auto; split; auto; intros p (j & e & ? & ? & ?); eauto|].
    split; [intros j J; destruct (ST j J) as (e & X); exists e; split; auto; exists j, e; repeat split; auto; lia|].
    split; [intros p (j & e & ? & ? & ?); exists j, e; repeat split; auto; lia|].
    right; left. split; auto. intros p q (j & e & ? & ? & ?) Q. exists j, e. repeat split; auto; lia.
  - exists (fun p => exists j e, (j < m)%nat /\ steps M j c = Some e /\ p <= c_pos e). do 3 (split; [auto|]).
    split; [split; auto; split; auto; intros p (j & e & ? & ? & ?); eauto|].
    split; [intros j J; destruct (ST j J) as (e & X); exists e; split; auto; exists j, e; repeat split; auto; lia|].
    split; [intros p (j & e & ? & ? & ?); exists j, e; repeat split; auto; lia|].
    right; right. split; auto. intros p q (j & e & ? & ? & ?) Q. exists j, e. repeat split; auto; lia.
Qed.

Lemma recurs_never_halts M : recurs M -> never_halts M.
Proof.
  intros H. destruct (recurs_region M H) as (n & m & c & d & k & R & Hm & E & F & A & S & P & _).
  eapply never_halts_from; [exact E|]. eapply (agree_loop _ R k m); eauto.
Qed.

Lemma tr_loop_sound comp drop fuel : forall cycle state tp rs rt lm rm reset c cr n,
  tinv (machine_of comp) state tp c ->
  rinv (machine_of comp) rt rs lm rm c cr n ->
  tr_loop comp drop fuel cycle state tp rs rt lm rm reset = true ->
  recurs (machine_of comp) \/ (drop = true /\ halts (machine_of comp)).
Proof.
  induction fuel as [|fuel IH]; intros cycle state tp rs rt lm rm reset c cr n T RI H; [discriminate|].
  cbn [tr_loop] in H.
  pose proof T as [[k Hk] Hrep Hcan Hpos Hst].
  assert (HS : c_tape c (c_pos c) = t_scan (h_tape tp)) by (apply represents_iff; auto).
  destruct (comp_get comp (state, t_scan (h_tape tp))) as [[[color shift] next]|] eqn:EG.
  2:{ right. split; [auto|]. exists k, (state, t_scan (h_tape tp)), c. cbn [fst snd]. auto. }
  destruct ((state =? next) && t_at_edge (h_tape tp) shift) eqn:EE.
  { zb. subst next. left. apply (spin_recurs _ k c shift color Hk).
    - pose proof H1 as Z0. unfold t_at_edge in Z0. zb. rewrite H0 in EG. rewrite Hst. exact EG.
    - intros i Hi. eapply represents_edge; eauto. }
  assert (RI' : exists rs' rt' lm' rm' reset' cr' n',
     (if reset =? 0 then (state, tp, h_head tp, h_head tp, cycle) else (rs, rt, lm, rm, reset))
       = (rs', rt', lm', rm', reset')
     /\ rinv (machine_of comp) rt' rs' lm' rm' c cr' n').
  { destruct (reset =? 0).
    - do 5 eexists. exists c, 0%nat. split; [reflexivity|]. constructor; auto.
      + rewrite Hpos. lia.
      + intros j Hj. lia.
    - do 5 eexists. exists cr, n. split; [reflexivity|]. auto. }
  destruct RI' as (rs' & rt' & lm' & rm' & reset' & cr' & n' & EQ & [R1 R2 R3 R4]).
  rewrite EQ in H. clear EQ RI.
  unfold ht_step in H.
  destruct (rs_step (h_tape tp) shift color (state =? next)) as [tp' st] eqn:ES.
  destruct (rs_step_refines (machine_of comp) (h_tape tp) c shift color next (state =? next) tp' st)
    as (N & W & _ & d & A & B & C & D); auto using canon_wf.
  { rewrite Hst. auto. }
  { intros X. zb. congruence. }
  pose proof (rs_step_canon _ _ _ _ _ _ Hcan ES) as C'.
  cbn [h_head] in H.
  set (curr := if shift then h_head tp + st else h_head tp - st) in *.
  assert (PD : c_pos d = curr) by (unfold curr; destruct shift; lia).
  assert (T' : tinv (machine_of comp) next (HT curr tp') d).
  { constructor; cbn; auto. exists (k + Z.to_nat st)%nat. rewrite (steps_add_some _ _ _ _ _ Hk). auto. }
  assert (LR : exists lm2 rm2,
     (if curr <? lm' then (curr, rm') else if rm' <? curr then (lm', curr) else (lm', rm')) = (lm2, rm2)
     /\ lm2 <= lm' /\ rm' <= rm2 /\ lm2 <= curr <= rm2).
  { bdestr; do 2 eexists; (split; [reflexivity|lia]). }
  destruct LR as (lm2 & rm2 & EQ & L1 & L2 & L3). rewrite EQ in H. clear EQ.
  assert (RI2 : rinv (machine_of comp) rt' rs' lm2 rm2 d cr' (n' + Z.to_nat st)).
  { constructor; auto.
    - rewrite (steps_add_some _ _ _ _ _ R2). auto.
    - lia.
    - eapply stays_app; [|exact R2|].
      + eapply stays_weaken; [|exact R4]. cbn. intros; lia.
      + eapply straight_stays; [exact A| |].
        * unfold curr in PD. destruct shift; lia.
        * intros p Hp. lia. }
  destruct ((next =? rs') && ht_aligns_with (HT curr tp') rt' lm2 rm2) eqn:EA.
  - zb. destruct R1 as [[kr Hkr] Rrep Rcan Rpos Rst]. destruct RI2 as [_ Q2 Q3 Q4].
    destruct (aligned_agree cr' d lm2 rm2 (HT curr tp') rt') as (R & s & X1 & X2);
      auto using canon_wf; try congruence; try tauto.
    destruct X1 as (Y1 & Y2 & Y3).
    left. exists kr, (n' + Z.to_nat st)%nat, cr', d, s. split; [lia|]. do 4 (split; [auto; congruence|]).
    destruct X2 as [(-> & X)|[(L & X)|(L & X)]]; [left|right; left|right; right]; (split; [auto|]).
    + intros p. rewrite <- Y3 by auto. f_equal. lia.
    + intros j e p J Ee P. destruct (Q4 j J) as (e' & Ee' & B'). rewrite Ee in Ee'. inversion Ee'; subst. apply Y3, X. lia.
    + intros j e p J Ee P. destruct (Q4 j J) as (e' & Ee' & B'). rewrite Ee in Ee'. inversion Ee'; subst. apply Y3, X. lia.
  - eapply IH; eauto.
Qed.

Lemma quick_term_or_rec_says comp drop lim :
  comp_get comp (0, 0) = Some (1, true, 1) ->
  quick_term_or_rec comp lim drop = true -> recurs (machine_of comp) \/ (drop = true /\ halts (machine_of comp)).
Proof.
  intros H0 H. unfold quick_term_or_rec in H.
  set (c1 := Cfg 1 1 (write blank_tape 0 1)).
  assert (E1 : steps (machine_of comp) 1 init = Some c1).
  { cbn. unfold step. cbn. unfold blank_tape, machine_of. rewrite H0. reflexivity. }
  assert (T : tinv (machine_of comp) 1 ht_init_stepped c1).
  { constructor; auto; [exists 1%nat; auto| |].
    - intro i. cbn. unfold write, blank_tape, tape_cell. cbn [cell b_count b_color t_scan t_lspan t_rspan].
      bdestr; auto; lia.
    - cbn. repeat split; cbn; lia. }
  eapply tr_loop_sound; [exact T| |exact H].
  constructor; [exact T|instantiate (1 := 0%nat); reflexivity|cbn; lia|intros j Hj; lia].
Qed.

Lemma quick_term_or_rec_recurs comp lim :
  comp_get comp (0, 0) = Some (1, true, 1) ->
  quick_term_or_rec comp lim false = true -> recurs (machine_of comp).
Proof. intros H0 H. destruct (quick_term_or_rec_says comp false lim H0 H) as [X|[X _]]; [auto|discriminate]. Qed.

Lemma quick_term_or_rec_sound comp lim :
  comp_get comp (0, 0) = Some (1, true, 1) ->
  quick_term_or_rec comp lim false = true -> never_halts (machine_of comp).
Proof. intros H0 H. eapply recurs_never_halts, quick_term_or_rec_recurs; eauto. Qed.
