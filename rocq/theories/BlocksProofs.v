(** Lemmas about opt_block. *)
From Verif Require Import Base TM TMFacts ProgModel TapeModel TapeSpec TapeProofs BlocksModel BlocksSpec.

Lemma list_eqb_eq a : forall b, list_eqb a b = true <-> a = b.
Proof.
  induction a as [|x a IH]; intros [|y b]; cbn; try (split; intros; congruence).
  rewrite andb_true_iff, Z.eqb_eq, IH. split; [intros []; congruence|intros X; inv X; auto].
Qed.

Lemma measure_unroll comp fuel : forall state b m, measure_loop comp fuel state b = Some m ->
  (forall j, (j <= fuel)%nat -> exists t, unroll_loop comp j state (bm_tape b) = Some t)
  /\ (m = bm_max_step b \/ (bm_steps b < m <= bm_steps b + fuel)%nat).
Proof.
  induction fuel as [|fuel IH]; intros state b m H; cbn in H.
  - inv H. split; [|auto]. intros j Hj. replace j with 0%nat by lia. cbn. eauto.
  - destruct (comp_get comp (state, t_scan (bm_tape b))) as [[[color shift] next]|] eqn:E; [|discriminate].
    destruct ((state =? next) && t_at_edge (bm_tape b) shift); [discriminate|].
    destruct (IH _ _ _ H) as (A & B). split.
    + intros [|j] Hj; cbn; [eauto|]. rewrite E.
      destruct (A j ltac:(lia)) as (t & Ht). unfold bm_step in Ht.
      destruct (bm_max b <? t_blocks (bm_tape b))%nat; cbn in Ht; eauto.
    + unfold bm_step in B. destruct (bm_max b <? t_blocks (bm_tape b))%nat; cbn in B; lia.
Qed.

Lemma unroll_runs comp fuel : forall state t t' n c,
  unroll_loop comp fuel state t = Some t' -> canon t -> represents t c -> c_state c = state ->
  steps (machine_of comp) n init = Some c ->
  exists n' c', steps (machine_of comp) n' init = Some c' /\ represents t' c' /\ canon t'.
Proof.
  induction fuel as [|fuel IH]; intros state t t' n c H C R S HN; cbn in H.
  - inv H. eauto.
  - destruct (comp_get comp (state, t_scan t)) as [[[color shift] next]|] eqn:E; [|discriminate].
    destruct (rs_step t shift color (state =? next)) as [t1 k] eqn:E1. cbn in H.
    destruct (rs_step_refines (machine_of comp) t c shift color next (state =? next) t1 k) as (N & W & _ & d & A & B & D & F).
    + apply canon_wf; auto.
    + auto.
    + rewrite S. auto.
    + intros X. zb. congruence.
    + auto.
    + eapply (IH next t1 t' (n + Z.to_nat k)%nat d); eauto.
      * eapply rs_step_canon; eauto.
      * rewrite (steps_add_some _ _ _ _ _ HN). auto.
Qed.

Lemma unroll_span_cell s : forall n, wf_span s -> 0 <= n -> nth (Z.to_nat n) (unroll_span s) 0 = cell s n.
Proof.
  induction s as [|b s IH]; intros n W Hn; cbn [unroll_span flat_map cell].
  - destruct (Z.to_nat n); auto.
  - inv W. fold (unroll_span s). destruct (Z.ltb_spec n (b_count b)).
    + rewrite app_nth1 by (rewrite repeat_length; lia).
      rewrite (nth_indep _ 0 (b_color b)) by (rewrite repeat_length; lia). apply nth_repeat.
    + rewrite app_nth2 by (rewrite repeat_length; lia). rewrite repeat_length.
      rewrite <- IH by (auto; lia). f_equal. lia.
Qed.

Lemma unroll_word t c : wf_tape t -> represents t c -> tape_is_word c (t_unroll t).
Proof.
  intros [WL WR] R. exists (c_pos c - Z.of_nat (length (unroll_span (t_lspan t)))). intros p.
  replace p with (c_pos c + (p - c_pos c)) at 1 by lia. rewrite R.
  set (L := length (unroll_span (t_lspan t))). unfold word_cell, tape_cell, t_unroll.
  assert (LR : length (rev (unroll_span (t_lspan t))) = L) by apply rev_length.
  destruct (Z.eqb_spec (p - c_pos c) 0).
  { replace (p - (c_pos c - Z.of_nat L) <? 0) with false by lia.
    rewrite app_nth2 by lia. rewrite LR. replace (Z.to_nat _ - L)%nat with 0%nat by lia. reflexivity. }
  destruct (Z.ltb_spec 0 (p - c_pos c)).
  { replace (p - (c_pos c - Z.of_nat L) <? 0) with false by lia.
    rewrite app_nth2 by lia. rewrite LR. replace (Z.to_nat _ - L)%nat with (S (Z.to_nat (p - c_pos c - 1))) by lia.
    cbn [nth app]. symmetry. apply unroll_span_cell; auto; lia. }
  rewrite <- unroll_span_cell by (auto; lia).
  destruct (Z.ltb_spec (p - (c_pos c - Z.of_nat L)) 0).
  - apply nth_overflow. fold L. lia.
  - rewrite app_nth1 by lia. rewrite rev_nth by (fold L; lia). fold L. f_equal. lia.
Qed.

(** ** compr_eff *)

Lemma step_by_spec k n : (1 <= k)%nat -> forall fuel s, (n <= s + fuel)%nat ->
  NoDup (step_by fuel s n k)
  /\ (forall i, In i (step_by fuel s n k) <-> exists q, i = s + q * k /\ i < n)%nat
  /\ (step_by fuel s n k = [] \/ k * length (step_by fuel s n k) + s < n + k)%nat.
Proof.
  intros Hk. induction fuel as [|fuel IH]; intros s H; cbn [step_by].
  - split; [constructor|]. split; [|auto]. intros i. split; [intros []|intros (q & -> & X); lia].
  - destruct (Nat.ltb_spec s n).
    + destruct (IH (s + k)%nat ltac:(lia)) as (A & B & C). split; [|split].
      * constructor; auto. rewrite B. intros (q & X & _). nia.
      * intros i. cbn [In]. rewrite B. split.
        -- intros [<-|(q & -> & X)]; [exists 0%nat; lia|exists (S q); lia].
        -- intros ([|q] & -> & X); [left; lia|right; exists q; lia].
      * right. cbn [length]. destruct C as [->|C]; [cbn|]; nia.
    + split; [constructor|]. split; [|auto]. intros i. split; [intros []|intros (q & -> & X); lia].
Qed.

Definition rep_b (tp : list Z) (k i : nat) : bool :=
  list_eqb (firstn k (skipn i tp)) (firstn k (skipn (i + k) tp)).

Lemma nth_skipn_ (l : list Z) : forall i j, nth j (skipn i l) 0 = nth (i + j) l 0.
Proof.
  induction l as [|x l IH]; intros [|i] j; cbn; auto. destruct j; auto.
Qed.

Lemma nth_firstn_ (l : list Z) : forall k j, (j < k)%nat -> nth j (firstn k l) 0 = nth j l 0.
Proof.
  induction l as [|x l IH]; intros [|k] [|j] H; cbn; auto; try lia. apply IH. lia.
Qed.

Lemma rep_b_spec tp k i : (i + 2 * k <= length tp)%nat -> rep_b tp k i = true <-> repeats_at tp k i.
Proof.
  intros H. unfold rep_b, repeats_at. rewrite list_eqb_eq. split.
  - intros E j Hj. rewrite <- nth_skipn_, <- (nth_skipn_ tp (i + k)).
    rewrite <- (nth_firstn_ _ k j Hj), E, nth_firstn_ by auto. auto.
  - intros E. apply (nth_ext _ _ 0 0).
    + rewrite !firstn_length, !skipn_length. lia.
    + intros j Hj. rewrite firstn_length, skipn_length in Hj.
      rewrite !nth_firstn_ by lia. rewrite !nth_skipn_. apply E. lia.
Qed.

Lemma filter_len {A} (f : A -> bool) l : (length (filter f l) <= length l)%nat.
Proof. induction l as [|a l IH]; cbn [filter length]; auto. destruct (f a); cbn [length]; lia. Qed.

Lemma compr_loop_spec tp k : forall is size,
  (forall i, In i is -> i + 2 * k <= length tp)%nat -> (k * length is <= size)%nat ->
  compr_loop tp k is size = Some (size - k * length (filter (rep_b tp k) is))%nat.
Proof.
  induction is as [|i is IH]; intros size H L; cbn [compr_loop filter length].
  - f_equal. lia.
  - specialize (H i (or_introl eq_refl)) as Hi. unfold slice.
    replace ((i <=? i + k) && (i + k <=? length tp))%nat with true
      by (symmetry; apply andb_true_iff; split; apply Nat.leb_le; lia).
    replace ((i + k <=? i + 2 * k) && (i + 2 * k <=? length tp))%nat with true
      by (symmetry; apply andb_true_iff; split; apply Nat.leb_le; lia).
    replace (i + k - i)%nat with k by lia. replace (i + 2 * k - (i + k))%nat with k by lia.
    fold (rep_b tp k i). cbn [length] in L. destruct (rep_b tp k i).
    + unfold usub. replace (k <=? size)%nat with true by (symmetry; apply Nat.leb_le; lia).
      rewrite IH; [|intros; apply H; right; auto|lia]. f_equal. cbn [length].
      assert (length (filter (rep_b tp k) is) <= length is)%nat.
      { apply filter_len. }
      nia.
    + apply IH; [intros; apply H; right; auto|lia].
Qed.

Lemma compr_eff_spec tp k : (1 <= k)%nat -> (2 * k <= length tp)%nat ->
  exists n, repeats tp k n /\ (k * n <= length tp)%nat /\ compr_eff tp k = Some (length tp - k * n)%nat.
Proof.
  intros Hk HL. unfold compr_eff, usub.
  replace (2 * k <=? length tp)%nat with true by (symmetry; apply Nat.leb_le; lia).
  destruct k as [|k']; [lia|]. set (k := S k') in *.
  set (n := (length tp - 2 * k)%nat).
  destruct (step_by_spec k n Hk n 0%nat ltac:(lia)) as (A & B & C).
  set (l := step_by n 0 n k) in *.
  exists (length (filter (rep_b tp k) l)).
  assert (F : (length (filter (rep_b tp k) l) <= length l)%nat).
  { apply filter_len. }
  assert (LB : (k * length l <= length tp)%nat) by (destruct C as [C|C]; [rewrite C; cbn [length]; lia|unfold n in C; lia]).
  split; [|split].
  - exists (filter (rep_b tp k) l). split; [apply NoDup_filter; auto|]. split; auto.
    intros i. rewrite filter_In, B. split.
    + intros ((q & -> & X) & Y). split; [exists q; lia|]. split; [lia|]. apply rep_b_spec; auto. lia.
    + intros ((q & ->) & X & Y). split; [exists q; lia|]. apply rep_b_spec; auto. lia.
  - nia.
  - apply compr_loop_spec; auto. intros i Hi. apply B in Hi. destruct Hi as (q & -> & X). lia.
Qed.

Lemma repeats_unique w k n n' : repeats w k n -> repeats w k n' -> n = n'.
Proof.
  intros (l & D & <- & H) (l' & D' & <- & H').
  apply Nat.le_antisymm; apply NoDup_incl_length; auto; intros i Hi.
  - apply H'. apply H. auto.
  - apply H. apply H'. auto.
Qed.

(** [k] saves at least as much as every size below [hi], and more than every smaller one. *)
Definition best (w : list Z) (hi k : nat) : Prop :=
  forall j nj nk, (1 <= j < hi)%nat -> repeats w j nj -> repeats w k nk ->
    (j * nj <= k * nk)%nat /\ (j < k -> j * nj < k * nk)%nat.

Lemma opt_loop_spec tp : forall m s opt mc,
  (1 <= s)%nat -> (s + m = length tp / 2 \/ m = 0)%nat ->
  (1 <= opt)%nat ->
  ((s = 1 /\ opt = 1 /\ mc = 1 + length tp)%nat
   \/ (opt < s)%nat /\ best tp s opt /\ exists n, repeats tp opt n /\ (opt * n <= length tp)%nat /\ mc = (length tp - opt * n)%nat) ->
  exists b, opt_loop tp (seq s m) opt mc = Some b /\ (1 <= b)%nat
    /\ ((b < s + m)%nat /\ best tp (s + m) b \/ (m = 0 /\ s = 1 /\ b = 1)%nat).
Proof.
  induction m as [|m IH]; intros s opt mc Hs HL Ho HI; cbn [seq opt_loop].
  - exists opt. split; auto. split; auto. destruct HI as [(A & B & C)|(A & B & C)]; [right; auto|left].
    rewrite Nat.add_0_r. split; auto.
  - assert (H2 : (2 * s <= length tp)%nat).
    { pose proof (Nat.div_mod (length tp) 2 ltac:(lia)). lia. }
    destruct (compr_eff_spec tp s Hs H2) as (n & R & L & E). rewrite E.
    destruct (Nat.ltb_spec (length tp - s * n) mc).
    + destruct (IH (S s) s (length tp - s * n)%nat ltac:(lia) ltac:(lia) Hs) as (b & X & Y & Z).
      { right. split; [lia|]. split; [|exists n; auto]. intros j nj nk Hj Rj Rk.
        rewrite (repeats_unique _ _ _ _ Rk R) in *. destruct (Nat.eq_dec j s) as [->|].
        - rewrite (repeats_unique _ _ _ _ Rj R). lia.
        - destruct HI as [(A & B & C)|(A & B & no & Ro & Lo & ->)]; [lia|].
          destruct (B j nj no ltac:(lia) Rj Ro). lia. }
      exists b. split; auto. split; auto. left. replace (s + S m)%nat with (S s + m)%nat by lia.
      destruct Z as [Z|Z]; auto. lia.
    + destruct HI as [(A & B & C)|(A & B & no & Ro & Lo & ->)]; [lia|].
      destruct (IH (S s) opt (length tp - opt * no)%nat ltac:(lia) ltac:(lia) Ho) as (b & X & Y & Z).
      { right. split; [lia|]. split; [|exists no; auto]. intros j nj nk Hj Rj Rk.
        rewrite (repeats_unique _ _ _ _ Rk Ro) in *. destruct (Nat.eq_dec j s) as [->|].
        - rewrite (repeats_unique _ _ _ _ Rj R). lia.
        - apply (B j nj no ltac:(lia) Rj Ro). }
      exists b. split; auto. split; auto. left. replace (s + S m)%nat with (S s + m)%nat by lia.
      destruct Z as [Z|Z]; auto. lia.
Qed.

Lemma opt_block_spec comp steps : exists b, opt_block comp steps = Some b /\ (1 <= b)%nat
  /\ (b = 1%nat \/ exists n c w, TM.steps (machine_of comp) n init = Some c /\ tape_is_word c w
        /\ (b < length w / 2)%nat /\ best w (length w / 2) b).
Proof.
  unfold opt_block. destruct (measure_blocks comp steps) as [m|] eqn:E; [|exists 1%nat; auto].
  destruct (measure_unroll _ _ _ _ _ E) as (A & B). cbn in B.
  destruct (A m ltac:(lia)) as (t & Ht). unfold unroll_tape. cbn in Ht. rewrite Ht.
  destruct (unroll_runs comp m 0 init_tape t 0%nat init Ht canon_init represents_init eq_refl eq_refl)
    as (n & c & S & R & C).
  set (w := t_unroll t). destruct (opt_loop_spec w (length w / 2 - 1) 1 1 (1 + length w) ltac:(lia) ltac:(lia) ltac:(lia))
    as (b & X & Y & Z); [left; auto|].
  exists b. split; auto. split; auto. destruct Z as [(Z1 & Z2)|Z]; [|left; lia].
  destruct (Nat.eq_dec (length w / 2) 0) as [Q|Q]; [left; lia|right].
  replace (1 + (length w / 2 - 1))%nat with (length w / 2)%nat in * by lia.
  exists n, c, w. split; auto. split; [|auto]. apply unroll_word; auto. apply canon_wf; auto.
Qed.

Lemma opt_block_total comp steps : exists b, opt_block comp steps = Some b /\ (1 <= b)%nat.
Proof. destruct (opt_block_spec comp steps) as (b & A & B & _). eauto. Qed.

Lemma opt_block_best comp steps b : opt_block comp steps = Some b -> b <> 1%nat ->
  exists n c w, TM.steps (machine_of comp) n init = Some c /\ tape_is_word c w
    /\ (1 < b < length w / 2)%nat
    /\ forall j nj nb, (1 <= j < length w / 2)%nat -> repeats w j nj -> repeats w b nb ->
         (j * nj <= b * nb)%nat /\ (j < b -> j * nj < b * nb)%nat.
Proof.
  destruct (opt_block_spec comp steps) as (b' & A & B & C). intros E N. rewrite E in A. inv A.
  destruct C as [C|(n & c & w & X & Y & Z & W)]; [congruence|].
  exists n, c, w. split; auto. split; auto. split; [lia|]. exact W.
Qed.

Lemma measured_not_largest : exists comp steps m j t t',
  measure_blocks comp steps = Some m /\ unroll_loop comp m 0 init_tape = Some t
  /\ (j <= steps)%nat /\ unroll_loop comp j 0 init_tape = Some t' /\ (t_blocks t < t_blocks t')%nat.
Proof.
  exists [((0, 0), (1, true, 1)); ((0, 1), (1, false, 1)); ((1, 0), (1, false, 0))], 5%nat, 2%nat, 5%nat.
  do 2 eexists. split; [vm_compute; reflexivity|]. split; [vm_compute; reflexivity|].
  split; [lia|]. split; [vm_compute; reflexivity|]. cbn. lia.
Qed.

(** What the step found says: one more than the first cycle with the most blocks. *)
Lemma measure_first comp fuel : forall state b m, measure_loop comp fuel state b = Some m ->
  (m = bm_max_step b /\ forall j t, (j < fuel)%nat -> unroll_loop comp j state (bm_tape b) = Some t -> (t_blocks t <= bm_max b)%nat)
  \/ exists k t, (k < fuel)%nat /\ m = S (bm_steps b + k) /\ unroll_loop comp k state (bm_tape b) = Some t
     /\ (bm_max b < t_blocks t)%nat
     /\ forall j t', (j < fuel)%nat -> unroll_loop comp j state (bm_tape b) = Some t' ->
          (t_blocks t' <= t_blocks t)%nat /\ (j < k -> t_blocks t' < t_blocks t)%nat.
Proof.
  induction fuel as [|fuel IH]; intros state b m E; cbn [measure_loop] in E.
  - inv E. left. split; auto. intros j t X. lia.
  - destruct (comp_get comp (state, t_scan (bm_tape b))) as [[[color shift] next]|] eqn:G; [|discriminate].
    destruct ((state =? next) && t_at_edge (bm_tape b) shift); [discriminate|].
    apply IH in E. clear IH.
    assert (US : forall j, unroll_loop comp (S j) state (bm_tape b)
      = unroll_loop comp j next (bm_tape (bm_step b shift color (state =? next)))).
    { intros j. cbn [unroll_loop]. rewrite G. unfold bm_step. destruct (_ <? _)%nat; reflexivity. }
    assert (SB : bm_steps (bm_step b shift color (state =? next)) = S (bm_steps b)).
    { unfold bm_step. destruct (_ <? _)%nat; reflexivity. }
    rewrite SB in E. clear SB. revert US E. unfold bm_step.
    destruct (Nat.ltb_spec (bm_max b) (t_blocks (bm_tape b))) as [L|L]; cbn [bm_max bm_max_step bm_tape]; intros US E;
      destruct E as [(-> & E)|(k & t & K & -> & U & X & F)].
    + right. exists 0%nat, (bm_tape b). split; [lia|]. split; [lia|]. split; [reflexivity|]. split; auto.
      intros [|j] t' J U.
      * cbn in U. inv U. split; lia.
      * rewrite US in U. split; [|lia]. apply (E j); [lia|]. exact U.
    + right. exists (S k), t. split; [lia|]. split; [lia|]. split; [rewrite US; exact U|].
      split; [lia|]. intros [|j] t' J U'.
      * cbn in U'. inv U'. split; lia.
      * rewrite US in U'. destruct (F j t') as (F1 & F2); [lia|exact U'|]. split; auto. intros. apply F2. lia.
    + left. split; auto. intros [|j] t' J U.
      * cbn in U. inv U. auto.
      * rewrite US in U. apply (E j); [lia|]. exact U.
    + right. exists (S k), t. split; [lia|]. split; [lia|]. split; [rewrite US; exact U|].
      split; [lia|]. intros [|j] t' J U'.
      * cbn in U'. inv U'. split; lia.
      * rewrite US in U'. destruct (F j t') as (F1 & F2); [lia|exact U'|]. split; auto. intros. apply F2. lia.
Qed.

Lemma measured_cycle comp steps m : measure_blocks comp steps = Some m ->
  (m = 0%nat /\ forall j t, (j < steps)%nat -> unroll_loop comp j 0 init_tape = Some t -> t_blocks t = 0%nat)
  \/ exists k t, m = S k /\ (k < steps)%nat /\ unroll_loop comp k 0 init_tape = Some t
     /\ forall j t', (j < steps)%nat -> unroll_loop comp j 0 init_tape = Some t' ->
          (t_blocks t' <= t_blocks t)%nat /\ (j < k -> t_blocks t' < t_blocks t)%nat.
Proof.
  intros E. destruct (measure_first _ _ _ _ _ E) as [(-> & F)|(k & t & K & -> & U & X & F)].
  - left. split; auto. intros j t J U. specialize (F j t J U). cbn in F. lia.
  - right. exists k, t. auto.
Qed.
