(** Lemmas about the recurrence checkers of test/lin_rec.py. *)
From Verif Require Import Base TM TMFacts ProgModel TapeModel TapeSpec TapeProofs QuickModel TermRecModel TermRecSpec
  TermRecProofs BlocksProofs TermRecComplete RecurModel RecurSpec.

(** ** Tapes with a pointer *)
Definition hcell (t : head_tape) (p : Z) : Z := tape_cell (h_tape t) (p - h_head t).

Lemma len_unroll s : wf_span s -> fold_right (fun b n => b_count b + n) 0 s = zlen (unroll_span s).
Proof.
  unfold zlen. induction s as [|b s IH]; intros W; auto. inv W. cbn [unroll_span flat_map fold_right].
  fold (unroll_span s). rewrite app_length, repeat_length, IH by auto. lia.
Qed.

Lemma unroll_nth s i : wf_span s -> 0 <= i -> cell s i = nth (Z.to_nat i) (unroll_span s) 0.
Proof. intros W H. symmetry. apply unroll_span_cell; auto. Qed.

Lemma ptr_cell t p : wf_tape (h_tape t) -> let q := from_head t in
  hcell t p = (if (0 <=? p + p_init q) && (p + p_init q <? zlen (p_tape q)) then nth (Z.to_nat (p + p_init q)) (p_tape q) 0 else 0)
  /\ 0 <= h_head t + p_init q < zlen (p_tape q).
Proof.
  intros (WL & WR). cbn zeta. unfold from_head, hcell, tape_cell. cbn [p_init p_tape]. rewrite len_unroll by auto.
  set (L := unroll_span (t_lspan (h_tape t))). set (R := unroll_span (t_rspan (h_tape t))).
  assert (EL : forall i, 0 <= i -> cell (t_lspan (h_tape t)) i = nth (Z.to_nat i) L 0) by (intros; apply unroll_nth; auto).
  assert (ER : forall i, 0 <= i -> cell (t_rspan (h_tape t)) i = nth (Z.to_nat i) R 0) by (intros; apply unroll_nth; auto).
  clearbody L R. unfold zlen. rewrite !app_length, rev_length. cbn [length].
  split; [|lia]. set (i := p - h_head t). replace (p + (Z.of_nat (length L) - h_head t)) with (Z.of_nat (length L) + i) by lia.
  destruct (Z.eqb_spec i 0) as [Q|Q].
  - rewrite Q, Z.add_0_r. rewrite (proj2 (Z.leb_le _ _)), (proj2 (Z.ltb_lt _ _)) by lia. cbn [andb].
    rewrite Nat2Z.id, app_nth2; rewrite rev_length; [|lia]. rewrite Nat.sub_diag. auto.
  - destruct (Z.ltb_spec 0 i) as [P|P].
    + rewrite ER by lia. rewrite (proj2 (Z.leb_le _ _)) by lia. cbn [andb].
      destruct (Z.ltb_spec (Z.of_nat (length L) + i) (Z.of_nat (length L + (1 + length R)))) as [B|B].
      * rewrite app_nth2; rewrite rev_length; [|lia].
        replace (Z.to_nat (Z.of_nat (length L) + i) - length L)%nat with (S (Z.to_nat (i - 1))) by lia. reflexivity.
      * apply nth_overflow. lia.
    + rewrite EL by lia. destruct (Z.leb_spec 0 (Z.of_nat (length L) + i)) as [B|B].
      * rewrite (proj2 (Z.ltb_lt _ _)) by lia. cbn [andb]. rewrite app_nth1; [|rewrite rev_length; lia].
        rewrite rev_nth by lia. f_equal. lia.
      * cbn [andb]. apply nth_overflow. lia.
Qed.

Lemma nth_skip {A} (l : list A) d : forall n i, nth i (skipn n l) d = nth (n + i) l d.
Proof. induction l as [|x l IH]; intros [|n] i; cbn; auto; try (destruct i; auto; fail). Qed.

Lemma nth_zeros i n : nth i (repeat 0 n) 0 = 0.
Proof. revert i; induction n; intros [|i]; cbn; auto. Qed.

Lemma ltr_cell t start i : wf_tape (h_tape t) -> start <= h_head t ->
  nth i (p_get_ltr (from_head t) start) 0 = hcell t (start + Z.of_nat i).
Proof.
  intros W L. destruct (ptr_cell t (start + Z.of_nat i) W) as (E & B). rewrite E. clear E. unfold p_get_ltr. cbn zeta in *.
  set (q := from_head t) in *. set (s := start + p_init q).
  replace (start + Z.of_nat i + p_init q) with (s + Z.of_nat i) by (unfold s; lia).
  assert (S : s < zlen (p_tape q)) by (unfold s; lia). unfold zlen in *.
  destruct (Z.leb_spec (- s) 0) as [P|P].
  - rewrite nth_skip, (proj2 (Z.leb_le 0 _)) by lia. cbn [andb].
    destruct (Z.ltb_spec (s + Z.of_nat i) (Z.of_nat (length (p_tape q)))); [f_equal; lia|apply nth_overflow; lia].
  - destruct (Z.leb_spec 0 (s + Z.of_nat i)) as [Q|Q]; cbn [andb].
    + rewrite app_nth2; rewrite repeat_length; [|lia].
      destruct (Z.ltb_spec (s + Z.of_nat i) (Z.of_nat (length (p_tape q)))); [f_equal; lia|apply nth_overflow; lia].
    + rewrite app_nth1; [apply nth_zeros|rewrite repeat_length; lia].
Qed.

Lemma rev_repeat (x : Z) n : rev (repeat x n) = repeat x n.
Proof. induction n; cbn; auto. rewrite IHn. clear. induction n; cbn; auto. f_equal. auto. Qed.

Lemma nth_first {A} (l : list A) d : forall n i, (i < n)%nat -> nth i (firstn n l) d = nth i l d.
Proof. induction l as [|x l IH]; intros [|n] [|i] H; cbn; auto; try lia. apply IH. lia. Qed.

Lemma rtl_cell t stop i : wf_tape (h_tape t) -> h_head t <= stop ->
  nth i (rev (p_get_rtl (from_head t) stop)) 0 = hcell t (stop - Z.of_nat i).
Proof.
  intros W L. destruct (ptr_cell t (stop - Z.of_nat i) W) as (E & B). rewrite E. clear E. unfold p_get_rtl. cbn zeta in *.
  set (q := from_head t) in *. set (s := stop + p_init q + 1).
  replace (stop - Z.of_nat i + p_init q) with (s - 1 - Z.of_nat i) by (unfold s; lia).
  assert (S : 0 < s) by (unfold s; lia). unfold zlen in *. clearbody s q. clear L B. set (l := p_tape q). clearbody l. unfold upto, zlen.
  assert (F : forall s, 0 < s -> s <= Z.of_nat (length l) -> forall i, nth i (rev (firstn (Z.to_nat s) l)) 0 =
    if 0 <=? s - 1 - Z.of_nat i then nth (Z.to_nat (s - 1 - Z.of_nat i)) l 0 else 0).
  { clear. intros s P L i. assert (EL : length (firstn (Z.to_nat s) l) = Z.to_nat s) by (rewrite firstn_length; lia).
    destruct (Z.leb_spec 0 (s - 1 - Z.of_nat i)) as [Q|Q].
    - rewrite rev_nth by lia. rewrite EL, nth_first by lia. f_equal. lia.
    - apply nth_overflow. rewrite rev_length. lia. }
  destruct (Z.leb_spec (s - Z.of_nat (length l)) 0) as [P|P].
  - rewrite (proj2 (Z.ltb_ge s 0)) by lia. rewrite F by lia.
    destruct (Z.leb_spec 0 (s - 1 - Z.of_nat i)); cbn [andb]; auto. rewrite (proj2 (Z.ltb_lt _ _)) by lia. auto.
  - replace (s - (s - Z.of_nat (length l))) with (Z.of_nat (length l)) by lia.
    rewrite (proj2 (Z.ltb_ge (Z.of_nat (length l)) 0)) by lia. rewrite Nat2Z.id, firstn_all, rev_app_distr, rev_repeat.
    destruct (Z.ltb_spec (s - 1 - Z.of_nat i) (Z.of_nat (length l))) as [Q|Q].
    + rewrite app_nth2; rewrite repeat_length; [|lia].
      destruct (Z.leb_spec 0 (s - 1 - Z.of_nat i)) as [X|X]; cbn [andb].
      * rewrite rev_nth by lia. f_equal. lia.
      * apply nth_overflow. rewrite rev_length. lia.
    + rewrite app_nth1; [|rewrite repeat_length; lia]. rewrite nth_zeros, andb_false_r. auto.
Qed.

Lemma cnt_cell t a b i : wf_tape (h_tape t) -> Z.of_nat i <= b - a ->
  nth i (p_get_cnt (from_head t) a b) 0 = hcell t (a + Z.of_nat i).
Proof.
  intros W L. destruct (ptr_cell t (a + Z.of_nat i) W) as (E & _). rewrite E. clear E. unfold p_get_cnt. cbn zeta.
  set (q := from_head t). set (f := fun i => _).
  rewrite (nth_indep _ 0 (f 0%nat)) by (rewrite map_length, seq_length; lia).
  rewrite map_nth, seq_nth by lia. unfold f. cbn [Nat.add].
  replace (a + p_init q + Z.of_nat i) with (a + Z.of_nat i + p_init q) by lia. auto.
Qed.

(** ** One comparison *)
Lemma ptr_aligned c d lm rm ht hr :
  wf_tape (h_tape ht) -> wf_tape (h_tape hr) ->
  represents (h_tape hr) c -> represents (h_tape ht) d ->
  c_pos c = h_head hr -> c_pos d = h_head ht -> lm <= c_pos c <= rm -> 
  p_aligns (from_head ht) (from_head hr) (c_pos d - c_pos c) lm rm = true ->
  let k := c_pos d - c_pos c in
  (k = 0 /\ forall p, lm <= p <= rm -> c_tape d p = c_tape c p)
  \/ (0 < k /\ forall p, lm <= p -> c_tape d (p + k) = c_tape c p)
  \/ (k < 0 /\ forall p, p <= rm -> c_tape d (p + k) = c_tape c p).
Proof.
  intros Wd Wc Rc Rd Pc Pd B H k. unfold p_aligns in H. fold k in H.
  assert (Tc : forall p, c_tape c p = hcell hr p).
  { intros p. unfold hcell. rewrite <- (Rc (p - h_head hr)). f_equal. lia. }
  assert (Td : forall p, c_tape d p = hcell ht p).
  { intros p. unfold hcell. rewrite <- (Rd (p - h_head ht)). f_equal. lia. }
  destruct (Z.ltb_spec 0 k) as [K|K]; [right; left|destruct (Z.ltb_spec k 0) as [K'|K']; [right; right|left]].
  - split; auto. apply slice_eqb_eq in H. intros p P. rewrite Tc, Td.
    pose proof (ltr_cell hr lm (Z.to_nat (p - lm)) Wc ltac:(lia)) as X.
    pose proof (ltr_cell ht (lm + k) (Z.to_nat (p - lm)) Wd ltac:(lia)) as Y.
    rewrite H in X. rewrite X in Y. rewrite Z2Nat.id in Y by lia.
    replace (lm + (p - lm)) with p in Y by lia. replace (lm + k + (p - lm)) with (p + k) in Y by lia. auto.
  - split; auto. apply slice_eqb_eq in H. intros p P. rewrite Tc, Td.
    pose proof (rtl_cell hr rm (Z.to_nat (rm - p)) Wc ltac:(lia)) as X.
    pose proof (rtl_cell ht (rm + k) (Z.to_nat (rm - p)) Wd ltac:(lia)) as Y.
    rewrite H in X. rewrite X in Y. rewrite Z2Nat.id in Y by lia.
    replace (rm - (rm - p)) with p in Y by lia. replace (rm + k - (rm - p)) with (p + k) in Y by lia. auto.
  - split; [lia|]. apply slice_eqb_eq in H. intros p P. rewrite Tc, Td.
    pose proof (cnt_cell hr lm rm (Z.to_nat (p - lm)) Wc ltac:(lia)) as X.
    pose proof (cnt_cell ht lm rm (Z.to_nat (p - lm)) Wd ltac:(lia)) as Y.
    rewrite H in X. rewrite X in Y. rewrite Z2Nat.id in Y by lia.
    replace (lm + (p - lm)) with p in Y by lia. auto.
Qed.

Lemma aligned_recurs M n m c d lm rm ht hr : (0 < m)%nat ->
  steps M n init = Some c -> steps M m c = Some d -> c_state d = c_state c ->
  wf_tape (h_tape ht) -> wf_tape (h_tape hr) ->
  represents (h_tape hr) c -> represents (h_tape ht) d ->
  c_pos c = h_head hr -> c_pos d = h_head ht ->
  (forall j e, (j <= m)%nat -> steps M j c = Some e -> lm <= c_pos e <= rm) ->
  p_aligns (from_head ht) (from_head hr) (c_pos d - c_pos c) lm rm = true -> recurs_at M n m.
Proof.
  intros Hm En Em St Wd Wc Rc Rd Pc Pd B H.
  pose proof (B 0%nat c ltac:(lia) eq_refl) as B0.
  destruct (ptr_aligned c d lm rm ht hr Wd Wc Rc Rd Pc Pd B0 H) as [(K & A)|[(K & A)|(K & A)]].
  - exists c, d, 0. do 4 (split; auto). split; [lia|]. left. split; auto. intros p.
    destruct (Z_le_dec lm p) as [P|P]; [destruct (Z_le_dec p rm) as [Q|Q]; [auto|]|];
      (apply (untouched M p m c d Em); intros i e I Ee X; pose proof (B i e ltac:(lia) Ee); lia).
  - exists c, d, (c_pos d - c_pos c). do 4 (split; auto). split; [lia|]. right; left. split; auto.
    intros j e p J Ee P. apply A. pose proof (B j e ltac:(lia) Ee). lia.
  - exists c, d, (c_pos d - c_pos c). do 4 (split; auto). split; [lia|]. right; right. split; auto.
    intros j e p J Ee P. apply A. pose proof (B j e ltac:(lia) Ee). lia.
Qed.
