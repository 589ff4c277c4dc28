(** * Proofs about signatures, counts and places *)
From Verif Require Import Base TapeModel SigSpec.

Lemma sig_block_iff b b' : sig_of_block b = sig_of_block b' <-> like_block b b'.
Proof.
  unfold sig_of_block, like_block. destruct (Z.eqb_spec (b_count b) 1), (Z.eqb_spec (b_count b') 1); split; intros H; try (inversion H; fail);
    try (inversion H; split; auto; tauto); try (destruct H as (A & B); f_equal; auto; tauto); exfalso; tauto.
Qed.
Lemma sig_span_iff s s' : map sig_of_block s = map sig_of_block s' <-> Forall2 like_block s s'.
Proof.
  revert s'. induction s as [|b s IH]; intros [|b' s']; cbn [map]; split; intros H; try constructor; try discriminate; try (inversion H; fail).
  - apply sig_block_iff. congruence.
  - apply IH. congruence.
  - inversion H; subst. f_equal; [apply sig_block_iff; auto|apply IH; auto].
Qed.
Lemma signature_iff t t' : t_signature t = t_signature t' <-> like_tape like_block t t'.
Proof.
  unfold t_signature, like_tape. rewrite <- !sig_span_iff. split; [intros H; inversion H; auto|intros (-> & -> & ->); reflexivity].
Qed.

Lemma cc_sig b : cc_color (sig_of_block b) = b_color b.
Proof. unfold sig_of_block. destruct (_ =? _); reflexivity. Qed.
Lemma span_compat_iff s s' : length s = length s' -> span_compatible s (map sig_of_block s') = true <-> Forall2 like_color s s'.
Proof.
  revert s'. induction s as [|b s IH]; intros [|b' s'] L; cbn [map span_compatible]; try discriminate; split; intros H; auto.
  - apply andb_true_iff in H. destruct H as (A & B). rewrite cc_sig in A. constructor; [apply Z.eqb_eq; auto|apply IH; auto].
  - inversion H; subst. rewrite cc_sig. apply andb_true_iff. split; [apply Z.eqb_eq; auto|apply IH; auto].
Qed.
Lemma compatible_iff t t' : t_sig_compatible t (t_signature t') = true <-> covers t t'.
Proof.
  unfold t_sig_compatible, covers, like_tape, cut_off, t_signature. cbn [sg_scan sg_l sg_r t_lspan t_scan t_rspan]. rewrite !map_length.
  destruct (Nat.leb_spec (length (t_lspan t')) (length (t_lspan t))) as [L|L]; [|rewrite andb_false_r; split; [discriminate|lia]].
  destruct (Nat.leb_spec (length (t_rspan t')) (length (t_rspan t))) as [R|R]; [|rewrite andb_false_r; split; [discriminate|lia]].
  rewrite !andb_true_r, !andb_true_iff, !span_compat_iff by (rewrite firstn_length; lia). rewrite Z.eqb_eq. tauto.
Qed.
Lemma cut_signature n m t : t_signature (cut_off n m t) = Sig (t_scan t) (firstn n (sg_l (t_signature t))) (firstn m (sg_r (t_signature t))).
Proof. unfold t_signature, cut_off. cbn. rewrite !firstn_map. reflexivity. Qed.

Lemma span_told s s' : map sig_of_block s = map sig_of_block s' -> map b_count s = map b_count s' -> s = s'.
Proof.
  revert s'. induction s as [|b s IH]; intros [|b' s'] A B; try discriminate; auto. cbn in A, B. injection A as A1 A2. injection B as B1 B2.
  apply sig_block_iff in A1. destruct A1 as (C & _), b, b'. cbn in *. subst. f_equal. auto.
Qed.
Lemma tape_told t t' : t_signature t = t_signature t' -> t_counts t = t_counts t' -> t = t'.
Proof.
  destruct t, t'. unfold t_signature, t_counts. cbn. intros A B. injection A as -> A1 A2. injection B as B1 B2. f_equal; apply span_told; auto.
Qed.

Lemma set_nth_ok s pos v : match set_nth_count s pos v with
  | None => nth_error s pos = None
  | Some s' => nth_error s pos <> None /\ Forall2 like_color s' s
      /\ forall p, option_map b_count (nth_error s' p) = if Nat.eqb p pos then Some v else option_map b_count (nth_error s p)
  end.
Proof.
  revert pos. induction s as [|b s IH]; intros [|pos]; cbn; auto.
  - split; [discriminate|]. split; [constructor; [reflexivity|]|].
    + clear. induction s; constructor; auto. reflexivity.
    + intros [|p]; reflexivity.
  - specialize (IH pos). destruct (set_nth_count s pos v) as [s'|]; cbn; [|auto]. destruct IH as (A & B & C).
    split; [auto|]. split; [constructor; [reflexivity|auto]|]. intros [|p]; cbn; auto.
Qed.
Lemma like_refl s : Forall2 like_color s s.
Proof. induction s; constructor; auto. reflexivity. Qed.
Lemma set_count_ok t side pos v :
  (t_set_count t side pos v = None <-> block_at t side pos = None)
  /\ forall t', t_set_count t side pos v = Some t' -> like_tape like_color t' t
     /\ forall side' pos', t_get_count t' side' pos' = if Bool.eqb side' side && Nat.eqb pos' pos then Some v else option_map b_count (block_at t side' pos').
Proof.
  unfold t_set_count, block_at, t_get_count.
  pose proof (set_nth_ok (t_rspan t) pos v) as R. pose proof (set_nth_ok (t_lspan t) pos v) as L.
  destruct side; [destruct (set_nth_count (t_rspan t) pos v)|destruct (set_nth_count (t_lspan t) pos v)]; cbn;
    (split; [split; intros H; try discriminate; try tauto|intros t' E; inversion E; subst; cbn]).
  - destruct R as (A & B & C). split; [repeat split; auto; apply like_refl|]. intros [] p; cbn; auto.
  - destruct L as (A & B & C). split; [repeat split; auto; apply like_refl|]. intros [] p; cbn; auto.
Qed.

Lemma py_next_scan t t' shift color skip : like_tape like_color t t' ->
  t_scan (fst (py_step t shift color skip)) = t_scan (fst (py_step t' shift color skip))
  /\ t_scan (fst (rs_step t shift color skip)) = t_scan (fst (rs_step t' shift color skip))
  /\ t_at_edge t shift = t_at_edge t' shift /\ t_blank t = t_blank t' /\ t_span_lens t = t_span_lens t'.
Proof.
  destruct t as [l c r], t' as [l' c' r']. intros (S1 & L & R). cbn in S1, L, R. subst c'.
  assert (N : forall (a b : span), Forall2 like_color a b -> is_nil a = is_nil b) by (intros a b []; reflexivity).
  assert (PY : forall a b p q, Forall2 like_color a b ->
    fst (fst (py_pull_one (snd (py_skip_block a c skip)) p)) = fst (fst (py_pull_one (snd (py_skip_block b c skip)) q))).
  { intros a b p q [|x y a' b' E F]; [reflexivity|]. unfold py_skip_block. rewrite E. destruct (skip && _).
    - cbn [snd]. destruct F as [|u v a2 b2 G F]; [reflexivity|]. unfold py_pull_one. rewrite G. destruct (negb _), (negb _); reflexivity.
    - unfold py_pull_one. cbn [snd]. rewrite E. destruct (negb _), (negb _); reflexivity. }
  assert (RS : forall a b, Forall2 like_color a b -> fst (fst (rs_pull a c skip)) = fst (fst (rs_pull b c skip))).
  { intros a b [|x y a' b' E F]; [reflexivity|]. unfold rs_pull. rewrite E. destruct (skip && _).
    - destruct F as [|u v a2 b2 G F]; [reflexivity|]. rewrite G. destruct (_ >? 1), (_ >? 1); reflexivity.
    - destruct (_ >? 1), (_ >? 1); rewrite ?E; reflexivity. }
  split; [|split; [|split; [|split]]].
  - unfold py_step. cbn [t_lspan t_scan t_rspan]. destruct shift.
    + specialize (PY _ _ (fst (py_skip_block r c skip)) (fst (py_skip_block r' c skip)) R).
      destruct (py_skip_block r c skip) as [p1 s1], (py_skip_block r' c skip) as [p2 s2]. cbn [fst snd] in PY.
      destruct (py_pull_one s1 p1) as [[n1 u1] w1], (py_pull_one s2 p2) as [[n2 u2] w2]. exact PY.
    + specialize (PY _ _ (fst (py_skip_block l c skip)) (fst (py_skip_block l' c skip)) L).
      destruct (py_skip_block l c skip) as [p1 s1], (py_skip_block l' c skip) as [p2 s2]. cbn [fst snd] in PY.
      destruct (py_pull_one s1 p1) as [[n1 u1] w1], (py_pull_one s2 p2) as [[n2 u2] w2]. exact PY.
  - unfold rs_step. cbn [t_lspan t_scan t_rspan]. destruct shift.
    + specialize (RS _ _ R). destruct (rs_pull r c skip) as [[n1 u1] w1], (rs_pull r' c skip) as [[n2 u2] w2]. exact RS.
    + specialize (RS _ _ L). destruct (rs_pull l c skip) as [[n1 u1] w1], (rs_pull l' c skip) as [[n2 u2] w2]. exact RS.
  - unfold t_at_edge. cbn. destruct shift; [rewrite (N _ _ R)|rewrite (N _ _ L)]; reflexivity.
  - unfold t_blank. cbn. rewrite (N _ _ L), (N _ _ R). reflexivity.
  - unfold t_span_lens. cbn. f_equal; [clear - L; induction L; cbn; auto|clear - R; induction R; cbn; auto].
Qed.
