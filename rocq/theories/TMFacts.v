(** Lemmas about the specification machine. *)
From Verif Require Import Base TM.

Lemma ceq_refl c : ceq c c.
Proof. repeat split; auto. Qed.

Lemma ceq_sym c d : ceq c d -> ceq d c.
Proof. intros (A & B & C); repeat split; auto. Qed.

Lemma ceq_trans a b c : ceq a b -> ceq b c -> ceq a c.
Proof.
  intros (A & B & C) (A' & B' & C'); repeat split; try congruence.
  all: intro p; rewrite C; auto.
Qed.

Lemma shifted_0 c d : ceq c d <-> shifted 0 c d.
Proof.
  unfold ceq, shifted; split; intros (A & B & C); repeat split; try lia; intro p;
    specialize (C p); rewrite ?Z.add_0_r in *; auto.
Qed.

Lemma step_shifted M k c d : shifted k c d ->
  match step M c, step M d with
  | Some c', Some d' => shifted k c' d'
  | None, None => True
  | _, _ => False
  end.
Proof.
  intros (A & B & C). unfold step. rewrite A, B, C.
  destruct (M (c_state c) (c_tape c (c_pos c))) as [[[co sh] st]|]; auto.
  repeat split; cbn.
  - destruct sh; cbn; lia.
  - intro p. unfold write.
    destruct (p =? c_pos c) eqn:E.
    + apply Z.eqb_eq in E. subst.
      rewrite Z.eqb_refl. auto.
    + apply Z.eqb_neq in E.
      destruct (p + k =? c_pos c + k) eqn:F; [apply Z.eqb_eq in F; lia|]. auto.
Qed.

Lemma steps_shifted M n : forall k c d, shifted k c d ->
  match steps M n c, steps M n d with
  | Some c', Some d' => shifted k c' d'
  | None, None => True
  | _, _ => False
  end.
Proof.
  induction n; cbn; intros k c d H; auto.
  pose proof (step_shifted M k c d H) as S1.
  destruct (step M c), (step M d); try tauto. apply IHn; auto.
Qed.

Lemma steps_ceq M n c d c' : ceq c d -> steps M n c = Some c' ->
  exists d', steps M n d = Some d' /\ ceq c' d'.
Proof.
  intros H E. apply shifted_0 in H.
  pose proof (steps_shifted M n 0 c d H) as S1. rewrite E in S1.
  destruct (steps M n d); [|tauto]. eexists; split; eauto. apply shifted_0; auto.
Qed.

Lemma step_ceq M c d c' : ceq c d -> step M c = Some c' ->
  exists d', step M d = Some d' /\ ceq c' d'.
Proof.
  intros H E. destruct (steps_ceq M 1 c d c' H) as (d' & A & B).
  - cbn. rewrite E. auto.
  - cbn in A. destruct (step M d) eqn:F; [|discriminate]. inv A. eauto.
Qed.

Lemma step_ceq_None M c d : ceq c d -> step M c = None -> step M d = None.
Proof.
  intros (A & B & C) E. unfold step in *. rewrite <- A, <- B, <- C.
  destruct (M (c_state c) (c_tape c (c_pos c))) as [[[? ?] ?]|]; congruence.
Qed.

Lemma steps_add M n m c : steps M (n + m) c =
  match steps M n c with Some d => steps M m d | None => None end.
Proof.
  revert c. induction n; cbn; intros; auto.
  destruct (step M c); auto.
Qed.

Lemma steps_add_some M n m c d : steps M n c = Some d -> steps M (n + m) c = steps M m d.
Proof. intro H. rewrite steps_add, H. auto. Qed.

Lemma steps_le M n m c d : (m <= n)%nat -> steps M n c = Some d ->
  exists e, steps M m c = Some e.
Proof.
  intros L E. replace n with (m + (n - m))%nat in E by lia.
  rewrite steps_add in E. destruct (steps M m c); [eauto|discriminate].
Qed.

Lemma steps_S_r M n c : steps M (S n) c =
  match steps M n c with Some d => step M d | None => None end.
Proof.
  replace (S n) with (n + 1)%nat by lia. rewrite steps_add.
  destruct (steps M n c) as [d|]; auto. cbn. destruct (step M d); auto.
Qed.

Lemma halts_at_stops M n slot : halts_at M n slot -> forall m, (n < m)%nat -> steps M m init = None.
Proof.
  intros (c & E & A & B & C) m L.
  replace m with (n + S (m - n - 1))%nat by lia.
  rewrite (steps_add_some _ _ _ _ _ E). cbn.
  unfold step. rewrite A, B, C. auto.
Qed.

Lemma halts_not_never M : halts M -> ~ never_halts M.
Proof.
  intros (n & slot & H) N. destruct (N (S n)) as (c & E).
  rewrite (halts_at_stops _ _ _ H) in E; [discriminate|lia].
Qed.

(** Halting time and slot are unique. *)
Lemma halts_at_unique M n n' s s' : halts_at M n s -> halts_at M n' s' -> n = n' /\ s = s'.
Proof.
  intros H H'.
  assert (n = n').
  { destruct (Nat.lt_trichotomy n n') as [L|[E|L]]; auto.
    - pose proof (halts_at_stops _ _ _ H _ L). destruct H' as (? & ? & _); congruence.
    - pose proof (halts_at_stops _ _ _ H' _ L). destruct H as (? & ? & _); congruence. }
  subst. split; auto.
  destruct H as (c & E & A & B & _), H' as (c' & E' & A' & B' & _).
  destruct s, s'; cbn in *. congruence.
Qed.

(** A machine that cannot reach a halt never halts, and conversely. *)
Lemma never_halts_iff M : never_halts M <-> ~ halts M.
Proof.
  split; [intros N H; eapply halts_not_never; eauto|].
  intros H n. induction n; [cbn; eauto|].
  destruct IHn as (c & E). rewrite steps_S_r, E.
  destruct (step M c) eqn:S1; [eauto|].
  exfalso. apply H. exists n, (c_state c, c_tape c (c_pos c)), c. cbn. repeat split; auto.
  unfold step in S1. destruct (M (c_state c) (c_tape c (c_pos c))) as [[[? ?] ?]|]; congruence.
Qed.

(** If from [c] the machine can always go on until it reaches a shifted copy of [c]
    after at least one move, it never stops. *)
Lemma shifted_loop_forever M c d n k :
  (0 < n)%nat -> steps M n c = Some d -> shifted k c d -> forall m, exists e, steps M m c = Some e.
Proof.
  intros Hn E H.
  assert (G : forall j, exists e, steps M (j * n) c = Some e /\ exists k', shifted k' c e).
  { induction j.
    - cbn. exists c. split; auto. exists 0. apply shifted_0, ceq_refl.
    - destruct IHj as (e & Ee & k' & Hs).
      replace (S j * n)%nat with (j * n + n)%nat by lia.
      rewrite (steps_add_some _ _ _ _ _ Ee).
      pose proof (steps_shifted M n k' c e Hs) as S1. rewrite E in S1.
      destruct (steps M n e) as [f|]; [|tauto]. exists f. split; auto.
      exists (k + k'). destruct H as (A & B & C), S1 as (A' & B' & C').
      repeat split; try congruence; try lia.
      intro p. rewrite Z.add_assoc, C', C. auto. }
  intro m. destruct (G m) as (e & Ee & _).
  eapply steps_le; [|exact Ee]. nia.
Qed.

Lemma never_halts_from M n c : steps M n init = Some c ->
  (forall m, exists e, steps M m c = Some e) -> never_halts M.
Proof.
  intros E H m. destruct (H m) as (e & Ee).
  apply (steps_le M (n + m) m init e); [lia|].
  rewrite (steps_add_some _ _ _ _ _ E). auto.
Qed.

(** Characterisation of spin-out: a self-loop on blank with nothing but blanks ahead. *)
Lemma spin_out_lemma M c (dir : bool) color :
  M (c_state c) 0 = Some (color, dir, c_state c) ->
  (forall i, 0 <= i -> c_tape c (if dir then c_pos c + i else c_pos c - i) = 0) ->
  spins_out_from M c.
Proof.
  intros HM Hb. exists dir. intro n. revert c HM Hb.
  induction n; intros c HM Hb.
  - exists c. cbn. repeat split.
    + destruct dir; lia.
    + specialize (Hb 0). rewrite Z.add_0_r, Z.sub_0_r in Hb. destruct dir; apply Hb; lia.
  - assert (H0 : c_tape c (c_pos c) = 0).
    { specialize (Hb 0). rewrite Z.add_0_r, Z.sub_0_r in Hb. destruct dir; apply Hb; lia. }
    set (c1 := Cfg (c_state c) (move dir (c_pos c)) (write (c_tape c) (c_pos c) color)).
    assert (E : step M c = Some c1) by (unfold step; rewrite H0, HM; auto).
    destruct (IHn c1) as (d & A & B & C & D).
    + exact HM.
    + intros i Hi. cbn. unfold write.
      destruct dir; cbn.
      * destruct (_ =? _) eqn:F; [apply Z.eqb_eq in F; lia|].
        replace (c_pos c + 1 + i) with (c_pos c + (1 + i)) by lia. apply Hb. lia.
      * destruct (_ =? _) eqn:F; [apply Z.eqb_eq in F; lia|].
        replace (c_pos c - 1 - i) with (c_pos c - (1 + i)) by lia. apply Hb. lia.
    + exists d. cbn [steps]. rewrite E. repeat split; auto.
      rewrite C. cbn. destruct dir; cbn; lia.
Qed.

Lemma spins_out_never_halts M n c : steps M n init = Some c -> spins_out_from M c -> never_halts M.
Proof.
  intros E (r & H). eapply never_halts_from; eauto.
  intro m. destruct (H m) as (d & Ed & _). eauto.
Qed.
