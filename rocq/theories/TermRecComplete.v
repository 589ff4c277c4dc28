(** Lemmas about quick_term_or_rec: every cycler is found. *)
From Verif Require Import Base TM TMFacts ProgModel TapeModel TapeSpec TapeProofs QuickProofs TermRecModel TermRecSpec TermRecProofs.

(** ** One pass of the loop as a sweep of the plain machine *)
Definition ahead (dir : bool) (p i : Z) : Z := if dir then p + i else p - i.

Definition sweeps (M : program) (c : config) (n : nat) : Prop :=
  exists color dir next, M (c_state c) (c_tape c (c_pos c)) = Some (color, dir, next) /\ (1 <= n)%nat
    /\ (next <> c_state c -> n = 1%nat)
    /\ (next = c_state c ->
         (forall i, 0 <= i < Z.of_nat n -> c_tape c (ahead dir (c_pos c) i) = c_tape c (c_pos c))
         /\ c_tape c (ahead dir (c_pos c) (Z.of_nat n)) <> c_tape c (c_pos c)).

Lemma sweeps_unique M c n n' : sweeps M c n -> sweeps M c n' -> n = n'.
Proof.
  intros (co & dir & nx & E & N & A & B) (co' & dir' & nx' & E' & N' & A' & B').
  rewrite E in E'. injection E' as <- <- <-.
  destruct (Z.eq_dec nx (c_state c)) as [Q|Q]; [|rewrite A, A'; auto].
  destruct (B Q) as (B1 & B2). destruct (B' Q) as (C1 & C2).
  destruct (lt_eq_lt_dec n n') as [[L|L]|L]; auto; exfalso; [apply B2, C1|apply C2, B1]; lia.
Qed.

(** The run of a sweep. *)
Lemma sweeps_run M c n j : sweeps M c n -> (j <= n)%nat ->
  exists color dir next e, M (c_state c) (c_tape c (c_pos c)) = Some (color, dir, next)
    /\ steps M j c = Some e /\ c_pos e = ahead dir (c_pos c) (Z.of_nat j)
    /\ ((0 < j)%nat -> c_state e = next)
    /\ forall i, Z.of_nat j <= i -> c_tape e (ahead dir (c_pos c) i) = c_tape c (ahead dir (c_pos c) i).
Proof.
  intros (co & dir & nx & E & N & A & B) J. exists co, dir, nx.
  destruct j as [|j].
  { exists c. split; auto. split; [reflexivity|]. split; [destruct dir; cbn; lia|]. split; [lia|auto]. }
  destruct (Nat.eq_dec j 0) as [->|J0].
  - exists (Cfg nx (move dir (c_pos c)) (write (c_tape c) (c_pos c) co)). split; auto.
    split; [cbn; unfold step; rewrite E; auto|]. split; [destruct dir; reflexivity|]. split; [auto|].
    intros i I. cbn. unfold write, ahead. destruct dir; bdestr; auto; lia.
  - assert (Q : nx = c_state c).
    { destruct (Z.eq_dec nx (c_state c)); auto. specialize (A n0). lia. }
    destruct (B Q) as (B1 & B2). subst nx.
    destruct (run_over M dir co (c_tape c (c_pos c)) j c eq_refl E) as (d & D1 & D2 & D3 & D4).
    + intros i I. unfold half. rewrite <- (B1 (i + 1)) by lia. unfold ahead. f_equal. destruct dir; lia.
    + exists d. split; auto. split; auto. split; [rewrite D3; unfold ahead; destruct dir; lia|]. split; [auto|].
      intros i I. rewrite D4. unfold ahead. destruct dir; bdestr; auto; lia.
Qed.

Lemma sweeps_mid M c n j e : sweeps M c n -> (0 < j < n)%nat -> steps M j c = Some e -> sweeps M e (n - j).
Proof.
  intros S J E. destruct (sweeps_run M c n j S ltac:(lia)) as (co & dir & nx & e' & F & G & P & ST & T).
  rewrite E in G. injection G as <-. destruct S as (co' & dir' & nx' & F' & N & A & B).
  rewrite F in F'. injection F' as <- <- <-.
  assert (Q : nx = c_state c).
  { destruct (Z.eq_dec nx (c_state c)); auto. specialize (A n0). lia. }
  destruct (B Q) as (B1 & B2). specialize (ST ltac:(lia)).
  assert (SC : c_tape e (c_pos e) = c_tape c (c_pos c)).
  { rewrite P, T by lia. apply B1. lia. }
  assert (AH : forall i, ahead dir (c_pos e) i = ahead dir (c_pos c) (Z.of_nat j + i)).
  { intros i. rewrite P. unfold ahead. destruct dir; lia. }
  exists co, dir, nx. split; [rewrite ST, SC, Q; rewrite Q in F; exact F|]. split; [lia|]. split; [congruence|].
  intros _. rewrite SC. split.
  - intros i I. rewrite AH, T by lia. apply B1. lia.
  - rewrite AH, T by lia. replace (Z.of_nat j + Z.of_nat (n - j)) with (Z.of_nat n) by lia. auto.
Qed.

Lemma sweeps_agree M R k c d n : agree R k c d -> sweeps M c n ->
  (forall j e, (j <= n)%nat -> steps M j c = Some e -> R (c_pos e)) -> sweeps M d n.
Proof.
  intros (A1 & A2 & A3) S HR. pose proof S as (co & dir & nx & E & N & A & B).
  assert (RP : forall i, 0 <= i <= Z.of_nat n -> R (ahead dir (c_pos c) i)).
  { intros i I. destruct (sweeps_run M c n (Z.to_nat i) S ltac:(lia)) as (co' & dir' & nx' & e & F & G & P & _).
    rewrite E in F. injection F as <- <- <-. rewrite Z2Nat.id in P by lia. rewrite <- P. apply (HR (Z.to_nat i)); [lia|auto]. }
  assert (AH : forall i, 0 <= i <= Z.of_nat n -> c_tape d (ahead dir (c_pos d) i) = c_tape c (ahead dir (c_pos c) i)).
  { intros i I. rewrite A2. replace (ahead dir (c_pos c + k) i) with (ahead dir (c_pos c) i + k) by (unfold ahead; destruct dir; lia).
    apply A3. auto. }
  assert (SC : c_tape d (c_pos d) = c_tape c (c_pos c)).
  { specialize (AH 0 ltac:(lia)). unfold ahead in AH. rewrite !Z.add_0_r, !Z.sub_0_r in AH. destruct dir; auto. }
  exists co, dir, nx. rewrite A1, SC. split; auto. split; auto. split; auto.
  intros Q. destruct (B Q) as (B1 & B2). split.
  - intros i I. rewrite AH by lia. auto.
  - rewrite AH by lia. auto.
Qed.

(** ** Counting the blocks of a span *)

(** The number of changes among the first [n + 1] cells. *)
Fixpoint changes (f : Z -> Z) (o : Z) (n : nat) : nat :=
  match n with
  | O => 0%nat
  | S n => Nat.add (if f o =? f (o + 1) then 0%nat else 1%nat) (changes f (o + 1) n)
  end.

Lemma changes_app f n n' : forall o, changes f o (n + n') = (changes f o n + changes f (o + Z.of_nat n) n')%nat.
Proof.
  induction n as [|n IH]; intros o; cbn [changes Nat.add]; [f_equal; lia|].
  rewrite IH. replace (o + 1 + Z.of_nat n) with (o + Z.of_nat (S n)) by lia. lia.
Qed.

Lemma changes_some f n : forall o, f o <> f (o + Z.of_nat n) -> (1 <= changes f o n)%nat.
Proof.
  induction n as [|n IH]; intros o H; [rewrite Z.add_0_r in H; congruence|].
  cbn [changes]. destruct (Z.eqb_spec (f o) (f (o + 1))); [|lia].
  specialize (IH (o + 1)). replace (o + 1 + Z.of_nat n) with (o + Z.of_nat (S n)) in IH by lia.
  rewrite <- e in IH. specialize (IH H). lia.
Qed.

Lemma changes_ext f g n : forall o o', (forall i, 0 <= i <= Z.of_nat n -> f (o + i) = g (o' + i)) -> changes f o n = changes g o' n.
Proof.
  induction n as [|n IH]; intros o o' H; auto. cbn [changes].
  pose proof (H 0 ltac:(lia)) as A. pose proof (H 1 ltac:(lia)) as B. rewrite !Z.add_0_r in A. rewrite A, B.
  f_equal. apply IH. intros i I. rewrite <- !Z.add_assoc. apply H. lia.
Qed.

Lemma changes_const f n : forall o, (forall i, 0 <= i <= Z.of_nat n -> f (o + i) = f o) -> changes f o n = 0%nat.
Proof.
  induction n as [|n IH]; intros o H; auto. cbn [changes]. rewrite (H 1) by lia. rewrite Z.eqb_refl. cbn.
  apply IH. intros i I. rewrite <- Z.add_assoc. rewrite !H by lia. auto.
Qed.

(** The blocks of a canonical span are its changes. *)
Lemma canon_changes s : canon_span s -> exists N, forall n, (N <= n)%nat -> changes (cell s) 0 n = length s.
Proof.
  induction s as [|b s IH]; intros CS.
  - exists 0%nat. intros n _. apply changes_const. auto.
  - destruct (IH (canon_tail _ _ CS)) as (N & H).
    assert (B1 : 1 <= b_count b) by (cbn in CS; tauto).
    exists (Z.to_nat (b_count b) + N)%nat. intros n L.
    replace n with ((Z.to_nat (b_count b) - 1) + (1 + (n - Z.to_nat (b_count b))))%nat by lia.
    rewrite changes_app.
    rewrite changes_const; [|intros i I; rewrite Z.add_0_l, !cell_ge; bdestr; auto; lia].
    cbn [changes Nat.add length].
    rewrite !cell_ge. replace (0 + Z.of_nat (Z.to_nat (b_count b) - 1)) with (b_count b - 1) by lia.
    destruct (Z.ltb_spec (b_count b - 1) (b_count b)); [|lia].
    destruct (Z.ltb_spec (b_count b - 1 + 1) (b_count b)); [lia|].
    replace (b_count b - 1 + 1 - b_count b) with 0 by lia.
    assert (NE : b_color b <> cell s 0).
    { cbn in CS. destruct s as [|b' s]; [tauto|]. cbn in CS. cbn [cell]. destruct (Z.ltb_spec 0 (b_count b')); lia. }
    destruct (Z.eqb_spec (b_color b) (cell s 0)); [contradiction|].
    cbn. f_equal. rewrite <- (H (n - Z.to_nat (b_count b))%nat) by lia. apply changes_ext.
    intros i I. change (cell (b :: s) (b_count b - 1 + 1 + i) = cell s (0 + i)). rewrite cell_ge. bdestr; try lia. f_equal. lia.
Qed.

(** Cells put in between never make blocks fewer. *)
Lemma insert_blocks s s' w k : canon_span s -> canon_span s' -> 0 <= w -> 0 <= k ->
  (forall i, 0 <= i < w -> cell s' i = cell s i) ->
  (forall i, w <= i -> cell s' (i + k) = cell s i) ->
  (length s <= length s')%nat.
Proof.
  intros CS CS' W K A B. destruct (canon_changes s CS) as (N & H). destruct (canon_changes s' CS') as (N' & H').
  set (n := (N + N' + Z.to_nat w)%nat).
  rewrite <- (H (Z.to_nat w + n)%nat) by lia.
  rewrite <- (H' (Z.to_nat w + Z.to_nat k + n)%nat) by lia.
  rewrite !changes_app.
  assert (E : changes (cell s') (0 + Z.of_nat (Z.to_nat w + Z.to_nat k)) n = changes (cell s) (0 + Z.of_nat (Z.to_nat w)) n).
  { apply changes_ext. intros i I. rewrite <- B by lia. f_equal. lia. }
  rewrite E. apply Nat.add_le_mono_r. destruct (Z.eq_dec w 0) as [->|W0]; [change (Z.to_nat 0) with 0%nat; cbn [changes]; lia|].
  replace (Z.to_nat w) with ((Z.to_nat w - 1) + 1)%nat by lia. rewrite !changes_app.
  rewrite (changes_ext (cell s') (cell s) (Z.to_nat w - 1) 0 0) by (intros i I; rewrite Z.add_0_l; apply A; lia).
  rewrite <- Nat.add_assoc. apply Nat.add_le_mono_l.
  replace (0 + Z.of_nat (Z.to_nat w - 1 + 1)) with (0 + Z.of_nat (Z.to_nat w - 1) + Z.of_nat 1) by lia.
  rewrite <- changes_app.
  destruct (Z.eqb_spec (cell s (0 + Z.of_nat (Z.to_nat w - 1))) (cell s (0 + Z.of_nat (Z.to_nat w - 1) + 1))) as [Q|Q].
  { cbn [changes]. rewrite Q, Z.eqb_refl. lia. }
  transitivity 1%nat; [cbn [changes]; destruct (_ =? _); cbn; lia|].
  apply changes_some.
  rewrite (A (0 + Z.of_nat (Z.to_nat w - 1))) by lia.
  replace (0 + Z.of_nat (Z.to_nat w - 1) + Z.of_nat (1 + Z.to_nat k)) with (w + k) by lia.
  rewrite B by lia. replace w with (0 + Z.of_nat (Z.to_nat w - 1) + 1) at 2 by lia. auto.
Qed.

(** ** Equal slices *)
Lemma slice_eqb_refl a : slice_eqb a a = true.
Proof. induction a; cbn; auto. rewrite Z.eqb_refl. auto. Qed.

Lemma span_eqb_refl a : span_eqb a a = true.
Proof. induction a as [|b a IH]; cbn; auto. unfold block_eqb. rewrite !Z.eqb_refl. auto. Qed.

Lemma near_eq s s' d : wf_span s -> wf_span s' -> (forall i, 0 <= i < d -> cell s i = cell s' i) ->
  (if 0 <? d then let '(near, remaining) := slice_near s d in
        near ++ (if 0 <? remaining then repeat 0 (Z.to_nat remaining) else []) else []) =
  (if 0 <? d then let '(near, remaining) := slice_near s' d in
        near ++ (if 0 <? remaining then repeat 0 (Z.to_nat remaining) else []) else []).
Proof.
  intros W W' H. destruct (Z.ltb_spec 0 d) as [L|]; auto.
  destruct (slice_near s d) as [l r] eqn:E. destruct (slice_near s' d) as [l' r'] eqn:E'.
  destruct (slice_near_spec s d l r W ltac:(lia) E) as (A & B & D).
  destruct (slice_near_spec s' d l' r' W' ltac:(lia) E') as (A' & B' & D').
  assert (X : forall r, 0 <= r -> (if 0 <? r then repeat 0 (Z.to_nat r) else []) = repeat 0 (Z.to_nat r)).
  { intros x X. destruct (Z.ltb_spec 0 x); auto. replace x with 0 by lia. reflexivity. }
  rewrite !X by auto. apply (nth_ext _ _ 0 0).
  - rewrite !app_length, !repeat_length. lia.
  - intros i I. rewrite app_length, repeat_length in I. rewrite D, D' by lia. apply H. lia.
Qed.

Lemma slice_same (t t' : head_tape) (start start' : Z) (ltr : bool) : wf_tape (h_tape t) -> wf_tape (h_tape t') ->
  (if ltr then h_head t - start else start - h_head t) = (if ltr then h_head t' - start' else start' - h_head t') ->
  side (h_tape t) ltr = side (h_tape t') ltr ->
  (forall i, 0 <= i < (if ltr then h_head t - start else start - h_head t) ->
     cell (side (h_tape t) (negb ltr)) i = cell (side (h_tape t') (negb ltr)) i) ->
  ht_get_slice t start ltr = ht_get_slice t' start' ltr.
Proof.
  intros (W1 & W2) (W1' & W2') D S H. unfold ht_get_slice. destruct ltr; cbn [side negb] in *; rewrite <- D, S; f_equal;
    apply near_eq; auto.
Qed.

(** Cells that the head has not been at are as before. *)
Lemma untouched M p : forall j c d, steps M j c = Some d -> (forall i e, (i < j)%nat -> steps M i c = Some e -> c_pos e <> p) ->
  c_tape d p = c_tape c p.
Proof.
  induction j as [|j IH]; intros c d E H; [injection E as <-; auto|].
  cbn in E. destruct (step M c) as [c1|] eqn:ST; [|discriminate].
  rewrite (IH c1 d E).
  - pose proof (H 0%nat c ltac:(lia) eq_refl) as N. unfold step in ST.
    destruct (M _ _) as [[[co dir] nx]|]; [|discriminate]. injection ST as <-. cbn. unfold write. bdestr; auto; lia.
  - intros i e I Ee. apply (H (S i)); [lia|]. cbn. rewrite ST. auto.
Qed.

(** ** The passes of the loop, without the reference *)
Definition cy_step (comp : comp_prog) (x : Z * head_tape * nat) : option (Z * head_tape * nat) :=
  let '(state, tp, t) := x in
  match comp_get comp (state, t_scan (h_tape tp)) with
  | None => None
  | Some (color, shift, next) =>
      let same := state =? next in
      if same && t_at_edge (h_tape tp) shift then None
      else let '(tp', st) := rs_step (h_tape tp) shift color same in
           Some (next, HT (if shift then h_head tp + st else h_head tp - st) tp', (t + Z.to_nat st)%nat)
  end.

Fixpoint cy (comp : comp_prog) (i : nat) : option (Z * head_tape * nat) :=
  match i with
  | O => Some (1, ht_init_stepped, 1%nat)
  | S i => match cy comp i with Some x => cy_step comp x | None => None end
  end.

Record at_time (M : program) (s : Z) (tp : head_tape) (t : nat) (c : config) : Prop := {
  at_run : steps M t init = Some c;
  at_rep : represents (h_tape tp) c;
  at_can : canon (h_tape tp);
  at_pos : c_pos c = h_head tp;
  at_st : c_state c = s
}.

Section run.
Variable comp : comp_prog.
Hypothesis start : comp_get comp (0, 0) = Some (1, true, 1).
Let M := machine_of comp.

Lemma cy_at i : forall s tp t, cy comp i = Some (s, tp, t) -> exists c, at_time M s tp t c.
Proof.
  induction i as [|i IH]; intros s tp t E.
  - injection E as <- <- <-. exists (Cfg 1 1 (write blank_tape 0 1)). constructor; auto.
    + cbn. unfold step. cbn. unfold M, blank_tape, machine_of. rewrite start. reflexivity.
    + intro i. cbn. unfold write, blank_tape, tape_cell. cbn [cell b_count b_color t_scan t_lspan t_rspan].
      bdestr; auto; lia.
    + cbn. repeat split; cbn; lia.
  - cbn in E. destruct (cy comp i) as [[[s0 tp0] t0]|] eqn:E0; [|discriminate].
    destruct (IH _ _ _ eq_refl) as (c & [A1 A2 A3 A4 A5]). unfold cy_step in E.
    destruct (comp_get comp (s0, t_scan (h_tape tp0))) as [[[color shift] next]|] eqn:EG; [|discriminate].
    cbn zeta in E. destruct ((s0 =? next) && t_at_edge (h_tape tp0) shift); [discriminate|].
    destruct (rs_step (h_tape tp0) shift color (s0 =? next)) as [tp' st] eqn:ES. injection E as <- <- <-.
    destruct (rs_step_refines M (h_tape tp0) c shift color next (s0 =? next) tp' st)
      as (N & W & _ & d & B1 & B2 & B3 & B4); auto using canon_wf.
    { rewrite A5. exact EG. }
    { intros X. zb. congruence. }
    exists d. constructor; cbn [h_tape h_head]; auto.
    + rewrite (steps_add_some _ _ _ _ _ A1). auto.
    + eapply rs_step_canon; eauto.
    + rewrite B4, A4. auto.
Qed.

Lemma cy_sweeps i s tp t s' tp' t' c : cy comp i = Some (s, tp, t) -> cy comp (S i) = Some (s', tp', t') ->
  at_time M s tp t c -> (t < t')%nat /\ sweeps M c (t' - t).
Proof.
  intros E E' [A1 A2 A3 A4 A5]. cbn in E'. rewrite E in E'. unfold cy_step in E'.
  destruct (comp_get comp (s, t_scan (h_tape tp))) as [[[color shift] next]|] eqn:EG; [|discriminate].
  cbn zeta in E'. destruct ((s =? next) && t_at_edge (h_tape tp) shift) eqn:EE; [discriminate|].
  destruct (rs_step (h_tape tp) shift color (s =? next)) as [tp1 st] eqn:ES. injection E' as <- <- <-.
  destruct (rs_step_refines M (h_tape tp) c shift color next (s =? next) tp1 st)
    as (N & W & N1 & _); auto using canon_wf.
  { rewrite A5. exact EG. }
  { intros X. zb. congruence. }
  assert (SC : c_tape c (c_pos c) = t_scan (h_tape tp)) by (apply represents_iff; auto).
  split; [lia|]. replace (t + Z.to_nat st - t)%nat with (Z.to_nat st) by lia.
  exists color, shift, next. rewrite SC, A5. split; [exact EG|]. split; [lia|].
  split; [intros Q; rewrite N1; [reflexivity|apply Z.eqb_neq; auto]|].
  intros Q. subst next. rewrite Z.eqb_refl in *. cbn [andb] in EE.
  destruct (rs_step_maximal _ _ _ _ _ _ A3 A2 ES) as (X & Y). specialize (Y EE).
  rewrite Z2Nat.id by lia. split; [exact X|exact Y].
Qed.

Lemma cy_prefix i j : (i <= j)%nat -> cy comp j <> None -> cy comp i <> None.
Proof.
  induction 1 as [|j L IH]; auto. intros X. apply IH. intros Y. apply X. cbn. rewrite Y. auto.
Qed.

Definition T (i : nat) : nat := match cy comp i with Some (_, _, t) => t | None => 0%nat end.

Lemma T_S i : cy comp (S i) <> None -> (T i < T (S i))%nat.
Proof.
  intros D. pose proof (cy_prefix i (S i) ltac:(lia) D) as D0. unfold T.
  destruct (cy comp (S i)) as [[[s' tp'] t']|] eqn:E'; [|contradiction].
  destruct (cy comp i) as [[[s tp] t]|] eqn:E; [|contradiction].
  destruct (cy_at i s tp t E) as (c & A). apply (cy_sweeps i s tp t s' tp' t' c E E' A).
Qed.

Lemma T_ge i : cy comp i <> None -> (i < T i)%nat.
Proof.
  induction i as [|i IH]; intros D; [cbn; lia|].
  pose proof (T_S i D). specialize (IH (cy_prefix i (S i) ltac:(lia) D)). lia.
Qed.

Lemma T_mono i j : (i <= j)%nat -> cy comp j <> None -> (T i <= T j)%nat.
Proof.
  induction 1 as [|j L IH]; auto. intros D. pose proof (T_S j D). specialize (IH (cy_prefix j (S j) ltac:(lia) D)). lia.
Qed.

Definition C (t : nat) : config := match steps M t init with Some c => c | None => init end.

Lemma C_at i s tp t : cy comp i = Some (s, tp, t) -> at_time M s tp t (C t).
Proof.
  intros E. destruct (cy_at i s tp t E) as (c & A). unfold C. rewrite (at_run _ _ _ _ _ A). auto.
Qed.

Definition geo (t0 t : nat) (lm rm : Z) : Prop :=
  (forall u, (t0 <= u <= t)%nat -> lm <= c_pos (C u) <= rm)
  /\ (exists u, (t0 <= u <= t)%nat /\ c_pos (C u) = lm)
  /\ (exists u, (t0 <= u <= t)%nat /\ c_pos (C u) = rm).

(** ** A recurring run *)
Section rec.
Variables (n m : nat) (k : Z) (R : Z -> Prop).
Hypothesis m_pos : (0 < m)%nat.
Hypothesis live : forall t, exists c, steps M t init = Some c.
Hypothesis ag : forall t, (n <= t)%nat -> agree R k (C t) (C (t + m)).
Hypothesis inR : forall t, (n <= t)%nat -> R (c_pos (C t)).

Lemma C_steps t j : steps M j (C t) = Some (C (t + j)).
Proof.
  unfold C. destruct (live t) as (c & E). rewrite E. destruct (live (t + j)) as (d & D). rewrite D.
  rewrite (steps_add_some _ _ _ _ _ E) in D. auto.
Qed.

Lemma sweep_C i : cy comp (S i) <> None -> sweeps M (C (T i)) (T (S i) - T i).
Proof.
  intros D. pose proof (cy_prefix i (S i) ltac:(lia) D) as D0. unfold T.
  destruct (cy comp (S i)) as [[[s' tp'] t']|] eqn:E'; [|contradiction].
  destruct (cy comp i) as [[[s tp] t]|] eqn:E; [|contradiction].
  apply (cy_sweeps i s tp t s' tp' t' _ E E'). eapply C_at; eauto.
Qed.

(** The sweep that is in progress at time T i + m ends at the right moment. *)
Lemma sweep_later t l : (n <= t)%nat -> sweeps M (C t) l -> sweeps M (C (t + m)) l.
Proof.
  intros L S. apply (sweeps_agree M R k (C t)); auto.
  intros j e J E. rewrite C_steps in E. injection E as <-. apply inR. lia.
Qed.

Lemma meet i u : (n <= T i)%nat -> cy comp (S u) <> None -> (i <= u)%nat ->
  (T u <= T i + m < T (S u))%nat -> T (S u) = (T (S i) + m)%nat.
Proof.
  intros L D I U. assert (Di : cy comp (S i) <> None) by (apply (cy_prefix (S i) (S u)); [lia|auto]).
  pose proof (sweep_later (T i) _ L (sweep_C i Di)) as S1.
  pose proof (sweep_C u D) as S2.
  assert (S3 : sweeps M (C (T i + m)) (T (S u) - (T i + m))).
  { destruct (Nat.eq_dec (T u) (T i + m)) as [Q|Q]; [rewrite <- Q; auto|].
    replace (T (S u) - (T i + m))%nat with (T (S u) - T u - (T i + m - T u))%nat by lia.
    apply (sweeps_mid M (C (T u)) _ (T i + m - T u) (C (T i + m))); auto; [lia|].
    rewrite C_steps. f_equal. f_equal. lia. }
  pose proof (sweeps_unique _ _ _ _ S1 S3) as Q. pose proof (T_S i Di). lia.
Qed.

Lemma find_u x : forall B i, cy comp B <> None -> (T i <= x < T B)%nat -> (i <= B)%nat ->
  exists u, (i <= u < B)%nat /\ (T u <= x < T (S u))%nat.
Proof.
  induction B as [|B IH]; intros i D X I.
  - assert (i = 0)%nat by lia. subst. lia.
  - destruct (Nat.eq_dec i (S B)) as [->|NE]; [lia|].
    destruct (le_lt_dec (T B) x) as [LE|LT]; [exists B; split; [lia|lia]|].
    destruct (IH i) as (u & U1 & U2); [apply (cy_prefix B (S B)); auto|lia|lia|]. exists u. split; [lia|auto].
Qed.

(** Either some pass is a spinout or the times of the passes are periodic. *)
Lemma periodic : (exists i, cy comp i = None) \/
  exists i P, (0 < P)%nat /\ forall r, (i <= r)%nat -> cy comp (r + P) <> None -> (n <= T r)%nat /\ T (r + P) = (T r + m)%nat.
Proof.
  destruct (cy comp (S n)) as [x|] eqn:Dn; [|eauto].
  assert (Dn0 : cy comp n <> None) by (apply (cy_prefix n (S n)); [lia|congruence]).
  destruct (cy comp (S (T n + m))) as [y|] eqn:Dm; [|eauto]. right.
  assert (DB : cy comp (T n + m) <> None) by (apply (cy_prefix _ (S (T n + m))); [lia|congruence]).
  pose proof (T_ge n Dn0) as G. pose proof (T_ge _ DB) as GB.
  destruct (find_u (T n + m) (T n + m) n DB) as (u & U1 & U2); [lia|lia|].
  assert (Du : cy comp (S u) <> None) by (apply (cy_prefix _ (T n + m)); [lia|auto]).
  pose proof (meet n u ltac:(lia) Du ltac:(lia) U2) as Q.
  assert (NU : (n < u)%nat).
  { destruct (Nat.eq_dec u n) as [->|]; [|lia]. lia. }
  exists (S n), (u - n)%nat. split; [lia|].
  assert (LT : forall r, (S n <= r)%nat -> cy comp r <> None -> (n <= T r)%nat).
  { intros r L D. pose proof (T_mono n r ltac:(lia) D). lia. }
  induction 1 as [|r L IH]; intros D.
  - split; [apply LT; auto; apply (cy_prefix _ (S n + (u - n))); [lia|auto]|].
    replace (S n + (u - n))%nat with (S u) by lia. auto.
  - assert (D' : cy comp (r + (u - n)) <> None) by (apply (cy_prefix _ (S r + (u - n))); [lia|auto]).
    destruct (IH D') as (A & B).
    assert (DS : cy comp (S (r + (u - n))) <> None) by (replace (S (r + (u - n))) with (S r + (u - n))%nat by lia; auto).
    split; [apply LT; [lia|apply (cy_prefix _ (S r + (u - n))); [lia|auto]]|].
    replace (S r + (u - n))%nat with (S (r + (u - n))) by lia.
    apply meet; auto; [lia|]. pose proof (T_S _ DS). lia.
Qed.
(** ** Alignment *)
Hypothesis region : (k = 0 /\ forall p, R p) \/ (0 < k /\ forall p q, R p -> p <= q -> R q)
  \/ (k < 0 /\ forall p q, R p -> q <= p -> R q).

Lemma aligned i1 i2 rs rt s tp t0 lm rm :
  cy comp i1 = Some (rs, rt, t0) -> cy comp i2 = Some (s, tp, (t0 + m)%nat) -> (n <= t0)%nat ->
  geo t0 (t0 + m) lm rm -> s = rs /\ ht_aligns_with tp rt lm rm = true.
Proof.
  intros E1 E2 L (G1 & (ul & U1 & U2) & (ur & V1 & V2)).
  pose proof (C_at _ _ _ _ E1) as [A1 A2 A3 A4 A5]. pose proof (C_at _ _ _ _ E2) as [B1 B2 B3 B4 B5].
  destruct (ag t0 L) as (S & P & X).
  assert (RL : R lm) by (rewrite <- U2; apply inR; lia).
  assert (RR : R rm) by (rewrite <- V2; apply inR; lia).
  assert (UN : forall p, p < lm \/ rm < p -> c_tape (C (t0 + m)) p = c_tape (C t0) p).
  { intros p HP. apply (untouched M p m); [apply C_steps|]. intros i e I Ee. rewrite C_steps in Ee. injection Ee as <-.
    specialize (G1 (t0 + i)%nat ltac:(lia)). lia. }
  pose proof (G1 t0 ltac:(lia)) as GP.
  split; [congruence|]. unfold ht_aligns_with.
  apply represents_iff in A2 as (A2 & A2'). apply represents_iff in B2 as (B2 & B2').
  assert (SC : t_scan (h_tape tp) = t_scan (h_tape rt)).
  { rewrite <- A2, <- B2, P. apply X, inR. lia. }
  rewrite SC, Z.eqb_refl. cbn [negb]. cbn zeta.
  assert (DK : h_head tp - h_head rt = k) by lia. rewrite DK.
  (* the cells of the two tapes *)
  assert (SIDE : forall (dir : bool) i, 0 <= i -> R (if dir then c_pos (C t0) + 1 + i else c_pos (C t0) - 1 - i) ->
    cell (side (h_tape tp) dir) i = cell (side (h_tape rt) dir) i).
  { intros dir i I HR. rewrite <- A2', <- B2' by auto. unfold half. rewrite P. rewrite <- X by auto. f_equal. destruct dir; lia. }
  assert (EQ : forall dir : bool, (forall i, 0 <= i -> R (if dir then c_pos (C t0) + 1 + i else c_pos (C t0) - 1 - i)) ->
    side (h_tape tp) dir = side (h_tape rt) dir).
  { intros dir H. apply canon_unique; try (apply canon_side; auto). intros i I. apply SIDE; auto. }
  destruct region as [(K & RG)|[(K & RG)|(K & RG)]].
  - rewrite K. change (0 <? 0) with false. cbv iota.
    pose proof (EQ true ltac:(auto)) as Q1. pose proof (EQ false ltac:(auto)) as Q2. unfold side in Q1, Q2.
    rewrite Q1, Q2, !Nat.eqb_refl, !span_eqb_refl. reflexivity.
  - destruct (Z.ltb_spec 0 k); [|lia].
    assert (Q1 : side (h_tape tp) true = side (h_tape rt) true).
    { apply EQ. intros i I. apply (RG lm); [auto|lia]. }
    pose proof Q1 as Q2. unfold side in Q2. rewrite Q2, Nat.eqb_refl, span_eqb_refl. cbn [andb].
    assert (LN : (length (t_lspan (h_tape rt)) <= length (t_lspan (h_tape tp)))%nat).
    { apply (insert_blocks _ _ (c_pos (C t0) - lm) k); try (apply (canon_side _ false); auto); try lia.
      - intros i I. apply (SIDE false i); [lia|]. apply (RG lm); [auto|]. lia.
      - intros i I. change (cell (side (h_tape tp) false) (i + k) = cell (side (h_tape rt) false) i).
        rewrite <- (A2' false i), <- (B2' false (i + k)) by lia. unfold half. rewrite P.
        rewrite <- UN by lia. f_equal. lia. }
    apply Nat.leb_le in LN. rewrite LN. cbn [andb].
    rewrite (slice_same rt tp lm (lm + k) true); auto using canon_wf, slice_eqb_refl; [lia|].
    intros i I. cbn [negb]. symmetry. apply SIDE; [lia|]. apply (RG lm); [auto|lia].
  - destruct (Z.ltb_spec 0 k); [lia|]. destruct (Z.ltb_spec k 0); [|lia].
    assert (Q1 : side (h_tape tp) false = side (h_tape rt) false).
    { apply EQ. intros i I. apply (RG rm); [auto|lia]. }
    pose proof Q1 as Q2. unfold side in Q2. rewrite Q2, Nat.eqb_refl, span_eqb_refl. cbn [andb].
    assert (LN : (length (t_rspan (h_tape rt)) <= length (t_rspan (h_tape tp)))%nat).
    { apply (insert_blocks _ _ (rm - c_pos (C t0)) (- k)); try (apply (canon_side _ true); auto); try lia.
      - intros i I. apply (SIDE true i); [lia|]. apply (RG rm); [auto|]. lia.
      - intros i I. change (cell (side (h_tape tp) true) (i + - k) = cell (side (h_tape rt) true) i).
        rewrite <- (A2' true i), <- (B2' true (i + - k)) by lia. unfold half. rewrite P.
        rewrite <- UN by lia. f_equal. lia. }
    apply Nat.leb_le in LN. rewrite LN. cbn [andb].
    rewrite (slice_same rt tp rm (rm + k) false); auto using canon_wf, slice_eqb_refl; [lia|].
    intros i I. cbn [negb]. symmetry. apply SIDE; [lia|]. apply (RG rm); [auto|lia].
Qed.
End rec.

(** ** The loop *)
Lemma C_between t u v : cy comp v <> None -> (t <= u <= T v)%nat -> steps M (u - t) (C t) = Some (C u).
Proof.
  intros D L. unfold T in L. destruct (cy comp v) as [[[s tp] t']|] eqn:E; [|contradiction].
  destruct (cy_at v s tp t' E) as (c & [A _ _ _ _]).
  destruct (steps_le M t' t init c ltac:(lia) A) as (ct & Ct).
  destruct (steps_le M t' u init c ltac:(lia) A) as (cu & Cu).
  unfold C. rewrite Ct, Cu. replace u with (t + (u - t))%nat in Cu by lia.
  rewrite (steps_add_some _ _ _ _ _ Ct) in Cu. auto.
Qed.

Record linv (r x : nat) (state : Z) (tp : head_tape) (rs : Z) (rt : head_tape) (lm rm reset : Z) : Prop := {
  li_r : (1 <= r <= x)%nat;
  li_x : (x <= 2 * r)%nat;
  li_tp : exists t t0, cy comp (x - 1) = Some (state, tp, t) /\ cy comp (r - 1) = Some (rs, rt, t0) /\ (t0 <= t)%nat /\ geo t0 t lm rm;
  li_reset : reset = 2 * Z.of_nat r - Z.of_nat x
}.

Lemma loop_iter drop fuel r x state tp rs rt lm rm reset :
  (drop = true \/ never_halts M) -> linv r x state tp rs rt lm rm reset ->
  tr_loop comp drop (S fuel) (Z.of_nat x) state tp rs rt lm rm reset = false ->
  exists r' state' tp' rs' rt' lm' rm' reset',
    ((r' = r \/ r' = 2 * r) /\ r' <= x)%nat
    /\ linv r' (S x) state' tp' rs' rt' lm' rm' reset'
    /\ (state' =? rs') && ht_aligns_with tp' rt' lm' rm' = false
    /\ tr_loop comp drop fuel (Z.of_nat (S x)) state' tp' rs' rt' lm' rm' reset' = false.
Proof.
  intros DR [L1 L2 (t & t0 & E & E0 & LT & G) LR] H.
  assert (CY : cy comp x = cy_step comp (state, tp, t)).
  { replace x with (S (x - 1)) by lia. cbn [cy]. rewrite E. auto. }
  pose proof (C_at _ _ _ _ E) as [A1 A2 A3 A4 A5]. unfold cy_step in CY. cbn [tr_loop] in H.
  assert (HS : c_tape (C t) (c_pos (C t)) = t_scan (h_tape tp)) by (apply represents_iff; auto).
  destruct (comp_get comp (state, t_scan (h_tape tp))) as [[[color shift] next]|] eqn:EG.
  2:{ destruct DR as [-> |NH]; [discriminate|]. exfalso. destruct (NH (S t)) as (c & Y).
      rewrite steps_S_r, A1 in Y. unfold step, M, machine_of in Y. rewrite A5, HS, EG in Y. discriminate. }
  cbn zeta in CY, H. destruct ((state =? next) && t_at_edge (h_tape tp) shift) eqn:EE; [discriminate|].
  unfold ht_step in H.
  destruct (rs_step (h_tape tp) shift color (state =? next)) as [tp' st] eqn:ES.
  set (curr := if shift then h_head tp + st else h_head tp - st) in *.
  destruct (rs_step_refines M (h_tape tp) (C t) shift color next (state =? next) tp' st)
    as (N & W & _ & d & B1 & B2 & B3 & B4); auto using canon_wf.
  { rewrite A5. exact EG. }
  { intros X. zb. congruence. }
  pose proof (C_at _ _ _ _ CY) as AT. pose proof AT as [D1 D2 D3 D4 D5].
  assert (DT : T x = (t + Z.to_nat st)%nat) by (unfold T; rewrite CY; auto).
  assert (DN : cy comp x <> None) by congruence.
  assert (PC : c_pos (C (t + Z.to_nat st)) = (if shift then c_pos (C t) + st else c_pos (C t) - st)).
  { rewrite D4. cbn [h_head]. unfold curr. rewrite A4. auto. }
  cbn [h_head] in D4.
  (* the reference in force *)
  assert (RE : exists r' rs' rt' lm' rm' reset' t0',
    (if reset =? 0 then (state, tp, h_head tp, h_head tp, Z.of_nat x) else (rs, rt, lm, rm, reset)) = (rs', rt', lm', rm', reset')
    /\ (r' = r \/ r' = 2 * r)%nat /\ (1 <= r' <= x)%nat /\ (S x <= 2 * r')%nat
    /\ cy comp (r' - 1) = Some (rs', rt', t0') /\ (t0' <= t)%nat /\ geo t0' t lm' rm' /\ reset' = 2 * Z.of_nat r' - Z.of_nat x).
  { destruct (Z.eqb_spec reset 0) as [Z0|Z0].
    - exists x. do 5 eexists. exists t. split; [reflexivity|]. split; [lia|]. split; [lia|]. split; [lia|]. split; [exact E|].
      split; [lia|]. split; [|lia]. rewrite <- A4. split; [intros u U; replace u with t by lia; lia|]. split; exists t; split; auto.
    - exists r. do 5 eexists. exists t0. split; [reflexivity|]. split; [auto|]. split; [lia|]. split; [lia|]. split; [exact E0|]. auto. }
  destruct RE as (r' & rs' & rt' & lm' & rm' & reset' & t0' & EQ & R1 & R2 & R3 & R4 & R5 & R6 & R7).
  rewrite EQ in H. clear EQ. cbn [h_head] in H. fold curr in H.
  set (p2 := if curr <? lm' then (curr, rm') else if rm' <? curr then (lm', curr) else (lm', rm')) in *.
  destruct p2 as [lm2 rm2] eqn:EP. unfold p2 in EP. clear p2.
  assert (G2 : geo t0' (t + Z.to_nat st) lm2 rm2).
  { destruct R6 as (G1 & (ul & UL & UL2) & (ur & UR & UR2)). pose proof (G1 t ltac:(lia)) as GT.
    assert (PT : c_pos (C (t + Z.to_nat st)) = curr) by congruence.
    assert (LE : lm2 <= lm' /\ rm' <= rm2 /\ lm2 <= curr <= rm2
      /\ (lm2 = lm' \/ lm2 = curr) /\ (rm2 = rm' \/ rm2 = curr)).
    { destruct (Z.ltb_spec curr lm'); [injection EP as <- <-; lia|].
      destruct (Z.ltb_spec rm' curr); injection EP as <- <-; lia. }
    destruct LE as (LE1 & LE2 & LE3 & LE4 & LE5). split; [|split].
    - intros u U. destruct (le_lt_dec u t) as [X|X]; [specialize (G1 u ltac:(lia)); lia|].
      pose proof (C_between t u x DN ltac:(lia)) as S1.
      pose proof (C_between u (t + Z.to_nat st) x DN ltac:(lia)) as S2.
      apply pos_lipschitz in S1. apply pos_lipschitz in S2. destruct shift; lia.
    - destruct LE4 as [-> | ->]; [exists ul; split; [lia|auto]|exists (t + Z.to_nat st)%nat; split; [lia|auto]].
    - destruct LE5 as [-> | ->]; [exists ur; split; [lia|auto]|exists (t + Z.to_nat st)%nat; split; [lia|auto]]. }
  exists r', next, (HT curr tp'), rs', rt', lm2, rm2, (reset' - 1).
  split; [split; [auto|lia]|]. split.
  { constructor; try lia. exists (t + Z.to_nat st)%nat, t0'. replace (S x - 1)%nat with x by lia.
    split; auto. split; auto. split; [lia|auto]. }
  destruct ((next =? rs') && ht_aligns_with (HT curr tp') rt' lm2 rm2) eqn:EA; [discriminate|].
  split; [auto|]. rewrite Nat2Z.inj_succ. exact H.
Qed.

Lemma loop_reach drop : (drop = true \/ never_halts M) -> forall d fuel r x state tp rs rt lm rm reset,
  (exists a, r = 2 ^ a)%nat -> linv r x state tp rs rt lm rm reset -> (d <= fuel)%nat ->
  tr_loop comp drop fuel (Z.of_nat x) state tp rs rt lm rm reset = false ->
  exists r' state' tp' rs' rt' lm' rm' reset', (exists a, r' = 2 ^ a)%nat
    /\ linv r' (x + d) state' tp' rs' rt' lm' rm' reset'
    /\ tr_loop comp drop (fuel - d) (Z.of_nat (x + d)) state' tp' rs' rt' lm' rm' reset' = false.
Proof.
  intros DR. induction d as [|d IH]; intros fuel r x state tp rs rt lm rm reset A I L H.
  - exists r, state, tp, rs, rt, lm, rm, reset. rewrite Nat.add_0_r, Nat.sub_0_r. auto.
  - destruct fuel as [|fuel]; [lia|].
    destruct (loop_iter drop fuel r x _ _ _ _ _ _ _ DR I H) as (r' & st' & tp' & rs' & rt' & lm' & rm' & re' & (B & _) & I' & _ & H').
    destruct (IH fuel r' (S x) st' tp' rs' rt' lm' rm' re') as (r2 & s2 & tp2 & rs2 & rt2 & lm2 & rm2 & re2 & A2 & I2 & H2); auto; [|lia|].
    { destruct A as (a & ->). destruct B as [-> | ->]; [eauto|]. exists (S a). reflexivity. }
    exists r2, s2, tp2, rs2, rt2, lm2, rm2, re2. replace (x + S d)%nat with (S x + d)%nat by lia. auto.
Qed.

Lemma loop_start : linv 1 1 1 ht_init_stepped 1 ht_init_stepped 1 1 1.
Proof.
  constructor; try lia. exists 1%nat, 1%nat. split; [reflexivity|]. split; [reflexivity|]. split; [lia|].
  pose proof (C_at 0 _ _ _ eq_refl) as [_ _ _ A _]. cbn in A.
  split; [intros u U; replace u with 1%nat by lia; lia|]. split; exists 1%nat; split; auto.
Qed.

Lemma answered_false drop lim x : (drop = true \/ never_halts M) -> quick_term_or_rec comp lim drop = false ->
  (x < lim)%nat -> cy comp x <> None.
Proof.
  intros DR H L. unfold quick_term_or_rec in H. change 1 with (Z.of_nat 1) in H at 1.
  destruct (loop_reach drop DR x (lim - 1) 1 1 1 _ _ _ _ _ _ (ex_intro _ 0%nat eq_refl) loop_start ltac:(lia) H)
    as (r' & st' & tp' & rs' & rt' & lm' & rm' & re' & _ & [_ _ (t & t0 & E & _) _] & _).
  replace (1 + x - 1)%nat with x in E by lia. congruence.
Qed.

Lemma no_match drop lim k P : (drop = true \/ never_halts M) -> quick_term_or_rec comp lim drop = false ->
  (1 <= k)%nat -> (1 <= P <= 2 ^ k)%nat -> (2 ^ k + P <= lim)%nat -> exists rs rt s tp t0 t lm rm,
    cy comp (2 ^ k - 1) = Some (rs, rt, t0) /\ cy comp (2 ^ k - 1 + P) = Some (s, tp, t) /\ geo t0 t lm rm
    /\ (s =? rs) && ht_aligns_with tp rt lm rm = false.
Proof.
  intros DR H K1 K2 L. unfold quick_term_or_rec in H. change 1 with (Z.of_nat 1) in H at 1.
  destruct (loop_reach drop DR (2 ^ k + P - 2) (lim - 1) 1 1 1 _ _ _ _ _ _ (ex_intro _ 0%nat eq_refl) loop_start ltac:(lia) H)
    as (r & s1 & tp1 & rs1 & rt1 & lm1 & rm1 & re1 & (a & A) & I & H').
  assert (K3 : (2 <= 2 ^ k)%nat) by (destruct k; [lia|]; cbn; pose proof (Nat.pow_nonzero 2 k ltac:(lia)); lia).
  replace (lim - 1 - (2 ^ k + P - 2))%nat with (S (lim - 2 ^ k - P)) in H' by lia.
  destruct (loop_iter drop _ r _ _ _ _ _ _ _ _ DR I H') as (r' & s2 & tp2 & rs2 & rt2 & lm2 & rm2 & re2 & (B & B') & [I1 I2 (t & t0 & E & E0 & _ & G) _] & NM & _).
  assert (A' : exists b, r' = (2 ^ b)%nat).
  { destruct B as [-> | ->]; [eauto|]. exists (S a). subst r. reflexivity. }
  destruct A' as (b & ->).
  assert (b = k).
  { assert (X : (2 ^ b < 2 ^ S k)%nat) by (cbn; lia). assert (Y : (2 ^ k < 2 ^ S b)%nat) by (cbn; lia).
    apply Nat.pow_lt_mono_r_iff in X; [|lia]. apply Nat.pow_lt_mono_r_iff in Y; [|lia]. lia. }
  subst b. replace (S (1 + (2 ^ k + P - 2)) - 1)%nat with (2 ^ k - 1 + P)%nat in E by lia.
  exists rs2, rt2, s2, tp2, t0, t, lm2, rm2. auto.
Qed.

Lemma recurs_found : recurs M -> exists L, forall lim drop, (L <= lim)%nat -> quick_term_or_rec comp lim drop = true.
Proof.
  intros RC. pose proof (recurs_never_halts M RC) as NH.
  destruct (recurs_region M RC) as (n & m & c & d & k & R & Hm & E & F & A & SY & CL & RG).
  assert (CN : C n = c) by (unfold C; rewrite E; auto).
  assert (ST : forall j, steps M j c = Some (C (n + j))).
  { intros j. destruct (NH (n + j)%nat) as (e & X). unfold C. rewrite X. rewrite (steps_add_some _ _ _ _ _ E) in X. auto. }
  assert (CST : forall t, step M (C t) = Some (C (1 + t))).
  { intros t. destruct (NH (1 + t)%nat) as (e & X). unfold C at 2. rewrite X. rewrite steps_S_r in X. unfold C.
    destruct (steps M t init); [auto|discriminate]. }
  assert (BOTH : forall j, agree R k (C (n + j)) (C (n + j + m)) /\ R (c_pos (C (n + j)))).
  { induction j as [j IH] using (well_founded_induction lt_wf).
    assert (AG : agree R k (C (n + j)) (C (n + j + m))).
    { destruct j as [|j].
      - rewrite Nat.add_0_r, CN. rewrite ST in F. injection F as <-. exact A.
      - destruct (IH j ltac:(lia)) as (X & Y).
        destruct (agree_step M R k _ _ _ X Y (CST (n + j)%nat)) as (d' & D' & AD). rewrite CST in D'. injection D' as <-.
        replace (n + S j)%nat with (1 + (n + j))%nat by lia. exact AD. }
    split; auto. destruct (le_lt_dec m j) as [L|L].
    - destruct (IH (j - m)%nat ltac:(lia)) as ((_ & X & _) & Y).
      replace (n + (j - m) + m)%nat with (n + j)%nat in X by lia. rewrite X. auto.
    - destruct (SY j L) as (e & Ee & Re). rewrite ST in Ee. injection Ee as <-. auto. }
  assert (AG : forall t, (n <= t)%nat -> agree R k (C t) (C (t + m))).
  { intros t L. replace t with (n + (t - n))%nat by lia. apply BOTH. }
  assert (IR : forall t, (n <= t)%nat -> R (c_pos (C t))).
  { intros t L. replace t with (n + (t - n))%nat by lia. apply BOTH. }
  assert (CASE : forall i, cy comp i = None -> exists L, forall lim drop, (L <= lim)%nat -> quick_term_or_rec comp lim drop = true).
  { intros i N. exists (S i). intros lim drop L. destruct (quick_term_or_rec comp lim drop) eqn:Q; auto.
    elim (answered_false drop lim i (or_intror NH) Q); [lia|auto]. }
  destruct (periodic n m k R Hm NH AG IR) as [(i & N)|(i & P & P1 & PER)]; [eauto|].
  set (q := S (i + P)).
  assert (Q : (i + P < 2 ^ q)%nat) by (unfold q; pose proof (Nat.pow_gt_lin_r 2 (S (i + P)) ltac:(lia)); lia).
  exists (2 ^ q + P)%nat. intros lim drop L. destruct (quick_term_or_rec comp lim drop) eqn:QT; auto. exfalso.
  destruct (no_match drop lim q P (or_intror NH) QT) as (rs & rt & s & tp & t0 & t & lm & rm & E1 & E2 & G & NM); [unfold q; lia|lia|lia|].
  destruct (PER (2 ^ q - 1)%nat ltac:(lia)) as (X & Y); [congruence|].
  unfold T in X, Y. rewrite E1, E2 in Y. rewrite E1 in X. subst t.
  destruct (aligned n m k R Hm NH AG IR RG _ _ _ _ _ _ _ _ _ E1 E2 X G) as (-> & AL).
  rewrite Z.eqb_refl, AL in NM. discriminate.
Qed.

Lemma halt_found : halts M -> exists L, forall lim, (L <= lim)%nat -> quick_term_or_rec comp lim true = true.
Proof.
  intros (n & slot & c & E & S1 & S2 & N). exists (S n). intros lim L.
  destruct (quick_term_or_rec comp lim true) eqn:Q; auto. exfalso.
  pose proof (answered_false true lim n (or_introl eq_refl) Q ltac:(lia)) as X.
  destruct (cy comp n) as [[[s tp] t]|] eqn:CY; [|contradiction].
  destruct (cy_at n s tp t CY) as (d & [A _ _ _ _]).
  pose proof (T_ge n ltac:(congruence)) as G. unfold T in G. rewrite CY in G.
  destruct (steps_le M t (S n) init d ltac:(lia) A) as (e & Ee).
  rewrite steps_S_r, E in Ee. unfold step in Ee. rewrite S1, S2, N in Ee. discriminate.
Qed.

End run.

Lemma tr_loop_mono comp drop : forall fuel fuel' cycle state tp rs rt lm rm reset, (fuel <= fuel')%nat ->
  tr_loop comp drop fuel cycle state tp rs rt lm rm reset = true ->
  tr_loop comp drop fuel' cycle state tp rs rt lm rm reset = true.
Proof.
  induction fuel as [|fuel IH]; intros [|fuel'] cycle state tp rs rt lm rm reset L H; try discriminate; [lia|].
  cbn [tr_loop] in H |- *.
  destruct (comp_get comp (state, t_scan (h_tape tp))) as [[[color shift] next]|]; [|auto].
  destruct ((state =? next) && t_at_edge (h_tape tp) shift); [auto|].
  destruct (if reset =? 0 then _ else _) as [[[[rs' rt'] lm'] rm'] reset'].
  destruct (if _ <? lm' then _ else _) as [lm2 rm2].
  destruct ((next =? rs') && _); [auto|]. apply IH; [lia|auto].
Qed.

Lemma quick_term_or_rec_mono comp drop lim lim' : (lim <= lim')%nat ->
  quick_term_or_rec comp lim drop = true -> quick_term_or_rec comp lim' drop = true.
Proof. intros L. unfold quick_term_or_rec. apply tr_loop_mono. lia. Qed.

Lemma quick_term_or_rec_cyclers comp : comp_get comp (0, 0) = Some (1, true, 1) ->
  (exists lim, quick_term_or_rec comp lim false = true) <-> recurs (machine_of comp).
Proof.
  intros S0. split.
  - intros (lim & H). exact (quick_term_or_rec_recurs comp lim S0 H).
  - intros R. destruct (recurs_found comp S0 R) as (L & X). exists L. apply X. lia.
Qed.

Lemma quick_term_or_rec_settled comp : comp_get comp (0, 0) = Some (1, true, 1) ->
  (exists lim, quick_term_or_rec comp lim true = true) <-> recurs (machine_of comp) \/ halts (machine_of comp).
Proof.
  intros S0. split.
  - intros (lim & H). destruct (quick_term_or_rec_says comp true lim S0 H) as [X|[_ X]]; auto.
  - intros [R|R].
    + destruct (recurs_found comp S0 R) as (L & X). exists L. apply X. lia.
    + destruct (halt_found comp S0 R) as (L & X). exists L. apply X. lia.
Qed.
