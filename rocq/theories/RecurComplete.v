(** Lemmas about StrictLinRecMachine: every recurrence is found, and the period is the least. *)
From Verif Require Import Base TM TMFacts ProgModel TapeModel TapeSpec TapeProofs QuickModel QuickProofs TermRecModel TermRecSpec
  TermRecProofs BlocksProofs TermRecComplete RecurModel RecurSpec RecurProofs RecurStrict.

(** ** The comparison finds what agrees *)
Lemma ltr_len t start : wf_tape (h_tape t) -> start <= h_head t ->
  zlen (p_get_ltr (from_head t) start) = h_head t - start + 1 + zlen (unroll_span (t_rspan (h_tape t))).
Proof.
  intros (WL & WR) L. unfold p_get_ltr, from_head. cbn [p_init p_tape]. rewrite len_unroll by auto. unfold zlen.
  set (a := unroll_span (t_lspan (h_tape t))). set (b := unroll_span (t_rspan (h_tape t))).
  destruct (Z.leb_spec (- (start + (Z.of_nat (length a) - h_head t))) 0).
  - rewrite skipn_length, !app_length, rev_length. cbn [length]. lia.
  - rewrite !app_length, rev_length, repeat_length. cbn [length]. lia.
Qed.

Lemma rtl_len t stop : wf_tape (h_tape t) -> h_head t <= stop ->
  zlen (p_get_rtl (from_head t) stop) = stop - h_head t + 1 + zlen (unroll_span (t_lspan (h_tape t))).
Proof.
  intros (WL & WR) L. unfold p_get_rtl, from_head, upto. cbn [p_init p_tape]. rewrite len_unroll by auto. unfold zlen.
  rewrite !app_length, rev_length. cbn [length].
  set (a := length (unroll_span (t_lspan (h_tape t)))). set (b := length (unroll_span (t_rspan (h_tape t)))).
  set (s := stop + (Z.of_nat a - h_head t) + 1).
  destruct (Z.leb_spec (s - Z.of_nat (a + (1 + b))) 0).
  - rewrite (proj2 (Z.ltb_ge s 0)) by (unfold s; lia). rewrite firstn_length, !app_length, rev_length. cbn [length]. fold a b. unfold s in *. lia.
  - replace (s - (s - Z.of_nat (a + (1 + b)))) with (Z.of_nat (a + (1 + b))) by lia.
    rewrite (proj2 (Z.ltb_ge _ 0)) by lia. rewrite app_length, repeat_length, firstn_length, !app_length, rev_length. cbn [length].
    fold a b. unfold s in *. lia.
Qed.

Lemma ptr_agree c d lm rm ht hr k :
  canon (h_tape ht) -> canon (h_tape hr) -> represents (h_tape hr) c -> represents (h_tape ht) d ->
  c_pos c = h_head hr -> c_pos d = h_head ht -> c_pos d = c_pos c + k -> lm <= c_pos c <= rm ->
  ((k = 0 /\ forall p, c_tape d p = c_tape c p)
   \/ (0 < k /\ forall p, lm <= p -> c_tape d (p + k) = c_tape c p)
   \/ (k < 0 /\ forall p, p <= rm -> c_tape d (p + k) = c_tape c p)) ->
  p_aligns (from_head ht) (from_head hr) k lm rm = true.
Proof.
  intros Cd Cc Rc Rd Pc Pd PK B H.
  pose proof (canon_wf _ Cd) as Wd. pose proof (canon_wf _ Cc) as Wc.
  assert (Tc : forall p, hcell hr p = c_tape c p).
  { intros p. unfold hcell. rewrite <- (Rc (p - h_head hr)). f_equal. lia. }
  assert (Td : forall p, hcell ht p = c_tape d p).
  { intros p. unfold hcell. rewrite <- (Rd (p - h_head ht)). f_equal. lia. }
  apply represents_iff in Rc as (_ & Rc). apply represents_iff in Rd as (_ & Rd).
  assert (L : forall a b, zlen a = zlen b -> (forall i : nat, nth i a 0 = nth i b 0) -> slice_eqb a b = true).
  { intros a b X Y. replace b with a; [apply slice_eqb_refl|]. apply (nth_ext _ _ 0 0); [unfold zlen in X; lia|auto]. }
  unfold p_aligns. destruct H as [(K & H)|[(K & H)|(K & H)]].
  - subst k. change (0 <? 0) with false. cbv iota. apply L.
    + unfold p_get_cnt, zlen. rewrite !map_length, !seq_length. lia.
    + intros i. destruct (Z_le_dec (Z.of_nat i) (rm - lm)) as [Q|Q].
      * rewrite !cnt_cell by auto. rewrite Tc, Td. auto.
      * rewrite !nth_overflow; auto; unfold p_get_cnt; rewrite map_length, seq_length; lia.
  - rewrite (proj2 (Z.ltb_lt 0 k)) by lia. apply L.
    + rewrite !ltr_len by (auto; lia).
      assert (E : t_rspan (h_tape ht) = t_rspan (h_tape hr)).
      { apply (canon_unique (side (h_tape ht) true) (side (h_tape hr) true)); try (apply canon_side; auto).
        intros i I. rewrite <- Rc, <- Rd by auto. unfold half. rewrite <- H by lia. f_equal. lia. }
      rewrite E. lia.
    + intros i. rewrite !ltr_cell by (auto; lia). rewrite Tc, Td, <- H by lia. f_equal. lia.
  - rewrite (proj2 (Z.ltb_ge 0 k)), (proj2 (Z.ltb_lt k 0)) by lia.
    assert (X : p_get_rtl (from_head hr) rm = p_get_rtl (from_head ht) (rm + k)); [|rewrite X; apply slice_eqb_refl].
    rewrite <- (rev_involutive (p_get_rtl (from_head hr) rm)), <- (rev_involutive (p_get_rtl (from_head ht) (rm + k))). f_equal.
    apply (nth_ext _ _ 0 0).
    + rewrite !rev_length. apply Nat2Z.inj. fold (zlen (p_get_rtl (from_head hr) rm)). fold (zlen (p_get_rtl (from_head ht) (rm + k))).
      rewrite !rtl_len by (auto; lia).
      assert (E : t_lspan (h_tape ht) = t_lspan (h_tape hr)).
      { apply (canon_unique (side (h_tape ht) false) (side (h_tape hr) false)); try (apply canon_side; auto).
        intros i I. rewrite <- Rc, <- Rd by auto. unfold half. rewrite <- H by lia. f_equal. lia. }
      rewrite E. lia.
    + intros i _. rewrite !rtl_cell by (auto; lia). rewrite Tc, Td, <- H by lia. f_equal. lia.
Qed.

Section comp.
Variable comp : comp_prog.
Let M := machine_of comp.
Hypothesis NH : never_halts M.

Local Notation C := (C comp).

Lemma C_run t : steps M t init = Some (C t).
Proof. unfold TermRecComplete.C. fold M. destruct (NH t) as (c & E). rewrite E. auto. Qed.

Lemma C_from t j : steps M j (C t) = Some (C (t + j)).
Proof. apply (C_steps comp NH). Qed.

Lemma C_step t : step M (C t) = Some (C (1 + t)).
Proof. pose proof (C_from t 1) as X. cbn in X. destruct (step M (C t)); [|discriminate]. rewrite X. f_equal. f_equal. lia. Qed.

(** ** A recurrence and the trace of the run *)
Definition trace (t : nat) : Z * Z := (c_state (C t), c_tape (C t) (c_pos (C t))).

Lemma recurs_run n m : recurs_at M n m -> exists k (R : Z -> Prop), (0 < m)%nat
  /\ (forall t, (n <= t)%nat -> agree R k (C t) (C (t + m))) /\ (forall t, (n <= t)%nat -> R (c_pos (C t)))
  /\ ((k = 0 /\ forall p, R p) \/ (0 < k /\ forall p q, R p -> p <= q -> R q) \/ (k < 0 /\ forall p q, R p -> q <= p -> R q)).
Proof.
  intros (c & d & k & Hm & E & F & A & B & H). exists k.
  assert (CN : C n = c) by (pose proof (C_run n) as X; congruence). subst c.
  rewrite C_from in F. injection F as <-.
  assert (G : exists R : Z -> Prop, agree R k (C n) (C (n + m)) /\ (forall j, (j < m)%nat -> R (c_pos (C (n + j)))) /\ (forall p, R p -> R (p + k))
     /\ ((k = 0 /\ forall p, R p) \/ (0 < k /\ forall p q, R p -> p <= q -> R q) \/ (k < 0 /\ forall p q, R p -> q <= p -> R q))).
  { destruct H as [(-> & H)|[(K & H)|(K & H)]].
    - exists (fun _ => True). split; [split; auto; split; auto; intros; rewrite Z.add_0_r; auto|]. auto.
    - exists (fun p => exists j, (j < m)%nat /\ c_pos (C (n + j)) <= p).
      split; [split; auto; split; auto; intros p (j & ? & ?); apply (H j (C (n + j))); auto; apply C_from|].
      split; [intros j J; exists j; split; auto; lia|]. split; [intros p (j & ? & ?); exists j; split; auto; lia|].
      right; left. split; auto. intros p q (j & ? & ?) Q. exists j. split; auto. lia.
    - exists (fun p => exists j, (j < m)%nat /\ p <= c_pos (C (n + j))).
      split; [split; auto; split; auto; intros p (j & ? & ?); apply (H j (C (n + j))); auto; apply C_from|].
      split; [intros j J; exists j; split; auto; lia|]. split; [intros p (j & ? & ?); exists j; split; auto; lia|].
      right; right. split; auto. intros p q (j & ? & ?) Q. exists j. split; auto. lia. }
  destruct G as (R & AG & ST & CL & RG). exists R. split; auto.
  assert (BOTH : forall j, agree R k (C (n + j)) (C (n + j + m)) /\ R (c_pos (C (n + j)))).
  { induction j as [j IH] using (well_founded_induction lt_wf).
    assert (AG' : agree R k (C (n + j)) (C (n + j + m))).
    { destruct j as [|j]; [rewrite Nat.add_0_r; exact AG|].
      destruct (IH j ltac:(lia)) as (X & Y).
      destruct (agree_step M R k _ _ _ X Y (C_step (n + j)%nat)) as (d' & D' & AD). rewrite C_step in D'. injection D' as <-.
      replace (n + S j)%nat with (1 + (n + j))%nat by lia. exact AD. }
    split; auto. destruct (le_lt_dec m j) as [L|L]; [|auto].
    destruct (IH (j - m)%nat ltac:(lia)) as ((_ & X & _) & Y).
    replace (n + (j - m) + m)%nat with (n + j)%nat in X by lia. rewrite X. auto. }
  split; [|split; [|auto]]; intros t L; replace t with (n + (t - n))%nat by lia; apply BOTH.
Qed.

Lemma recurs_trace n m : recurs_at M n m -> forall t, (n <= t)%nat -> trace (t + m) = trace t.
Proof.
  intros H t L. destruct (recurs_run n m H) as (k & R & _ & AG & IR & _). destruct (AG t L) as (A & B & X).
  unfold trace. rewrite A, B, X by auto. auto.
Qed.

Lemma C_pos_move t : exists dir, c_pos (C (1 + t)) = move dir (c_pos (C t))
  /\ match M (fst (trace t)) (snd (trace t)) with Some (_, dir', _) => dir = dir' | None => False end.
Proof.
  pose proof (C_step t) as X. unfold step in X. unfold trace. cbn [fst snd].
  destruct (M (c_state (C t)) (c_tape (C t) (c_pos (C t)))) as [[[co dir] nx]|]; [|discriminate].
  apply (f_equal (fun o => match o with Some e => c_pos e | None => 0 end)) in X. cbn [c_pos] in X. exists dir. auto.
Qed.

Lemma visited_dec a p n : (exists i, (i < n)%nat /\ c_pos (C (a + i)) = p) \/ forall i, (i < n)%nat -> c_pos (C (a + i)) <> p.
Proof.
  induction n as [|n IH]; [right; intros; lia|].
  destruct IH as [(i & L & E)|N]; [left; exists i; split; [lia|auto]|].
  destruct (Z.eq_dec (c_pos (C (a + n))) p) as [Q|Q]; [left; exists n; split; [lia|auto]|].
  right. intros i L. destruct (Nat.eq_dec i n) as [->|]; [auto|apply N; lia].
Qed.

(** Between two moments all positions in between are visited. *)
Lemma visits p : forall j t, c_pos (C t) <= p <= c_pos (C (t + j)) \/ c_pos (C (t + j)) <= p <= c_pos (C t) ->
  exists i, (i <= j)%nat /\ c_pos (C (t + i)) = p.
Proof.
  induction j as [|j IH]; intros t H.
  - rewrite Nat.add_0_r in H. exists 0%nat. rewrite Nat.add_0_r. split; [lia|lia].
  - destruct (Z.eq_dec (c_pos (C t)) p) as [Q|Q]; [exists 0%nat; rewrite Nat.add_0_r; split; [lia|auto]|].
    destruct (C_pos_move t) as (dir & MV & _).
    destruct (IH (1 + t)%nat) as (i & I & E).
    { replace (1 + t + j)%nat with (t + S j)%nat by lia. unfold move in MV. destruct dir; lia. }
    exists (S i). split; [lia|]. rewrite <- E. f_equal. f_equal. lia.
Qed.

Lemma trace_recurs a m : (0 < m)%nat -> (forall t, (a <= t)%nat -> trace (t + m) = trace t) -> recurs_at M a m.
Proof.
  intros Hm TR. set (k := c_pos (C (a + m)) - c_pos (C a)).
  assert (PK : forall j, c_pos (C (a + j + m)) = c_pos (C (a + j)) + k).
  { induction j as [|j IH]; [unfold k; rewrite Nat.add_0_r; lia|].
    destruct (C_pos_move (a + j)) as (d1 & M1 & T1). destruct (C_pos_move (a + j + m)) as (d2 & M2 & T2).
    rewrite TR in T2 by lia. destruct (M (fst (trace (a + j))) (snd (trace (a + j)))) as [[[co dir] nx]|]; [|contradiction].
    subst d1 d2. replace (a + S j)%nat with (1 + (a + j))%nat by lia.
    replace (1 + (a + j) + m)%nat with (1 + (a + j + m))%nat by lia. rewrite M1, M2, IH. unfold move. destruct dir; lia. }
  assert (FAR : forall j q, c_pos (C (a + j + q * m)) = c_pos (C (a + j)) + Z.of_nat q * k).
  { intros j. induction q as [|q IH]; [cbn; rewrite Nat.add_0_r; lia|].
    replace (a + j + S q * m)%nat with (a + (j + q * m) + m)%nat by lia. rewrite PK.
    replace (a + (j + q * m))%nat with (a + j + q * m)%nat by lia. rewrite IH. lia. }
  (* the contents of a cell that is visited later *)
  assert (CELL : forall i p, c_pos (C (a + i)) = p -> c_tape (C (a + m)) (p + k) = c_tape (C a) p).
  { intros i0 p P0.
    assert (LST : exists i, c_pos (C (a + i)) = p /\ forall i', (i' < i)%nat -> c_pos (C (a + i')) <> p).
    { revert P0. induction i0 as [i0 IH] using (well_founded_induction lt_wf). intros P0.
      destruct (visited_dec a p i0) as [(i' & L & E)|N]; [apply (IH i' L E)|exists i0; auto]. }
    destruct LST as (i & P & N).
    assert (X1 : c_tape (C (a + i)) p = c_tape (C a) p).
    { apply (untouched M p i); [apply C_from|]. intros j e J Ee. rewrite C_from in Ee. injection Ee as <-. auto. }
    assert (X2 : c_tape (C (a + m + i)) (p + k) = c_tape (C (a + m)) (p + k)).
    { apply (untouched M (p + k) i); [apply C_from|]. intros j e J Ee. rewrite C_from in Ee. injection Ee as <-.
      replace (a + m + j)%nat with (a + j + m)%nat by lia. rewrite PK. specialize (N j J). lia. }
    rewrite <- X1, <- X2. pose proof (TR (a + i)%nat ltac:(lia)) as X. unfold trace in X. injection X as _ X.
    rewrite PK, P in X. replace (a + m + i)%nat with (a + i + m)%nat by lia. exact X. }
  exists (C a), (C (a + m)), k. split; [auto|]. split; [apply C_run|]. split; [apply C_from|].
  split; [pose proof (TR a ltac:(lia)) as X; unfold trace in X; injection X as X _; auto|]. split; [unfold k; lia|].
  destruct (Z.lt_trichotomy k 0) as [K|[K|K]].
  - right; right. split; auto. intros j e p J Ee P. rewrite C_from in Ee. injection Ee as <-.
    destruct (visits p (Z.to_nat (c_pos (C (a + j)) - p) * m) (a + j)) as (i & I & Q).
    { right. rewrite FAR. rewrite Z2Nat.id by lia. split; [nia|auto]. }
    apply (CELL (j + i)%nat). rewrite <- Q. f_equal. f_equal. lia.
  - left. split; auto. intros p. destruct (visited_dec a p m) as [(i & I & Q)|N].
    + rewrite <- (CELL i p Q). f_equal. lia.
    + apply (untouched M p m); [apply C_from|]. intros i e I Ee. rewrite C_from in Ee. injection Ee as <-. auto.
  - right; left. split; auto. intros j e p J Ee P. rewrite C_from in Ee. injection Ee as <-.
    destruct (visits p (Z.to_nat (p - c_pos (C (a + j))) * m) (a + j)) as (i & I & Q).
    { left. rewrite FAR. rewrite Z2Nat.id by lia. split; [auto|nia]. }
    apply (CELL (j + i)%nat). rewrite <- Q. f_equal. f_equal. lia.
Qed.

Lemma recurs_later n n' m : recurs_at M n m -> (n <= n')%nat -> recurs_at M n' m.
Proof.
  intros H L. destruct (recurs_run n m H) as (_ & _ & Hm & _). apply trace_recurs; auto.
  intros t T. apply (recurs_trace n m H). lia.
Qed.

(** ** The passes of the loop *)
Definition sy_step (x : Z * head_tape * nat) : Z * head_tape * nat :=
  let '(state, tp, t) := x in
  match comp_get comp (state, t_scan (h_tape tp)) with
  | None => x
  | Some (color, shift, next) =>
      let '(tp', st) := hp_step tp shift color (state =? next) in (next, tp', (t + Z.to_nat st)%nat)
  end.
Fixpoint sy (i : nat) : Z * head_tape * nat := match i with O => (0, hp_init, 0%nat) | S i => sy_step (sy i) end.
Definition sS (i : nat) : Z := fst (fst (sy i)).
Definition sH (i : nat) : head_tape := snd (fst (sy i)).
Definition sT (i : nat) : nat := snd (sy i).

Lemma sy_eq i : sy i = (sS i, sH i, sT i).
Proof. unfold sS, sH, sT. destruct (sy i) as [[? ?] ?]. auto. Qed.

Lemma sy_instr i : at_time M (sS i) (sH i) (sT i) (C (sT i)) ->
  exists color shift next, comp_get comp (sS i, t_scan (h_tape (sH i))) = Some (color, shift, next).
Proof.
  intros [A1 A2 A3 A4 A5]. assert (SC : c_tape (C (sT i)) (c_pos (C (sT i))) = t_scan (h_tape (sH i))) by (apply represents_iff; auto).
  pose proof (C_step (sT i)) as X. unfold step in X. rewrite SC, A5 in X. unfold M, machine_of in X.
  destruct (comp_get comp (sS i, t_scan (h_tape (sH i)))) as [[[co sh] nx]|]; [eauto|discriminate].
Qed.

Lemma sy_next i color shift next tp' st : comp_get comp (sS i, t_scan (h_tape (sH i))) = Some (color, shift, next) ->
  hp_step (sH i) shift color (sS i =? next) = (tp', st) -> sy (S i) = (next, tp', (sT i + Z.to_nat st)%nat).
Proof. intros E F. cbn [sy]. rewrite sy_eq. unfold sy_step. rewrite E, F. auto. Qed.

Lemma sy_at i : at_time M (sS i) (sH i) (sT i) (C (sT i)).
Proof.
  induction i as [|i IH].
  - assert (X : C 0 = init) by (pose proof (C_run 0) as X; cbn [steps] in X; congruence).
    unfold sS, sH, sT. cbn [sy fst snd]. rewrite X. constructor; auto; [|split; cbn; auto].
    intros i. cbn. unfold blank_tape, tape_cell. cbn. destruct (i =? 0), (0 <? i); auto.
  - destruct (sy_instr i IH) as (color & shift & next & EG).
    destruct (hp_step (sH i) shift color (sS i =? next)) as [tp' st] eqn:ES.
    destruct (hp_move comp _ _ _ _ _ _ _ _ _ IH EG ES) as (N & d & D & _).
    pose proof (sy_next i _ _ _ _ _ EG ES) as E. rewrite sy_eq in E. injection E as E1 E2 E3. rewrite E1, E2, E3.
    assert (d = C (sT i + Z.to_nat st)) by (pose proof (C_run (sT i + Z.to_nat st)) as X; pose proof (at_run _ _ _ _ _ D) as Y; fold M in Y; congruence).
    subst d. exact D.
Qed.

Definition edge (i : nat) : bool :=
  match comp_get comp (sS i, t_scan (h_tape (sH i))) with
  | Some (_, shift, next) => (sS i =? next) && t_at_edge (h_tape (sH i)) shift
  | None => false
  end.

Lemma sT_S i : (sT i < sT (S i))%nat.
Proof.
  pose proof (sy_at i) as A. destruct (sy_instr i A) as (color & shift & next & EG).
  destruct (hp_step (sH i) shift color (sS i =? next)) as [tp' st] eqn:ES.
  destruct (hp_move comp _ _ _ _ _ _ _ _ _ A EG ES) as (N & _).
  pose proof (sy_next i _ _ _ _ _ EG ES) as E. rewrite sy_eq in E. injection E as _ _ E. lia.
Qed.

Lemma sT_mono i j : (i <= j)%nat -> (sT i <= sT j)%nat.
Proof. induction 1 as [|j L IH]; auto. pose proof (sT_S j). lia. Qed.

Lemma sT_lt i j : (i < j)%nat -> (sT i < sT j)%nat.
Proof. intros L. pose proof (sT_S i). pose proof (sT_mono (S i) j ltac:(lia)). lia. Qed.

Lemma sT_inj i j : (sT i < sT j)%nat -> (i < j)%nat.
Proof. intros L. destruct (le_lt_dec j i) as [G|G]; auto. pose proof (sT_mono j i G). lia. Qed.

Lemma sT_ge i : (i <= sT i)%nat.
Proof. induction i as [|i IH]; [lia|]. pose proof (sT_S i). lia. Qed.

Lemma sy_sweeps i : edge i = false -> sweeps M (C (sT i)) (sT (S i) - sT i).
Proof.
  intros EE. pose proof (sy_at i) as A. destruct (sy_instr i A) as (color & shift & next & EG). unfold edge in EE. rewrite EG in EE.
  destruct (hp_step (sH i) shift color (sS i =? next)) as [tp' st] eqn:ES.
  pose proof (sy_next i _ _ _ _ _ EG ES) as E. rewrite sy_eq in E. injection E as _ _ E. rewrite E.
  pose proof A as [A1 A2 A3 A4 A5]. unfold hp_step in ES. rewrite py_rs_step in ES by auto using canon_wf.
  destruct (rs_step (h_tape (sH i)) shift color (sS i =? next)) as [tp1 st1] eqn:ER. injection ES as <- <-.
  destruct (rs_step_refines M (h_tape (sH i)) (C (sT i)) shift color next (sS i =? next) tp1 st1)
    as (N & W & N1 & _); auto using canon_wf.
  { rewrite A5. exact EG. }
  { intros X. zb. congruence. }
  assert (SC : c_tape (C (sT i)) (c_pos (C (sT i))) = t_scan (h_tape (sH i))) by (apply represents_iff; auto).
  replace (sT i + Z.to_nat st1 - sT i)%nat with (Z.to_nat st1) by lia.
  exists color, shift, next. rewrite SC, A5. split; [exact EG|]. split; [lia|].
  split; [intros Q; rewrite N1; [reflexivity|apply Z.eqb_neq; auto]|].
  intros Q. subst next. rewrite Z.eqb_refl in *. cbn [andb] in EE.
  destruct (rs_step_maximal _ _ _ _ _ _ A3 A2 ER) as (X & Y). specialize (Y EE).
  rewrite Z2Nat.id by lia. split; [exact X|exact Y].
Qed.

Lemma edge_spins i : edge i = true -> sT (S i) = S (sT i) /\ forall t, (sT i <= t)%nat -> trace t = trace (sT i).
Proof.
  intros EE. pose proof (sy_at i) as A. destruct (sy_instr i A) as (color & shift & next & EG). unfold edge in EE. rewrite EG in EE.
  apply andb_true_iff in EE. destruct EE as (Q & EE). apply Z.eqb_eq in Q.
  destruct (hp_step (sH i) shift color (sS i =? next)) as [tp' st] eqn:ES.
  pose proof (sy_next i _ _ _ _ _ EG ES) as E. rewrite sy_eq in E. injection E as _ _ E. pose proof A as [A1 A2 A3 A4 A5].
  assert (S0 : t_scan (h_tape (sH i)) = 0) by (unfold t_at_edge in EE; zb; auto).
  split.
  - rewrite E. unfold hp_step in ES. rewrite py_rs_step in ES by auto using canon_wf.
    destruct (rs_step (h_tape (sH i)) shift color (sS i =? next)) as [tp1 st1] eqn:ER. injection ES as <- <-.
    unfold t_at_edge in EE. unfold rs_step in ER. destruct shift; zb.
    + destruct (t_rspan (h_tape (sH i))); [|discriminate]. cbn in ER. injection ER as _ <-. cbn. lia.
    + destruct (t_lspan (h_tape (sH i))); [|discriminate]. cbn in ER. injection ER as _ <-. cbn. lia.
  - assert (SP : spins_out_from M (C (sT i))).
    { apply (spin_out_lemma M _ shift color); [rewrite A5, Q; rewrite S0, Q in EG; exact EG|].
      intros j J. eapply represents_edge; eauto. }
    destruct SP as (dir & SP). intros t L. destruct (SP (t - sT i)%nat) as (d & D1 & D2 & _ & D3). destruct (SP 0%nat) as (d0 & D4 & _ & _ & D5).
    rewrite C_from in D1. injection D1 as <-. replace (sT i + (t - sT i))%nat with t in * by lia.
    cbn in D4. injection D4 as <-. unfold trace. congruence.
Qed.

(** A pass ends where something changes, unless it is the beginning of a spinout. *)
Lemma pass_ends i : edge i = true \/ trace (sT (S i) - 1) <> trace (sT (S i)).
Proof.
  destruct (edge i) eqn:EE; [auto|]. right. pose proof (sy_sweeps i EE) as SW. pose proof (sT_S i) as L.
  set (n := (sT (S i) - sT i)%nat) in *.
  destruct (sweeps_run M _ n (n - 1) SW ltac:(lia)) as (co & dir & nx & e & F & G & P & ST & T).
  destruct (sweeps_run M _ n n SW ltac:(lia)) as (co' & dir' & nx' & e' & F' & G' & P' & ST' & T').
  rewrite F in F'. injection F' as <- <- <-. rewrite C_from in G, G'. injection G as <-. injection G' as <-.
  replace (sT i + (n - 1))%nat with (sT (S i) - 1)%nat in * by lia. replace (sT i + n)%nat with (sT (S i)) in * by lia.
  destruct SW as (co' & dir' & nx' & F' & N & X & Y). rewrite F in F'. injection F' as <- <- <-.
  specialize (ST' ltac:(lia)). intros Q. unfold trace in Q. injection Q as Q1 Q2.
  destruct (Z.eq_dec nx (c_state (C (sT i)))) as [E|E].
  - destruct (Y E) as (Y1 & Y2). rewrite P, P', T, T' in Q2 by lia. rewrite Y1 in Q2 by lia. congruence.
  - specialize (X E). replace (sT (S i) - 1)%nat with (sT i) in Q1 by lia. congruence.
Qed.

(** Inside a pass nothing changes. *)
Lemma pass_inside i t : (sT i < t < sT (S i))%nat -> edge i = false /\ trace (t - 1) = trace t.
Proof.
  intros L. assert (EE : edge i = false).
  { destruct (edge i) eqn:EE; auto. destruct (edge_spins i EE) as (X & _). lia. }
  split; auto. pose proof (sy_sweeps i EE) as SW. set (n := (sT (S i) - sT i)%nat) in *.
  destruct (sweeps_run M _ n (t - 1 - sT i) SW ltac:(lia)) as (co & dir & nx & e & F & G & P & ST & T).
  destruct (sweeps_run M _ n (t - sT i) SW ltac:(lia)) as (co' & dir' & nx' & e' & F' & G' & P' & ST' & T').
  rewrite F in F'. injection F' as <- <- <-. rewrite C_from in G, G'. injection G as <-. injection G' as <-.
  replace (sT i + (t - 1 - sT i))%nat with (t - 1)%nat in * by lia. replace (sT i + (t - sT i))%nat with t in * by lia.
  destruct SW as (co' & dir' & nx' & F' & N & X & Y). rewrite F in F'. injection F' as <- <- <-.
  assert (E : nx = c_state (C (sT i))).
  { destruct (Z.eq_dec nx (c_state (C (sT i)))); auto. specialize (X n0). lia. }
  destruct (Y E) as (Y1 & Y2). unfold trace. specialize (ST' ltac:(lia)). f_equal.
  - rewrite ST'. destruct (Nat.eq_dec (t - 1) (sT i)) as [Q|Q]; [rewrite Q; auto|]. apply ST. lia.
  - rewrite P, P', T, T' by lia. rewrite !Y1 by lia. auto.
Qed.

Lemma find_pass x : forall B i, (sT i <= x < sT B)%nat -> exists u, (i <= u < B)%nat /\ (sT u <= x < sT (S u))%nat.
Proof.
  induction B as [|B IH]; intros i X.
  - pose proof (sT_mono 0 i ltac:(lia)). lia.
  - destruct (le_lt_dec (sT B) x) as [LE|LT].
    + exists B. split; [|lia]. pose proof (sT_inj i (S B) ltac:(lia)). lia.
    + destruct (IH i ltac:(lia)) as (u & U1 & U2). exists u. split; [lia|auto].
Qed.

(** ** Periods *)
Lemma period_sub n x y : (forall t, (n <= t)%nat -> trace (t + x) = trace t) -> (forall t, (n <= t)%nat -> trace (t + y) = trace t) ->
  (y <= x)%nat -> forall t, (n <= t)%nat -> trace (t + (x - y)) = trace t.
Proof. intros X Y L t T. rewrite <- (Y (t + (x - y))%nat) by lia. rewrite <- (X t) by lia. f_equal. lia. Qed.

Lemma period_gcd n : forall s x y, (x + y <= s)%nat -> (0 < x)%nat -> (0 < y)%nat ->
  (forall t, (n <= t)%nat -> trace (t + x) = trace t) -> (forall t, (n <= t)%nat -> trace (t + y) = trace t) ->
  exists g, (0 < g)%nat /\ (exists a, x = a * g)%nat /\ (exists b, y = b * g)%nat /\ forall t, (n <= t)%nat -> trace (t + g) = trace t.
Proof.
  induction s as [|s IH]; intros x y S Hx Hy X Y; [lia|].
  destruct (lt_eq_lt_dec x y) as [[L|L]|L].
  - destruct (IH x (y - x)%nat) as (g & G1 & (a & G2) & (b & G3) & G4); try lia; auto; [apply period_sub; auto; lia|].
    exists g. split; auto. split; [eauto|]. split; [exists (a + b)%nat; lia|auto].
  - subst y. exists x. split; auto. split; [exists 1%nat; lia|]. split; [exists 1%nat; lia|auto].
  - destruct (IH (x - y)%nat y) as (g & G1 & (a & G2) & (b & G3) & G4); try lia; auto; [apply period_sub; auto; lia|].
    exists g. split; auto. split; [exists (a + b)%nat; lia|]. split; [eauto|auto].
Qed.

Lemma period_mul n x q : (forall t, (n <= t)%nat -> trace (t + x) = trace t) -> forall t, (n <= t)%nat -> trace (t + q * x) = trace t.
Proof.
  intros X. induction q as [|q IH]; intros t L; [f_equal; lia|]. rewrite <- (IH t L). rewrite <- (X (t + q * x)%nat) by lia. f_equal. lia.
Qed.

(** A period later on that divides one from now on is one from now on. *)
Lemma period_now a n b g : (0 < b)%nat -> (forall t, (a <= t)%nat -> trace (t + b) = trace t) ->
  (forall t, (n <= t)%nat -> trace (t + g) = trace t) -> forall t, (a <= t)%nat -> trace (t + g) = trace t.
Proof.
  intros Hb B G t L. rewrite <- (period_mul a b n B t L). rewrite <- (period_mul a b n B (t + g)%nat) by lia.
  rewrite <- (G (t + n * b)%nat) by nia. f_equal. lia.
Qed.

(** If the trace has period g from the pass at a on, and a + b is the end of a pass, so is a + g. *)
Lemma period_pass i j b g q : sT j = (sT i + b)%nat -> (b = q * g)%nat -> (0 < g)%nat -> (g < b)%nat ->
  (forall t, (sT i <= t)%nat -> trace (t + g) = trace t) -> exists u, sT u = (sT i + g)%nat.
Proof.
  intros EJ EB G0 GB G. destruct (find_pass (sT i + g) j i ltac:(lia)) as (u & U1 & U2).
  destruct (Nat.eq_dec (sT u) (sT i + g)) as [Q|Q]; [eauto|]. exfalso.
  destruct (pass_inside u (sT i + g) ltac:(lia)) as (EU & IN).
  assert (X : trace (sT i + b - 1) = trace (sT i + b)).
  { replace (sT i + b - 1)%nat with (sT i + g - 1 + (q - 1) * g)%nat by nia.
    replace (sT i + b)%nat with (sT i + g + (q - 1) * g)%nat by nia.
    rewrite !(period_mul (sT i) g (q - 1) G) by lia. auto. }
  destruct j as [|j]; [pose proof (sT_mono 0 i ltac:(lia)); lia|].
  destruct (pass_ends j) as [E|E]; [|rewrite EJ in E; contradiction].
  destruct (edge_spins j E) as (ES & SP).
  assert (CON : forall t, (sT i <= t)%nat -> trace t = trace (sT j)).
  { intros t L. rewrite <- (period_mul (sT i) g (sT j) G t L). apply SP. nia. }
  destruct (pass_ends u) as [E'|E']; [congruence|]. apply E'.
  pose proof (sT_mono i u ltac:(lia)). pose proof (sT_S u).
  rewrite (CON (sT (S u) - 1)%nat), (CON (sT (S u))) by lia. auto.
Qed.

(** ** What the run finds *)
Variable check : Z.

Lemma slots_of i : (c_state (C (sT i)), c_tape (C (sT i)) (c_pos (C (sT i)))) = (sS i, t_scan (h_tape (sH i))).
Proof.
  pose proof (sy_at i) as [A1 A2 A3 A4 A5]. rewrite A5. f_equal. apply represents_iff; auto.
Qed.

Definition known (h : history) (j : nat) : Prop := forall sl s, In (sl, s) (hs_slots h) <->
  exists i, (i < j)%nat /\ check <= Z.of_nat (sT i) /\ s = Z.of_nat (sT i) /\ sl = (sS i, t_scan (h_tape (sH i))).

Lemma verify_finds h n0 n a : full M h n0 n -> (a < n)%nat -> tape_at (hs_tapes h) (Z.of_nat a) <> None -> recurs_at M a (n - a) ->
  exists r, verify_lin_rec h (Z.of_nat a) (Z.of_nat n) = Some (Some r).
Proof.
  intros F L TA RC. pose proof F as [F1 F2 F3 F4 FP F5 F6 F7 F8]. unfold verify_lin_rec.
  destruct (tape_at (hs_tapes h) (Z.of_nat a)) as [q1|] eqn:E1; [|contradiction].
  destruct (tape_at (hs_tapes h) (Z.of_nat n)) as [q2|] eqn:E2; [|contradiction].
  destruct (F4 _ _ E1) as (j1 & t1 & c1 & C1 & C2 & C3 & C4 & C5 & C6). assert (j1 = a) by lia. subst j1.
  destruct (F4 _ _ E2) as (j2 & t2 & c2 & D1 & D2 & D3 & D4 & D5 & _). assert (j2 = n) by lia. subst j2.
  pose proof C3 as [X1 X2 X3 X4 X5]. pose proof D3 as [Y1 Y2 Y3 Y4 Y5].
  rewrite !Nat2Z.id, C5, D5. set (since := skipn a (hs_positions h)).
  assert (IN1 : In (c_pos c1) since) by (apply (in_skip _ _ a); auto).
  destruct (list_min since) as [lm|] eqn:EL; [|destruct since; [destruct IN1|discriminate]].
  destruct (list_max since) as [rm|] eqn:ER; [|destruct since; [destruct IN1|discriminate]].
  assert (VIS : forall x, In x since -> exists t, (a <= t)%nat /\ c_pos (C t) = x).
  { intros x I. destruct (skip_in _ _ _ I) as (i & Li & Ei). destruct (FP i x Ei) as (t & e & Lt & Ee & P).
    exists t. split; [lia|]. pose proof (C_run t) as X. congruence. }
  rewrite C_run in X1, Y1. injection X1 as <-. injection Y1 as <-.
  destruct (recurs_run _ _ RC) as (k & R & _ & AG & IR & RG). destruct (AG a ltac:(lia)) as (_ & P & T).
  replace (a + (n - a))%nat with n in * by lia.
  destruct (VIS lm (list_min_in _ _ EL)) as (tl & TL1 & TL2). destruct (VIS rm (list_max_in _ _ ER)) as (tr & TR1 & TR2).
  pose proof (IR tl TL1) as RL. rewrite TL2 in RL. pose proof (IR tr TR1) as RR. rewrite TR2 in RR.
  pose proof (list_min_le _ _ _ EL IN1). pose proof (list_max_ge _ _ _ ER IN1).
  subst q1 q2. replace (c_pos (C n) - c_pos (C a)) with k by lia.
  rewrite (ptr_agree (C a) (C n) lm rm t2 t1 k); auto; [eauto|].
  destruct RG as [(K & RG)|[(K & RG)|(K & RG)]]; [left|right; left|right; right]; (split; [auto|]).
  - intros p. rewrite <- (T p) by auto. f_equal. lia.
  - intros p LP. apply T, (RG lm); auto.
  - intros p LP. apply T, (RG rm); auto.
Qed.

Lemma check_finds h n s sl l a r : In (sl, a) l -> slot_eqb sl s = true -> verify_lin_rec h a n = Some (Some r) ->
  check_steps h l n s <> Some None.
Proof.
  intros I E V. induction l as [|[sl' a'] l IH]; [destruct I|]. cbn [check_steps]. destruct I as [I|I].
  - injection I as -> ->. rewrite E, V. discriminate.
  - specialize (IH I). destruct (slot_eqb sl' s); auto. destruct (verify_lin_rec h a' n) as [[?|]|]; auto; discriminate.
Qed.

Definition found_by (r : strict) (j : nat) : Prop := exists i j' a b sp q, sr_end r = SLin a b sp q /\ (i < j' <= j)%nat
  /\ check <= a /\ a = Z.of_nat (sT i) /\ a + b = Z.of_nat (sT j').

(** One pass: found, or on to the next. *)
Lemma pass_step x cycle h blanks j : sinv M check h (sT j) -> known h j ->
  let r := strict_loop comp check (S x) cycle h (sH j) (sS j) (Z.of_nat (sT j)) blanks in
  found_by r j
  \/ ((forall i, (i < j)%nat -> check <= Z.of_nat (sT i) -> recurs_at M (sT i) (sT j - sT i) -> False)
      /\ exists h' blanks', r = strict_loop comp check x (cycle + 1) h' (sH (S j)) (sS (S j)) (Z.of_nat (sT (S j))) blanks'
           /\ sinv M check h' (sT (S j)) /\ known h' (S j)).
Proof.
  intros SI KN r. pose proof (sy_at j) as A. pose proof A as [A1 A2 A3 A4 A5].
  destruct (sy_instr j A) as (color & shift & next & EG).
  destruct (hp_step (sH j) shift color (sS j =? next)) as [tp' st] eqn:ES.
  destruct (hp_move comp _ _ _ _ _ _ _ _ _ A EG ES) as (N & d & D1 & D2 & D3 & D4).
  pose proof (sy_next j _ _ _ _ _ EG ES) as SN. rewrite sy_eq in SN. injection SN as SN1 SN2 SN3.
  assert (GO : forall h', (h' = hs_new /\ Z.of_nat (sT j) < check \/
       exists n0, full M h' n0 (sT j) /\ check <= Z.of_nat (sT j) /\ (check <= 0 -> n0 = 0%nat)) -> known h' (S j) ->
     exists h1 blanks',
      match comp_get comp (sS j, t_scan (h_tape (sH j))) with
       | None => Strict (SUndfnd (Z.of_nat (sT j)) (sS j, t_scan (h_tape (sH j)))) cycle blanks h'
       | Some (color, shift, next) =>
            let '(tp, stepped) := hp_step (sH j) shift color (sS j =? next) in
            strict_loop comp check x (cycle + 1) h' tp next (Z.of_nat (sT j) + stepped)
              (if (color =? 0) && t_blank (h_tape tp) && negb (blanks_has blanks next) then (next, Z.of_nat (sT j) + stepped) :: blanks else blanks)
       end = strict_loop comp check x (cycle + 1) h1 (sH (S j)) (sS (S j)) (Z.of_nat (sT (S j))) blanks'
       /\ sinv M check h1 (sT (S j)) /\ known h1 (S j)).
  { intros h' H' K'. rewrite EG, ES. exists h'. eexists. rewrite SN1, SN2, SN3.
    replace (Z.of_nat (sT j) + st) with (Z.of_nat (sT j + Z.to_nat st)) by lia. split; [reflexivity|]. split; [|auto].
    destruct H' as [(-> & H')|(n0 & H1 & H2 & H3)]; [left; split; [auto|]; lia|].
    right. exists n0, (sT j). split; [auto|]. split; [|auto]. split; [lia|]. exists (C (sT j)), d. split; [auto|].
    pose proof (at_run _ _ _ _ _ D1) as D5. split; [auto|]. split.
    - intros j' e J Ee. apply (D3 (j' - sT j)%nat); [lia|]. fold M. rewrite <- Ee.
      replace j' with (sT j + (j' - sT j))%nat at 2 by lia. rewrite (steps_add_some _ _ _ _ _ A1). auto.
    - intros j' e J Ee. rewrite (at_st _ _ _ _ _ D1). apply (D4 (j' - sT j)%nat); [lia|]. fold M. rewrite <- Ee.
      replace j' with (sT j + (j' - sT j))%nat at 2 by lia. rewrite (steps_add_some _ _ _ _ _ A1). auto. }
  unfold r. clear r. cbn [strict_loop].
  destruct (Z.leb_spec check (Z.of_nat (sT j))) as [CK|CK].
  2:{ right. split; [intros i I CI; pose proof (sT_lt i j I); lia|].
      destruct SI as [(-> & _)|(n0 & n & F & (L & _) & G & _)]; [|lia].
      apply GO; [left; auto|]. intros sl s. split; [intros []|]. intros (i & I & CI & _). pose proof (sT_mono i j ltac:(lia)). lia. }
  set (h' := add_tape (add_state h (Z.of_nat (sT j)) (sS j)) (Z.of_nat (sT j)) (sH j)).
  assert (FH : exists n0, full M h' n0 (sT j) /\ (check <= 0 -> n0 = 0%nat)).
  { destruct SI as [(-> & Z0)|(n0 & n & F & G & _ & Z0)].
    - exists (sT j). split; [eapply add_first; eauto|]. auto.
    - exists n0. split; [eapply add_next; eauto|]. auto. }
  assert (SLE : hs_slots h' = hs_slots h) by reflexivity.
  assert (SL : forall sl s, In (sl, s) (hs_slots h') -> s < Z.of_nat (sT j)).
  { intros sl s I. rewrite SLE in I. apply KN in I. destruct I as (i & I & _ & -> & _). pose proof (sT_lt i j I). lia. }
  destruct FH as (n0 & F & Z0).
  destruct (check_right M h' n0 (sT j) (C (sT j)) F A1 SL) as (r & CR & RR).
  rewrite slots_of in CR. fold h'. rewrite CR.
  destruct r as [[a b]|].
  - left. destruct (RR a b eq_refl) as (R1 & -> & R2 & R3 & R4 & (sl & IN)). rewrite SLE in IN. apply KN in IN.
    destruct IN as (i & I & CI & EA & _). do 6 eexists. split; [reflexivity|]. split; [split; [exact I|apply le_n]|].
    split; [rewrite EA; exact CI|]. split; [exact EA|]. lia.
  - right. split.
    + intros i I CI RC.
      assert (IN : In ((sS i, t_scan (h_tape (sH i))), Z.of_nat (sT i)) (hs_slots h)).
      { apply KN. exists i. auto. }
      destruct (fu_slot _ _ _ _ F _ _ IN) as (ji & ci & EI & _ & _ & _ & TA).
      destruct (verify_finds h' n0 (sT j) (sT i) F (sT_lt i j I) TA RC) as (rr & V).
      apply (check_finds h' (Z.of_nat (sT j)) (sS j, t_scan (h_tape (sH j))) _ (hs_slots h') _ rr IN); [|exact V|exact CR].
      rewrite <- !slots_of. pose proof (recurs_trace _ _ RC (sT i) ltac:(lia)) as TR.
      replace (sT i + (sT j - sT i))%nat with (sT j) in TR by (pose proof (sT_lt i j I); lia).
      unfold trace in TR. rewrite <- TR. unfold slot_eqb. cbn. rewrite !Z.eqb_refl. auto.
    + apply GO.
      * right. exists n0. split; [|auto]. rewrite <- slots_of. apply full_slot; auto.
      * intros sl s. cbn [add_slot hs_slots]. rewrite SLE, in_app_iff. split.
        -- intros [I|[I|[]]]; [apply KN in I; destruct I as (i & I & R); exists i; split; [lia|auto]|].
           injection I as <- <-. exists j. auto.
        -- intros (i & I & CI & -> & ->). destruct (Nat.eq_dec i j) as [->|NE]; [right; left; auto|].
           left. apply KN. exists i. split; [lia|auto].
Qed.

(** The run up to pass j. *)
Lemma run_to j : forall x,
  (exists j', (j' < j)%nat /\ found_by (strict_run comp (j + x) check) j')
  \/ ((forall i j', (i < j' < j)%nat -> check <= Z.of_nat (sT i) -> recurs_at M (sT i) (sT j' - sT i) -> False)
      /\ exists h blanks, strict_run comp (j + x) check = strict_loop comp check x (Z.of_nat j) h (sH j) (sS j) (Z.of_nat (sT j)) blanks
           /\ sinv M check h (sT j) /\ known h j).
Proof.
  induction j as [|j IH]; intros x.
  - right. split; [intros; lia|]. exists hs_new, []. split; [reflexivity|]. split; [left; auto|].
    intros sl s. split; [intros []|]. intros (i & I & _). lia.
  - replace (S j + x)%nat with (j + S x)%nat by lia. destruct (IH (S x)) as [(j' & L & FB)|(NO & h & blanks & E & SI & KN)].
    { left. exists j'. split; [lia|auto]. }
    rewrite E. destruct (pass_step x (Z.of_nat j) h blanks j SI KN) as [FB|(NF & h' & blanks' & E' & SI' & KN')].
    { left. exists j. split; [lia|auto]. }
    right. split.
    + intros i j' L CI RC. destruct (Nat.eq_dec j' j) as [->|NE]; [apply (NF i); auto; lia|apply (NO i j'); auto; lia].
    + exists h', blanks'. rewrite E'. split; [f_equal; lia|]. auto.
Qed.

Lemma found_at i j x : (i < j)%nat -> check <= Z.of_nat (sT i) -> recurs_at M (sT i) (sT j - sT i) ->
  found_by (strict_run comp (S j + x) check) j.
Proof.
  intros L CI RC. destruct (run_to (S j) x) as [(j' & L' & (i1 & j1 & a & b & sp & q & E & I & H))|(NO & _)].
  - exists i1, j1, a, b, sp, q. split; auto. split; [lia|auto].
  - exfalso. apply (NO i j); auto.
Qed.

(** What is found is found by some pass below the limit. *)
Lemma found_pass lim a b sp q : sr_end (strict_run comp lim check) = SLin a b sp q ->
  exists i j, (i < j < lim)%nat /\ check <= a /\ a = Z.of_nat (sT i) /\ a + b = Z.of_nat (sT j).
Proof.
  intros E. destruct (run_to lim 0) as [(j' & L & (i1 & j1 & a1 & b1 & sp1 & q1 & E1 & I & CA & EA & S1))|(NO & h & blanks & R & _)].
  - rewrite Nat.add_0_r, E in E1. injection E1 as -> -> -> ->. exists i1, j1. split; [lia|auto].
  - rewrite Nat.add_0_r in R. rewrite R in E. cbn in E. discriminate.
Qed.

(** The period that is found is the least one. *)
Lemma found_least lim a b sp q n m : sr_end (strict_run comp lim check) = SLin a b sp q -> recurs_at M n m -> b <= Z.of_nat m.
Proof.
  intros E RC. destruct (found_pass lim a b sp q E) as (i & j & L & CA & EA & EB).
  pose proof (strict_run_ok comp lim check) as (_ & OK). fold M in OK. rewrite E in OK. destruct OK as (A0 & B0 & RB & _).
  destruct (Z_le_dec b (Z.of_nat m)) as [|G]; auto. exfalso.
  assert (Hm : (0 < m)%nat) by (destruct RC as (? & ? & ? & ? & _); auto).
  pose proof (recurs_trace _ _ RC) as TM. pose proof (recurs_trace _ _ RB) as TB.
  set (N := (n + Z.to_nat a)%nat).
  destruct (period_gcd N (m + Z.to_nat b) m (Z.to_nat b)) as (g & G0 & (x & GX) & (y & GY) & GT); try lia.
  { intros t T. apply TM. unfold N in T. lia. }
  { intros t T. apply TB. unfold N in T. lia. }
  assert (Lg : (g <= m)%nat) by (destruct x; cbn in GX; lia).
  pose proof (period_now (Z.to_nat a) N (Z.to_nat b) g ltac:(lia) TB GT) as GA.
  assert (EAi : Z.to_nat a = sT i) by lia. rewrite EAi in GA.
  destruct (period_pass i j (Z.to_nat b) g y ltac:(lia) GY G0 ltac:(lia) GA) as (u & EU).
  pose proof (trace_recurs (sT i) g G0 GA) as RG.
  assert (IU : (i < u)%nat) by (apply sT_inj; lia). assert (UJ : (u < j)%nat) by (apply sT_inj; lia).
  destruct (run_to (S u) (lim - S u)) as [(j' & L' & (i1 & j1 & a1 & b1 & sp1 & q1 & E1 & I1 & _ & EA1 & EB1))|(NO & _)].
  - replace (S u + (lim - S u))%nat with lim in E1 by lia. rewrite E in E1. injection E1 as -> -> -> ->.
    pose proof (sT_mono j1 u ltac:(lia)). lia.
  - apply (NO i u); auto; [lia|]. replace (sT u - sT i)%nat with g by lia. auto.
Qed.

(** Whatever recurs from n on does so with the period that is found. *)
Lemma found_period lim a b sp q n m : sr_end (strict_run comp lim check) = SLin a b sp q -> recurs_at M n m ->
  recurs_at M n (Z.to_nat b).
Proof.
  intros E RC. pose proof (strict_run_ok comp lim check) as (_ & OK). fold M in OK. rewrite E in OK. destruct OK as (A0 & B0 & RB & _).
  assert (Hm : (0 < m)%nat) by (destruct RC as (? & ? & ? & ? & _); auto).
  pose proof (recurs_trace _ _ RC) as TM. pose proof (recurs_trace _ _ RB) as TB.
  set (N := (n + Z.to_nat a)%nat).
  destruct (period_gcd N (m + Z.to_nat b) m (Z.to_nat b)) as (g & G0 & (x & GX) & (y & GY) & GT); try lia.
  { intros t T. apply TM. unfold N in T. lia. }
  { intros t T. apply TB. unfold N in T. lia. }
  pose proof (period_now n N m g ltac:(lia) TM GT) as GA.
  pose proof (trace_recurs n g G0 GA) as RG.
  pose proof (found_least lim a b sp q n g E RG) as LE.
  replace (Z.to_nat b) with g; auto. destruct y; cbn in GY; lia.
Qed.

(** The first recurrence starts in the sweep before the start that is found. *)
Lemma found_start lim a b sp q n m t : sr_end (strict_run comp lim check) = SLin a b sp q -> recurs_at M n m ->
  check <= Z.of_nat n -> (n <= t)%nat -> Z.of_nat t < a -> trace t = trace n.
Proof.
  intros E RC CN NT TA. pose proof (found_period _ _ _ _ _ _ _ E RC) as RB. clear RC m.
  destruct (found_pass lim a b sp q E) as (i & j & L & CA & EA & EB).
  assert (B0 : (0 < Z.to_nat b)%nat) by (destruct RB as (? & ? & ? & ? & _); auto).
  pose proof (recurs_trace _ _ RB) as TB.
  destruct (find_pass n i 0 ltac:(cbn; lia)) as (u & U1 & U2).
  destruct (le_lt_dec (sT (S u)) t) as [LE|LT].
  2:{ clear -NH U2 NT LT. revert t NT LT. induction t as [|t IH]; intros NT LT.
      - f_equal. lia.
      - destruct (Nat.eq_dec n (S t)) as [<-|NE]; auto. rewrite <- IH by lia.
        destruct (pass_inside u (S t) ltac:(lia)) as (_ & X). rewrite <- X. f_equal. lia. }
  exfalso.
  assert (V : exists v, sT v = (sT (S u) + Z.to_nat b)%nat).
  { pose proof (sT_ge (S (sT (S u) + Z.to_nat b))) as GB.
    destruct (find_pass (sT (S u) + Z.to_nat b) (S (sT (S u) + Z.to_nat b)) (S u) ltac:(lia)) as (v & V1 & V2).
    exists v. destruct (Nat.eq_dec (sT v) (sT (S u) + Z.to_nat b)) as [|Q]; auto. exfalso.
    destruct (pass_inside v (sT (S u) + Z.to_nat b) ltac:(lia)) as (EV & X).
    destruct (pass_ends u) as [E1|E1].
    - destruct (edge_spins u E1) as (E2 & E3). pose proof (pass_ends v) as [E4|E4]; [congruence|].
      apply E4. pose proof (sT_S v). pose proof (sT_mono (S u) v ltac:(lia)). pose proof (sT_S u).
      rewrite (E3 (sT (S v) - 1)%nat), (E3 (sT (S v))) by lia. auto.
    - apply E1. rewrite <- (TB (sT (S u))) by lia. rewrite <- X. rewrite <- (TB (sT (S u) - 1)%nat) by lia. f_equal. lia. }
  destruct V as (v & V).
  assert (UV : (S u < v)%nat) by (apply sT_inj; lia). assert (VJ : (v < j)%nat) by (apply sT_inj; lia).
  destruct (run_to (S v) (lim - S v)) as [(j' & L' & (i1 & j1 & a1 & b1 & sp1 & q1 & E1 & I1 & _ & EA1 & EB1))|(NO & _)].
  - replace (S v + (lim - S v))%nat with lim in E1 by lia. rewrite E in E1. injection E1 as -> -> -> ->.
    pose proof (sT_mono j1 v ltac:(lia)). lia.
  - apply (NO (S u) v); auto; try lia. replace (sT v - sT (S u))%nat with (Z.to_nat b) by lia.
    apply (recurs_later n); auto. lia.
Qed.

(** Every recurrence is found. *)
Lemma found_all n m : recurs_at M n m -> exists L, forall lim, (L <= lim)%nat ->
  exists a b sp q, sr_end (strict_run comp lim check) = SLin a b sp q.
Proof.
  intros RC. set (r := (n + Z.to_nat check)%nat). pose proof (sT_ge r) as GR. pose proof (recurs_trace _ _ RC) as TM.
  assert (Hm : (0 < m)%nat) by (destruct RC as (? & ? & ? & ? & _); auto).
  assert (IJ : exists i j, (i < j)%nat /\ check <= Z.of_nat (sT i) /\ recurs_at M (sT i) (sT j - sT i)).
  { destruct (pass_ends r) as [E|E].
    - destruct (edge_spins r E) as (E1 & E2). exists r, (S r). split; [lia|]. split; [unfold r in *; lia|].
      apply trace_recurs; [lia|]. intros t T. rewrite (E2 t) by lia. apply E2. lia.
    - pose proof (sT_S r) as LS. pose proof (sT_ge (S (sT (S r) + m))) as GB.
      destruct (find_pass (sT (S r) + m) (S (sT (S r) + m)) (S r) ltac:(lia)) as (u & U1 & U2).
      assert (Q : sT u = (sT (S r) + m)%nat).
      { destruct (Nat.eq_dec (sT u) (sT (S r) + m)) as [|Q]; auto. exfalso.
        destruct (pass_inside u (sT (S r) + m) ltac:(lia)) as (_ & X). apply E.
        rewrite <- (TM (sT (S r))) by lia. rewrite <- X. rewrite <- (TM (sT (S r) - 1)%nat) by lia. f_equal. lia. }
      exists (S r), u. split; [apply sT_inj; lia|]. split; [unfold r in *; lia|].
      replace (sT u - sT (S r))%nat with m by lia. apply (recurs_later n); auto. lia. }
  destruct IJ as (i & j & L & CI & RI). exists (S j). intros lim LL.
  destruct (found_at i j (lim - S j) L CI RI) as (_ & _ & a & b & sp & q & E & _).
  replace (S j + (lim - S j))%nat with lim in E by lia. exists a, b, sp, q. exact E.
Qed.
End comp.

Lemma strict_finds comp check : recurs (machine_of comp) -> exists L, forall lim, (L <= lim)%nat ->
  exists a b sp q, sr_end (strict_run comp lim check) = SLin a b sp q.
Proof.
  intros RC. pose proof (recurs_never_halts _ RC) as NH. destruct RC as (n & m & c & d & k & H).
  apply (found_all comp NH check n m). exists c, d, k. exact H.
Qed.

Lemma strict_least comp check lim a b sp q n m : sr_end (strict_run comp lim check) = SLin a b sp q ->
  recurs_at (machine_of comp) n m -> b <= Z.of_nat m.
Proof.
  intros E RC. pose proof (recurs_never_halts _ (recurs_at_recurs _ _ _ RC)) as NH. eapply found_least; eauto.
Qed.

(** A machine recurs from the nth move on if the states and colours it reads do. *)
Lemma recurs_at_trace comp n m : (0 < m)%nat -> (recurs_at (machine_of comp) n m <->
  forall t, (n <= t)%nat -> exists c d, steps (machine_of comp) t init = Some c /\ steps (machine_of comp) (t + m) init = Some d
    /\ c_state d = c_state c /\ c_tape d (c_pos d) = c_tape c (c_pos c)).
Proof.
  intros Hm. split.
  - intros RC t L. pose proof (recurs_never_halts _ (recurs_at_recurs _ _ _ RC)) as NH.
    exists (C comp t), (C comp (t + m)). split; [apply C_run; auto|]. split; [apply C_run; auto|].
    pose proof (recurs_trace comp NH n m RC t L) as X. unfold trace in X. injection X as X Y. auto.
  - intros H. assert (NH : never_halts (machine_of comp)).
    { intros t. destruct (H (n + t)%nat ltac:(lia)) as (c & _ & E & _). apply (steps_le _ (n + t) t init c); [lia|auto]. }
    apply (trace_recurs comp NH); auto. intros t L. destruct (H t L) as (c & d & E1 & E2 & E3 & E4).
    pose proof (C_run comp NH t) as X. pose proof (C_run comp NH (t + m)) as Y.
    rewrite E1 in X. rewrite E2 in Y. injection X as ->. injection Y as ->. unfold trace. congruence.
Qed.

(** Before the start that is found the machine only sweeps over equal cells, at most. *)
Lemma strict_start comp check lim a b sp q n m t c d : sr_end (strict_run comp lim check) = SLin a b sp q ->
  recurs_at (machine_of comp) n m -> check <= Z.of_nat n -> (n <= t)%nat -> Z.of_nat t < a ->
  steps (machine_of comp) n init = Some c -> steps (machine_of comp) t init = Some d ->
  c_state d = c_state c /\ c_tape d (c_pos d) = c_tape c (c_pos c).
Proof.
  intros E RC CN NT TA S1 S2. pose proof (recurs_never_halts _ (recurs_at_recurs _ _ _ RC)) as NH.
  pose proof (found_start comp NH check lim a b sp q n m t E RC CN NT TA) as X.
  rewrite (C_run comp NH) in S1, S2. injection S1 as <-. injection S2 as <-. unfold trace in X. injection X as X Y. auto.
Qed.

(** Whatever recurs from n on does so with the period that is found. *)
Lemma strict_period comp check lim a b sp q n m : sr_end (strict_run comp lim check) = SLin a b sp q ->
  recurs_at (machine_of comp) n m -> recurs_at (machine_of comp) n (Z.to_nat b).
Proof.
  intros E RC. pose proof (recurs_never_halts _ (recurs_at_recurs _ _ _ RC)) as NH. eapply found_period; eauto.
Qed.
