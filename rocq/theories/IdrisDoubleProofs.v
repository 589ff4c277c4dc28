(** * Proofs about runDouble of idris/Machine.idr *)
From Verif Require Import Base TM TMFacts TapeProofs IdrisModel IdrisSpec IdrisProofs IdrisRunProofs.

Lemma leqb_eq {A} (eqb : A -> A -> bool) : (forall x y, eqb x y = true -> x = y) -> forall a b, leqb eqb a b = true -> a = b.
Proof.
  intros E. induction a as [|x a IH]; intros [|y b] H; cbn in H; try discriminate H; auto.
  apply andb_true_iff in H. destruct H as (H1 & H2). rewrite (E _ _ H1), (IH _ H2). reflexivity.
Qed.

Lemma sn_eqb_right {A} (sp : spannable A) sk ok den : (forall a b, sp_eqb sp a b = true -> a = b) -> eqb_right (sn_ops sp sk) (both ok) (around den).
Proof.
  intros E [[l c] r] [[l' c'] r'] _ _ H i. cbn [tp_eqb sn_ops sn_eqb] in H. apply andb_true_iff in H. destruct H as (H & H3).
  apply andb_true_iff in H. destruct H as (H1 & H2). apply Z.eqb_eq in H2. rewrite (E _ _ H1), (E _ _ H3), H2. reflexivity.
Qed.

Lemma zeqb_eq x y : (x =? y) = true -> x = y.
Proof. apply Z.eqb_eq. Qed.

Lemma block_eqb_eq x y : block_eqb x y = true -> x = y.
Proof.
  destruct x as [a b], y as [a' b']. unfold block_eqb. cbn [fst snd]. rewrite andb_true_iff, Z.eqb_eq, Nat.eqb_eq. intros (-> & ->). reflexivity.
Qed.

Lemma cell_eqb_right : eqb_right cell_ops (both (fun _ => True)) (around cells_den).
Proof. apply sn_eqb_right, (leqb_eq _ zeqb_eq). Qed.
Lemma cvect_eqb_right : eqb_right cvect_ops (both (fun _ => True)) (around cells_den).
Proof. apply sn_eqb_right, (leqb_eq _ zeqb_eq). Qed.
Lemma block_eqb_right : eqb_right block_ops (both blocks_ok) (around blocks_den).
Proof. apply sn_eqb_right, (leqb_eq _ block_eqb_eq). Qed.
Lemma bvect_eqb_right : eqb_right bvect_ops (both blocks_ok) (around blocks_den).
Proof. apply sn_eqb_right, (leqb_eq _ block_eqb_eq). Qed.
Lemma split_eqb_right : eqb_right split_ops (both split_ok) (around split_den).
Proof.
  apply sn_eqb_right. intros [a b] [a' b'] H. cbn [sp_eqb split_span fst snd] in H. apply andb_true_iff in H. destruct H as (H1 & H2).
  rewrite (leqb_eq _ zeqb_eq _ _ H1), (leqb_eq Nat.eqb (fun x y => proj1 (Nat.eqb_eq x y)) _ _ H2). reflexivity.
Qed.
Lemma num_eqb_right : eqb_right num_ops (both (fun z => 0 <= z)) (around num_den).
Proof. apply sn_eqb_right. exact zeqb_eq. Qed.
Lemma ptr_eqb_right fuel : eqb_right (ptr_ops fuel) ptr_ok ptr_cell.
Proof.
  intros [p a] [p' a'] _ _ H i. cbn [tp_eqb ptr_ops] in H. unfold ptr_eqb in H. cbn [fst snd] in H. apply andb_true_iff in H. destruct H as (H1 & H2).
  apply Nat.eqb_eq in H1. rewrite H1, (leqb_eq _ zeqb_eq _ _ H2). reflexivity.
Qed.

Section Double.
Context {T : Type} (o : tape_ops T) (good : Z -> Prop) (ok : T -> Prop) (cell : T -> Z -> Z)
  (TR : tape_right o good ok cell) (EQ : eqb_right o ok cell).
Context (P : iprogram) (PG : prints good P).
Let M := machine_of_idris P.

(** [n] executions from the start: state, tape, moves, whether any was of a machine spinning out. *)
Fixpoint walk (n : nat) (st : Z) (t : T) : option (Z * T * nat * bool) :=
  match n with
  | O => Some (st, t, 0%nat, false)
  | S n => match walk n st t with
           | Some (st', t', k, r) =>
               match exec o P st' t' with
               | Some (st'', t'', k', r') => Some (st'', t'', (k' + k)%nat, r' || r)
               | None => None
               end
           | None => None
           end
  end.

Lemma walk_add a : forall b st t st' t' k r, walk a st t = Some (st', t', k, r) -> walk (a + b) st t =
  match walk b st' t' with Some (st'', t'', k', r') => Some (st'', t'', (k' + k)%nat, r' || r) | None => None end.
Proof.
  intros b st t st' t' k r W. induction b as [|b IH].
  - rewrite Nat.add_0_r, W. reflexivity.
  - rewrite Nat.add_succ_r. cbn [walk]. rewrite IH. destruct (walk b st' t') as [[[[s1 t1] k1] r1]|]; [|reflexivity].
    destruct (exec o P s1 t1) as [[[[s2 t2] k2] r2]|]; [|reflexivity]. rewrite Nat.add_assoc, orb_assoc. reflexivity.
Qed.

Lemma walk_right n : forall st t s c st' t' k r, steps M s init = Some c -> ok t -> shows cell t c -> c_state c = st - 1 -> st <> 0 ->
  walk n st t = Some (st', t', k, r) ->
  stops M \/ (st' <> 0 /\ ok t' /\ exists d, steps M k c = Some d /\ shows cell t' d /\ c_state d = st' - 1
    /\ (if r then exists j e, steps M j init = Some e /\ spins_out_from M e else (n <= k)%nat)).
Proof.
  induction n as [|n IH]; intros st t s c st' t' k r S0 O SH SC N W; cbn [walk] in W.
  - injection W as <- <- <- <-. right. split; [exact N|]. split; [exact O|]. exists c. repeat (split; [auto; reflexivity|]). lia.
  - destruct (walk n st t) as [[[[s1 t1] k1] r1]|] eqn:W1; [|discriminate W].
    destruct (exec o P s1 t1) as [[[[s2 t2] k2] r2]|] eqn:E; [|discriminate W]. injection W as <- <- <- <-.
    destruct (IH _ _ _ _ _ _ _ _ S0 O SH SC N W1) as [H|(N1 & O1 & d & D1 & D2 & D3 & D4)]; [left; exact H|].
    assert (S1 : steps M (s + k1) init = Some d) by (rewrite (steps_add_some _ _ _ _ _ S0); exact D1).
    pose proof (exec_right o good ok cell TR P PG _ _ _ _ _ _ _ O1 D2 D3 N1 E) as X. destruct r2.
    + destruct X as (-> & -> & -> & SP). right. split; [exact N1|]. split; [exact O1|]. exists d. split; [exact D1|]. split; [exact D2|]. split; [exact D3|].
      cbn [orb]. exists (s + k1)%nat, d. split; [exact S1|exact SP].
    + destruct X as (K1 & O2 & _ & e & E1 & E2 & E3 & _). cbn [orb].
      assert (S2 : steps M (k2 + k1) c = Some e) by (rewrite Nat.add_comm, (steps_add_some _ _ _ _ _ D1); exact E1).
      destruct (Z.eq_dec s2 0) as [Z0|Z0].
      * left. exists (s + (k2 + k1))%nat, e. split; [rewrite (steps_add_some _ _ _ _ _ S0); exact S2|]. rewrite E2, Z0. reflexivity.
      * right. split; [exact Z0|]. split; [exact O2|]. exists e. split; [exact S2|]. split; [exact E3|]. split; [exact E2|].
        destruct r1; [exact D4|lia].
Qed.

Lemma double_walks k : forall a b st1 tp1 step r1 st2 tp2 slow r2 s cy t,
  walk b 1 (tp_init o) = Some (st1, tp1, step, r1) -> walk a 1 (tp_init o) = Some (st2, tp2, slow, r2) ->
  (a < b)%nat \/ (a = 0%nat /\ b = 0%nat) ->
  run_double o k P st1 tp1 step st2 tp2 slow = IDone s cy t ->
  exists a b n t1 t2 k1 k2 r1 r2, (a < b)%nat /\ walk b 1 (tp_init o) = Some (n, t1, k1, r1) /\ walk a 1 (tp_init o) = Some (n, t2, k2, r2)
    /\ tp_eqb o t1 t2 = true /\ exists a' n' r', walk a' 1 (tp_init o) = Some (n', t, s, r').
Proof.
  induction k as [|k IH]; intros a b st1 tp1 step r1 st2 tp2 slow r2 s cy t W1 W2 AB R; cbn [run_double] in R; [discriminate R|].
  destruct (exec o P st1 tp1) as [[[[nst1 ntp1] nstep] q1]|] eqn:E1; [|discriminate R].
  destruct (if (step mod 2 =? 0)%nat then Some (st2, tp2, 0%nat, false) else exec o P st2 tp2) as [[[[nst2 ntp2] nslow] q2]|] eqn:E2; [|discriminate R].
  assert (W1' : walk (S b) 1 (tp_init o) = Some (nst1, ntp1, (nstep + step)%nat, q1 || r1)) by (cbn [walk]; rewrite W1, E1; reflexivity).
  assert (W2' : exists a' r', (a' < S b)%nat /\ walk a' 1 (tp_init o) = Some (nst2, ntp2, (nslow + slow)%nat, r')).
  { destruct (step mod 2 =? 0)%nat eqn:MD.
    - injection E2 as <- <- <- <-. exists a, r2. split; [lia|exact W2].
    - exists (S a), (q2 || r2). split; [|cbn [walk]; rewrite W2, E2; reflexivity]. destruct AB as [AB|(-> & ->)]; [lia|].
      cbn [walk] in W1. injection W1 as <- <- <- <-. discriminate MD. }
  destruct W2' as (a' & r' & La & W2'). destruct ((nst1 =? nst2) && tp_eqb o ntp1 ntp2) eqn:Q.
  - injection R as <- <- <-. apply andb_true_iff in Q. destruct Q as (Q1 & Q2). apply Z.eqb_eq in Q1. subst nst2.
    exists a', (S b), nst1, ntp1, ntp2, (nstep + step)%nat, (nslow + slow)%nat, (q1 || r1), r'.
    split; [exact La|]. split; [exact W1'|]. split; [exact W2'|]. split; [exact Q2|]. exists a, st2, r2. exact W2.
  - apply (IH _ _ _ _ _ _ _ _ _ _ _ _ _ W1' W2' (or_introl La) R).
Qed.

Lemma double_right sim_lim s cy t : run_double_on_blank o sim_lim P = IDone s cy t ->
  stops M \/ (recurs M /\ exists c, steps M s init = Some c /\ marks_are (c_tape c) (Z.of_nat (tp_marks o t))).
Proof.
  unfold run_double_on_blank. destruct (run_double o sim_lim P 1 (tp_init o) 0 1 (tp_init o) 0) as [| |s' cy' t'] eqn:R; intros X; try discriminate X.
  injection X as <- <- <-.
  destruct (double_walks sim_lim 0 0 _ _ _ false _ _ _ false _ _ _ eq_refl eq_refl (or_intror (conj eq_refl eq_refl)) R)
    as (a & b & n & t1 & t2 & k1 & k2 & r1 & r2 & AB & W1 & W2 & Q & a' & n' & r' & W3).
  pose proof TR as ((O0 & B0) & _ & _ & _ & _ & MK).
  assert (SH0 : shows cell (tp_init o) init) by (intros i; rewrite B0; reflexivity).
  assert (S0 : steps M 0 init = Some init) by reflexivity.
  destruct (walk_right a' 1 (tp_init o) 0 init _ _ _ _ S0 O0 SH0 eq_refl ltac:(lia) W3) as [H|(_ & O3 & d3 & D3 & SH3 & _)]; [left; exact H|].
  destruct (walk_right a 1 (tp_init o) 0 init _ _ _ _ S0 O0 SH0 eq_refl ltac:(lia) W2) as [H|(N2 & O2 & d2 & D2 & SH2 & SC2 & _)]; [left; exact H|].
  pose proof (walk_add a (b - a) _ _ _ _ _ _ W2) as WA. replace (a + (b - a))%nat with b in WA by lia. rewrite W1 in WA.
  destruct (walk (b - a) n t2) as [[[[n4 t4] k4] r4]|] eqn:W4; [|discriminate WA]. injection WA as <- <- -> ->.
  destruct (walk_right (b - a) _ _ _ _ _ _ _ _ D2 O2 SH2 SC2 N2 W4) as [H|(N4 & O4 & d4 & D4 & SH4 & SC4 & K4)]; [left; exact H|].
  right. split.
  - destruct r4.
    + destruct K4 as (j & e & J1 & J2). exists j, e. split; [exact J1|]. left. exact J2.
    + exists k2, d2. split; [exact D2|]. right. exists k4, (c_pos d4 - c_pos d2), d4. split; [lia|]. split; [exact D4|].
      split; [congruence|]. split; [lia|]. intros p.
      pose proof (EQ _ _ O4 O2 Q (p - c_pos d2)) as X. rewrite SH4, SH2 in X.
      replace (c_pos d4 + (p - c_pos d2)) with (p + (c_pos d4 - c_pos d2)) in X by lia.
      replace (c_pos d2 + (p - c_pos d2)) with p in X by lia. exact X.
  - exists d3. split; [exact D3|]. apply (marks_are_shift (cell t') _ _ (c_pos d3)); [intros p; symmetry; apply SH3|]. apply MK. exact O3.
Qed.

End Double.
