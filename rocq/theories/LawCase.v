(** * A machine whose rule is a law *)
From Verif Require Import Base TM TMFacts ProgModel TapeModel TapeSpec TapeProofs RulesModel RulesSpec RulesProofs
  EnumModel QuickModel ProverModel MachineProofs LawSpec LawProofs.

(** Writes [n] 2s and consumes them one by one while a block of 1s grows by two per turn. *)
Definition shuttle (n : nat) : comp_prog :=
  let z := Z.of_nat in
  map (fun i => ((z i, 0), (2, true, z (S i)))) (seq 0 n)
  ++ [((z n, 0), (1, false, z (n + 1)%nat)); ((z (n + 1)%nat, 1), (1, false, z (n + 1)%nat));
      ((z (n + 1)%nat, 2), (1, true, z (n + 2)%nat)); ((z (n + 2)%nat, 1), (1, true, z (n + 2)%nat));
      ((z (n + 2)%nat, 0), (1, false, z (n + 1)%nat))].

Definition shuttle_rule : rule := [((false, 0%nat), Plus 2); ((false, 1%nat), Plus (-1))].

Lemma hop M s color shift next t t' k : wf_tape t -> M s (t_scan t) = Some (color, shift, next) ->
  py_step t shift color (s =? next) = (t', k) ->
  wf_tape t' /\ forall c, represents t c -> c_state c = s ->
    exists n c', (1 <= n)%nat /\ steps M n c = Some c' /\ c_state c' = next /\ represents t' c'.
Proof.
  intros W EM ES. split.
  - pose proof (py_step_refines_lemma M t (Cfg s 0 (tape_cell t)) shift color next (s =? next) W (fun i => eq_refl) EM) as X.
    rewrite ES in X. destruct X as (_ & A & _); auto. intros Y. zb. auto.
  - intros c R S. pose proof (py_step_refines_lemma M t c shift color next (s =? next) W R) as X. rewrite S in X.
    specialize (X EM). rewrite ES in X. destruct X as (N & _ & _ & d & A & B & D & _). { intros Y. zb. auto. }
    exists (Z.to_nat k), d. split; [lia|auto].
Qed.

Ltac zc := repeat match goal with
  | |- context [Z.eqb ?x ?y] =>
      let v := eval vm_compute in (Z.eqb x y) in
      match v with true => change (Z.eqb x y) with true | false => change (Z.eqb x y) with false end
  end; cbn; unfold py_pull_one, py_insert, py_push; cbn.
Ltac zcs := cbn; zc; zc; zc.

Lemma shuttle_turn a b ls : 1 <= a -> 2 <= b -> wf_span ls ->
  leads 1 (machine_of (shuttle 12)) 14 (Tape (Blk 1 a :: Blk 2 b :: ls) 0 []) (Tape (Blk 1 (a + 2) :: Blk 2 (b - 1) :: ls) 0 []).
Proof.
  intros Ha Hb W c R S. set (M := machine_of (shuttle 12)) in *.
  set (t0 := Tape (Blk 1 a :: Blk 2 b :: ls) 0 []) in *.
  assert (W0 : wf_tape t0) by (split; repeat constructor; cbn; auto; lia).
  set (t1 := Tape (if a =? 1 then Blk 2 b :: ls else Blk 1 (a - 1) :: Blk 2 b :: ls) 1 [Blk 1 1]).
  destruct (hop M 14 1 false 13 t0 t1 1 W0 eq_refl) as (W1 & H1).
  { unfold t0, t1, py_step. zcs. destruct (a =? 1); zcs; reflexivity. }
  set (t2 := Tape (Blk 2 (b - 1) :: ls) 2 [Blk 1 (a + 1)]).
  destruct (hop M 13 1 false 13 t1 t2 a W1 eq_refl) as (W2 & H2).
  { unfold t1, t2, py_step. destruct (Z.eqb_spec a 1) as [->|N].
    - zcs. replace (b =? 1) with false by (symmetry; apply Z.eqb_neq; lia). zcs. reflexivity.
    - zcs. replace (b =? 1) with false by (symmetry; apply Z.eqb_neq; lia). zcs.
      replace (1 + (a - 1)) with a by lia. replace (1 + a) with (a + 1) by lia. reflexivity. }
  set (t3 := Tape (Blk 1 1 :: Blk 2 (b - 1) :: ls) 1 [Blk 1 a]).
  destruct (hop M 13 1 true 14 t2 t3 1 W2 eq_refl) as (W3 & H3).
  { unfold t2, t3, py_step. zcs. replace (a + 1 =? 1) with false by (symmetry; apply Z.eqb_neq; lia). zcs.
    replace (a + 1 - 1) with a by lia. auto. }
  set (t4 := Tape (Blk 1 (a + 2) :: Blk 2 (b - 1) :: ls) 0 []).
  destruct (hop M 14 1 true 14 t3 t4 (a + 1) W3 eq_refl) as (W4 & H4).
  { unfold t3, t4, py_step. zcs. replace (1 + (1 + a)) with (a + 2) by lia. replace (1 + a) with (a + 1) by lia. reflexivity. }
  destruct (H1 c R S) as (n1 & c1 & N1 & E1 & S1 & R1). destruct (H2 c1 R1 S1) as (n2 & c2 & N2 & E2 & S2 & R2).
  destruct (H3 c2 R2 S2) as (n3 & c3 & N3 & E3 & S3 & R3). destruct (H4 c3 R3 S3) as (n4 & c4 & N4 & E4 & S4 & R4).
  exists (n1 + (n2 + (n3 + n4)))%nat, c4. split; [lia|]. split; auto.
  rewrite (steps_add_some _ _ _ _ _ E1), (steps_add_some _ _ _ _ _ E2), (steps_add_some _ _ _ _ _ E3). auto.
Qed.

Lemma shuttle_after k a b ls : after shuttle_rule k (Tape (Blk 1 a :: Blk 2 b :: ls) 0 [])
  (Tape (Blk 1 (a + 2 * Z.of_nat k) :: Blk 2 (b - Z.of_nat k) :: ls) 0 []).
Proof.
  split; [repeat split|]. intros i.
  destruct (rule_at shuttle_rule i) as [o|] eqn:RA.
  - cbn in RA. destruct (index_eqb_spec (false, 0%nat) i) as [<-|N0].
    + inv RA. rewrite (bump_n_Plus shuttle_rule k _ (false, 0%nat) 2 a); [cbn; f_equal; lia|reflexivity|reflexivity].
    + destruct (index_eqb_spec (false, 1%nat) i) as [<-|N1]; [|discriminate].
      inv RA. rewrite (bump_n_Plus shuttle_rule k _ (false, 1%nat) (-1) b); [cbn; f_equal; lia|reflexivity|reflexivity].
  - rewrite bump_n_None by auto. cbn in RA. destruct i as [[|] [|[|i]]]; cbn in RA; try discriminate; reflexivity.
Qed.

Definition shuttle_rules : list (slot * list (minsig * rule)) :=
  [((14, 0), [((Sig 0 [TapeModel.Mult 1; TapeModel.Mult 2] [], (false, true)), shuttle_rule)])].

Lemma shuttle_rules_lawful pv : pv_rules pv = shuttle_rules -> lawful (machine_of (shuttle 12)) pv.
Proof.
  intros PR state scan ms r t (v & H1 & H2) CV C. unfold shuttle_rules in PR.
  rewrite PR in H1. clear PR. destruct H1 as [X|[]]. inv X. destruct H2 as [X|[]]. inv X.
  destruct CV as (SC & (rest & L & _) & (rest' & R & RX)). specialize (RX eq_refl). subst rest'.
  destruct t as [l s rr]. cbn in SC, L, R. subst s.
  destruct rr; [|discriminate]. destruct l as [|[c1 a] l]; [discriminate|]. destruct l as [|[c2 b] ls]; [discriminate|].
  cbn in L. inversion L as [[La Lb Lr]]. unfold sig_of_block in La, Lb. cbn in La, Lb.
  destruct (a =? 1) eqn:Ea; [discriminate|]. destruct (b =? 1) eqn:Eb; [discriminate|]. inv La. inv Lb.
  destruct C as ((Ha & _ & Hb & _ & Hls) & _). cbn in Ha, Hb. apply canon_wf_span in Hls.
  intros k t1 t2 A1 W1 NB A2.
  rewrite (after_unique _ _ _ _ _ A1 (shuttle_after k a b ls)) in *. clear A1.
  rewrite (after_unique _ _ _ _ _ A2 (shuttle_after (S k) a b ls)). clear A2.
  assert (NB' : 2 <= b - Z.of_nat k).
  { destruct (Z.le_gt_cases 2 (b - Z.of_nat k)); auto. exfalso. apply NB.
    exists (false, 1%nat), (-1), (b - Z.of_nat k). split; [right; left; auto|]. split; [lia|]. split; [reflexivity|lia]. }
  split. { split; repeat constructor; cbn; auto; lia. }
  replace (a + 2 * Z.of_nat (S k)) with (a + 2 * Z.of_nat k + 2) by lia.
  replace (b - Z.of_nat (S k)) with (b - Z.of_nat k - 1) by lia.
  apply shuttle_turn; auto; lia.
Qed.

Lemma shuttle_lawful : lawful (machine_of (shuttle 12)) (m_prover (py_machine_run (plain (machine_of (shuttle 12))) 1000)).
Proof. apply shuttle_rules_lawful. vm_compute. reflexivity. Qed.

Lemma shuttle_one_goes_down pv : pv_rules pv = shuttle_rules -> forall s ms ru, holds_rule pv s ms ru -> one_goes_down ru.
Proof.
  intros PR s ms ru (v & H1 & H2). rewrite PR in H1. destruct H1 as [X|[]]. inv X. destruct H2 as [X|[]]. inv X.
  intros i d j e [A|[A|[]]] [B|[B|[]]] D E; inv A; inv B; auto; lia.
Qed.
