(** * A machine whose counts become expressions, and whose rules are laws *)
From Coq Require Import QArith Znumtheory.
From Verif Require Import Base TM TMFacts ProgModel TapeModel TapeSpec TapeProofs RulesModel RulesSpec RulesProofs
  EnumModel QuickModel ProverModel MachineProofs LawSpec LawProofs LawCase NumModel NumSpec NumProofs NumMore SymModel SymSpec SymProofs
  SymMachModel SymMachSpec SymMachProofs.
Local Open Scope Z_scope.

(** Writes [K] 1s and a 2, and then for each 1 about doubles a block of 3s (adding two 3s for each 2, then turning
    the 3s into 2s). *)
Fixpoint setup (K : nat) (s next : Z) : comp_prog :=
  match K with
  | O => [((s, 0), (2, true, next))]
  | S K => ((s, 0), (1, true, s + 1)) :: setup K (s + 1) next
  end.
Definition doubler (K : nat) : comp_prog :=
  let W := Z.of_nat K + 1 in let Q := W + 1 in let X := W + 2 in
  setup K 0 X ++ [((W, 3), (3, false, W)); ((W, 2), (3, true, Q)); ((Q, 3), (3, true, Q)); ((Q, 0), (3, false, W));
                  ((W, 1), (2, true, X)); ((X, 3), (2, true, X)); ((X, 0), (0, false, W))].

Definition D : program := machine_of (doubler 60).

Definition reach (s : Z) (t : tape) (s' : Z) (t' : tape) : Prop :=
  forall c, represents t c -> c_state c = s -> exists n c', (1 <= n)%nat /\ steps D n c = Some c' /\ c_state c' = s' /\ represents t' c'.
Lemma reach_trans s t s' t' s'' t'' : reach s t s' t' -> reach s' t' s'' t'' -> reach s t s'' t''.
Proof.
  intros A B c R S. destruct (A c R S) as (n & c1 & N & E & S1 & R1). destruct (B c1 R1 S1) as (n' & c2 & N' & E' & S2 & R2).
  exists (n + n')%nat, c2. split; [lia|]. split; auto. rewrite (steps_add_some _ _ _ _ _ E). auto.
Qed.
Lemma reach_leads s t t' : reach s t s t' -> leads 1 D s t t'.
Proof. intros H c R S. destruct (H c R S) as (n & c' & X). exists n, c'. auto. Qed.

Ltac ne1 x := replace (x =? 1) with false by (symmetry; apply Z.eqb_neq; lia).

(** Out and back over the 3s, from a scanned 2. *)
Lemma out_and_back l y : 2 <= y -> wf_span l -> match l with b :: _ => b_color b <> 3 /\ 2 <= b_count b | [] => False end ->
  reach 61 (Tape l 2 [Blk 3 y]) 61 (match l with b :: l => Tape (Blk (b_color b) (b_count b - 1) :: l) (b_color b) [Blk 3 (y + 2)] | [] => init_tape end).
Proof.
  intros Y W H. destruct l as [|[cl x] l]; [contradiction|]. cbn [b_color b_count] in *. destruct H as (CL & X).
  set (t0 := Tape (Blk cl x :: l) 2 [Blk 3 y]).
  assert (W0 : wf_tape t0) by (split; cbn; auto; repeat constructor; cbn; lia).
  set (t1 := Tape (Blk 3 1 :: Blk cl x :: l) 3 [Blk 3 (y - 1)]).
  destruct (hop D 61 3 true 62 t0 t1 1 W0 eq_refl) as (W1 & H1).
  { unfold t0, t1, py_step. zcs. ne1 y. zcs. replace (cl =? 3) with false by (symmetry; apply Z.eqb_neq; auto). zcs. reflexivity. }
  set (t2 := Tape (Blk 3 (1 + y) :: Blk cl x :: l) 0 []).
  destruct (hop D 62 3 true 62 t1 t2 y W1 eq_refl) as (W2 & H2).
  { unfold t1, t2, py_step. zcs. replace (1 + (y - 1)) with y by lia. reflexivity. }
  set (t3 := Tape (Blk 3 y :: Blk cl x :: l) 3 [Blk 3 1]).
  destruct (hop D 62 3 false 61 t2 t3 1 W2 eq_refl) as (W3 & H3).
  { unfold t2, t3, py_step. zcs. ne1 (1 + y). zcs. replace (1 + y - 1) with y by lia. reflexivity. }
  set (t4 := Tape (Blk cl (x - 1) :: l) cl [Blk 3 (y + 2)]).
  destruct (hop D 61 3 false 61 t3 t4 (1 + y) W3 eq_refl) as (W4 & H4).
  { unfold t3, t4, py_step. zcs. ne1 x. zcs. replace (1 + (1 + y)) with (y + 2) by lia. reflexivity. }
  eapply reach_trans; [exact H1|]. eapply reach_trans; [exact H2|]. eapply reach_trans; [exact H3|exact H4].
Qed.
(** The same when the 2 to the left is the last of its block. *)
Lemma out_and_back1 l y : 2 <= y -> wf_span l -> reach 61 (Tape (Blk 2 1 :: l) 2 [Blk 3 y]) 61 (Tape l 2 [Blk 3 (y + 2)]).
Proof.
  intros Y W.
  set (t0 := Tape (Blk 2 1 :: l) 2 [Blk 3 y]).
  assert (W0 : wf_tape t0) by (split; cbn; repeat constructor; cbn; auto; lia).
  set (t1 := Tape (Blk 3 1 :: Blk 2 1 :: l) 3 [Blk 3 (y - 1)]).
  destruct (hop D 61 3 true 62 t0 t1 1 W0 eq_refl) as (W1 & H1).
  { unfold t0, t1, py_step. zcs. ne1 y. zcs. reflexivity. }
  set (t2 := Tape (Blk 3 (1 + y) :: Blk 2 1 :: l) 0 []).
  destruct (hop D 62 3 true 62 t1 t2 y W1 eq_refl) as (W2 & H2).
  { unfold t1, t2, py_step. zcs. replace (1 + (y - 1)) with y by lia. reflexivity. }
  set (t3 := Tape (Blk 3 y :: Blk 2 1 :: l) 3 [Blk 3 1]).
  destruct (hop D 62 3 false 61 t2 t3 1 W2 eq_refl) as (W3 & H3).
  { unfold t2, t3, py_step. zcs. ne1 (1 + y). zcs. replace (1 + y - 1) with y by lia. reflexivity. }
  set (t4 := Tape l 2 [Blk 3 (y + 2)]).
  destruct (hop D 61 3 false 61 t3 t4 (1 + y) W3 eq_refl) as (W4 & H4).
  { unfold t3, t4, py_step. zcs. replace (1 + (1 + y)) with (y + 2) by lia. reflexivity. }
  eapply reach_trans; [exact H1|]. eapply reach_trans; [exact H2|]. eapply reach_trans; [exact H3|exact H4].
Qed.
(** The 3s turned into 2s. *)
Lemma turn_over l y : 2 <= y -> wf_span l -> match l with b :: _ => b_color b <> 2 | [] => True end ->
  reach 61 (Tape l 1 [Blk 3 y]) 61 (Tape (Blk 2 (y - 1) :: l) 2 [Blk 3 2]).
Proof.
  intros Y W CL.
  set (t0 := Tape l 1 [Blk 3 y]).
  assert (W0 : wf_tape t0) by (split; cbn; auto; repeat constructor; cbn; lia).
  set (t1 := Tape (Blk 2 1 :: l) 3 [Blk 3 (y - 1)]).
  destruct (hop D 61 2 true 63 t0 t1 1 W0 eq_refl) as (W1 & H1).
  { unfold t0, t1, py_step. zcs. ne1 y. zcs. destruct l as [|[c x] l]; zcs; auto. cbn in CL.
    replace (c =? 2) with false by (symmetry; apply Z.eqb_neq; auto). zcs. reflexivity. }
  set (t2 := Tape (Blk 2 (1 + y) :: l) 0 []).
  destruct (hop D 63 2 true 63 t1 t2 y W1 eq_refl) as (W2 & H2).
  { unfold t1, t2, py_step. zcs. replace (1 + (y - 1)) with y by lia. reflexivity. }
  set (t3 := Tape (Blk 2 y :: l) 2 []).
  destruct (hop D 63 0 false 61 t2 t3 1 W2 eq_refl) as (W3 & H3).
  { unfold t2, t3, py_step. zcs. ne1 (1 + y). zcs. replace (1 + y - 1) with y by lia. reflexivity. }
  set (t4 := Tape (Blk 3 1 :: Blk 2 y :: l) 0 []).
  destruct (hop D 61 3 true 62 t3 t4 1 W3 eq_refl) as (W4 & H4).
  { unfold t3, t4, py_step. zcs. reflexivity. }
  set (t5 := Tape (Blk 2 y :: l) 3 [Blk 3 1]).
  destruct (hop D 62 3 false 61 t4 t5 1 W4 eq_refl) as (W5 & H5).
  { unfold t4, t5, py_step. zcs. reflexivity. }
  set (t6 := Tape (Blk 2 (y - 1) :: l) 2 [Blk 3 2]).
  destruct (hop D 61 3 false 61 t5 t6 1 W5 eq_refl) as (W6 & H6).
  { unfold t5, t6, py_step. zcs. ne1 y. zcs. reflexivity. }
  eapply reach_trans; [exact H1|]. eapply reach_trans; [exact H2|]. eapply reach_trans; [exact H3|].
  eapply reach_trans; [exact H4|]. eapply reach_trans; [exact H5|exact H6].
Qed.

Lemma one_round x y l : 2 <= x -> 2 <= y -> wf_span l ->
  reach 61 (Tape (Blk 2 x :: l) 2 [Blk 3 y]) 61 (Tape (Blk 2 (x - 1) :: l) 2 [Blk 3 (y + 2)]).
Proof.
  intros X Y W. apply (out_and_back (Blk 2 x :: l) y Y); [constructor; auto; cbn; lia|cbn; lia].
Qed.
Lemma rounds l : wf_span l -> forall k x y, 1 <= x -> 2 <= y ->
  reach 61 (Tape (Blk 2 (x + Z.of_nat (S k)) :: l) 2 [Blk 3 y]) 61 (Tape (Blk 2 x :: l) 2 [Blk 3 (y + 2 * Z.of_nat (S k))]).
Proof.
  intros W. induction k as [|k IH]; intros x y X Y.
  - replace (Blk 2 x) with (Blk 2 (x + Z.of_nat 1 - 1)) by (f_equal; lia). apply one_round; auto; lia.
  - replace (y + 2 * Z.of_nat (S (S k))) with (y + 2 + 2 * Z.of_nat (S k)) by lia.
    eapply reach_trans; [apply one_round; auto; lia|].
    replace (x + Z.of_nat (S (S k)) - 1) with (x + Z.of_nat (S k)) by lia. apply IH; lia.
Qed.
(** One turn of the outer rule. *)
Lemma outer b y l : 2 <= b -> 2 <= y -> wf_span l ->
  reach 61 (Tape (Blk 2 1 :: Blk 1 b :: l) 2 [Blk 3 y]) 61 (Tape (Blk 2 1 :: Blk 1 (b - 1) :: l) 2 [Blk 3 (2 * y + 6)]).
Proof.
  intros B Y W. assert (W1 : wf_span (Blk 1 b :: l)) by (constructor; auto; cbn; lia).
  assert (W2 : wf_span (Blk 1 (b - 1) :: l)) by (constructor; auto; cbn; lia).
  eapply reach_trans; [apply out_and_back1; auto|].
  eapply reach_trans; [apply (out_and_back (Blk 1 b :: l) (y + 2)); auto; [lia|cbn; lia]|]. cbn [b_color b_count].
  eapply reach_trans; [apply turn_over; auto; [lia|cbn; lia]|].
  replace (y + 2 + 2 - 1) with (1 + Z.of_nat (S (Z.to_nat (y + 1)))) by lia.
  replace (2 * y + 6) with (2 + 2 * Z.of_nat (S (Z.to_nat (y + 1)))) by lia.
  apply rounds; auto; lia.
Qed.

Definition ruleA : rule := [((false, 0%nat), Plus (-1)); ((true, 0%nat), Plus 2)].
Definition ruleB : rule := [((false, 1%nat), Plus (-1)); ((true, 0%nat), RulesModel.Mult 2 6)].

Lemma after_step r k t t1 t2 : after r k t t1 -> after r (S k) t t2 -> after r 1 t1 t2.
Proof.
  intros ((A & B & C) & E) ((A' & B' & C') & E'). split; [repeat split; congruence|]. intros i.
  rewrite E'. rewrite !bump_n_S. cbn. unfold bump at 1 2. rewrite <- E. auto.
Qed.

Lemma lawA t : covers (Sig 2 [TapeModel.Mult 2] [TapeModel.Mult 3], (false, true)) t -> canon t -> law D 61 ruleA t.
Proof.
  intros (SC & (rest & L & _) & (rest' & R & RX)) C. specialize (RX eq_refl). subst rest'.
  destruct t as [l s r]. cbn in SC, L, R. subst s.
  destruct l as [|[c1 x] ls]; [discriminate|]. destruct r as [|[c2 y] [|? ?]]; try discriminate.
  cbn in L, R. inversion L as [[La Lr]]. inversion R as [Rb]. unfold sig_of_block in La, Rb. cbn in La, Rb.
  destruct (x =? 1) eqn:Ex; [discriminate|]. destruct (y =? 1) eqn:Ey; [discriminate|]. injection La as ->. injection Rb as ->.
  destruct C as ((Hx & _ & Hls) & (Hy & _)). cbn in Hx, Hy. apply canon_wf_span in Hls. apply Z.eqb_neq in Ex, Ey.
  intros k t1 t2 A1 W1 NB A2. pose proof (after_step _ _ _ _ _ A1 A2) as A3. clear A2.
  destruct A1 as ((S1 & S2 & S3) & CN). destruct t1 as [l1 s1 r1]. cbn in S1, S2, S3. subst s1.
  destruct l1 as [|[d1 x1] ls1]; [discriminate|]. destruct r1 as [|[d2 y1] [|? ?]]; try discriminate.
  cbn in S2, S3. injection S2 as <- S2. injection S3 as <-.
  assert (X1 : 2 <= x1).
  { destruct (Z.le_gt_cases 2 x1); auto. exfalso. apply NB. exists (false, 0%nat), (-1), x1. split; [left; auto|]. split; [lia|]. split; [reflexivity|lia]. }
  assert (Y1 : 2 <= y1).
  { pose proof (CN (true, 0%nat)) as Q. rewrite (bump_n_Plus ruleA k _ (true, 0%nat) 2 y) in Q; [|reflexivity|reflexivity].
    cbn in Q. injection Q as ->. lia. }
  assert (WL : wf_span ls1) by (destruct W1 as (Q & _); inversion Q; auto).
  assert (A4 : after ruleA 1 (Tape (Blk 2 x1 :: ls1) 2 [Blk 3 y1]) (Tape (Blk 2 (x1 - 1) :: ls1) 2 [Blk 3 (y1 + 2)])).
  { split; [repeat split|]. intros [[|] [|i]]; cbn; auto. }
  rewrite (after_unique _ _ _ _ _ A3 A4).
  split; [split; repeat constructor; cbn; auto; lia|]. apply reach_leads. apply one_round; auto.
Qed.

Lemma lawB t : covers (Sig 2 [Just 2; TapeModel.Mult 1] [TapeModel.Mult 3], (false, true)) t -> canon t -> law D 61 ruleB t.
Proof.
  intros (SC & (rest & L & _) & (rest' & R & RX)) C. specialize (RX eq_refl). subst rest'.
  destruct t as [l s r]. cbn in SC, L, R. subst s.
  destruct l as [|[c1 x] [|[c3 b] ls]]; try discriminate. destruct r as [|[c2 y] [|? ?]]; try discriminate.
  cbn in L, R. inversion L as [[La Lb Lr]]. inversion R as [Rb]. unfold sig_of_block in La, Lb, Rb. cbn in La, Lb, Rb.
  destruct (x =? 1) eqn:Ex; [|discriminate]. destruct (b =? 1) eqn:Eb; [discriminate|]. destruct (y =? 1) eqn:Ey; [discriminate|].
  injection La as ->. injection Lb as ->. injection Rb as ->.
  destruct C as ((Hx & _ & Hb & _ & Hls) & (Hy & _)). cbn in Hx, Hb, Hy. apply canon_wf_span in Hls. apply Z.eqb_neq in Eb, Ey. apply Z.eqb_eq in Ex. subst x.
  intros k t1 t2 A1 W1 NB A2. pose proof (after_step _ _ _ _ _ A1 A2) as A3. clear A2.
  destruct A1 as ((S1 & S2 & S3) & CN). destruct t1 as [l1 s1 r1]. cbn in S1, S2, S3. subst s1.
  destruct l1 as [|[d1 x1] [|[d3 b1] ls1]]; try discriminate. destruct r1 as [|[d2 y1] [|? ?]]; try discriminate.
  cbn in S2, S3. injection S2 as <- <- S2. injection S3 as <-.
  assert (B1 : 2 <= b1).
  { destruct (Z.le_gt_cases 2 b1); auto. exfalso. apply NB. exists (false, 1%nat), (-1), b1. split; [left; auto|]. split; [lia|]. split; [reflexivity|lia]. }
  assert (X1 : x1 = 1).
  { pose proof (CN (false, 0%nat)) as Q. rewrite bump_n_None in Q by reflexivity. cbn in Q. congruence. }
  subst x1.
  assert (Y1 : 2 <= y1).
  { pose proof (CN (true, 0%nat)) as Q. rewrite (bump_n_at ruleB k _ (true, 0%nat) (RulesModel.Mult 2 6) y) in Q; [|reflexivity|reflexivity].
    cbn in Q. injection Q as ->. clear - Hy Ey. induction k as [|k IH]; cbn; [lia|]. unfold Nat.iter in IH. lia. }
  assert (WL : wf_span ls1) by (destruct W1 as (Q & _); inversion Q as [|? ? ? Q']; inversion Q'; auto).
  assert (A4 : after ruleB 1 (Tape (Blk 2 1 :: Blk 1 b1 :: ls1) 2 [Blk 3 y1]) (Tape (Blk 2 1 :: Blk 1 (b1 - 1) :: ls1) 2 [Blk 3 (2 * y1 + 6)])).
  { split; [repeat split|]. intros [[|] [|[|i]]]; cbn; auto. }
  rewrite (after_unique _ _ _ _ _ A3 A4).
  split; [split; repeat constructor; cbn; auto; lia|]. apply reach_leads. apply outer; auto.
Qed.

Definition rulesAB : list (slot * list (minsig * srule)) :=
  [((61, 2), [((Sig 2 [TapeModel.Mult 2] [TapeModel.Mult 3], (false, true)), [((false, 0%nat), SPlus (-1)); ((true, 0%nat), SPlus 2)]);
              ((Sig 2 [Just 2; TapeModel.Mult 1] [TapeModel.Mult 3], (false, true)), [((false, 1%nat), SPlus (-1)); ((true, 0%nat), SMult 2 6)])])].

Lemma over3 : sop_over 3 (SPlus (-1)) /\ sop_over 3 (SPlus 2) /\ sop_over 3 (SMult 2 6).
Proof.
  split; [|split].
  - intros _. exists 0. split; [lia|reflexivity].
  - intros X. lia.
  - split; [apply Zgcd_1_rel_prime; reflexivity|]. exists 0. split; [lia|reflexivity].
Qed.

Lemma rulesAB_lawful pv : sp_rules pv = rulesAB -> s_lawful 3 D pv.
Proof.
  intros PR state scan ms r (v & H1 & H2). rewrite PR in H1. destruct H1 as [X|[]]. injection X as <- <- <-.
  destruct over3 as (O1 & O2 & O3). destruct H2 as [X|[X|[]]]; injection X as <- <-.
  - split.
    + intros i op [Y|[Y|[]]]; injection Y as <- <-; auto.
    + exists ruleA. split; [repeat constructor|]. split; [|exact lawA].
      intros i d j e [Y|[Y|[]]] [Z|[Z|[]]] NA NB; injection Y as <- <-; injection Z as <- <-; auto; lia.
  - split.
    + intros i op [Y|[Y|[]]]; injection Y as <- <-; auto.
    + exists ruleB. split; [repeat constructor|]. split; [|exact lawB].
      intros i d j e [Y|[Y|[]]] [Z|[Z|[]]] NA NB; try discriminate Y; try discriminate Z; injection Y as <- <-; injection Z as <- <-; auto; lia.
Qed.

(** What the counts of the run look like. *)
Definition ok_cnt (c : cnt) : bool :=
  match c with
  | I _ => true
  | Add (I a) (Exp b (I y)) => (2 <=? b) && (2 <=? y) && (1 <? a + b ^ y)
  | _ => false
  end.
Lemma ok_cnt_val c : ok_cnt c = true -> exists z, zval c z /\ safe c 1 /\ (is_int c = false -> 1 < z).
Proof.
  destruct c as [z|[a| | | |] [| | | |b [y| | | |]]| | |]; try discriminate; intros E.
  - exists z. split; [reflexivity|]. split; [exact Logic.I|discriminate].
  - unfold ok_cnt in E. rewrite !andb_true_iff, !Z.leb_le, Z.ltb_lt in E. destruct E as ((B & Y) & V).
    exists (a + b ^ y). split; [|split; [|auto]].
    + cbn. exists a, (b ^ y). split; auto. split; auto. exists y. auto.
    + cbn. split; auto. split; [lia|]. split; [lia|]. auto.
Qed.

Definition ok_tape (e : stape) : bool := forallb ok_cnt (fst (s_counts e) ++ snd (s_counts e)).
Lemma ok_clear pv e : sp_rules pv = rulesAB -> ok_tape e = true -> clear pv e.
Proof.
  intros PR E. unfold ok_tape in E. rewrite forallb_forall in E. split.
  - intros c I N V. destruct (ok_cnt_val c (E c I)) as (z & ZV & _ & L). specialize (L N).
    assert (z = 1) by (apply Zq_inj; eapply val_fun; [apply zval_val; exact ZV|exact V]). lia.
  - intros t slot ms r i op c _ (v & H1 & H2) _ I G.
    assert (IC : In c (fst (s_counts e) ++ snd (s_counts e))).
    { apply in_or_app. unfold sget in G. destruct (fst i); apply nth_error_In in G; auto. }
    destruct (ok_cnt_val c (E c IC)) as (z & ZV & SF & L). exists z. split; auto.
    rewrite PR in H1. destruct H1 as [X|[]]. injection X as <- <-.
    destruct H2 as [X|[X|[]]]; injection X as <- <-; destruct I as [Y|[Y|[]]]; injection Y as <- <-; auto; intros N; try lia; auto.
Qed.

(** ** The tapes of all shorter runs *)
Section Trace.
Variable fl : floats.
Variable o : ops.
Variable comp : Z -> Z -> lookup.
Notation loop := (s_machine_loop fl o comp).
Definition resume (m : smach) (b : nat) : smach :=
  match sm_end m with
  | YXlimit => loop b (sm_cycles m + 1) (sm_prover m) (sm_tape m) (sm_state m) (sm_steps m) (sm_blanks m) (sm_rulapp m) (sm_susrul m)
  | _ => m
  end.
Lemma loop_resume b : forall a cycle pv t state step blanks rulapp sus,
  loop (a + b) cycle pv t state step blanks rulapp sus = resume (loop a cycle pv t state step blanks rulapp sus) b.
Proof.
  induction a as [|a IH]; intros cycle pv t state step blanks rulapp sus.
  - cbn. replace (cycle - 1 + 1) with cycle by lia. auto.
  - cbn [Nat.add]. rewrite !s_machine_loop_S. destruct (s_try_rule fl o comp pv cycle state t) as [pv' tr]. cbn zeta.
    assert (GO : forall t sus, s_go o comp (loop (a + b)) cycle pv' t state step blanks rulapp sus
      = resume (s_go o comp (loop a) cycle pv' t state step blanks rulapp sus) b).
    { clear tr. intros e su. unfold s_go. destruct (comp state (st_scan e)) as [[[color shift] nx]|s|]; auto. cbn zeta.
      destruct (_ && s_at_edge _ _); auto. destruct (s_step _ _ _ _ _) as [[t' st]| | | | | |]; auto.
      destruct (step =? -1); [|destruct st; auto];
        (destruct (_ && s_blank _); [destruct (blanks_has _ _); [|destruct (nx =? 0)]|]; auto). }
    destruct tr as [[ |r| | ]| | | |x y| | ]; auto.
    destruct (s_apply_rule fl o r t) as [[[times|] t']| | | | | |]; auto. destruct (o_add o rulapp times); auto.
Qed.
Fixpoint trace (fuel : nat) (m : smach) : list stape :=
  sm_tape m :: match fuel with
               | O => []
               | S fuel => match sm_end m with YXlimit => trace fuel (resume m 1) | _ => [] end
               end.
Lemma resume_0 m : resume m 0 = m.
Proof.
  unfold resume. destruct m as [[] st cy ra s t bl su pv]; cbn; auto. f_equal. lia.
Qed.
Lemma resume_add m a b : resume m (a + b) = resume (resume m a) b.
Proof.
  unfold resume at 1 3. destruct (sm_end m) eqn:E; try (unfold resume; rewrite E; auto; fail). apply loop_resume.
Qed.
Lemma trace_in fuel : forall m j, (j <= fuel)%nat -> In (sm_tape (resume m j)) (trace fuel m).
Proof.
  induction fuel as [|fuel IH]; intros m j J.
  - replace j with 0%nat by lia. rewrite resume_0. left. auto.
  - destruct j as [|j]; [rewrite resume_0; left; auto|]. cbn [trace].
    destruct (sm_end m) eqn:E; try (left; unfold resume; rewrite E; auto; fail). right.
    change (S j) with (1 + j)%nat. rewrite resume_add. apply IH. lia.
Qed.
Lemma trace_run lim j : (j <= lim)%nat -> In (sm_tape (s_machine_run fl o comp j)) (trace lim (s_machine_run fl o comp 0)).
Proof.
  intros J. unfold s_machine_run. change j with (0 + j)%nat. rewrite loop_resume. apply trace_in. auto.
Qed.
End Trace.

Notation ops6 := (ops_at exact_fl 6).
Notation run_D := (s_machine_run exact_fl ops6 (plain D)).
Lemma run_D_rules : sp_rules (sm_prover (run_D 300)) = rulesAB.
Proof. vm_compute. reflexivity. Qed.
Lemma run_D_tapes : forallb ok_tape (trace exact_fl ops6 (plain D) 300 (run_D 0)) = true.
Proof. vm_compute. reflexivity. Qed.
Lemma run_D_lawful : s_lawful 3 D (sm_prover (run_D 300)).
Proof. apply rulesAB_lawful. exact run_D_rules. Qed.
Lemma run_D_clear j : (j <= 300)%nat -> clear (sm_prover (run_D 300)) (sm_tape (run_D j)).
Proof.
  intros J. apply ok_clear; [exact run_D_rules|]. pose proof run_D_tapes as T. rewrite forallb_forall in T. apply T.
  apply trace_run. exact J.
Qed.

Lemma doubler_case :
  let m := s_machine_run exact_fl ops6 (plain D) 300 in
  prime 3 /\ exact_roots exact_fl /\ exact_log2 exact_fl
  /\ s_lawful 3 D (sm_prover m) /\ (forall j, (j <= 300)%nat -> clear (sm_prover m) (sm_tape (s_machine_run exact_fl ops6 (plain D) j)))
  /\ sm_end m = YUndfnd (61, 0) /\ sm_cycles m = 216 /\ s_marks ops6 (sm_tape m) = Got (Add (I (-2)) (Exp 2 (I 62)))
  /\ exists k c, halts_at D k (61, 0) /\ steps D k init = Some c /\ marks_are (c_tape c) (2 ^ 62 - 2).
Proof.
  cbv zeta. split; [exact prime_3|]. split; [exact exact_fl_roots|]. split; [exact exact_fl_log2|].
  split; [exact run_D_lawful|]. split; [exact run_D_clear|].
  assert (E : sm_end (run_D 300) = YUndfnd (61, 0)) by (vm_compute; reflexivity).
  assert (K : s_marks ops6 (sm_tape (run_D 300)) = Got (Add (I (-2)) (Exp 2 (I 62)))) by (vm_compute; reflexivity).
  split; [exact E|]. split; [vm_compute; reflexivity|]. split; [exact K|].
  destruct (s_run_lawful 3 prime_3 exact_fl exact_fl_roots exact_fl_log2 6 D 300 run_D_lawful run_D_clear)
    as (k & c & R & _ & T & H & _).
  assert (FN : fine (sm_end (run_D 300))) by (rewrite E; exact Logic.I).
  destruct (T FN) as (t & _ & _ & _ & MK). destruct (MK _ K) as (V & MA).
  exists k, c. split; [exact (H _ E)|]. split; [exact R|].
  assert (ZV : zval (Add (I (-2)) (Exp 2 (I 62))) (-2 + 2 ^ 62)).
  { exists (-2), (2 ^ 62). split; [reflexivity|]. split; [|reflexivity]. exists 62. do 3 (split; [reflexivity || lia|]). reflexivity. }
  assert (X : t_marks t = -2 + 2 ^ 62) by (apply Zq_inj; eapply val_fun; [exact V|apply zval_val; exact ZV]).
  rewrite X in MA. exact MA.
Qed.

Lemma s_undfnd_wrong : exists M lim n s s' x q, let m := s_machine_run exact_fl ops6 (plain M) lim in
  sm_end m = YUndfnd s /\ halts_at M n s' /\ s <> s' /\ s_marks ops6 (sm_tape m) = Got x /\ zval x q
  /\ exists c, steps M n init = Some c /\ ~ marks_are (c_tape c) q.
Proof.
  destruct (quick_says (leap 13 9) 1000 184 (23, 0) 22) as (H & c & E & K); [vm_compute; reflexivity..|].
  exists (machine_of (leap 13 9)), 1000%nat, (Z.to_nat 184), (14, 0), (23, 0). eexists. eexists. cbv zeta.
  split; [vm_compute; reflexivity|]. split; [exact H|]. split; [congruence|]. split; [vm_compute; reflexivity|]. split; [reflexivity|].
  exists c. split; [exact E|]. intros K'. pose proof (marks_unique _ _ _ K K') as X. vm_compute in X. discriminate X.
Qed.
