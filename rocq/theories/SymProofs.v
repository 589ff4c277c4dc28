(** * Rules over symbolic counts: proofs *)
From Coq Require Import QArith Qpower Znumtheory.
From Verif Require Import Base TapeModel RulesModel RulesSpec DiffProofs NumModel NumSpec NumProofs NumMod NumMore SymModel SymSpec.
Local Open Scope Z_scope.
Local Notation Zq := inject_Z.

(** ** Values of operations *)
Lemma op_means_eq op x x' y y' : Qeq x x' -> Qeq y y' -> op_means op x y -> op_means op x' y'.
Proof.
  intros X Y. unfold op_means. destruct (fst op).
  - intros E. rewrite <- X, <- Y. exact E.
  - intros E. rewrite <- X, <- Y. exact E.
  - intros E. rewrite <- X, <- Y. exact E.
  - intros (z & A & B). exists z. rewrite <- X, <- Y. auto.
  - intros (z & A & B). exists z. rewrite <- X, <- Y. auto.
Qed.
Lemma ops_mean_eq : forall ops x x' y y', Qeq x x' -> Qeq y y' -> ops_mean ops x y -> ops_mean ops x' y'.
Proof.
  induction ops as [|op ops IH]; cbn [ops_mean]; intros x x' y y' X Y.
  - intros E. rewrite <- X, <- Y. exact E.
  - intros (u & A & B). exists u. split; [eapply op_means_eq; eauto; reflexivity|eapply IH; eauto; reflexivity].
Qed.
Lemma ops_mean_app : forall ops ops' x u y, ops_mean ops x u -> ops_mean ops' u y -> ops_mean (ops ++ ops') x y.
Proof.
  induction ops as [|op ops IH]; cbn [app ops_mean]; intros ops' x u y A B.
  - eapply ops_mean_eq; [exact A| |exact B]. reflexivity.
  - destruct A as (w & A & C). exists w. split; auto. eapply IH; eauto.
Qed.

Ltac ob H :=
  repeat match type of H with
  | obind ?x _ = Got _ => let E := fresh "E" in destruct x eqn:E; cbn [obind] in H; try discriminate H
  end.

Lemma descend_means : forall fuel sub sup s ops q, descend fuel sub sup = Got (s, ops) -> val sub q ->
  exists x, val s x /\ ops_mean ops q x.
Proof.
  induction fuel as [|fuel IH]; intros sub sup s ops q D V; cbn [descend] in D; [discriminate|].
  destruct (cnt_in sub sup).
  { injection D as <- <-. exists q. split; [auto|cbn; reflexivity]. }
  destruct sub as [z|l r|l r|n d|b e]; try discriminate.
  - destruct l as [l| | | |]; try discriminate. ob D. destruct a as [s' ops']. cbn [fst snd] in D. injection D as <- <-.
    destruct V as (a & b & A & B & Q). destruct (IH _ _ _ _ _ E B) as (x & X & M). exists x. split; auto.
    exists b. split; auto. cbn. cbn [val] in A. rewrite Q, A, inject_Z_opp. ring.
  - destruct l as [l| | | |]; try discriminate. ob D. destruct a as [s' ops']. cbn [fst snd] in D. injection D as <- <-.
    destruct V as (a & b & A & B & Q). destruct (IH _ _ _ _ _ E B) as (x & X & M). exists x. split; auto.
    exists b. split; auto. cbn. cbn [val] in A. rewrite Q, A. ring.
  - ob D. destruct a as [s' ops']. cbn [fst snd] in D. injection D as <- <-.
    destruct V as (a & A & P & Q). destruct (IH _ _ _ _ _ E A) as (x & X & M). exists x. split; auto.
    exists a. split; auto. cbn. rewrite Q. field. apply Zq_nz. lia.
  - assert (D' : (x <~ descend fuel e sup; Got (fst x, (OLog, b) :: snd x)) = Got (s, ops)) by (destruct e; auto; discriminate).
    clear D. rename D' into D. ob D. destruct a as [s' ops']. cbn [fst snd] in D. injection D as <- <-.
    destruct V as (z & A & P & Q). destruct (IH _ _ _ _ _ E A) as (x & X & M). exists x. split; auto.
    exists (inject_Z z). split; auto. cbn. exists z. split; [auto|reflexivity].
Qed.

Lemma ascend_means : forall fuel sub sup ops q, ascend fuel sub sup = Got ops -> val sup q ->
  exists x, val sub x /\ ops_mean (rev ops) x q.
Proof.
  induction fuel as [|fuel IH]; intros sub sup ops q D V; cbn [ascend] in D; [discriminate|].
  destruct (cnt_eqb sup sub) eqn:EQ.
  { injection D as <-. apply cnt_eqb_eq in EQ. subst. exists q. split; [auto|cbn; reflexivity]. }
  assert (ONE : forall op u, op_means op u q -> ops_mean [op] u q).
  { intros op u O. exists q. split; auto. cbn. reflexivity. }
  destruct sup as [z|l r|l r|n d|b e]; try discriminate.
  - destruct l as [l| | | |]; try discriminate. ob D. injection D as <-.
    destruct V as (a' & b & A & B & Q). destruct (IH _ _ _ _ E B) as (x & X & M). exists x. split; auto. cbn [rev].
    eapply ops_mean_app; [exact M|]. apply ONE. cbn. cbn [val] in A. rewrite Q, A. ring.
  - destruct l as [l| | | |]; try discriminate. ob D. injection D as <-.
    destruct V as (a' & b & A & B & Q). destruct (IH _ _ _ _ E B) as (x & X & M). exists x. split; auto. cbn [rev].
    eapply ops_mean_app; [exact M|]. apply ONE. cbn. cbn [val] in A. rewrite Q, A. ring.
  - ob D. injection D as <-.
    destruct V as (a' & A & P & Q). destruct (IH _ _ _ _ E A) as (x & X & M). exists x. split; auto. cbn [rev].
    eapply ops_mean_app; [exact M|]. apply ONE. cbn. rewrite Q. field.
    apply Zq_nz. lia.
  - assert (D' : (x <~ ascend fuel sub e; Got ((OPow, b) :: x)) = Got ops) by (destruct e; auto; discriminate).
    clear D. rename D' into D. ob D. injection D as <-.
    destruct V as (z & A & P & Q). destruct (IH _ _ _ _ E A) as (x & X & M). exists x. split; auto. cbn [rev].
    eapply ops_mean_app; [exact M|]. apply ONE. cbn. exists z. split; [reflexivity|auto].
Qed.

Lemma op_seq_learned fl o c1 c2 c3 c4 ops q1 q2 :
  calculate_op_seq fl o c1 c2 c3 c4 = Got ops -> val c1 q1 -> val c2 q2 ->
  ops_mean ops q1 q2 /\ apply_ops fl o c2 (I 1) ops = Got c3 /\ apply_ops fl o c3 (I 1) ops = Got c4.
Proof.
  unfold calculate_op_seq. generalize rule_descent as n. intros n H V1 V2.
  destruct (descend n c1 c2) as [[s de]| | | | | |] eqn:E; cbn [obind fst snd] in H; try discriminate.
  destruct (ascend n s c2) as [as_| | | | | |] eqn:E0; cbn [obind] in H; try discriminate. cbn zeta in H.
  destruct (apply_once fl o (de ++ rev as_) c2) as [r3| | | | | |] eqn:E1; cbn [obind] in H; try discriminate.
  destruct (cnt_eqb r3 c3) eqn:E3; cbn [negb] in H; [|discriminate].
  destruct (apply_once fl o (de ++ rev as_) c3) as [r4| | | | | |] eqn:E2; cbn [obind] in H; try discriminate.
  destruct (cnt_eqb r4 c4) eqn:E4; cbn [negb] in H; [|discriminate]. injection H as <-.
  apply cnt_eqb_eq in E3, E4. subst.
  destruct (descend_means _ _ _ _ _ _ E V1) as (x & X & M).
  destruct (ascend_means _ _ _ _ _ E0 V2) as (y & Y & N).
  split; [|split].
  - eapply ops_mean_app; [exact M|]. eapply ops_mean_eq; [|reflexivity|exact N]. eapply val_fun; eauto.
  - cbn [apply_ops]. change (Z.to_nat 1) with 1%nat. cbn [apply_times]. rewrite E1. reflexivity.
  - cbn [apply_ops]. change (Z.to_nat 1) with 1%nat. cbn [apply_times]. rewrite E2. reflexivity.
Qed.

(** ** Exactness of application *)
Lemma Q_integral_dec q : (exists z, Qeq q (inject_Z z)) \/ (forall z, ~ Qeq q (inject_Z z)).
Proof.
  destruct (Z.eq_dec (Qnum q mod QDen q) 0) as [E|E].
  - left. apply Z.mod_divide in E; [|lia]. destruct E as (z & E). exists z. unfold Qeq. cbn. lia.
  - right. intros z Q. apply E. unfold Qeq in Q. cbn in Q. rewrite Z.mul_1_r in Q. rewrite Q. apply Z.mod_mul. lia.
Qed.

Section Prime.
Variable p : Z.
Hypothesis P : prime p.
Notation good := (good p).

Lemma local_dec q k : local p q -> 0 <= k -> local p (q / inject_Z (p ^ k)) \/ ~ local p (q / inject_Z (p ^ k)).
Proof.
  intros (n & m & N & R & E) K.
  assert (PP : p ^ k <> 0) by (apply Z.pow_nonzero; destruct P; lia).
  assert (PQ : ~ Qeq (inject_Z (p ^ k)) 0) by (apply Zq_nz; auto).
  destruct (Z.eq_dec (m mod p ^ k) 0) as [D|D].
  - left. apply Z.mod_divide in D; auto. destruct D as (w & ->). exists n, w. split; auto. split; auto.
    rewrite inject_Z_mult in E. transitivity (q * inject_Z n / inject_Z (p ^ k))%Q; [field; auto|]. rewrite E. field. auto.
  - right. intros L. apply D. apply Z.mod_divide; auto. eapply local_div_Z; eauto.
    eapply local_eq; [eapply local_mul; [exact L|apply (local_Z p n)]|].
    rewrite <- E. field. auto.
Qed.

Variable fl : floats.
Hypothesis FL : exact_roots fl.
Variable o : ops.
Hypothesis S : sound p o.

Lemma apply_op_ok op c q r : op_over p op -> good c q -> apply_op fl o op c = Got r ->
  (exists y, good r y /\ op_means op q y) \/ stumbles p op c.
Proof.
  intros O G A. destruct op as [n v]. cbn [apply_op] in A.
  assert (LI : forall A (x : res A) y, lift x = Got y -> x = Ok y) by (intros A' x y L; destruct x; try discriminate; injection L as ->; auto).
  destruct n.
  - apply LI in A. left. eexists. split; [eapply (s_add _ _ S); [exact G|apply good_I|exact A]|]. cbn. reflexivity.
  - apply LI in A. left. eexists. split; [eapply (s_mul _ _ S); [exact G|apply good_I|exact A]|]. cbn. reflexivity.
  - apply LI in A. cbn in O. destruct O as (k & K & E).
    assert (VP : ~ Qeq (inject_Z v) 0).
    { apply Zq_nz. rewrite E. apply Z.pow_nonzero; destruct P; lia. }
    destruct (local_dec q k (good_local p P _ _ G) K) as [L|L].
    + left. eexists. split; [eapply (s_div _ _ S); [exact G|exact K|exact E|rewrite E; exact L|exact A]|]. cbn. field. auto.
    + right. cbn. exists q. split; [apply G|]. rewrite E. exact L.
  - apply LI in A. destruct (Q_integral_dec q) as [(z & Q)|N].
    + left. eexists. split; [eapply (make_exp_ok p P fl FL o S); [exact O|exact G|exact Q|exact A]|].
      cbn. exists z. split; [auto|reflexivity].
    + right. cbn. exists q. split; [apply G|auto].
  - destruct c as [z|l r'|l r'|m d|b e]; try discriminate. injection A as <-.
    destruct (Z.eq_dec b v) as [->|N]; [|right; cbn; eauto].
    left. destruct (good_Exp_inv p _ _ _ G) as (z & X). exists (inject_Z z). cbn. intuition. exists z. split; [auto|reflexivity].
Qed.

Lemma apply_once_ok : forall ops c q r, Forall (op_over p) ops -> good c q -> apply_once fl o ops c = Got r ->
  (exists y, good r y /\ ops_mean ops q y)
  \/ exists ops1 op ops2 c', ops = ops1 ++ op :: ops2 /\ apply_once fl o ops1 c = Got c' /\ stumbles p op c'.
Proof.
  induction ops as [|op ops IH]; intros c q r F G A; cbn [apply_once] in A.
  - injection A as <-. left. exists q. split; [auto|cbn; reflexivity].
  - inversion F as [|? ? O F']; subst. ob A.
    destruct (apply_op_ok op c q a O G E) as [(u & GU & M)|B].
    + destruct (IH a u r F' GU A) as [(y & GY & N)|(ops1 & op' & ops2 & c' & -> & X & B)].
      * left. exists y. split; auto. exists u. auto.
      * right. exists (op :: ops1), op', ops2, c'. split; [auto|]. split; [|auto]. cbn [apply_once]. rewrite E. exact X.
    + right. exists [], op, ops, c. auto.
Qed.

Lemma apply_times_ok : forall n ops c q r, Forall (op_over p) ops -> good c q -> apply_times fl o n ops c = Got r ->
  (exists y, good r y /\ times_mean n ops q y)
  \/ exists k c0 ops1 op ops2 c', (k < n)%nat /\ apply_times fl o k ops c = Got c0 /\ ops = ops1 ++ op :: ops2
       /\ apply_once fl o ops1 c0 = Got c' /\ stumbles p op c'.
Proof.
  induction n as [|n IH]; intros ops c q r F G A; cbn [apply_times] in A.
  - injection A as <-. left. exists q. split; [auto|cbn; reflexivity].
  - ob A. destruct (apply_once_ok ops c q a F G E) as [(u & GU & M)|(ops1 & op & ops2 & c' & X & Y & B)].
    + destruct (IH ops a u r F GU A) as [(y & GY & N)|(k & c0 & ops1 & op & ops2 & c' & L & X & Y)].
      * left. exists y. split; auto. exists u. auto.
      * right. exists (Datatypes.S k), c0, ops1, op, ops2, c'. split; [lia|]. split; [|auto]. cbn [apply_times]. rewrite E. exact X.
    + right. exists 0%nat, c, ops1, op, ops2, c'. split; [lia|]. split; [reflexivity|auto].
Qed.
End Prime.

(** ** Application of rules *)
Lemma lift_ok {A} (x : res A) y : lift x = Got y -> x = Ok y.
Proof. destruct x; try discriminate. intros L. injection L as ->. auto. Qed.

Lemma last_time z a : 0 < a ->
  let rem := z mod a in
  if 0 <? rem then (z - 1) / a = z / a /\ z - (z - 1) / a * a = rem
  else (z - 1) / a = z / a - 1 /\ z - (z - 1) / a * a = a.
Proof.
  intros A. cbn zeta. pose proof (Z.div_mod z a ltac:(lia)) as D. pose proof (Z.mod_pos_bound z a A) as B.
  destruct (Z.ltb_spec 0 (z mod a)).
  - assert (E : (z - 1) / a = z / a) by (symmetry; apply (Z.div_unique_pos _ _ _ (z mod a - 1)); lia).
    rewrite E. split; [auto|lia].
  - assert (E : (z - 1) / a = z / a - 1) by (symmetry; apply (Z.div_unique_pos _ _ _ (a - 1)); lia).
    rewrite E. split; [auto|lia].
Qed.

Lemma count_apps_chosen fl o : forall r t apps times pos res,
  count_apps fl o r t apps = Got (Some (times, pos, res)) ->
  apps = Some (times, pos, res)
  \/ exists d, In (pos, SPlus d) r /\ d < 0 /\ entry_apps fl o t pos d = Got (Some (times, res)).
Proof.
  induction r as [|[i op] r IH]; intros t apps times pos res H; cbn [count_apps] in H.
  - injection H as ->. auto.
  - assert (SKIP : forall apps', count_apps fl o r t apps' = Got (Some (times, pos, res)) ->
      apps' = apps \/ (exists d ti re, op = SPlus d /\ d < 0 /\ apps' = Some (ti, i, re) /\ entry_apps fl o t i d = Got (Some (ti, re))) ->
      apps = Some (times, pos, res)
      \/ exists d, In (pos, SPlus d) ((i, op) :: r) /\ d < 0 /\ entry_apps fl o t pos d = Got (Some (times, res))).
    { intros apps' C [-> | (d & ti & re & -> & D & -> & E)]; destruct (IH _ _ _ _ _ C) as [X|(d' & X & Y & Z)]; auto.
      - right. exists d'. split; [right; auto|auto].
      - injection X as -> -> ->. right. exists d. split; [left; auto|auto].
      - right. exists d'. split; [right; auto|auto]. }
    destruct op as [d|m a|ops]; [|apply (SKIP _ H); auto|apply (SKIP _ H); auto].
    destruct (Z.leb_spec 0 d); [apply (SKIP _ H); auto|].
    destruct (entry_apps fl o t i d) as [e| | | | | |] eqn:E; cbn [obind] in H; try discriminate.
    destruct e as [[ti re]|]; [|discriminate].
    destruct apps as [[[t0 p0] r0]|].
    + ob H. destruct a; apply (SKIP _ H); auto. right. exists d, ti, re. auto.
    + apply (SKIP _ H). right. exists d, ti, re. auto.
Qed.

Lemma entry_apps_none fl o t i d : entry_apps fl o t i d = Got None -> exists c, sget t i = Some (I c) /\ c <= Z.abs d.
Proof.
  unfold entry_apps. intros E. destruct (sget t i) as [c|]; [|discriminate]. cbn zeta in E.
  assert (FIN : forall x, obind (Got (Some x)) (fun dm => match dm with
      | None => Got None
      | Some (div, rem) => if 0 <? rem then Got (Some (div, rem)) else times <~ lift (o_sub o div (I 1)); Got (Some (times, Z.abs d))
      end) <> Got None).
  { intros [q r] X. cbn [obind] in X. destruct (0 <? r); [discriminate|]. destruct (lift (o_sub o q (I 1))); discriminate. }
  assert (NUM : obind (x <~ lift (num_divmod fl o c (Z.abs d)); Got (Some x)) (fun dm => match dm with
      | None => Got None
      | Some (div, rem) => if 0 <? rem then Got (Some (div, rem)) else times <~ lift (o_sub o div (I 1)); Got (Some (times, Z.abs d))
      end) <> Got None).
  { intros X. destruct (lift (num_divmod fl o c (Z.abs d))); cbn [obind] in X; try discriminate. elim (FIN _ X). }
  destruct c as [c| | | |]; try (elim NUM; exact E).
  destruct (Z.leb_spec c (Z.abs d)); [eauto|]. elim (FIN _ E).
Qed.

(** Not applied: nothing decreases, or an int does not allow it. *)
Lemma count_apps_none fl o : forall r t apps, count_apps fl o r t apps = Got None ->
  (apps = None /\ forall i d, In (i, SPlus d) r -> 0 <= d)
  \/ exists i d c, In (i, SPlus d) r /\ d < 0 /\ sget t i = Some (I c) /\ c + d < 1.
Proof.
  induction r as [|[i op] r IH]; intros t apps H; cbn [count_apps] in H.
  - injection H as ->. left. split; auto. intros i d [].
  - assert (SKIP : count_apps fl o r t apps = Got None -> (forall d, op = SPlus d -> 0 <= d) ->
      (apps = None /\ forall j d, In (j, SPlus d) ((i, op) :: r) -> 0 <= d)
      \/ exists j d c, In (j, SPlus d) ((i, op) :: r) /\ d < 0 /\ sget t j = Some (I c) /\ c + d < 1).
    { intros C O. destruct (IH _ _ C) as [(-> & A)|(j & d & c & A & B)].
      - left. split; auto. intros j d [E|E]; [injection E as -> ->; auto|eauto].
      - right. exists j, d, c. split; [right; auto|auto]. }
    destruct op as [d|m a|ops]; [|apply SKIP; [auto|discriminate]|apply SKIP; [auto|discriminate]].
    destruct (Z.leb_spec 0 d); [apply SKIP; auto; intros d' E; injection E as <-; auto|].
    destruct (entry_apps fl o t i d) as [e| | | | | |] eqn:E; cbn [obind] in H; try discriminate.
    assert (REST : (exists apps', count_apps fl o r t (Some apps') = Got None) ->
      (apps = None /\ forall j d', In (j, SPlus d') ((i, SPlus d) :: r) -> 0 <= d')
      \/ exists j d' c, In (j, SPlus d') ((i, SPlus d) :: r) /\ d' < 0 /\ sget t j = Some (I c) /\ c + d' < 1).
    { intros (apps' & C). destruct (IH _ _ C) as [(X & _)|(j & d' & c & A & B)]; [discriminate|].
      right. exists j, d', c. split; [right; auto|auto]. }
    destruct e as [[ti re]|].
    + destruct apps as [[[t0 p0] r0]|]; [|apply REST; eauto]. ob H. apply REST. destruct a; eauto.
    + right. destruct (entry_apps_none _ _ _ _ _ E) as (c & G & L). exists i, d, c. split; [left; auto|]. split; [lia|]. split; [auto|lia].
Qed.

Section Prime2.
Variable p : Z.
Hypothesis P : prime p.
Variable fl : floats.
Hypothesis FL : exact_roots fl.
Hypothesis F2 : exact_log2 fl.
Variable n : nat.
Notation good := (good p).
Notation o := (ops_at fl n).
Let S : sound p o := ops_at_sound p P fl FL n.

Lemma entry_apps_ok t pos d k z times res : d < 0 -> 0 <= k -> - d = p ^ k -> counted p t pos (SPlus d) z ->
  entry_apps fl o t pos d = Got (Some (times, res)) ->
  good times (Zq ((z - 1) / - d)) /\ res = z - (z - 1) / - d * - d.
Proof.
  intros D K E (c & G & T & V & Z1 & SF) H. unfold entry_apps in H. rewrite G in H. cbn zeta in H.
  replace (Z.abs d) with (- d) in H by lia. specialize (SF D).
  assert (FIN : forall div rem, good div (Zq (z / - d)) -> rem = z mod - d ->
    (if 0 <? rem then Got (Some (div, rem)) else times0 <~ lift (o_sub o div (I 1)); Got (Some (times0, - d))) = Got (Some (times, res)) ->
    good times (Zq ((z - 1) / - d)) /\ res = z - (z - 1) / - d * - d).
  { intros div rem GD -> X. pose proof (last_time z (- d) ltac:(lia)) as L. cbn zeta in L.
    destruct (0 <? z mod - d).
    - injection X as <- <-. destruct L as (-> & L). split; [auto|]. lia.
    - ob X. injection X as <- <-. apply lift_ok in E0. destruct L as (L1 & L2). rewrite L1 in *. split; [|lia].
      eapply good_eq; [eapply (s_sub _ _ S); [exact GD|apply good_I|exact E0]|]. rewrite Zq_sub. reflexivity. }
  destruct c as [c| | | |].
  - cbn in V. subst c. destruct (z <=? - d); [discriminate|]. cbn [obind] in H.
    apply (FIN _ _ (good_I p _) eq_refl H).
  - destruct (lift (num_divmod fl o (Add c1 c2) (- d))) as [[q rm]| | | | | |] eqn:DM; cbn [obind] in H; try discriminate.
    apply lift_ok in DM. rewrite E in DM, SF. destruct (divmod_ok p fl n _ z k _ _ P FL F2 K T V SF DM) as (R & TQ & VQ).
    rewrite <- E in R, VQ. apply (FIN q rm); auto. split; auto.
  - destruct (lift (num_divmod fl o (Mul c1 c2) (- d))) as [[q rm]| | | | | |] eqn:DM; cbn [obind] in H; try discriminate.
    apply lift_ok in DM. rewrite E in DM, SF. destruct (divmod_ok p fl n _ z k _ _ P FL F2 K T V SF DM) as (R & TQ & VQ).
    rewrite <- E in R, VQ. apply (FIN q rm); auto. split; auto.
  - destruct (lift (num_divmod fl o (Div c den) (- d))) as [[q rm]| | | | | |] eqn:DM; cbn [obind] in H; try discriminate.
    apply lift_ok in DM. rewrite E in DM, SF. destruct (divmod_ok p fl n _ z k _ _ P FL F2 K T V SF DM) as (R & TQ & VQ).
    rewrite <- E in R, VQ. apply (FIN q rm); auto. split; auto.
  - destruct (lift (num_divmod fl o (Exp base c) (- d))) as [[q rm]| | | | | |] eqn:DM; cbn [obind] in H; try discriminate.
    apply lift_ok in DM. rewrite E in DM, SF. destruct (divmod_ok p fl n _ z k _ _ P FL F2 K T V SF DM) as (R & TQ & VQ).
    rewrite <- E in R, VQ. apply (FIN q rm); auto. split; auto.
Qed.

Lemma iter_plus d : forall k z, Nat.iter k (fun x => x + d) z = z + d * Z.of_nat k.
Proof. induction k as [|k IH]; intros z; cbn [Nat.iter nat_rect]; [lia|]. unfold Nat.iter in IH. rewrite IH. lia. Qed.
Lemma iter_mult m a : forall k z,
  (m - 1) * Nat.iter k (fun x => m * x + a) z = (m - 1) * z * m ^ Z.of_nat k + a * (m ^ Z.of_nat k - 1).
Proof.
  induction k as [|k IH]; intros z; [cbn [Nat.iter nat_rect]; change (Z.of_nat 0) with 0; rewrite Z.pow_0_r; lia|].
  replace (Z.of_nat (Datatypes.S k)) with (Z.of_nat k + 1) by lia. rewrite Z.pow_add_r, Z.pow_1_r by lia.
  cbn [Nat.iter nat_rect]. unfold Nat.iter in IH.
  rewrite Z.mul_add_distr_l. rewrite (Z.mul_comm m (nat_rect _ _ _ _)), Z.mul_assoc, IH. ring.
Qed.

Lemma apply_smult_ok count times m a j z N r : rel_prime m p -> 0 <= j -> m = 1 + p ^ j -> good count (Zq z) ->
  good times (Zq N) -> 0 <= N -> apply_smult fl o count times m a = Got r ->
  good r (Zq (Nat.iter (Z.to_nat N) (fun x => m * x + a) z)).
Proof.
  intros R J M GC GT N0 H. unfold apply_smult in H.
  destruct (negb (is_int count) && (20 <? depth count)); [discriminate|].
  destruct (if cnt_eqb times (I 1) then Got (I m) else lift (make_exp fl o m times)) as [e| | | | | |] eqn:E; cbn [obind] in H; try discriminate.
  assert (PJ : 0 < p ^ j) by (apply Z.pow_pos_nonneg; destruct P; lia).
  pose proof (iter_mult m a (Z.to_nat N) z) as IT. rewrite Z2Nat.id in IT by lia.
  set (w := Nat.iter (Z.to_nat N) (fun x => m * x + a) z) in *.
  assert (GE : good e (Zq (m ^ N))).
  { destruct (cnt_eqb times (I 1)) eqn:T1.
    - injection E as <-. apply cnt_eqb_eq in T1. subst times. apply good_I_inv in GT. apply Zq_inj in GT. subst N.
      rewrite Z.pow_1_r. apply good_I.
    - apply lift_ok in E. eapply good_eq; [eapply (make_exp_ok p P fl FL o S m times (Zq N) N); eauto; reflexivity|].
      symmetry. apply Zpower_Qpower. auto. }
  destruct (lift (o_mul o count e)) as [x| | | | | |] eqn:X; cbn [obind] in H; try discriminate.
  apply lift_ok in X. apply (s_mul _ _ S count e _ _ _ GC GE) in X.
  destruct (Z.eqb_spec a 0) as [->|A].
  { injection H as <-. eapply good_eq; [exact X|]. rewrite <- Zq_mul. apply inject_Z_injective. nia. }
  destruct (lift (o_sub o e (I m))) as [d| | | | | |] eqn:D; cbn [obind] in H; try discriminate.
  apply lift_ok in D. apply (s_sub _ _ S e (I m) _ _ _ GE (good_I p m)) in D.
  destruct (lift (o_div o d (I (m - 1)))) as [q| | | | | |] eqn:Q; cbn [obind] in H; try discriminate.
  apply lift_ok in Q.
  assert (DV : exists u, m ^ N - 1 = u * (m - 1)).
  { clear - N0. pattern N. apply natlike_ind; [exists 0; rewrite Z.pow_0_r; lia| |auto].
    intros x X (u & U). exists (m ^ x + u). rewrite Z.pow_succ_r by auto. nia. }
  destruct DV as (u & U).
  assert (QV : Qeq ((Zq (m ^ N) - Zq m) / Zq (m - 1)) (Zq (u - 1))).
  { rewrite <- Zq_sub. replace (m ^ N - m) with ((u - 1) * (m - 1)) by nia. rewrite Zq_mul. field. apply Zq_nz. lia. }
  apply (s_div _ _ S d (Zq (m ^ N) - Zq m)%Q (m - 1) j q D J ltac:(lia)) in Q.
  2:{ eapply local_eq; [apply (local_Z p (u - 1))|]. symmetry. exact QV. }
  apply (fun g => good_eq p _ _ _ g QV) in Q.
  destruct (lift (o_add o (I 1) q)) as [s| | | | | |] eqn:SS; cbn [obind] in H; try discriminate.
  apply lift_ok in SS. apply (s_add _ _ S (I 1) q _ _ _ (good_I p 1) Q) in SS.
  destruct (lift (o_mul o (I a) s)) as [y| | | | | |] eqn:Y; cbn [obind] in H; try discriminate.
  apply lift_ok in Y. apply (s_mul _ _ S (I a) s _ _ _ (good_I p a) SS) in Y.
  apply lift_ok in H. apply (s_add _ _ S x y _ _ _ X Y) in H.
  eapply good_eq; [exact H|]. rewrite <- Zq_add, <- !Zq_mul, <- Zq_add. apply inject_Z_injective.
  assert ((m - 1) * (z * m ^ N + a * (1 + (u - 1))) = (m - 1) * w) by (rewrite IT; nia). nia.
Qed.
End Prime2.

Lemma index_eqb_spec a b : reflect (a = b) (index_eqb a b).
Proof.
  apply iff_reflect. destruct a as [s i], b as [s' i']. unfold index_eqb. cbn [fst snd]. rewrite andb_true_iff, Nat.eqb_eq, eqb_true_iff.
  split; [intros E; injection E as -> ->; auto|intros [-> ->]; auto].
Qed.
Lemma put_same : forall l k v, (k < length l)%nat -> nth_error (put l k v) k = Some v.
Proof. induction l as [|x l IH]; intros [|k] v L; cbn in *; try lia; auto. apply IH. lia. Qed.
Lemma put_other : forall l k j v, k <> j -> nth_error (put l k v) j = nth_error l j.
Proof. induction l as [|x l IH]; intros [|k] [|j] v N; cbn; auto; try congruence. Qed.
Lemma sget_same t i v c : sget t i = Some c -> sget (sset t i v) i = Some v.
Proof.
  unfold sget, sset. destruct i as [[|] k]; cbn [fst snd]; intros E; apply put_same; apply nth_error_Some; congruence.
Qed.
Lemma sget_other t i j v : i <> j -> sget (sset t i v) j = sget t j.
Proof.
  unfold sget, sset. destruct i as [[|] k], j as [[|] k']; cbn [fst snd]; intros N; auto; apply put_other; congruence.
Qed.

Lemma apply_sloop_ok fl o times mp mr : forall r t t', NoDup (map fst r) -> apply_sloop fl o r t times mp mr = Got t' ->
  (forall i op, In (i, op) r -> exists c v, sget t i = Some c /\ sget t' i = Some v
     /\ entry_result fl o c times mp mr i op = Got v)
  /\ (forall i, ~ In i (map fst r) -> sget t' i = sget t i).
Proof.
  induction r as [|[i op] r IH]; intros t t' D H; cbn [apply_sloop] in H.
  - injection H as <-. split; [intros i op []|auto].
  - inversion D as [|? ? NI D']; subst. destruct (sget t i) as [c|] eqn:G; [|discriminate]. ob H. rename a into v.
    destruct (IH _ _ D' H) as (A & B). cbn [fst] in NI. split.
    + intros j op' [X|X].
      * injection X as <- <-. exists c, v. split; [auto|]. split; [|auto]. rewrite (B i NI). eapply sget_same; eauto.
      * assert (N : i <> j) by (intros ->; apply NI; change j with (fst (j, op')); apply in_map; auto).
        destruct (A j op' X) as (c' & v' & A1 & A2 & A3). exists c', v'. rewrite sget_other in A1 by auto. auto.
    + intros j NJ. cbn [map fst In] in NJ. rewrite B by tauto. apply sget_other. tauto.
Qed.

Lemma zval_fun : forall e a b, zval e a -> zval e b -> a = b.
Proof. intros e a b A B. apply zval_val in A, B. apply Zq_inj. eapply val_fun; eauto. Qed.

Lemma entry_unique : forall (r : srule) i a b, NoDup (map fst r) -> In (i, a) r -> In (i, b) r -> a = b.
Proof.
  induction r as [|[j x] r IH]; intros i a b ND IA IB; [contradiction|]. inversion ND as [|? ? NI ND']; subst. cbn [fst] in NI.
  destruct IA as [IA|IA], IB as [IB|IB]; [congruence| | |eauto].
  - injection IA as -> ->. elim NI. change i with (fst (i, b)). apply in_map. auto.
  - injection IB as -> ->. elim NI. change i with (fst (i, a)). apply in_map. auto.
Qed.

Lemma apply_srule_exact p fl n r t times t' : prime p -> exact_roots fl -> exact_log2 fl -> NoDup (map fst r) ->
  (forall i op, In (i, op) r -> sop_over p op /\ exists z, counted p t i op z) ->
  apply_srule fl (ops_at fl n) r t = Got (Some (times, t')) ->
  exists N, 0 <= N /\ tame p times /\ val times (inject_Z N)
    /\ (exists i d z, In (i, SPlus d) r /\ d < 0 /\ counted p t i (SPlus d) z /\ 1 <= z + d * N /\ z + d * (N + 1) < 1)
    /\ (forall i op z, In (i, op) r -> counted p t i op z -> exists c, sget t' i = Some c /\ tame p c
          /\ val c (inject_Z (Nat.iter (Z.to_nat N) (bump_sop op) z)))
    /\ (forall i, ~ In i (map fst r) -> sget t' i = sget t i).
Proof.
  intros P FL F2 D C H. unfold apply_srule in H.
  destruct (count_apps fl (ops_at fl n) r t None) as [[[[ti mp] mr]|]| | | | | |] eqn:CA; cbn [obind] in H; try discriminate.
  destruct (apply_sloop fl (ops_at fl n) r t ti mp mr) as [t1| | | | | |] eqn:LO; cbn [obind] in H; try discriminate.
  injection H as -> ->.
  destruct (count_apps_chosen _ _ _ _ _ _ _ _ CA) as [X|(d0 & I0 & D0 & E0)]; [discriminate|].
  destruct (C _ _ I0) as (O0 & z0 & C0). destruct (O0 D0) as (k & K & PK).
  destruct (entry_apps_ok p P fl FL F2 n t mp d0 k z0 times mr D0 K PK C0 E0) as ((TT & TV) & MR).
  destruct (apply_sloop_ok _ _ _ _ _ _ _ _ D LO) as (A & B).
  set (N := (z0 - 1) / - d0) in *.
  assert (Z0 : 1 <= z0) by (destruct C0 as (? & ? & ? & ? & ? & ?); auto).
  assert (N0 : 0 <= N) by (apply Z.div_pos; lia).
  pose proof (Z.div_mod (z0 - 1) (- d0) ltac:(lia)) as DM. pose proof (Z.mod_pos_bound (z0 - 1) (- d0) ltac:(lia)) as MB.
  fold N in DM.
  exists N. split; [auto|]. split; [auto|]. split; [auto|]. split; [|split].
  - exists mp, d0, z0. split; [auto|]. split; [auto|]. split; [auto|]. split; nia.
  - intros i op z II CZ. destruct (A i op II) as (c & v & G & G' & R). exists v. split; [auto|].
    destruct CZ as (c' & GC & TC & VC & Z1 & _). rewrite G in GC. injection GC as <-.
    assert (good p v (Zq (Nat.iter (Z.to_nat N) (bump_sop op) z))); [|auto].
    assert (GC : good p c (Zq z)) by (split; [auto|apply zval_val; auto]).
    pose proof (ops_at_sound p P fl FL n) as SD.
    destruct op as [d|m a|ops]; cbn [entry_result] in R.
    + change (Nat.iter (Z.to_nat N) (bump_sop (SPlus d)) z) with (Nat.iter (Z.to_nat N) (fun x => x + d) z).
      rewrite iter_plus, Z2Nat.id by auto.
      destruct (index_eqb_spec i mp) as [->|NE].
      * destruct (d <? 0); [|discriminate]. injection R as <-.
        assert (d = d0).
        { assert (X : SPlus d = SPlus d0) by (eapply entry_unique; eauto). injection X as ->. auto. }
        subst d. destruct C0 as (c0 & GC0 & _ & VC0 & _). rewrite G in GC0. injection GC0 as <-.
        pose proof (zval_fun _ _ _ VC VC0). subst z. replace (z0 + d0 * N) with mr by lia. apply good_I.
      * destruct (lift (o_mul (ops_at fl n) (I d) times)) as [x| | | | | |] eqn:X; cbn [obind] in R; try discriminate.
        apply lift_ok in X, R. eapply good_eq; [eapply (s_add _ _ SD); [exact GC|eapply (s_mul _ _ SD); [apply good_I|exact (conj TT TV)|exact X]|exact R]|].
        rewrite <- Zq_mul, <- Zq_add. reflexivity.
    + destruct (C _ _ II) as ((RP & j & J & M) & _). eapply apply_smult_ok; eauto. split; auto.
    + destruct (C _ _ II) as (F & _). contradiction.
  - exact B.
Qed.

Lemma apply_srule_none fl o r t : apply_srule fl o r t = Got None ->
  (forall i d, In (i, SPlus d) r -> 0 <= d)
  \/ exists i d c, In (i, SPlus d) r /\ d < 0 /\ sget t i = Some (I c) /\ c + d < 1.
Proof.
  unfold apply_srule. intros H.
  destruct (count_apps fl o r t None) as [[[[ti mp] mr]|]| | | | | |] eqn:CA; cbn [obind] in H; try discriminate.
  - destruct (apply_sloop fl o r t ti mp mr); cbn [obind] in H; discriminate.
  - destruct (count_apps_none _ _ _ _ _ CA) as [(_ & X)|X]; auto.
Qed.

(** With one entry that decreases no count drops below 1 on the way. *)
Lemma apply_srule_positive p fl n r t times t' : prime p -> exact_roots fl -> exact_log2 fl -> NoDup (map fst r) ->
  (forall i op, In (i, op) r -> sop_over p op /\ exists z, counted p t i op z) ->
  (forall i j op op', In (i, op) r -> In (j, op') r -> decreases op -> decreases op' -> i = j) ->
  apply_srule fl (ops_at fl n) r t = Got (Some (times, t')) ->
  forall i d z, In (i, SPlus d) r -> counted p t i (SPlus d) z -> exists N, val times (inject_Z N)
    /\ forall k, 0 <= k <= N -> 1 <= z + d * k.
Proof.
  intros P FL F2 D C ONE H i d z II CZ.
  destruct (apply_srule_exact p fl n r t times t' P FL F2 D C H) as (N & N0 & TT & TV & (i0 & d0 & z0 & I0 & D0 & C0 & L1 & L2) & _).
  exists N. split; [auto|]. intros k K. destruct CZ as (c & G & T & V & Z1 & _).
  destruct (Z.ltb_spec d 0) as [DN|DN]; [|nia].
  assert (i = i0) by (eapply ONE; eauto; cbn; auto). subst i0.
  destruct C0 as (c0 & G0 & T0 & V0 & Z0 & _). rewrite G in G0. injection G0 as <-.
  pose proof (zval_fun _ _ _ V V0). subst z0.
  assert (d = d0).
  { assert (X : SPlus d = SPlus d0) by (eapply entry_unique; eauto). injection X as ->. auto. }
  subst d0. nia.
Qed.

(** ** calculate_diff *)
Lemma sub_is_ok p o (S : sound p o) a b c qa qb qc : tame p a -> val a qa -> tame p b -> val b qb -> val c qc ->
  sub_is o a b c = Got true -> Qeq qa (qb + qc).
Proof.
  intros TA VA TB VB VC H. unfold sub_is in H. ob H. apply lift_ok in E. injection H as H.
  apply cnt_eqb_eq in H. subst a0.
  destruct (s_sub p o S a b qa qb c (conj TA VA) (conj TB VB) E) as [_ V].
  rewrite (val_fun _ _ _ VC V). ring.
Qed.

Lemma diff_learned p fl n c1 c2 c3 c4 q1 q2 q3 q4 r : prime p -> exact_roots fl ->
  tame p c1 -> tame p c2 -> tame p c3 -> tame p c4 -> val c1 q1 -> val c2 q2 -> val c3 q3 -> val c4 q4 ->
  calculate_diff fl (ops_at fl n) c1 c2 c3 c4 = Got r ->
  match r with
  | None => Qeq q2 q1 /\ Qeq q3 q1 /\ Qeq q4 q1
  | Some (SPlus d) => Qeq q2 (q1 + Zq d) /\ Qeq q3 (q2 + Zq d) /\ Qeq q4 (q3 + Zq d)
  | Some (SMult m a) => exists z1 z2 z3 z4, c1 = I z1 /\ c2 = I z2 /\ c3 = I z3 /\ c4 = I z4
      /\ (0 < z1 -> z2 = m * z1 + a /\ z3 = m * z2 + a /\ (z4 / z3 = z2 / z1 -> z4 = m * z3 + a))
  | Some (SOps ops) => ops_mean ops q1 q2
      /\ apply_ops fl (ops_at fl n) c2 (I 1) ops = Got c3 /\ apply_ops fl (ops_at fl n) c3 (I 1) ops = Got c4
  end.
Proof.
  intros P FL T1 T2 T3 T4 V1 V2 V3 V4 H. pose proof (ops_at_sound p P fl FL n) as S.
  assert (SYM : (exists z1 z2 z3 z4, c1 = I z1 /\ c2 = I z2 /\ c3 = I z3 /\ c4 = I z4)
    \/ (if cnt_eqb c2 c1 && cnt_eqb c3 c1 && cnt_eqb c4 c1 then Got None
      else
        plus <~ lift (o_sub (ops_at fl n) c2 c1);
        same <~ (x <~ sub_is (ops_at fl n) c3 c2 plus; if x : bool then sub_is (ops_at fl n) c4 c3 plus else Got false);
        if same : bool then match plus with I d => Got (Some (SPlus d)) | _ => SFail end
        else
          up <~ ascending (ops_at fl n) c1 c2 c3 c4;
          if negb up then SUnknown
          else if is_int c1 || is_int c2 || is_int c3 || is_int c4 then SFail
          else ops <~ calculate_op_seq fl (ops_at fl n) c1 c2 c3 c4; Got (Some (SOps ops))) = Got r).
  { destruct c1; [destruct c2; [destruct c3; [destruct c4|..]|..]|..]; try (right; exact H). left. eauto 10. }
  destruct SYM as [(z1 & z2 & z3 & z4 & -> & -> & -> & ->)|H'].
  - cbn [calculate_diff] in H. unfold int_diff in H. cbn [val] in V1, V2, V3, V4.
    destruct (py_calculate_diff z1 z2 z3 z4) as [ |[d|m a]| | | ] eqn:D; try discriminate; injection H as <-.
    + apply py_diff_none in D. destruct D as (-> & -> & ->). rewrite V1, V2, V3, V4. repeat split; reflexivity.
    + apply py_diff_plus in D. destruct D as (_ & E2 & E3 & E4). rewrite V1, V2, V3, V4, <- !inject_Z_plus.
      rewrite <- E2, <- E3, <- E4. repeat split; reflexivity.
    + exists z1, z2, z3, z4. repeat (split; [reflexivity|]). intros L. apply py_diff_mult in D; [|auto]. tauto.
  - clear H. destruct (cnt_eqb c2 c1 && cnt_eqb c3 c1 && cnt_eqb c4 c1) eqn:EQ.
    { injection H' as <-. apply andb_prop in EQ. destruct EQ as [EQ E4]. apply andb_prop in EQ. destruct EQ as [E2 E3].
      apply cnt_eqb_eq in E2, E3, E4. subst c2 c3 c4. repeat split; eapply val_fun; eauto. }
    destruct (lift (o_sub (ops_at fl n) c2 c1)) as [plus| | | | | |] eqn:PL; cbn [obind] in H'; try discriminate.
    apply lift_ok in PL. destruct (s_sub p _ S c2 c1 q2 q1 plus (conj T2 V2) (conj T1 V1) PL) as [TP VP].
    destruct (x <~ sub_is (ops_at fl n) c3 c2 plus; if x : bool then sub_is (ops_at fl n) c4 c3 plus else Got false)
      as [same| | | | | |] eqn:SA; cbn [obind] in H'; try discriminate.
    destruct same.
    + destruct plus as [d| | | |]; try discriminate. injection H' as <-.
      destruct (sub_is (ops_at fl n) c3 c2 (I d)) as [b| | | | | |] eqn:S1; cbn [obind] in SA; try discriminate.
      destruct b; [|discriminate]. cbn [val] in VP.
      pose proof (sub_is_ok p _ S _ _ (I d) _ _ _ T3 V3 T2 V2 (Qeq_refl (Zq d)) S1) as A1.
      pose proof (sub_is_ok p _ S _ _ (I d) _ _ _ T4 V4 T3 V3 (Qeq_refl (Zq d)) SA) as A2.
      split; [|auto]. rewrite <- VP. ring.
    + ob H'. destruct (negb a); [discriminate|].
      destruct (is_int c1 || is_int c2 || is_int c3 || is_int c4); [discriminate|]. ob H'.
      injection H' as <-. eapply op_seq_learned; eauto.
Qed.

(** ** make_rule *)
Lemma rule_side_ok fl o s : forall a b c d i r, rule_side fl o s i a b c d = Got r ->
  NoDup (map fst r)
  /\ (forall j op, In (j, op) r -> exists k x y z w, j = (s, (i + k)%nat)
        /\ nth_error a k = Some x /\ nth_error b k = Some y /\ nth_error c k = Some z /\ nth_error d k = Some w
        /\ calculate_diff fl o x y z w = Got (Some op))
  /\ (forall k x y z w, nth_error a k = Some x -> nth_error b k = Some y -> nth_error c k = Some z -> nth_error d k = Some w ->
        calculate_diff fl o x y z w = Got None \/ exists op, In ((s, (i + k)%nat), op) r).
Proof.
  induction a as [|x a IH]; intros b c d i r H.
  { injection H as <-. split; [constructor|]. split; [intros ? ? []|]. intros [|k]; discriminate. }
  destruct b as [|y b]; [injection H as <-; split; [constructor|]; split; [intros ? ? []|]; intros [|k]; discriminate|].
  destruct c as [|z c]; [injection H as <-; split; [constructor|]; split; [intros ? ? []|]; intros [|k]; discriminate|].
  destruct d as [|w d]; [injection H as <-; split; [constructor|]; split; [intros ? ? []|]; intros [|k]; discriminate|].
  cbn [rule_side] in H.
  destruct (calculate_diff fl o x y z w) as [diff| | | | | |] eqn:D; cbn [obind] in H; try discriminate.
  destruct (rule_side fl o s (Datatypes.S i) a b c d) as [r'| | | | | |] eqn:R; cbn [obind] in H; try discriminate.
  destruct (IH _ _ _ _ _ R) as (ND & A & B). injection H as H.
  assert (A' : forall j op, In (j, op) r' -> exists k x0 y0 z0 w0, j = (s, (i + k)%nat)
        /\ nth_error (x :: a) k = Some x0 /\ nth_error (y :: b) k = Some y0 /\ nth_error (z :: c) k = Some z0
        /\ nth_error (w :: d) k = Some w0 /\ calculate_diff fl o x0 y0 z0 w0 = Got (Some op)).
  { intros j op J. destruct (A j op J) as (k & x0 & y0 & z0 & w0 & -> & X). exists (Datatypes.S k), x0, y0, z0, w0.
    split; [f_equal; lia|exact X]. }
  assert (B' : forall k x0 y0 z0 w0, nth_error a k = Some x0 -> nth_error b k = Some y0 -> nth_error c k = Some z0 ->
     nth_error d k = Some w0 -> calculate_diff fl o x0 y0 z0 w0 = Got None \/ exists op, In ((s, (i + Datatypes.S k)%nat), op) r').
  { intros k x0 y0 z0 w0 E1 E2 E3 E4. replace (i + Datatypes.S k)%nat with (Datatypes.S i + k)%nat by lia. eauto. }
  destruct diff as [op|]; subst r.
  - split; [|split].
    + cbn. constructor; auto. intros J. apply in_map_iff in J. destruct J as ((j & op') & J1 & J2).
      destruct (A _ _ J2) as (k & x0 & y0 & z0 & w0 & -> & _). cbn in J1. injection J1 as J1. lia.
    + intros j op' [J|J].
      * injection J as <- <-. exists 0%nat, x, y, z, w. rewrite Nat.add_0_r. repeat split; auto.
      * destruct (A' _ _ J) as (k & x0 & y0 & z0 & w0 & X). exists k, x0, y0, z0, w0. exact X.
    + intros [|k] x0 y0 z0 w0 E1 E2 E3 E4.
      * right. exists op. left. rewrite Nat.add_0_r. reflexivity.
      * destruct (B' k x0 y0 z0 w0 E1 E2 E3 E4) as [X|(op' & X)]; [auto|]. right. exists op'. right. auto.
  - split; [auto|]. split; [exact A'|]. intros [|k] x0 y0 z0 w0 E1 E2 E3 E4.
    + cbn in E1, E2, E3, E4. injection E1 as <-. injection E2 as <-. injection E3 as <-. injection E4 as <-. auto.
    + exact (B' k x0 y0 z0 w0 E1 E2 E3 E4).
Qed.

Lemma make_srule_ok fl o k1 k2 k3 k4 r : make_srule fl o k1 k2 k3 k4 = Got (Some r) ->
  NoDup (map fst r)
  /\ (exists i op, In (i, op) r /\ decreases op)
  /\ (forall i op, In (i, op) r -> exists c1 c2 c3 c4, srecorded k1 k2 k3 k4 i c1 c2 c3 c4
        /\ calculate_diff fl o c1 c2 c3 c4 = Got (Some op))
  /\ (forall i c1 c2 c3 c4, srecorded k1 k2 k3 k4 i c1 c2 c3 c4 ->
        calculate_diff fl o c1 c2 c3 c4 = Got None \/ exists op, In (i, op) r).
Proof.
  unfold make_srule. intros H.
  destruct (rule_side fl o false 0 (fst k1) (fst k2) (fst k3) (fst k4)) as [l| | | | | |] eqn:L; cbn [obind] in H; try discriminate.
  destruct (rule_side fl o true 0 (snd k1) (snd k2) (snd k3) (snd k4)) as [l'| | | | | |] eqn:L'; cbn [obind] in H; try discriminate.
  destruct (rule_side_ok _ _ _ _ _ _ _ _ _ L) as (N1 & A1 & B1).
  destruct (rule_side_ok _ _ _ _ _ _ _ _ _ L') as (N2 & A2 & B2).
  destruct (forallb _ _) eqn:F in H; [discriminate|]. injection H as <-.
  split; [|split; [|split]].
  - rewrite map_app. assert (DJ : forall j, In j (map fst l) -> ~ In j (map fst l')).
    { intros j J J'. apply in_map_iff in J, J'. destruct J as ((j1 & op) & E1 & J1). destruct J' as ((j2 & op') & E2 & J2).
      destruct (A1 _ _ J1) as (? & ? & ? & ? & ? & -> & _). destruct (A2 _ _ J2) as (? & ? & ? & ? & ? & -> & _).
      cbn in E1, E2. subst j. discriminate. }
    clear - N1 N2 DJ. revert N1 DJ. generalize (map fst l) as u. induction u as [|x u IH]; cbn; auto.
    intros ND DJ. inversion ND as [|? ? NI ND']; subst. constructor.
    + rewrite in_app_iff. intros [J|J]; [auto|]. eapply DJ; eauto.
    + apply IH; auto.
  - clear - F. induction (l ++ l') as [|[i op] u IH]; [discriminate|]. cbn [forallb snd] in F.
    apply andb_false_iff in F. destruct F as [F|F].
    + exists i, op. split; [left; auto|]. destruct op as [d| |]; try discriminate. cbn. apply Z.leb_gt in F. exact F.
    + destruct (IH F) as (j & op' & J & D). exists j, op'. split; [right; auto|auto].
  - intros i op J. apply in_app_or in J. destruct J as [J|J].
    + destruct (A1 _ _ J) as (k & x & y & z & w & -> & E1 & E2 & E3 & E4 & D). exists x, y, z, w. split; [|auto].
      unfold srecorded. cbn. auto.
    + destruct (A2 _ _ J) as (k & x & y & z & w & -> & E1 & E2 & E3 & E4 & D). exists x, y, z, w. split; [|auto].
      unfold srecorded. cbn. auto.
  - intros [s k] c1 c2 c3 c4 (E1 & E2 & E3 & E4). destruct s; cbn in E1, E2, E3, E4.
    + destruct (B2 k _ _ _ _ E1 E2 E3 E4) as [X|(op & X)]; [auto|]. right. exists op. apply in_or_app. auto.
    + destruct (B1 k _ _ _ _ E1 E2 E3 E4) as [X|(op & X)]; [auto|]. right. exists op. apply in_or_app. auto.
Qed.

Lemma apply_ops_exact p fl n ops c q k r : prime p -> exact_roots fl -> Forall (op_over p) ops -> tame p c -> val c q -> 0 <= k ->
  apply_ops fl (ops_at fl n) c (I k) ops = Got r ->
  (exists y, tame p r /\ val r y /\ times_mean (Z.to_nat k) ops q y)
  \/ exists j c0 ops1 op ops2 c', 0 <= j < k /\ apply_ops fl (ops_at fl n) c (I j) ops = Got c0 /\ ops = ops1 ++ op :: ops2
       /\ apply_ops fl (ops_at fl n) c0 (I 1) ops1 = Got c' /\ stumbles p op c'.
Proof.
  intros P FL F T V K H. cbn [apply_ops] in H.
  destruct (apply_times_ok p P fl FL _ (ops_at_sound p P fl FL n) _ ops c q r F (conj T V) H)
    as [(y & (TY & VY) & M)|(j & c0 & ops1 & op & ops2 & c' & J & A & E & B & ST)].
  - left. exists y. auto.
  - right. exists (Z.of_nat j), c0, ops1, op, ops2, c'. split; [lia|]. cbn [apply_ops]. rewrite Nat2Z.id.
    split; [auto|]. split; [auto|]. split; [|auto]. change (Z.to_nat 1) with 1%nat. cbn [apply_times]. rewrite B. reflexivity.
Qed.

Lemma apply_srule_refused fl o r t : apply_srule fl o r t = Got None ->
  (forall i op, In (i, op) r -> ~ decreases op)
  \/ exists i d c, In (i, SPlus d) r /\ d < 0 /\ sget t i = Some (I c) /\ c + d < 1.
Proof.
  intros H. destruct (apply_srule_none _ _ _ _ H) as [X|X]; [left|auto].
  intros i [d| |] J D; cbn in D; try tauto. apply X in J. lia.
Qed.
