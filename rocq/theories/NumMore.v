(** * make_exp, gcd, divmod, comparison of towers *)
From Coq Require Import QArith Qpower Qfield Znumtheory.
From Verif Require Import Base NumModel NumSpec NumProofs NumFree NumMod.

Local Notation Zq := inject_Z.
Local Open Scope Z_scope.

(** ** Integer values *)

Lemma zval_val : forall e z, zval e z -> val e (Zq z).
Proof.
  induction e; intros q V; cbn [zval val] in *.
  - subst. reflexivity.
  - destruct V as (a & b & A & B & ->). exists (Zq a), (Zq b). rewrite inject_Z_plus. auto using Qeq_refl.
  - destruct V as (a & b & A & B & ->). exists (Zq a), (Zq b). rewrite inject_Z_mult. auto using Qeq_refl.
  - destruct V as (D & A). exists (Zq (q * den)). split; [auto|]. split; [auto|].
    rewrite inject_Z_mult. field. apply Zq_nz. lia.
  - destruct V as (y & E & B & Y & ->). exists y. split; [auto|]. split; [lia|].
    symmetry. rewrite Zpower_Qpower by lia. reflexivity.
Qed.

Lemma gcd_int_ok : forall p fl k e z g, prime p -> exact_roots fl -> 0 <= k -> tame p e -> zval e z ->
  num_gcd fl (p ^ k) e = Ok g -> (g | p ^ k) /\ (g | z).
Proof.
  intros p fl k e z g P FL K T V H.
  destruct (gcd_ok p P fl e (Zq z) k g (conj T (zval_val _ _ V)) K H) as (j & J & -> & L).
  split.
  - exists (p ^ (k - j)). rewrite <- Z.pow_add_r by lia. f_equal. lia.
  - apply (local_div_Z p P); [lia|auto].
Qed.

Lemma gcd_loop_divides : forall n l b x c g, 0 < b -> x = b ^ c -> gcd_loop n l b x c = Ok g -> (g | l).
Proof.
  induction n; intros l b x c g B X H; cbn [gcd_loop] in H; [discriminate|].
  destruct (x =? 0) eqn:X0; [discriminate|]. destruct (l mod x =? 0) eqn:M.
  - destruct (c <? 0); [discriminate|]. inv H. zb. apply Z.mod_divide in M; auto.
  - destruct (Z.le_gt_cases c 0) as [C|C].
    + destruct (Z.eq_dec c 0) as [->|].
      { rewrite Z.pow_0_r in X. subst x. rewrite Z.mod_1_r in M. discriminate. }
      rewrite Z.pow_neg_r in X by lia. subst x. zb. rewrite Zmod_0_r in M. exfalso.
      rewrite Z.div_0_l in H by lia. destruct n; cbn in H; discriminate.
    + eapply IHn; [exact B| |exact H]. subst x.
      replace c with (Z.succ (c - 1)) at 1 by lia. rewrite Z.pow_succ_r by lia.
      rewrite Z.mul_comm, Z.div_mul by lia. reflexivity.
Qed.

Lemma gcd_divides_first : forall fl e l g, 0 < l -> num_gcd fl l e = Ok g -> (g | l).
Proof.
  intros fl. induction e; intros k g L H; cbn [num_gcd] in H;
    (destruct (k =? 1) eqn:K1; [inv H; exists k; lia|]).
  - inv H. apply Z.gcd_divide_l.
  - destruct (num_gcd fl k e1) as [u| | |] eqn:U; try discriminate. cbn [bind] in H.
    destruct (u =? 1); [inv H; exists k; lia|].
    destruct (num_gcd fl k e2) as [v| | |] eqn:W; try discriminate. cbn [bind] in H.
    destruct (v =? 1); [inv H; exists k; lia|]. inv H.
    destruct (Z.min_spec u v) as [[_ ->]|[_ ->]]; eauto.
  - destruct (num_gcd fl k e1) as [u| | |] eqn:U; try discriminate. cbn [bind] in H.
    destruct (num_gcd fl k e2) as [v| | |] eqn:W; try discriminate. cbn [bind] in H. inv H.
    destruct (Z.max_spec u v) as [[_ ->]|[_ ->]]; eauto.
  - discriminate.
  - destruct (k =? base) eqn:KB; [inv H; zb; subst; apply Z.divide_refl|].
    destruct (base <=? 0) eqn:B0; [discriminate|]. zb.
    destruct (k mod base =? 0); cbn [negb] in H; [|inv H; apply Z.gcd_divide_l].
    destruct ((k <=? 0) || (base =? 1)); [discriminate|].
    destruct (fl_log fl k base <? 0); [discriminate|].
    eapply gcd_loop_divides in H; eauto.
Qed.

(** ** make_exp *)

Lemma make_exp_free_ok : forall fl n b e z c, exact_roots fl -> b <> 0 -> undivided e -> val e (Zq z) ->
  make_exp fl (ops_at fl n) b e = Ok c -> undivided c /\ val c (Qpower (Zq b) z).
Proof.
  intros fl n b e z c FL B U V H. split.
  - eapply make_exp_free; eauto. apply ops_at_free.
  - assert (N : bases e * b <> 0) by (pose proof (bases_nz _ _ V); lia).
    destruct (prime_avoiding _ N) as (p & P & R). apply rel_prime_part in R as [R1 R2].
    pose proof (make_exp_ok p P fl FL (ops_at fl n) (ops_at_sound p P fl FL n) b e (Zq z) z c R2
      (conj (undivided_tame p e U R1) V) (Qeq_refl _) H) as [_ G]. exact G.
Qed.

(** ** divmod *)

Lemma divmod_ok : forall p fl n a z k q r, prime p -> exact_roots fl -> exact_log2 fl -> 0 <= k ->
  tame p a -> zval a z -> safe a (p ^ k) -> num_divmod fl (ops_at fl n) a (p ^ k) = Ok (q, r) ->
  r = z mod p ^ k /\ tame p q /\ val q (Zq (z / p ^ k)).
Proof.
  intros p fl n a z k q r P FL F2 K T V SF H.
  assert (M : 1 <= p ^ k) by (assert (0 < p ^ k) by (apply Z.pow_pos_nonneg; destruct P; lia); lia).
  unfold num_divmod in H. destruct (p ^ k =? 1) eqn:M1; zb.
  { inv H. rewrite M1, Z.mod_1_r, Z.div_1_r. auto using zval_val. }
  destruct (num_mod fl (o_lt (ops_at fl n)) a (p ^ k)) as [u| | |] eqn:U; try discriminate. cbn [bind] in H.
  apply (num_mod_ok fl _ F2 a z) in U; auto.
  destruct (o_sub (ops_at fl n) a (I u)) as [d| | |] eqn:D; try discriminate. cbn [bind] in H.
  destruct (o_div (ops_at fl n) d (I (p ^ k))) as [w| | |] eqn:W; try discriminate. cbn [bind] in H. inv H.
  pose proof (ops_at_sound p P fl FL n) as SD.
  apply (s_sub _ _ SD) with (qa := Zq z) (qb := Zq (z mod p ^ k)) in D.
  2: { split; [auto|apply zval_val; auto]. }
  2: { split; [exact Logic.I|cbn; reflexivity]. }
  assert (E : Qeq (Zq z - Zq (z mod p ^ k))%Q (Zq (z / p ^ k) * Zq (p ^ k))%Q).
  { rewrite <- inject_Z_mult. unfold Qminus. rewrite <- inject_Z_opp, <- inject_Z_plus. 
    rewrite (Z.div_mod z (p ^ k)) at 1 by lia. replace (p ^ k * (z / p ^ k) + z mod p ^ k + - (z mod p ^ k)) with (z / p ^ k * p ^ k) by lia. reflexivity. }
  assert (NZ : ~ Qeq (Zq (p ^ k)) 0).
  { apply Zq_nz. lia. }
  assert (EQ : Qeq ((Zq z - Zq (z mod p ^ k)) / Zq (p ^ k))%Q (Zq (z / p ^ k))) by (rewrite E; field; auto).
  apply (s_div _ _ SD) with (qa := (Zq z - Zq (z mod p ^ k))%Q) (k := k) in W; auto.
  - split; [auto|]. destruct W as [W1 W2]. split; [auto|]. eapply val_eq; eauto.
  - exists 1, (z / p ^ k). split; [lia|]. split; [apply rel_prime_1|]. rewrite EQ. ring.
Qed.

(** ** Towers *)

Lemma tower_lt : forall fl b lim, 2 <= b -> forall n a c x y r, tower b lim a x -> tower b lim c y ->
  o_lt (ops_at fl n) a c = Ok r -> (r = true <-> x < y).
Proof.
  intros fl b lim B. induction n as [|n IH]; intros a c x y r A C H; [discriminate|].
  cbn [ops_at o_lt] in H. destruct a as [i| | | |b1 e1]; cbn [tower] in A; try tauto.
  - destruct A as [-> A]. destruct c as [j| | | |b2 e2]; cbn [tower] in C; try tauto; cbn [do_lt] in H.
    + inv H. destruct C as [-> _]. rewrite Z.ltb_lt. tauto.
    + unfold num_gt in H. cbn [cnt_eqb] in H.
      destruct (o_lt (ops_at fl n) (Exp b2 e2) (I i)) as [s| | |] eqn:S; try discriminate. cbn [bind] in H. inv H.
      apply (IH _ _ y i s) in S; [|exact C|cbn; auto].
      destruct C as (_ & z & _ & _ & _ & L). destruct s; cbn [negb]; split; intros; try lia; auto.
  - cbn [do_lt exp_lt] in H. destruct A as (-> & u & TU & U0 & -> & LU).
    destruct c as [j| | | |b2 e2]; cbn [tower] in C; try tauto; cbn [exp_lt] in H.
    + inv H. destruct C as [-> C]. split; intros; [discriminate|lia].
    + destruct C as (-> & v & TV & V0 & -> & LV). unfold ensure in H. destruct (b =? b); [|discriminate].
      apply (IH _ _ u v r) in H; auto. rewrite H. apply Z.pow_lt_mono_r_iff; lia.
Qed.

(** ** A correct instance of the floating point functions *)

Lemma floor_log_pow : forall n b r, 1 < r -> 1 <= b -> 0 <= floor_log n b r /\ r ^ floor_log n b r <= b.
Proof.
  induction n; intros b r R B; cbn [floor_log]; [rewrite Z.pow_0_r; lia|].
  destruct (b <? r) eqn:E; zb; [rewrite Z.pow_0_r; lia|].
  assert (1 <= b / r) by (apply Z.div_le_lower_bound; lia).
  destruct (IHn (b / r) r R H) as [A C]. split; [lia|]. rewrite Z.pow_add_r, Z.pow_1_r by lia.
  pose proof (Z.mul_div_le b r). nia.
Qed.

Lemma floor_log_sqrt : forall n s, 1 < s -> floor_log (S (S (S n))) (s * s) s = 2.
Proof.
  intros n s H. cbn [floor_log]. 
  destruct (s * s <? s) eqn:E; zb; [nia|]. rewrite Z.div_mul by lia.
  destruct (s <? s) eqn:E2; zb; [lia|]. rewrite Z.div_same by lia.
  destruct (1 <? s) eqn:E3; zb; lia.
Qed.

Lemma exact_fl_roots : exact_roots exact_fl.
Proof.
  intros b r B H. cbn [exact_fl fl_root fl_log] in *.
  destruct (Z.sqrt b * Z.sqrt b =? b) eqn:E; [|discriminate]. inv H. zb.
  pose proof (Z.sqrt_nonneg b). set (s := Z.sqrt b) in *.
  assert (S1 : 1 < s) by nia.
  assert (L : 2 <= Z.log2 b). { rewrite <- E. change 2 with (Z.log2 4). apply Z.log2_le_mono. nia. }
  replace (Z.to_nat (Z.log2 b) + 1)%nat with (S (S (S (Z.to_nat (Z.log2 b) - 2)))) by lia.
  pose proof (floor_log_sqrt (Z.to_nat (Z.log2 b) - 2) s S1) as F. rewrite E in F. rewrite F. lia.
Qed.
Lemma exact_fl_log2 : exact_log2 exact_fl.
Proof.
  intros m k M H. cbn [exact_fl fl_pow2] in H. destruct (2 ^ Z.log2 m =? m) eqn:E; [|discriminate]. inv H. zb.
  split; [apply Z.log2_nonneg|auto].
Qed.
