(** normalize gives a normal form. *)
From Verif Require Import Base TM TMFacts ProgModel TapeModel ParseModel ParseSpec ParseProofs NormModel NormSpec NormProofs NormFull GraphModel GraphSpec GraphMore CanonSpec.

(** ** Scanning *)
Definition upfrom (k m : nat) : list Z := map Z.of_nat (seq k (m - k)).

Lemma upfrom_in k m x : In x (upfrom k m) <-> Z.of_nat k <= x < Z.of_nat m.
Proof.
  unfold upfrom. rewrite in_map_iff. split.
  - intros (y & <- & H). apply in_seq in H. lia.
  - intros H. exists (Z.to_nat x). split; [lia|]. apply in_seq. lia.
Qed.
Lemma upfrom_cons k m : (k < m)%nat -> upfrom k m = Z.of_nat k :: upfrom (S k) m.
Proof. intros H. unfold upfrom. replace (m - k)%nat with (S (m - S k)) by lia. reflexivity. Qed.
Lemma upfrom_nil k m : (m <= k)%nat -> upfrom k m = [].
Proof. intros H. unfold upfrom. replace (m - k)%nat with 0%nat by lia. reflexivity. Qed.
Lemma upfrom_mem k m x : existsb (Z.eqb x) (upfrom k m) = true <-> Z.of_nat k <= x < Z.of_nat m.
Proof.
  rewrite existsb_exists. split.
  - intros (y & I & E). apply Z.eqb_eq in E. subst y. apply upfrom_in. exact I.
  - intros H. exists x. split; [apply upfrom_in; exact H|apply Z.eqb_refl].
Qed.
Lemma upfrom_tl m : tl (map Z.of_nat (seq 0 m)) = upfrom 1 m.
Proof. unfold upfrom. destruct m as [|m]; auto. cbn [seq map tl]. replace (S m - 1)%nat with m by lia. reflexivity. Qed.

(** Mentioned in order. *)
Definition wellmet (l : list instr) (k m : Z) : Prop :=
  forall l1 i l2, l = l1 ++ i :: l2 -> snd i < m -> forall j, k <= j < snd i -> exists i', In i' l1 /\ snd i' = j.

Lemma scan_none_of m : forall l k, wellmet l (Z.of_nat k) (Z.of_nat m) -> ns_scan l (upfrom k m) = None.
Proof.
  induction l as [|[[pr sh] tr] l IH]; intros k W; cbn [ns_scan]; auto.
  destruct (existsb (Z.eqb tr) (upfrom k m)) eqn:E.
  - apply upfrom_mem in E. rewrite upfrom_cons by lia. destruct (Z.eqb_spec tr (Z.of_nat k)) as [->|N].
    + apply IH. intros l1 i l2 -> B j J. destruct (W ((pr, sh, Z.of_nat k) :: l1) i l2 eq_refl B j ltac:(lia)) as (i' & [<-|I] & <-).
      * cbn in J. lia.
      * eauto.
    + destruct (W [] (pr, sh, tr) l eq_refl ltac:(cbn; lia) (Z.of_nat k) ltac:(cbn; lia)) as (i' & [] & _).
  - apply IH. intros l1 i l2 -> B j J.
    destruct (W ((pr, sh, tr) :: l1) i l2 eq_refl B j J) as (i' & [<-|I] & <-); [|eauto].
    cbn in J. exfalso. assert (X : existsb (Z.eqb tr) (upfrom k m) = true) by (apply upfrom_mem; lia). congruence.
Qed.

(** First mentions in order. *)
Definition ordered (l : list instr) (k m : Z) : Prop :=
  forall t, k <= t < m -> exists l1 i l2, l = l1 ++ i :: l2 /\ snd i = t /\ forall j, In j l1 -> snd j < t.

Lemma ordered_cons_lt i l k m : snd i < k -> ordered l k m -> ordered (i :: l) k m.
Proof.
  intros L O t T. destruct (O t T) as (l1 & j & l2 & -> & E & B). exists (i :: l1), j, l2. split; auto. split; auto.
  intros x [<-|X]; [lia|auto].
Qed.
Lemma ordered_cons_eq i l k m : snd i = k -> ordered l (k + 1) m -> ordered (i :: l) k m.
Proof.
  intros L O t T. destruct (Z.eq_dec t k) as [->|N].
  - exists [], i, l. split; auto. split; auto. intros j [].
  - destruct (O t ltac:(lia)) as (l1 & j & l2 & -> & E & B). exists (i :: l1), j, l2. split; auto. split; auto.
    intros x [<-|X]; [lia|auto].
Qed.

Lemma scan_some_fact m : forall l k a b, (forall i, In i l -> snd i < Z.of_nat m) -> ns_scan l (upfrom k m) = Some (a, b) ->
  Z.of_nat k <= b < a /\ a < Z.of_nat m /\ ordered l (Z.of_nat k) b /\
  exists l1 i l2, l = l1 ++ i :: l2 /\ snd i = a /\ forall j, In j l1 -> snd j < b.
Proof.
  induction l as [|[[pr sh] tr] l IH]; intros k a b H E; cbn [ns_scan] in E; [discriminate|].
  destruct (existsb (Z.eqb tr) (upfrom k m)) eqn:X.
  - apply upfrom_mem in X. rewrite upfrom_cons in E by lia. destruct (Z.eqb_spec tr (Z.of_nat k)) as [->|N].
    + destruct (IH (S k) a b ltac:(intros; apply H; right; auto) E) as (A & B & O & l1 & i & l2 & -> & I & P).
      split; [lia|]. split; auto. split.
      * apply ordered_cons_eq; auto. replace (Z.of_nat k + 1) with (Z.of_nat (S k)) by lia. exact O.
      * exists ((pr, sh, Z.of_nat k) :: l1), i, l2. split; auto. split; auto. intros j [<-|J]; [cbn; lia|auto].
    + inv E. split; [lia|]. split; [lia|]. split; [intros t T; lia|].
      exists [], (pr, sh, a), l. split; auto. split; auto. intros j [].
  - destruct (IH k a b ltac:(intros; apply H; right; auto) E) as (A & B & O & l1 & i & l2 & -> & I & P).
    assert (L : tr < Z.of_nat k).
    { destruct (Z_lt_le_dec tr (Z.of_nat k)); auto. pose proof (H (pr, sh, tr) (or_introl eq_refl)) as H0. cbn in H0.
      assert (Y : existsb (Z.eqb tr) (upfrom k m) = true) by (apply upfrom_mem; lia). congruence. }
    split; auto. split; auto. split; [apply ordered_cons_lt; auto|].
    exists ((pr, sh, tr) :: l1), i, l2. split; auto. split; auto. intros j [<-|J]; [cbn; lia|auto].
Qed.

Lemma scan_none_fact m : forall l k, (forall i, In i l -> snd i < Z.of_nat m) ->
  (forall t, Z.of_nat k <= t < Z.of_nat m -> exists i, In i l /\ snd i = t) ->
  ns_scan l (upfrom k m) = None -> ordered l (Z.of_nat k) (Z.of_nat m).
Proof.
  induction l as [|[[pr sh] tr] l IH]; intros k H A E t T; [destruct (A t T) as (i & [] & _)|].
  cbn [ns_scan] in E. revert t T. change (ordered ((pr, sh, tr) :: l) (Z.of_nat k) (Z.of_nat m)).
  destruct (existsb (Z.eqb tr) (upfrom k m)) eqn:X.
  - apply upfrom_mem in X. rewrite upfrom_cons in E by lia. destruct (Z.eqb_spec tr (Z.of_nat k)) as [->|N]; [|discriminate].
    apply ordered_cons_eq; auto. replace (Z.of_nat k + 1) with (Z.of_nat (S k)) by lia. apply IH; auto.
    + intros; apply H; right; auto.
    + intros t T. destruct (A t ltac:(lia)) as (i & [<-|I] & Ei); [cbn in Ei; lia|eauto].
  - assert (L : tr < Z.of_nat k).
    { destruct (Z_lt_le_dec tr (Z.of_nat k)); auto. pose proof (H (pr, sh, tr) (or_introl eq_refl)) as H0. cbn in H0.
      assert (Y : existsb (Z.eqb tr) (upfrom k m) = true) by (apply upfrom_mem; lia). congruence. }
    apply ordered_cons_lt; auto. apply IH; auto.
    + intros; apply H; right; auto.
    + intros t T. destruct (A t T) as (i & [<-|I] & Ei); [cbn in Ei; lia|eauto].
Qed.

(** ** The instructions in use and their cells *)
Definition somes (l : list (option instr)) : list instr := flat_map (fun x => match x with Some i => [i] | None => [] end) l.

Lemma used_somes n : n_used n = somes (concat (rows_of n)).
Proof.
  unfold n_used, rows_of, somes. induction n as [|[k w] n IH]; cbn; auto. rewrite IH, flat_map_app. f_equal.
  induction w as [|[c x] w IHw]; cbn; auto. rewrite IHw. reflexivity.
Qed.

Lemma somes_split : forall L l1 i l2, somes L = l1 ++ i :: l2 -> exists L1 L2, L = L1 ++ Some i :: L2 /\ somes L1 = l1.
Proof.
  induction L as [|[x|] L IH]; intros l1 i l2 E; cbn in E.
  - destruct l1; discriminate.
  - destruct l1 as [|y l1]; cbn in E; injection E as -> E.
    + exists [], L. auto.
    + destruct (IH _ _ _ E) as (L1 & L2 & -> & <-). exists (Some y :: L1), L2. auto.
  - destruct (IH _ _ _ E) as (L1 & L2 & -> & <-). exists (None :: L1), L2. auto.
Qed.

Lemma somes_in L i : In i (somes L) <-> In (Some i) L.
Proof.
  unfold somes. rewrite in_flat_map. split.
  - intros ([j|] & I & X); cbn in X; [destruct X as [->|[]]; auto|destruct X].
  - intros I. exists (Some i). split; auto. left; auto.
Qed.

Lemma get_cell n S C s c i : table_shape n S C ->
  n_get n s c = Some i <-> 0 <= s /\ 0 <= c /\ cell (rows_of n) (Z.to_nat s) (Z.to_nat c) = Some (Some i).
Proof.
  intros H. destruct (rows_norm n S C H) as (R & _). rewrite <- R at 1. rewrite norm_get.
  unfold table_get, cell. cbn [fst snd].
  destruct (Z.leb_spec 0 s) as [Hs|Hs]; cbn [andb]; [|split; [discriminate|lia]].
  destruct (Z.leb_spec 0 c) as [Hc|Hc]; cbn [andb]; [|split; [discriminate|lia]].
  destruct (nth_error (nth (Z.to_nat s) (rows_of n) []) (Z.to_nat c)) as [x|] eqn:N.
  - rewrite (nth_error_nth _ _ None N). split; [intros ->; auto|intros (_ & _ & E); congruence].
  - apply nth_error_None in N. rewrite nth_overflow by auto. split; [discriminate|intros (_ & _ & E); discriminate].
Qed.

Lemma used_cell n S C l1 i l2 : table_shape n S C -> n_used n = l1 ++ i :: l2 ->
  exists s c, n_get n s c = Some i /\ forall s' c' j, before s' c' s c -> n_get n s' c' = Some j -> In j l1.
Proof.
  intros H E. rewrite used_somes in E. destruct (somes_split _ _ _ _ E) as (L1 & L2 & EL & <-).
  destruct (flat_cell _ _ _ _ EL) as (s & c & Ec & B). exists (Z.of_nat s), (Z.of_nat c). split.
  - apply (get_cell n S C); auto. rewrite !Nat2Z.id. repeat split; auto; lia.
  - intros s' c' j BF G. apply (get_cell n S C) in G; auto. destruct G as (S0 & C0 & G). apply somes_in.
    apply (B (Z.to_nat s') (Z.to_nat c')); auto. unfold before in BF. unfold nbefore. lia.
Qed.

Lemma cell_used n S C s c i : table_shape n S C -> n_get n s c = Some i ->
  exists l1 l2, n_used n = l1 ++ i :: l2 /\ forall j, In j l1 -> exists s' c', before s' c' s c /\ n_get n s' c' = Some j.
Proof.
  intros H G. apply (get_cell n S C) in G; auto. destruct G as (S0 & C0 & G).
  destruct (flat_at _ _ _ _ G) as (L1 & L2 & E & P). exists (somes L1), (somes L2). split.
  - rewrite used_somes, E. unfold somes. rewrite flat_map_app. reflexivity.
  - intros j J. apply somes_in in J. apply P in J. destruct J as (s' & c' & NB & Ec). exists (Z.of_nat s'), (Z.of_nat c'). split.
    + unfold before. unfold nbefore in NB. lia.
    + apply (get_cell n S C); auto. rewrite !Nat2Z.id. repeat split; auto; lia.
Qed.

Lemma used_get n S C i : table_shape n S C -> In i (n_used n) -> exists s c, n_get n s c = Some i.
Proof. intros H I. apply in_split in I. destruct I as (l1 & l2 & E). destruct (used_cell n S C _ _ _ H E) as (s & c & G & _). eauto. Qed.

Lemma ordered_appear n S C m : table_shape n S C -> ordered (n_used n) 1 m -> appear_in_order (n_get n) m.
Proof.
  intros H O t T. destruct (O t T) as (l1 & [[pr sh] t'] & l2 & E & Et & B). cbn in Et. subst t'.
  destruct (used_cell n S C _ _ _ H E) as (s & c & G & P). exists s, c. split; [exists pr, sh; exact G|].
  intros s' c' t' BF (pr' & sh' & G'). apply (B (pr', sh', t')). eapply P; eauto.
Qed.

Lemma tri s c s' c' : before s c s' c' \/ (s = s' /\ c = c') \/ before s' c' s c.
Proof. unfold before. lia. Qed.

Lemma appear_met n S C m : table_shape n S C -> appear_in_order (n_get n) m -> wellmet (n_used n) 1 m.
Proof.
  intros H A l1 [[pr sh] t] l2 E B j J. cbn in *. destruct (used_cell n S C _ _ _ H E) as (s & c & G & P).
  destruct (A j ltac:(lia)) as (s' & c' & (pr' & sh' & G') & Q). destruct (tri s' c' s c) as [T|[[-> ->]|T]].
  - exists (pr', sh', j). split; auto. eapply P; eauto.
  - rewrite G in G'. injection G' as -> -> ->. lia.
  - assert (t < j) by (apply (Q s c t T); exists pr, sh; exact G). lia.
Qed.

(** ** States *)
Section States.
Variables (S C : nat).
Hypothesis HS : (1 <= S)%nat.
Local Notation ZS := (Z.of_nat S).
Local Notation ZC := (Z.of_nat C).

Lemma states_kept n : table_shape n S C -> appear_in_order (n_get n) ZS -> normalize_states n = Some n.
Proof.
  intros H A. unfold normalize_states, n_states. rewrite (shape_len _ _ _ H). destruct S as [|k] eqn:ES; [lia|].
  cbn [normalize_states_go]. unfold n_states. rewrite (shape_len _ _ _ H), upfrom_tl, scan_none_of; auto.
  apply (appear_met n (Datatypes.S k) C); auto.
Qed.

(** The first mention of a state that is not below [k] is in a row below [k]. *)
Lemma row_below M k a s c : bounded M ZC ZS -> (forall s c i, M s c = Some i -> 0 <= s) -> reaches M 0 a -> 1 <= k <= a ->
  (forall s' c' t', before s' c' s c -> goes M s' c' t' -> t' < k) -> s < k.
Proof.
  intros HB HN R K P. destruct (Z_lt_le_dec s k) as [L|L]; auto. exfalso.
  assert (X : forall u t, edge M u t -> 0 <= u < k -> 0 <= t < k).
  { intros u t (c' & pr & sh & E) U. pose proof (HB _ _ _ _ _ E). split; [lia|]. apply (P u c' t); [left; lia|]. exists pr, sh. exact E. }
  assert (Y : forall t, reaches M 0 t -> 0 <= t < k).
  { induction 1 as [t E N|u t R' IH E N]; [apply (X _ _ E); lia|apply (X _ _ E); auto]. }
  specialize (Y a R). lia.
Qed.

Lemma reached_renamed f h mi M M' t : bij0 f -> bij0 h -> renamed f h mi M M' -> reaches M 0 t -> reaches M' 0 (f t).
Proof.
  intros [F0 (f' & F1 & F2)] _ R.
  assert (E : forall s t, edge M s t -> edge M' (f s) (f t)).
  { intros s u (c & pr & sh & E). exists (h c). rewrite R, E. cbn. eauto. }
  assert (N : forall x y, x <> y -> f x <> f y). { intros x y N0 Q. apply N0. rewrite <- (F1 x), <- (F1 y). congruence. }
  induction 1 as [u X Y|u v X IH X' Y].
  - constructor; [rewrite <- F0 at 1; auto|rewrite <- F0; auto].
  - eapply reaches_more; [exact IH|auto|auto].
Qed.

Lemma rel_reached n n' : rel S C ZC ZS n n' -> all_reached (n_get n) ZS -> all_reached (n_get n') ZS.
Proof.
  intros (H & HB & f & h & F1 & F2 & F3 & F4 & F5) A t T.
  destruct (bij0_pre f F1 t) as [t0 <-]. pose proof (proj2 (F3 t0) ltac:(lia)) as B.
  assert (t0 <> 0). { intros ->. destruct F1 as [F0 _]. lia. }
  apply (reached_renamed f h false (n_get n)); auto. apply A. lia.
Qed.

Lemma swap_progress n a b n' k : table_shape n S C -> bounded (n_get n) ZC ZS -> all_reached (n_get n) ZS ->
  1 <= k -> appear_in_order (n_get n) k -> ns_scan (n_used n) (upfrom 1 S) = Some (a, b) -> swap_states n a b = Some n' ->
  appear_in_order (n_get n') (k + 1).
Proof.
  intros H HB A K O E EW.
  assert (LT : forall i, In i (n_used n) -> snd i < ZS).
  { intros i I. destruct (used_get n S C i H I) as (s & c & G). destruct i as [[pr sh] t]. apply HB in G. cbn. lia. }
  destruct (scan_some_fact S _ 1%nat a b LT E) as (AB & AS & OB & l1 & i & l2 & EU & Ei & P).
  pose proof (ordered_appear n S C b H OB) as OA. clear OB.
  destruct (used_cell n S C _ _ _ H EU) as (s & c & G & Q). destruct i as [[pr sh] t]. cbn in Ei. subst t.
  assert (BEF : forall s' c' t', before s' c' s c -> goes (n_get n) s' c' t' -> t' < b).
  { intros s' c' t' BF (pr' & sh' & G'). apply (P (pr', sh', t')). eapply Q; eauto. }
  assert (KB : k <= b).
  { destruct (Z_lt_le_dec b k) as [L|L]; auto. exfalso. destruct (O b ltac:(lia)) as (s0 & c0 & (p0 & h0 & G0) & B0).
    destruct (tri s0 c0 s c) as [T|[[-> ->]|T]].
    - assert (b < b); [|lia]. apply (BEF _ _ _ T). exists p0, h0. exact G0.
    - rewrite G in G0. injection G0 as _ _ X. lia.
    - assert (a < b); [|lia]. apply (B0 _ _ _ T). exists pr, sh. exact G. }
  assert (NEG : forall s c i, n_get n s c = Some i -> 0 <= s) by (intros s' c' i' X; apply (shape_get n S C) in X; auto; lia).
  assert (SB : s < b). { apply (row_below (n_get n) b a s c); auto; try lia. apply A. lia. }
  pose proof (swap_states_get _ _ _ _ EW) as R.
  assert (LOW : forall u v, u < b -> n_get n' u v = option_map (fun i => let '(p, h, t) := i in (p, h, sw a b t)) (n_get n u v)).
  { intros u v U. assert (X : sw a b u = u) by (unfold sw; destruct (Z.eqb_spec u a); [lia|]; destruct (Z.eqb_spec u b); lia).
    rewrite <- X at 1. rewrite (R u v). destruct (n_get n u v) as [[[p h] t]|]; reflexivity. }
  assert (SWL : forall t, t < b -> sw a b t = t). { intros t T. unfold sw. destruct (Z.eqb_spec t a); [lia|]. destruct (Z.eqb_spec t b); lia. }
  intros t T. destruct (Z.eq_dec t b) as [->|N].
  - exists s, c. split.
    + exists pr, sh. rewrite LOW, G by auto. cbn. unfold sw. rewrite Z.eqb_refl. reflexivity.
    + intros s' c' t' BF (p' & h' & G'). assert (s' < b) by (unfold before in BF; lia). rewrite LOW in G' by auto.
      destruct (n_get n s' c') as [[[p1 h1] t1]|] eqn:E1; [|discriminate]. cbn in G'. injection G' as -> -> <-.
      assert (t1 < b) by (apply (BEF _ _ _ BF); exists p', h'; exact E1). rewrite SWL; auto.
  - destruct (OA t ltac:(lia)) as (s0 & c0 & (p0 & h0 & G0) & B0).
    assert (S0 : before s0 c0 s c).
    { destruct (tri s0 c0 s c) as [X|[[-> ->]|X]]; auto.
      - rewrite G in G0. injection G0 as _ _ X. lia.
      - assert (a < t); [|lia]. apply (B0 _ _ _ X). exists pr, sh. exact G. }
    exists s0, c0. assert (s0 < b) by (unfold before in S0; lia). split.
    + exists p0, h0. rewrite LOW, G0 by auto. cbn. rewrite SWL by lia. reflexivity.
    + intros s' c' t' BF (p' & h' & G'). assert (s' < b) by (unfold before in BF; lia). rewrite LOW in G' by auto.
      destruct (n_get n s' c') as [[[p1 h1] t1]|] eqn:E1; [|discriminate]. cbn in G'. injection G' as -> -> <-.
      assert (t1 < t) by (apply (B0 _ _ _ BF); exists p', h'; exact E1). rewrite SWL; lia.
Qed.

Lemma states_go_normal : forall rounds n k, table_shape n S C -> bounded (n_get n) ZC ZS -> all_reached (n_get n) ZS ->
  1 <= k -> ZS <= k + Z.of_nat rounds -> appear_in_order (n_get n) k ->
  exists n', normalize_states_go rounds n = Some n' /\ rel S C ZC ZS n n' /\ appear_in_order (n_get n') ZS /\
    forall pr sh tr, n_get n 0 0 = Some (pr, sh, tr) -> exists tr', n_get n' 0 0 = Some (pr, sh, tr').
Proof.
  induction rounds as [|rounds IH]; intros n k H HB A K L O; cbn [normalize_states_go].
  - exists n. split; auto. split; [apply rel_refl; auto|]. split; [|eauto]. intros t T. apply O. lia.
  - unfold n_states. rewrite (shape_len _ _ _ H), upfrom_tl.
    assert (LT : forall i, In i (n_used n) -> snd i < ZS).
    { intros i I. destruct (used_get n S C i H I) as (s & c & G). destruct i as [[pr sh] t]. apply HB in G. cbn. lia. }
    destruct (ns_scan (n_used n) (upfrom 1 S)) as [[a b]|] eqn:E.
    + pose proof (scan_some_fact S _ 1%nat a b LT E) as (AB & AS & _).
      destruct (rel_swap_states S C ZC ZS HS ltac:(lia) n a b H HB ltac:(lia) ltac:(lia)) as (n1 & E1 & R1). rewrite E1.
      pose proof R1 as (H1 & HB1 & _).
      destruct (IH n1 (k + 1) H1 HB1 (rel_reached _ _ R1 A) ltac:(lia) ltac:(lia) (swap_progress _ _ _ _ _ H HB A K O E E1)) as (n2 & E2 & R2 & O2 & P2).
      exists n2. split; auto. split; [eapply rel_trans; eauto|]. split; auto. intros pr sh tr G. apply (P2 pr sh (sw a b tr)).
      pose proof (swap_states_get _ _ _ _ E1 0 0) as X. assert (Y : sw a b 0 = 0) by (unfold sw; destruct (Z.eqb_spec 0 a); [lia|]; destruct (Z.eqb_spec 0 b); lia).
      rewrite Y, G in X. exact X.
    + exists n. split; auto. split; [apply rel_refl; auto|]. split; [|eauto].
      apply (ordered_appear n S C); auto. apply (scan_none_fact S _ 1%nat); auto.
      intros t T. specialize (A t ltac:(lia)). assert (X : exists u, edge (n_get n) u t) by (inversion A; eauto).
      destruct X as (u & c & pr & sh & G). exists (pr, sh, t). split; auto. eapply n_get_used; eauto.
Qed.

Lemma states_normal n : table_shape n S C -> bounded (n_get n) ZC ZS -> all_reached (n_get n) ZS ->
  exists n', normalize_states n = Some n' /\ rel S C ZC ZS n n' /\ appear_in_order (n_get n') ZS /\
    forall pr sh tr, n_get n 0 0 = Some (pr, sh, tr) -> exists tr', n_get n' 0 0 = Some (pr, sh, tr').
Proof.
  intros H HB A. unfold normalize_states. rewrite (shape_len _ _ _ H). apply (states_go_normal S n 1); auto; try lia. intros t T. lia.
Qed.

(** ** Colours *)
Definition flip (i : instr) : instr := let '(pr, sh, tr) := i in (tr, sh, pr).

Lemma colors_scan n : forall slots todo,
  ns_scan (map flip (flat_map (fun '(s, c) => match n_get n s c with Some i => [i] | None => [] end) slots)) todo = None ->
  nc_scan slots n todo = Some n.
Proof.
  induction slots as [|[s c] slots IH]; intros todo E; cbn [nc_scan]; auto. cbn [flat_map] in E.
  destruct (n_get n s c) as [[[pr sh] tr]|]; [|apply IH; auto].
  cbn in E. destruct (existsb (Z.eqb pr) todo); [|apply IH; auto].
  destruct todo as [|norm rest]; [apply IH|].
  - clear. generalize (map flip (flat_map (fun '(s, c) => match n_get n s c with Some i => [i] | None => [] end) slots)) as l.
    induction l as [|[[a b] d] l IHl]; cbn; auto.
  - destruct (pr =? norm); [apply IH; auto|discriminate].
Qed.

Lemma slots_used n : table_shape n S C -> flat_map (fun '(s, c) => match n_get n s c with Some i => [i] | None => [] end) (n_slots n) = n_used n.
Proof.
  intros [H1 H2]. unfold n_slots, n_used. 
  assert (ND : NoDup (map fst n)) by (rewrite H1; apply seqZ_nodup).
  assert (GEN : forall l, (forall e, In e l -> In e n) -> flat_map (fun '(s, c) => match n_get n s c with Some i => [i] | None => [] end)
     (flat_map (fun e : Z * switch => map (fun x : Z * option instr => (fst e, fst x)) (snd e)) l) =
     flat_map (fun e => flat_map (fun x : Z * option instr => match snd x with Some i => [i] | None => [] end) (snd e)) l).
  { induction l as [|[s w] l IH]; intros I; cbn [flat_map]; auto. rewrite flat_map_app. f_equal; [|apply IH; intros e E; apply I; right; auto].
    cbn [fst snd]. pose proof (I (s, w) (or_introl eq_refl)) as SW. pose proof (pair_dget _ _ _ ND SW) as DW.
    rewrite Forall_forall in H2. specialize (H2 _ SW). cbn in H2.
    assert (NW : NoDup (map fst w)) by (rewrite H2; apply seqZ_nodup).
    assert (GW : forall l, (forall x, In x l -> In x w) -> flat_map (fun '(s, c) => match n_get n s c with Some i => [i] | None => [] end)
      (map (fun x : Z * option instr => (s, fst x)) l) = flat_map (fun x : Z * option instr => match snd x with Some i => [i] | None => [] end) l).
    { induction l0 as [|[c x] l0 IH0]; intros J; cbn [map flat_map]; auto. rewrite IH0 by (intros; apply J; right; auto). f_equal.
      cbn [fst snd]. unfold n_get. rewrite DW. pose proof (pair_dget _ _ _ NW (J _ (or_introl eq_refl))) as DX. rewrite DX. destruct x; auto. }
    apply GW. auto. }
  apply GEN. auto.
Qed.

Lemma colors_kept n : table_shape n S C -> marks_in_order (n_get n) -> normalize_colors n = Some n.
Proof.
  intros H M. unfold normalize_colors. rewrite (shape_colors _ _ _ H HS).
  destruct (map Z.of_nat (seq 0 C)) as [|x l] eqn:E; auto. rewrite <- E, upfrom_tl. apply colors_scan. rewrite slots_used by auto.
  apply scan_none_of. intros l1 i l2 EM B j J.
  apply map_eq_app in EM. destruct EM as (u1 & u2 & EU & E1 & E2). destruct u2 as [|i0 u2]; [discriminate|]. cbn in E2. injection E2 as EI _.
  destruct (used_cell n S C _ _ _ H EU) as (s & c & G & Q). destruct i0 as [[pr sh] tr]. cbn in EI. subst i. cbn in *.
  destruct (M s c pr j) as (s' & c' & BF & sh' & tr' & G'); [exists sh, tr; exact G|lia|].
  exists (flip (j, sh', tr')). split; [|reflexivity]. rewrite <- E1. apply in_map. eapply Q; eauto.
Qed.

Lemma round_id n : table_shape n S C -> full_table (n_get n) ZS ZC -> appear_in_order (n_get n) ZS -> marks_in_order (n_get n) ->
  normalize_round n = Some n.
Proof.
  intros H F A M. unfold normalize_round. rewrite states_kept, colors_kept by auto.
  rewrite (cut_states_id S C ZS), (cut_colors_id S C), (cinch_id S C ZS) by (auto; lia). reflexivity.
Qed.

Lemma rounds_id n : table_shape n S C -> full_table (n_get n) ZS ZC -> appear_in_order (n_get n) ZS -> marks_in_order (n_get n) ->
  forall k, normalize_rounds k n = Some n.
Proof. intros H F A M. induction k as [|k IH]; cbn [normalize_rounds]; auto. rewrite round_id; auto. Qed.

Lemma normalize_id n : table_shape n S C -> full_table (n_get n) ZS ZC -> normal_form (n_get n) ZS -> n_normalize n = Some n.
Proof.
  intros H F (A & M & pr & tr & E). unfold n_normalize. rewrite (shape_colors _ _ _ H HS), rounds_id by auto.
  unfold normalize_directions. rewrite E. reflexivity.
Qed.

(** *** At most three colours *)
Hypothesis HC : (C <= 3)%nat.

Lemma nc_scan_nil n : forall slots, nc_scan slots n [] = Some n.
Proof. induction slots as [|[s c] slots IH]; cbn; auto. destruct (n_get n s c) as [[[pr sh] tr]|]; auto. Qed.
Lemma nc_scan_one n x : forall slots, nc_scan slots n [x] = Some n.
Proof.
  induction slots as [|[s c] slots IH]; cbn; auto. destruct (n_get n s c) as [[[pr sh] tr]|]; auto.
  destruct (pr =? x); cbn; auto. apply nc_scan_nil.
Qed.

Lemma first_marks n sh tr : table_shape n S C -> bounded (n_get n) ZC ZS -> n_get n 0 0 = Some (1, sh, tr) -> marks_in_order (n_get n).
Proof.
  intros H HB E s c k j (sh' & tr' & G) J. pose proof (HB _ _ _ _ _ G) as [B _]. pose proof (shape_get n S C _ _ _ H G) as [GS GC].
  assert (j = 1) by lia. subst j. exists 0, 0. split; [|exists sh, tr; exact E].
  unfold before. destruct (Z.eq_dec s 0) as [->|]; [|lia]. destruct (Z.eq_dec c 0) as [->|]; [|lia].
  rewrite E in G. injection G as <- _ _. lia.
Qed.

Lemma colors_first n : table_shape n S C -> bounded (n_get n) ZC ZS -> full_table (n_get n) ZS ZC ->
  exists n' sh tr, normalize_colors n = Some n' /\ rel S C ZC ZS n n' /\ n_get n' 0 0 = Some (1, sh, tr).
Proof.
  intros H HB F. pose proof F as ((pr & sh & tr & E & N) & _). pose proof (HB _ _ _ _ _ E) as [B _].
  destruct (Z.eq_dec pr 1) as [->|N1].
  - exists n, sh, tr. split; [|split; [apply rel_refl; auto|exact E]]. apply colors_kept; auto. eapply first_marks; eauto.
  - assert (pr = 2 /\ C = 3%nat) as [-> EC] by lia.
    destruct (rel_swap_colors S C ZC ZS HS ltac:(lia) n 2 1 H HB ltac:(lia) ltac:(lia)) as (n' & EW & R).
    exists n', sh, tr. split; [|split; auto].
    + unfold normalize_colors. rewrite (shape_colors _ _ _ H HS). rewrite EC. cbn [seq map tl].
      change (Z.of_nat 1) with 1. change (Z.of_nat 2) with 2.
      assert (SL : exists sl, n_slots n = (0, 0) :: sl).
      { pose proof H as [H1 H2]. destruct S as [|S']; [lia|]. destruct n as [|[k w] n0]; [discriminate|]. cbn in H1. injection H1 as K _.
        rewrite EC in H2. inversion H2 as [|? ? W _]; subst. cbn in W. destruct w as [|[c x] w]; [discriminate|]. cbn in W. injection W as W _ .
        unfold n_slots. cbn. rewrite W. eexists. reflexivity. }
      destruct SL as (sl & ->). cbn [nc_scan]. rewrite E. cbn. rewrite EW. apply nc_scan_one.
    + pose proof (swap_colors_get _ _ _ _ _ _ H EW 0 0) as X. cbn in X. rewrite E in X. exact X.
Qed.

Lemma rounds_normal n : table_shape n S C -> bounded (n_get n) ZC ZS -> full_table (n_get n) ZS ZC -> all_reached (n_get n) ZS ->
  exists n', normalize_rounds C n = Some n' /\ rel S C ZC ZS n n' /\ appear_in_order (n_get n') ZS /\ marks_in_order (n_get n').
Proof.
  intros H HB F A. pose proof F as ((pr & sh & tr & E & N) & _). pose proof (HB _ _ _ _ _ E) as [B _].
  assert (exists k, C = Datatypes.S (Datatypes.S k)) as [k EC] by (exists (C - 2)%nat; lia).
  destruct (states_normal n H HB A) as (n1 & E1 & R1 & _ & _). pose proof R1 as (H1 & HB1 & _).
  pose proof (rel_full S C ZC ZS HS _ _ H R1 F) as F1.
  destruct (colors_first n1 H1 HB1 F1) as (n2 & sh2 & tr2 & E2 & R2 & G2). pose proof R2 as (H2 & HB2 & _).
  pose proof (rel_full S C ZC ZS HS _ _ H1 R2 F1) as F2.
  pose proof (rel_reached _ _ R2 (rel_reached _ _ R1 A)) as A2.
  destruct (states_normal n2 H2 HB2 A2) as (n3 & E3 & R3 & O3 & P3). pose proof R3 as (H3 & HB3 & _).
  pose proof (rel_full S C ZC ZS HS _ _ H2 R3 F2) as F3. destruct (P3 _ _ _ G2) as (tr3 & G3).
  pose proof (first_marks n3 _ _ H3 HB3 G3) as M3.
  exists n3. split; [|split; [eapply rel_trans; [eapply rel_trans|]; eauto|auto]].
  rewrite EC at 1. cbn [normalize_rounds].
  assert (X1 : normalize_round n = Some n2).
  { unfold normalize_round. rewrite E1, E2, (cut_states_id S C ZS), (cut_colors_id S C), (cinch_id S C ZS) by (auto; lia). reflexivity. }
  assert (X2 : normalize_round n2 = Some n3).
  { unfold normalize_round. rewrite E3, colors_kept, (cut_states_id S C ZS), (cut_colors_id S C), (cinch_id S C ZS) by (auto; lia). reflexivity. }
  rewrite X1, X2. apply rounds_id; auto.
Qed.
End States.

(** ** Directions *)
Lemma full_ext (M M' : program) S C : (forall s c, M s c = M' s c) -> full_table M S C -> full_table M' S C.
Proof.
  intros E (G1 & G2 & G3 & G4). split; [rewrite <- E; auto|]. split; [|split].
  - intros s Hs. destruct (G2 s Hs) as (c & i & Hc & X). exists c, i. rewrite <- E. auto.
  - intros c Hc. destruct (G3 c Hc) as (s & i & Hs & X). exists s, i. rewrite <- E. auto.
  - intros t Ht. destruct (G4 t Ht) as (s & c & pr & sh & Hs & Hc & X). exists s, c, pr, sh. rewrite <- E. auto.
Qed.

Definition turned (mi : bool) (i : instr) : instr := let '(pr, sh, tr) := i in (pr, if mi then negb sh else sh, tr).

Lemma turned_full mi (M M' : program) S C : (forall s c, M' s c = option_map (turned mi) (M s c)) -> full_table M S C -> full_table M' S C.
Proof.
  intros E (G1 & G2 & G3 & G4). split; [|split; [|split]].
  - destruct G1 as (pr & sh & tr & X & N). rewrite E, X. cbn. eauto.
  - intros s Hs. destruct (G2 s Hs) as (c & i & Hc & X). exists c. rewrite E, X. cbn. eauto.
  - intros c Hc. destruct (G3 c Hc) as (s & i & Hs & X). exists s. rewrite E, X. cbn. eauto.
  - intros t Ht. destruct (G4 t Ht) as (s & c & pr & sh & Hs & Hc & X). exists s, c. rewrite E, X. cbn. eauto 8.
Qed.

Lemma turned_get mi (M M' : program) s c pr sh tr : (forall s c, M' s c = option_map (turned mi) (M s c)) -> M' s c = Some (pr, sh, tr) ->
  M s c = Some (pr, if mi then negb sh else sh, tr).
Proof.
  intros E X. rewrite E in X. destruct (M s c) as [[[p h] t]|]; [|discriminate]. cbn in X. injection X as -> <- ->.
  destruct mi; [rewrite negb_involutive|]; reflexivity.
Qed.

Lemma turned_appear mi (M M' : program) m : (forall s c, M' s c = option_map (turned mi) (M s c)) -> appear_in_order M m -> appear_in_order M' m.
Proof.
  intros E A t T. destruct (A t T) as (s & c & (pr & sh & G) & P). exists s, c. split.
  - exists pr, (if mi then negb sh else sh). rewrite E, G. reflexivity.
  - intros s' c' t' B (pr' & sh' & G'). apply (turned_get mi M) in G'; auto. apply (P s' c' t' B). do 2 eexists. exact G'.
Qed.

Lemma turned_marks mi (M M' : program) : (forall s c, M' s c = option_map (turned mi) (M s c)) -> marks_in_order M -> marks_in_order M'.
Proof.
  intros E A s c k j (sh & tr & G) J. apply (turned_get mi M) in G; auto.
  destruct (A s c k j) as (s' & c' & B & sh' & tr' & G'); auto; [do 2 eexists; exact G|].
  exists s', c'. split; auto. exists (if mi then negb sh' else sh'), tr'. rewrite E, G'. reflexivity.
Qed.

Lemma turned_reaches mi (M M' : program) : (forall s c, M' s c = option_map (turned mi) (M s c)) -> forall t, reaches M 0 t -> reaches M' 0 t.
Proof.
  intros E. assert (X : forall s t, edge M s t -> edge M' s t).
  { intros s t (c & pr & sh & G). exists c. rewrite E, G. cbn. eauto. }
  induction 1; [constructor; auto|eapply reaches_more; eauto].
Qed.

(** *** The result *)
Lemma normalize_normal S C n : (1 <= S)%nat -> (C <= 3)%nat -> table_shape n S C -> bounded (n_get n) (Z.of_nat C) (Z.of_nat S) ->
  full_table (n_get n) (Z.of_nat S) (Z.of_nat C) -> all_reached (n_get n) (Z.of_nat S) ->
  exists n', n_normalize n = Some n' /\ table_shape n' S C /\ bounded (n_get n') (Z.of_nat C) (Z.of_nat S) /\
    full_table (n_get n') (Z.of_nat S) (Z.of_nat C) /\ all_reached (n_get n') (Z.of_nat S) /\
    normal_form (n_get n') (Z.of_nat S) /\ isomorphic (n_get n) (n_get n').
Proof.
  intros HS HC H HB F A. destruct (rounds_normal S C HS HC n H HB F A) as (n1 & E1 & R1 & O1 & M1).
  pose proof (rel_full S C _ _ HS _ _ H R1 F) as F1. pose proof (rel_reached S C HS _ _ R1 A) as A1.
  unfold n_normalize. rewrite (shape_colors _ _ _ H HS), map_length, seq_length, E1.
  pose proof F1 as ((pr & sh & tr & E & N) & _). destruct R1 as (H1 & HB1 & f & h & I1 & I2 & _ & _ & I5).
  destruct (directions_defined n1 ltac:(congruence)) as [n2 E2]. rewrite E2. exists n2. split; auto.
  split; [eapply directions_shape; eauto|].
  assert (T : forall s c, n_get n2 s c = option_map (turned (negb sh)) (n_get n1 s c)).
  { intros s c. unfold normalize_directions in E2. rewrite E in E2. destruct sh; injection E2 as <-.
    - destruct (n_get n1 s c) as [[[p1 h1] t1]|]; reflexivity.
    - rewrite n_get_map. destruct (n_get n1 s c) as [[[p1 h1] t1]|]; reflexivity. }
  split; [|split; [|split; [|split; [split; [|split]|]]]].
  - intros s c p1 h1 t1 G. apply (turned_get _ _ _ _ _ _ _ _ T) in G. eapply HB1; eauto.
  - eapply turned_full; eauto.
  - intros t Ht. apply (turned_reaches _ _ _ T). auto.
  - eapply turned_appear; eauto.
  - eapply turned_marks; eauto.
  - exists pr, tr. rewrite T, E. cbn. destruct sh; reflexivity.
  - exists f, h, (negb sh). split; auto. split; auto. intros s c. rewrite T, (I5 s c).
    destruct (n_get n s c) as [[[p1 h1] t1]|]; reflexivity.
Qed.

(** ** Isomorphism *)
Lemma iso_sym M M' : isomorphic M M' -> isomorphic M' M.
Proof.
  intros (f & h & mi & [F0 (f' & F1 & F2)] & [H0 (h' & H1 & H2)] & R).
  exists f', h', mi. split; [split; [rewrite <- F0 at 1; auto|exists f; auto]|]. split; [split; [rewrite <- H0 at 1; auto|exists h; auto]|].
  intros s c. rewrite <- (F2 s) at 2. rewrite <- (H2 c) at 2. rewrite R.
  destruct (M (f' s) (h' c)) as [[[p1 h1] t1]|]; cbn; auto. rewrite F1, H1. destruct mi; [rewrite negb_involutive|]; reflexivity.
Qed.

Lemma iso_trans M M' M'' : isomorphic M M' -> isomorphic M' M'' -> isomorphic M M''.
Proof.
  intros (f & h & mi & F & H & R) (f1 & h1 & mi1 & F1 & H1 & R1). exists (fun x => f1 (f x)), (fun x => h1 (h x)), (xorb mi1 mi).
  split; [apply bij0_comp; auto|]. split; [apply bij0_comp; auto|]. exact (renamed_comp _ _ _ _ _ _ _ _ _ R R1).
Qed.

Lemma inj_range f S S' : (forall x y, f x = f y -> x = y) -> (forall x, 0 <= x < Z.of_nat S -> 0 <= f x < Z.of_nat S') -> (S <= S')%nat.
Proof.
  intros I R. assert (L : (length (map f (map Z.of_nat (seq 0 S))) <= length (map Z.of_nat (seq 0 S')))%nat).
  { apply NoDup_incl_length.
    - apply FinFun.Injective_map_NoDup; [exact I|apply seqZ_nodup].
    - intros y Y. apply in_map_iff in Y. destruct Y as (x & <- & X). apply seqZ_in in X. apply seqZ_in. auto. }
  rewrite !map_length, !seq_length in L. exact L.
Qed.

Lemma iso_ranges f h mi n n' S C S' C' : bij0 f -> bij0 h -> renamed f h mi (n_get n) (n_get n') ->
  table_shape n' S' C' -> full_table (n_get n) (Z.of_nat S) (Z.of_nat C) ->
  (forall s, 0 <= s < Z.of_nat S -> 0 <= f s < Z.of_nat S') /\ (forall c, 0 <= c < Z.of_nat C -> 0 <= h c < Z.of_nat C').
Proof.
  intros F H R T (_ & G2 & G3 & _). split.
  - intros s Hs. destruct (G2 s Hs) as (c & i & Hc & E). pose proof (R s c) as X. rewrite E in X. apply (shape_get n' S' C') in X; auto. tauto.
  - intros c Hc. destruct (G3 c Hc) as (s & i & Hs & E). pose proof (R s c) as X. rewrite E in X. apply (shape_get n' S' C') in X; auto. tauto.
Qed.

Lemma bij0_inj f : bij0 f -> forall x y, f x = f y -> x = y.
Proof. intros [_ (f' & F1 & _)] x y E. rewrite <- (F1 x), <- (F1 y). congruence. Qed.

Lemma iso_sizes n n' S C S' C' : isomorphic (n_get n) (n_get n') -> table_shape n S C -> table_shape n' S' C' ->
  full_table (n_get n) (Z.of_nat S) (Z.of_nat C) -> full_table (n_get n') (Z.of_nat S') (Z.of_nat C') -> S = S' /\ C = C'.
Proof.
  intros I T T' F F'. pose proof (iso_sym _ _ I) as J. destruct I as (f & h & mi & If & Ih & R). destruct J as (f' & h' & mi' & Jf & Jh & R').
  destruct (iso_ranges f h mi n n' S C S' C' If Ih R T' F) as [A B]. destruct (iso_ranges f' h' mi' n' n S' C' S C Jf Jh R' T F') as [A' B'].
  pose proof (inj_range f S S' (bij0_inj f If) A). pose proof (inj_range h C C' (bij0_inj h Ih) B).
  pose proof (inj_range f' S' S (bij0_inj f' Jf) A'). pose proof (inj_range h' C' C (bij0_inj h' Jh) B'). lia.
Qed.

(** A normal form prints 1 first. *)
Lemma first_one n S C pr sh tr : table_shape n S C -> marks_in_order (n_get n) -> 0 < pr -> n_get n 0 0 = Some (pr, sh, tr) -> pr = 1.
Proof.
  intros H M P E. destruct (Z.eq_dec pr 1) as [|N]; auto. exfalso.
  destruct (M 0 0 pr 1) as (s & c & B & h & t & G); [exists sh, tr; exact E|lia|].
  apply (shape_get n S C) in G; auto. unfold before in B. lia.
Qed.

Lemma normal_unique S C n n' : (1 <= S)%nat -> (C <= 3)%nat -> table_shape n S C -> table_shape n' S C ->
  bounded (n_get n) (Z.of_nat C) (Z.of_nat S) -> bounded (n_get n') (Z.of_nat C) (Z.of_nat S) ->
  full_table (n_get n) (Z.of_nat S) (Z.of_nat C) -> all_reached (n_get n) (Z.of_nat S) ->
  normal_form (n_get n) (Z.of_nat S) -> normal_form (n_get n') (Z.of_nat S) -> isomorphic (n_get n) (n_get n') -> n = n'.
Proof.
  intros HS HC T T' HB HB' F A (O & M & pr & tr & E) (O' & M' & pr' & tr' & E') (f & h & mi & If & Ih & R).
  destruct (iso_ranges f h mi n n' S C S C If Ih R T' F) as [RF RH].
  pose proof If as [F0 _]. pose proof Ih as [H0 _].
  pose proof F as ((pr0 & sh0 & tr0 & X & N) & _). rewrite E in X. injection X as <- <- <-.
  pose proof (HB _ _ _ _ _ E) as [B _]. pose proof (HB' _ _ _ _ _ E') as [B' _].
  assert (P1 : pr = 1) by (eapply (first_one n); eauto; lia). subst pr.
  pose proof (R 0 0) as X. rewrite F0, H0, E, E' in X. cbn in X. injection X as Xp Xs Xt.
  assert (mi = false) by (destruct mi; [discriminate|auto]). subst mi.
  assert (N' : pr' <> 0). { intros Q. rewrite Q in Xp. rewrite <- H0 in Xp at 1. apply (bij0_inj h Ih) in Xp. lia. }
  assert (P1' : pr' = 1) by (eapply (first_one n'); eauto; lia). rewrite P1' in Xp. clear P1'.
  assert (HI : forall c, 0 <= c < Z.of_nat C -> h c = c).
  { intros c Hc. destruct (Z.eq_dec c 0) as [->|]; auto. destruct (Z.eq_dec c 1) as [->|]; auto.
    assert (c = 2) by lia. subst c. pose proof (RH 2 Hc) as Q.
    destruct (Z.eq_dec (h 2) 0) as [Y|]; [rewrite <- H0 in Y; apply (bij0_inj h Ih) in Y; lia|].
    destruct (Z.eq_dec (h 2) 1) as [Y|]; [rewrite Xp in Y; apply (bij0_inj h Ih) in Y; lia|]. lia. }
  assert (NEG : forall s c i, n_get n s c = Some i -> 0 <= s) by (intros s c i G; apply (shape_get n S C) in G; auto; lia).
  assert (FI : forall k : nat, forall t, 0 <= t < Z.of_nat k -> t < Z.of_nat S -> f t = t).
  { induction k as [|k IH]; intros t Ht HtS; [lia|]. destruct (Z_lt_le_dec t (Z.of_nat k)) as [L|L]; [apply IH; lia|].
    destruct (Z.eq_dec t 0) as [->|Nt]; auto.
    destruct (O t ltac:(lia)) as (s & c & (p & q & G) & P).
    assert (St : s < t). { apply (row_below S C HS (n_get n) t t s c); auto; try lia. apply A. lia. }
    pose proof (shape_get n S C _ _ _ T G) as [Gs Gc].
    assert (Fs : f s = s) by (apply IH; lia).
    assert (Ft : t <= f t).
    { destruct (Z_lt_le_dec (f t) t) as [Q|Q]; auto. pose proof (RF t ltac:(lia)). assert (Y : f (f t) = f t) by (apply IH; lia).
      apply (bij0_inj f If) in Y. lia. }
    pose proof (R s c) as G'. rewrite G, Fs, (HI c Gc) in G'. cbn in G'.
    assert (P' : forall s' c' t', before s' c' s c -> goes (n_get n') s' c' t' -> t' < t).
    { intros s' c' t' BF (p1 & q1 & G1). pose proof (shape_get n' S C _ _ _ T' G1) as [Gs1 Gc1].
      assert (Fs1 : f s' = s') by (apply IH; unfold before in BF; lia).
      pose proof (R s' c') as X. rewrite Fs1, (HI c' Gc1), G1 in X. destruct (n_get n s' c') as [[[p2 q2] t2]|] eqn:G2; [|discriminate].
      cbn in X. injection X as -> -> ->.
      assert (t2 < t) by (apply (P s' c' t2 BF); exists p2, q2; exact G2).
      pose proof (HB _ _ _ _ _ G2) as [_ Q2]. rewrite IH by lia. auto. }
    destruct (O' t ltac:(lia)) as (s2 & c2 & (p2 & q2 & G2) & P2). destruct (tri s2 c2 s c) as [X|[[-> ->]|X]].
    - assert (t < t); [|lia]. apply (P' _ _ _ X). exists p2, q2. exact G2.
    - rewrite G' in G2. injection G2 as _ _ X. exact X.
    - assert (f t < t); [|lia]. apply (P2 _ _ _ X). eexists. eexists. exact G'. }
  apply (shape_ext _ _ S C); auto. intros s c.
  assert (IN : (0 <= s < Z.of_nat S /\ 0 <= c < Z.of_nat C) -> n_get n' s c = n_get n s c).
  { intros [Hs Hc]. pose proof (R s c) as X. rewrite (FI S s), (HI c) in X by lia. rewrite X.
    destruct (n_get n s c) as [[[p q] t]|] eqn:G; [|reflexivity]. pose proof (HB _ _ _ _ _ G) as [Q1 Q2]. cbn.
    rewrite (HI p), (FI S t) by lia. reflexivity. }
  destruct (n_get n s c) as [i|] eqn:G.
  - pose proof (shape_get n S C _ _ _ T G). rewrite IN; auto.
  - destruct (n_get n' s c) as [i|] eqn:G'; auto. pose proof (shape_get n' S C _ _ _ T' G') as Q. specialize (IN Q). congruence.
Qed.

(** ** Texts *)
Lemma enum_snd {A} (l : list A) : forall k, map snd (enum k l) = l.
Proof. induction l as [|x l IH]; intros k; cbn; auto. rewrite IH. reflexivity. Qed.
Lemma norm_rows g : rows_of (norm_of g) = g.
Proof.
  unfold rows_of, norm_of. rewrite <- (map_map (@snd Z switch) (map snd)), enum_snd, map_map.
  rewrite <- (map_id g) at 2. apply map_ext. intros r. apply enum_snd.
Qed.

Lemma tx_ext g : forall s c, table_machine g s c = n_get (norm_of g) s c.
Proof. intros. symmetry. apply norm_get. Qed.
Lemma tx_rows g s : prog_text g s -> (1 <= length g)%nat.
Proof. intros HT. inversion HT; cbn; lia. Qed.
Lemma tx_full g cols : full_table (table_machine g) (Z.of_nat (length g)) (Z.of_nat cols) ->
  full_table (n_get (norm_of g)) (Z.of_nat (length g)) (Z.of_nat cols).
Proof. exact (full_ext _ _ _ _ (tx_ext g)). Qed.
Lemma tx_bounded g s : prog_text g s -> bounded (n_get (norm_of g)) 10 26.
Proof. intros HT st co pr sh tr E. rewrite norm_get in E. eapply text_shows_ok; eauto. Qed.
Lemma tx_repr g s cols : prog_text g s -> rectangular g cols -> (1 <= cols)%nat -> n_repr (norm_of g) = s.
Proof.
  intros HT HR HC. pose proof (repr_text _ _ _ (norm_shape g cols HR) (tx_rows _ _ HT) HC (tx_bounded _ _ HT)) as X. rewrite norm_rows in X.
  eapply prog_fun; eauto.
Qed.

Lemma normal_ext (M M' : program) S : (forall s c, M s c = M' s c) -> normal_form M S -> normal_form M' S.
Proof.
  intros E (A & B & pr & tr & F). split; [|split].
  - apply (turned_appear false M); auto. intros. rewrite E. destruct (M' s c) as [[[? ?] ?]|]; reflexivity.
  - apply (turned_marks false M); auto. intros. rewrite E. destruct (M' s c) as [[[? ?] ?]|]; reflexivity.
  - exists pr, tr. rewrite <- E. exact F.
Qed.
Lemma reached_ext (M M' : program) S : (forall s c, M s c = M' s c) -> all_reached M S -> all_reached M' S.
Proof.
  intros E A t T. apply (turned_reaches false M); auto. intros. rewrite E. destruct (M' s c) as [[[? ?] ?]|]; reflexivity.
Qed.
Lemma iso_ext (M M' N N' : program) : (forall s c, M s c = N s c) -> (forall s c, M' s c = N' s c) -> isomorphic M M' -> isomorphic N N'.
Proof. intros E E' (f & h & mi & F & H & R). exists f, h, mi. split; auto. split; auto. intros s c. rewrite <- E, <- E'. apply R. Qed.

(** A normal form is left alone. *)
Lemma normalize_keeps g s cols : prog_text g s -> rectangular g cols -> (1 <= cols)%nat ->
  full_table (table_machine g) (Z.of_nat (length g)) (Z.of_nat cols) ->
  normal_form (table_machine g) (Z.of_nat (length g)) -> normalize s = Some s.
Proof.
  intros HT HR HC HF HN. unfold normalize. rewrite (parse_text _ _ HT).
  rewrite (normalize_id (length g) cols (tx_rows _ _ HT) (norm_of g) (norm_shape g cols HR) (tx_full g cols HF) (normal_ext _ _ _ (tx_ext g) HN)).
  f_equal. eapply tx_repr; eauto.
Qed.

Lemma normalize_to_normal g s cols : prog_text g s -> rectangular g cols -> (length g <= 26)%nat -> (1 <= cols <= 3)%nat ->
  full_table (table_machine g) (Z.of_nat (length g)) (Z.of_nat cols) ->
  in_table (table_machine g) (Z.of_nat (length g)) (Z.of_nat cols) -> all_reached (table_machine g) (Z.of_nat (length g)) ->
  exists n', n_normalize (norm_of g) = Some n' /\ table_shape n' (length g) cols /\ bounded (n_get n') (Z.of_nat cols) (Z.of_nat (length g)) /\
    full_table (n_get n') (Z.of_nat (length g)) (Z.of_nat cols) /\ all_reached (n_get n') (Z.of_nat (length g)) /\
    normal_form (n_get n') (Z.of_nat (length g)) /\ isomorphic (table_machine g) (n_get n') /\ prog_text (rows_of n') (n_repr n').
Proof.
  intros HT HR HL HC HF HI HA.
  assert (HB : bounded (n_get (norm_of g)) (Z.of_nat cols) (Z.of_nat (length g))).
  { intros st co pr sh tr E. rewrite norm_get in E. exact (HI _ _ _ _ _ E). }
  destruct (normalize_normal (length g) cols (norm_of g) (tx_rows _ _ HT) ltac:(lia) (norm_shape g cols HR) HB (tx_full g cols HF)
    (reached_ext _ _ _ (tx_ext g) HA)) as (n' & E & T & B & F & A & N & I).
  exists n'. repeat (split; [assumption|]). split.
  - refine (iso_ext _ _ _ _ _ _ I); [intros; symmetry; apply tx_ext|auto].
  - apply (repr_text n' (length g) cols); auto; [exact (tx_rows _ _ HT)|lia|].
    intros st co pr sh tr G. apply B in G. lia.
Qed.

Lemma normalize_form g s cols : tidy g s cols -> (1 <= cols <= 3)%nat ->
  exists g' s', normalize s = Some s' /\ tidy g' s' cols /\ length g' = length g /\
    normal_form (table_machine g') (Z.of_nat (length g)) /\ isomorphic (table_machine g) (table_machine g') /\
    normalize s' = Some s'.
Proof.
  intros (HT & HR & HL & HF & HI & HA) HC.
  destruct (normalize_to_normal g s cols HT HR HL HC HF HI HA) as (n' & E & T & B & F & A & N & I & P).
  destruct (rows_norm n' _ _ T) as (R1 & R2 & R3).
  assert (X : forall s c, n_get n' s c = table_machine (rows_of n') s c) by (intros; rewrite <- R1 at 1; apply norm_get).
  exists (rows_of n'), (n_repr n'). split; [unfold normalize; rewrite (parse_text _ _ HT), E; reflexivity|].
  assert (TI : tidy (rows_of n') (n_repr n') cols).
  { split; [auto|]. split; [auto|]. split; [lia|]. rewrite R3. split; [exact (full_ext _ _ _ _ X F)|].
    split; [|exact (reached_ext _ _ _ X A)]. intros st co pr sh tr G. rewrite <- X in G. exact (B _ _ _ _ _ G). }
  split; auto. split; auto. split; [exact (normal_ext _ _ _ X N)|].
  split; [exact (iso_ext _ _ _ _ (fun _ _ => eq_refl) X I)|].
  apply (normalize_keeps (rows_of n') _ cols); auto; try lia; rewrite R3.
  - exact (full_ext _ _ _ _ X F).
  - exact (normal_ext _ _ _ X N).
Qed.

Lemma normalize_decides g1 s1 cols1 g2 s2 cols2 :
  tidy g1 s1 cols1 -> (1 <= cols1 <= 3)%nat -> tidy g2 s2 cols2 -> (1 <= cols2 <= 3)%nat ->
  normalize s1 = normalize s2 <-> isomorphic (table_machine g1) (table_machine g2).
Proof.
  intros (HT & HR & HL & HF & HI & HA) HC (HT' & HR' & HL' & HF' & HI' & HA') HC'.
  destruct (normalize_to_normal g1 s1 cols1 HT HR HL HC HF HI HA) as (n1 & E1 & T1 & B1 & F1 & A1 & N1 & I1 & P1).
  destruct (normalize_to_normal g2 s2 cols2 HT' HR' HL' HC' HF' HI' HA') as (n2 & E2 & T2 & B2 & F2 & A2 & N2 & I2 & P2).
  unfold normalize. rewrite (parse_text _ _ HT), (parse_text _ _ HT'), E1, E2. split.
  - intros X. injection X as X. rewrite <- X in P2. pose proof (parse_text _ _ P1) as Q1. pose proof (parse_text _ _ P2) as Q2.
    rewrite Q1 in Q2. injection Q2 as Q2. destruct (rows_norm n1 _ _ T1) as (R1 & _). destruct (rows_norm n2 _ _ T2) as (R2 & _).
    assert (n1 = n2) by (rewrite <- R1, <- R2, Q2; reflexivity). subst n2.
    exact (iso_trans _ _ _ I1 (iso_sym _ _ I2)).
  - intros X. pose proof (iso_trans _ _ _ (iso_trans _ _ _ (iso_sym _ _ I1) X) I2) as Y.
    destruct (iso_sizes _ _ _ _ _ _ Y T1 T2 F1 F2) as [ES EC]. rewrite <- ES, <- EC in *.
    rewrite (normal_unique (length g1) cols1 n1 n2 (tx_rows _ _ HT) ltac:(lia) T1 T2 B1 B2 F1 A1 N1 N2 Y). reflexivity.
Qed.

(** ** Checking that a table is tidy *)
Definition in_tableb (g : list (list (option instr))) (S C : Z) : bool :=
  forallb (forallb (fun x => match x with None => true | Some (pr, _, tr) => (0 <=? pr) && (pr <? C) && (0 <=? tr) && (tr <? S) end)) g.
Definition fullb (g : list (list (option instr))) (S C : nat) : bool :=
  (match table_machine g 0 0 with Some (pr, _, _) => negb (pr =? 0) | None => false end) &&
  forallb (fun s => existsb (fun c => match table_machine g s c with Some _ => true | None => false end) (upfrom 0 C)) (upfrom 0 S) &&
  forallb (fun c => existsb (fun s => match table_machine g s c with Some _ => true | None => false end) (upfrom 0 S)) (upfrom 0 C) &&
  forallb (fun t => existsb (fun s => existsb (fun c => match table_machine g s c with Some (_, _, t') => t' =? t | None => false end) (upfrom 0 C)) (upfrom 0 S)) (upfrom 1 S).
Fixpoint reach_set (fuel : nat) (g : list (list (option instr))) (acc : list Z) : list Z :=
  match fuel with
  | O => acc
  | S fuel => reach_set fuel g (acc ++ flat_map (fun u => flat_map (fun x : option instr => match x with Some (_, _, t) => if t =? u then [] else [t] | None => [] end)
      (nth (Z.to_nat u) g [])) acc)
  end.
Definition cellb (x : option instr) : bool :=
  match x with None => true | Some (pr, _, tr) => (0 <=? pr) && (pr <? 10) && (0 <=? tr) && (tr <? 26) end.
Definition tidyb (g : list (list (option instr))) (cols : nat) : bool :=
  in_tableb g (Z.of_nat (length g)) (Z.of_nat cols) && fullb g (length g) cols && (length g <=? 26)%nat && (1 <=? length g)%nat &&
  (1 <=? cols)%nat && (cols <=? 10)%nat && forallb (fun r : list (option instr) => (length r =? cols)%nat) g &&
  forallb (fun t => existsb (Z.eqb t) (reach_set (length g) g [0])) (upfrom 1 (length g)).

Lemma table_in g s c i : table_machine g s c = Some i -> 0 <= s /\ In (Some i) (nth (Z.to_nat s) g []).
Proof.
  unfold table_machine, table_get. cbn [fst snd]. destruct ((0 <=? s) && (0 <=? c)) eqn:B; [|discriminate]. intros E. split; [lia|].
  destruct (Nat.lt_ge_cases (Z.to_nat c) (length (nth (Z.to_nat s) g []))) as [L|L].
  - rewrite <- E. apply nth_In. exact L.
  - rewrite nth_overflow in E by auto. discriminate.
Qed.

Lemma in_table_get (g : list (list (option instr))) s x : 0 <= s -> In (Some x) (nth (Z.to_nat s) g []) -> exists c, table_machine g s c = Some x.
Proof.
  intros Hs I. apply (In_nth _ _ None) in I. destruct I as (c & L & E). exists (Z.of_nat c). unfold table_machine, table_get. cbn [fst snd].
  replace ((0 <=? s) && (0 <=? Z.of_nat c)) with true by lia. rewrite Nat2Z.id. exact E.
Qed.

Lemma reach_set_ok g : forall fuel acc, (forall x, In x acc -> x = 0 \/ (0 <= x /\ reaches (table_machine g) 0 x)) ->
  in_tableb g (Z.of_nat (length g)) 10 = true ->
  forall x, In x (reach_set fuel g acc) -> x = 0 \/ (0 <= x /\ reaches (table_machine g) 0 x).
Proof.
  induction fuel as [|fuel IH]; intros acc H B; cbn [reach_set]; [exact H|]. apply IH; auto.
  intros x I. apply in_app_or in I. destruct I as [I|I]; [auto|]. apply in_flat_map in I. destruct I as (u & U & I).
  apply in_flat_map in I. destruct I as ([[[pr sh] t]|] & X & I); [|destruct I]. destruct (Z.eqb_spec t u) as [|N]; [destruct I|].
  destruct I as [<-|[]]. right. specialize (H u U).
  assert (U0 : 0 <= u) by (destruct H as [->|[H _]]; lia).
  assert (T0 : 0 <= t).
  { destruct (in_table_get g u _ U0 X) as (c & _). unfold in_tableb in B. rewrite forallb_forall in B.
    assert (R : In (nth (Z.to_nat u) g []) g).
    { apply nth_In. destruct (Nat.lt_ge_cases (Z.to_nat u) (length g)) as [L|L]; auto. rewrite nth_overflow in X by auto. destruct X. }
    specialize (B _ R). rewrite forallb_forall in B. specialize (B _ X). cbn in B. lia. }
  split; auto. destruct (in_table_get g u _ U0 X) as (c & E).
  assert (ED : edge (table_machine g) u t) by (exists c, pr, sh; exact E).
  destruct H as [->|[_ H]]; [apply reaches_one; auto|eapply reaches_more; eauto].
Qed.

Lemma tidyb_ok g s cols : tidyb g cols = true -> s = n_repr (norm_of g) -> tidy g s cols.
Proof.
  unfold tidyb. rewrite !andb_true_iff. intros (((((((BI & BF) & BL) & BL1) & BC) & BC2) & BR) & BA) ->.
  apply Nat.leb_le in BL, BL1, BC, BC2.
  assert (HI : in_table (table_machine g) (Z.of_nat (length g)) (Z.of_nat cols)).
  { intros st co pr sh tr E. apply table_in in E. destruct E as (S0 & I). unfold in_tableb in BI. rewrite forallb_forall in BI.
    assert (R : In (nth (Z.to_nat st) g []) g).
    { apply nth_In. destruct (Nat.lt_ge_cases (Z.to_nat st) (length g)) as [L|L]; auto. rewrite nth_overflow in I by auto. destruct I. }
    specialize (BI _ R). rewrite forallb_forall in BI. specialize (BI _ I). cbn in BI. lia. }
  assert (HR : rectangular g cols).
  { unfold rectangular. apply Forall_forall. intros r R. rewrite forallb_forall in BR. apply Nat.eqb_eq. auto. }
  split; [|split; [exact HR|split; [exact BL|split; [|split; [exact HI|]]]]].
  - rewrite <- (norm_rows g) at 1. apply (repr_text _ (length g) cols); auto; [apply norm_shape; auto|].
    intros st co pr sh tr E. rewrite norm_get in E. apply HI in E. lia.
  - unfold fullb in BF. rewrite !andb_true_iff, !forallb_forall in BF. destruct BF as (((B1 & B2) & B3) & B4). split; [|split; [|split]].
    + destruct (table_machine g 0 0) as [[[pr sh] tr]|]; [|discriminate]. exists pr, sh, tr. split; auto. lia.
    + intros st Hst. specialize (B2 st (proj2 (upfrom_in 0 (length g) st) ltac:(lia))). apply existsb_exists in B2. destruct B2 as (c & Ic & E).
      apply upfrom_in in Ic. destruct (table_machine g st c) as [i|] eqn:X; [|discriminate]. exists c, i. split; [lia|auto].
    + intros st Hst. specialize (B3 st (proj2 (upfrom_in 0 cols st) ltac:(lia))). apply existsb_exists in B3. destruct B3 as (c & Ic & E).
      apply upfrom_in in Ic. destruct (table_machine g c st) as [i|] eqn:X; [|discriminate]. exists c, i. split; [lia|auto].
    + intros t Ht. specialize (B4 t (proj2 (upfrom_in 1 (length g) t) ltac:(lia))). apply existsb_exists in B4. destruct B4 as (st & Is & E).
      apply existsb_exists in E. destruct E as (c & Ic & E). apply upfrom_in in Is, Ic.
      destruct (table_machine g st c) as [[[pr sh] t']|] eqn:X; [|discriminate]. apply Z.eqb_eq in E. subst t'.
      exists st, c, pr, sh. split; [lia|]. split; [lia|auto].
  - intros t Ht. rewrite forallb_forall in BA. specialize (BA t (proj2 (upfrom_in 1 (length g) t) ltac:(lia))). apply existsb_exists in BA.
    destruct BA as (x & I & E). apply Z.eqb_eq in E. subst x. apply reach_set_ok in I.
    + destruct I as [->|[_ I]]; [lia|auto].
    + intros x [<-|[]]. auto.
    + unfold in_tableb in *. rewrite forallb_forall in *. intros r R. specialize (BI r R). rewrite forallb_forall in *.
      intros [[[pr sh] tr]|] X; auto. specialize (BI _ X). cbn in BI. cbn. lia.
Qed.

(** ** Where it fails *)
Definition five_colors : list (list (option instr)) :=
  [[Some (2,true,1); Some (4,false,0); Some (3,false,1); Some (0,true,0); Some (1,true,1)];
   [Some (4,true,0); Some (4,true,1); Some (0,true,0); Some (2,true,1); Some (1,true,1)]].
Lemma not_idempotent : exists g s s' s'', tidy g s 5 /\ normalize s = Some s' /\ normalize s' = Some s'' /\ s' <> s''.
Proof.
  exists five_colors, (text_of "2RB 4LA 3LB 0RA 1RB  4RA 4RB 0RA 2RB 1RB"),
    (text_of "1RB 2LB 0RA 4RB 3LA  3RA 0RA 1RB 4RB 3RB"), (text_of "1RB 2LB 0RA 4LA 3RB  4RA 0RA 1RB 4RB 3RB").
  split; [apply tidyb_ok; vm_compute; reflexivity|]. split; [vm_compute; reflexivity|]. split; [vm_compute; reflexivity|].
  vm_compute. discriminate.
Qed.

Definition four_colors : list (list (option instr)) :=
  [[Some (2,true,3); Some (3,false,1); Some (0,false,0); Some (1,true,2)];
   [Some (1,false,3); Some (1,true,1); Some (3,false,1); Some (1,false,2)];
   [Some (2,false,0); Some (2,false,1); Some (3,true,2); Some (2,false,1)];
   [Some (0,false,2); Some (1,true,2); Some (3,true,3); Some (0,true,0)]].
Lemma not_in_order : exists g s s' g', tidy g s 4 /\ normalize s = Some s' /\ parse s' = Some g' /\
  ~ appear_in_order (table_machine g') (Z.of_nat (length g)).
Proof.
  exists four_colors, (text_of "2RD 3LB 0LA 1RC  1LD 1RB 3LB 1LC  2LA 2LB 3RC 2LB  0LC 1RC 3RD 0RA"). do 2 eexists.
  split; [apply tidyb_ok; vm_compute; reflexivity|]. split; [vm_compute; reflexivity|]. split; [vm_compute; reflexivity|].
  match goal with |- context [table_machine ?g'] => change (Z.of_nat (length four_colors)) with (Z.of_nat (length g')); rewrite <- (is_normal_ok g') end.
  - vm_compute. discriminate.
  - apply closedb_ok. reflexivity.
  - cbn. lia.
Qed.
