(** Lemmas about the normalizer. *)
From Coq Require Import FinFun.
From Verif Require Import Base TM TMFacts ProgModel TapeModel ParseModel ParseSpec ParseProofs NormModel NormSpec.

(** ** Renamings *)
Lemma sw_inv a b x : sw a b (sw a b x) = x.
Proof.
  unfold sw. destruct (Z.eqb_spec x a); [|destruct (Z.eqb_spec x b)];
    repeat match goal with |- context [?u =? ?v] => destruct (Z.eqb_spec u v) end; congruence.
Qed.

Lemma sw_bij0 a b : a <> 0 -> b <> 0 -> bij0 (sw a b).
Proof.
  intros Ha Hb. split.
  - unfold sw. rewrite !(proj2 (Z.eqb_neq _ _)) by auto. reflexivity.
  - exists (sw a b). split; intros; apply sw_inv.
Qed.

Lemma bij0_id : bij0 (fun x => x).
Proof. split; auto. exists (fun x => x). auto. Qed.

Lemma bij0_comp f g : bij0 f -> bij0 g -> bij0 (fun x => g (f x)).
Proof.
  intros [F0 (f' & F1 & F2)] [G0 (g' & G1 & G2)]. split; [congruence|].
  exists (fun x => f' (g' x)). split; intros; [rewrite G1|rewrite F2]; auto.
Qed.

(** One program is the other renamed, and mirrored if [mirror]. *)
Definition renamed (f g : Z -> Z) (mirror : bool) (M M' : program) : Prop :=
  forall s c, M' (f s) (g c) =
    option_map (fun i => let '(pr, sh, tr) := i in (g pr, if mirror then negb sh else sh, f tr)) (M s c).

Lemma renamed_run f g mirror M M' : bij0 f -> bij0 g -> renamed f g mirror M M' -> same_run f g mirror M M'.
Proof.
  intros [F0 _] [G0 _] HR.
  assert (GEN : forall n c c', c_state c' = f (c_state c) ->
    c_pos c' = (if mirror then - c_pos c else c_pos c) ->
    (forall p, c_tape c' (if mirror then - p else p) = g (c_tape c p)) ->
    match steps M n c, steps M' n c' with
    | Some c, Some c' => c_state c' = f (c_state c) /\ c_pos c' = (if mirror then - c_pos c else c_pos c) /\
        forall p, c_tape c' (if mirror then - p else p) = g (c_tape c p)
    | None, None => True
    | _, _ => False
    end).
  { induction n as [|n IH]; intros c c' H1 H2 H3; [cbn; auto|].
    cbn [steps]. unfold step. rewrite H1. pose proof (H3 (c_pos c)) as H4. rewrite <- H2 in H4. rewrite H4.
    rewrite HR. destruct (M (c_state c) (c_tape c (c_pos c))) as [[[pr sh] tr]|]; cbn [option_map]; auto.
    apply IH; cbn [c_state c_pos c_tape]; auto.
    - rewrite H2. unfold move. destruct mirror, sh; cbn [negb]; lia.
    - intros p. unfold write. rewrite H2.
      replace ((if mirror then - p else p) =? (if mirror then - c_pos c else c_pos c)) with (p =? c_pos c) by (destruct mirror; lia).
      destruct (p =? c_pos c); auto. }
  intros n. apply GEN; cbn; auto. destruct mirror; reflexivity.
Qed.

Lemma renamed_id M : renamed (fun x => x) (fun x => x) false M M.
Proof. intros s c. destruct (M s c) as [[[pr sh] tr]|]; reflexivity. Qed.

Lemma renamed_comp f g m f' g' m' M M' M'' : renamed f g m M M' -> renamed f' g' m' M' M'' ->
  renamed (fun x => f' (f x)) (fun x => g' (g x)) (xorb m' m) M M''.
Proof.
  intros H1 H2 s c. rewrite H2, H1. destruct (M s c) as [[[pr sh] tr]|]; cbn; auto.
  destruct m, m', sh; reflexivity.
Qed.

(** What follows from the same run. *)
Lemma same_run_halts f g mi M M' : bij0 f -> bij0 g -> same_run f g mi M M' -> forall n, steps M n init = None <-> steps M' n init = None.
Proof.
  intros Hf Hg H n. specialize (H n). destruct (steps M n init), (steps M' n init); split; intros E; try discriminate; auto; contradiction.
Qed.

(** ** Dicts *)
Lemma dget_dset {V} (d : list (Z * V)) k v k' : dget (dset d k v) k' = if k =? k' then Some v else dget d k'.
Proof.
  induction d as [|[k1 v1] d IH]; cbn; auto.
  destruct (Z.eqb_spec k1 k); cbn.
  - subst k1. destruct (k =? k'); auto.
  - destruct (Z.eqb_spec k1 k'); auto. rewrite (proj2 (Z.eqb_neq k k')) by congruence. auto.
Qed.

Lemma dset_keys {V} (d : list (Z * V)) k v : In k (map fst d) -> map fst (dset d k v) = map fst d.
Proof.
  induction d as [|[k1 v1] d IH]; cbn; [tauto|]. intros [->|H].
  - rewrite Z.eqb_refl. reflexivity.
  - destruct (k1 =? k); cbn; auto. f_equal; auto.
Qed.

Lemma dget_in {V} (d : list (Z * V)) k : In k (map fst d) <-> exists v, dget d k = Some v.
Proof.
  induction d as [|[k1 v1] d IH]; cbn.
  - split; [tauto|intros [v H]; discriminate].
  - destruct (Z.eqb_spec k1 k).
    + split; eauto.
    + rewrite <- IH. split; [intros [H|H]; [contradiction|auto]|auto].
Qed.

Lemma dget_pair {V} (d : list (Z * V)) k v : dget d k = Some v -> In (k, v) d.
Proof.
  induction d as [|[k1 v1] d IH]; cbn; [discriminate|]. destruct (Z.eqb_spec k1 k); [intros H; inv H; auto|auto].
Qed.

Lemma pair_dget {V} (d : list (Z * V)) k v : NoDup (map fst d) -> In (k, v) d -> dget d k = Some v.
Proof.
  induction d as [|[k1 v1] d IH]; cbn; intros HN HI; [contradiction|]. inv HN. destruct HI as [H|H].
  - inv H. rewrite Z.eqb_refl. reflexivity.
  - destruct (Z.eqb_spec k1 k); auto. subst. exfalso. apply H1. apply in_map_iff. exists (k, v). auto.
Qed.

Lemma dict_ext {V} (d d' : list (Z * V)) : map fst d = map fst d' -> NoDup (map fst d) ->
  (forall k, dget d k = dget d' k) -> d = d'.
Proof.
  revert d'. induction d as [|[k v] d IH]; intros [|[k' v'] d']; cbn; intros HK HN HG; try discriminate; auto.
  inv HK. inv HN. pose proof (HG k') as E. rewrite Z.eqb_refl in E. inv E. f_equal. apply IH; auto.
  intros x. specialize (HG x). destruct (Z.eqb_spec k' x); auto. subst x.
  assert (N1 : dget d k' = None). { destruct (dget d k') eqn:E; auto. exfalso. apply H2. apply dget_in. eauto. }
  assert (N2 : dget d' k' = None). { destruct (dget d' k') eqn:E; auto. exfalso. rewrite H1 in H2. apply H2. apply dget_in. eauto. }
  congruence.
Qed.

Lemma dget_map {V W} (f : V -> W) (d : list (Z * V)) k : dget (map (fun e => (fst e, f (snd e))) d) k = option_map f (dget d k).
Proof. induction d as [|[k1 v1] d IH]; cbn; auto. destruct (k1 =? k); auto. Qed.

Lemma n_get_map f n s c : n_get (n_map f n) s c = option_map f (n_get n s c).
Proof.
  assert (E : dget (n_map f n) s = option_map (map (fun x : Z * option instr => (fst x, option_map f (snd x)))) (dget n s)).
  { induction n as [|[k v] n IH]; cbn; auto. destruct (k =? s); auto. }
  unfold n_get. rewrite E. destruct (dget n s) as [w|]; cbn; auto. rewrite (dget_map (option_map f)).
  destruct (dget w c) as [[i|]|]; auto.
Qed.

(** ** Shapes *)
Lemma seqZ_nodup k : NoDup (map Z.of_nat (seq 0 k)).
Proof. apply Injective_map_NoDup; [|apply seq_NoDup]. intros a b H. lia. Qed.

Lemma seqZ_in k x : In x (map Z.of_nat (seq 0 k)) <-> 0 <= x < Z.of_nat k.
Proof.
  rewrite in_map_iff. split.
  - intros (y & <- & H). apply in_seq in H. lia.
  - intros H. exists (Z.to_nat x). split; [lia|]. apply in_seq. lia.
Qed.

Lemma shape_len n S C : table_shape n S C -> length n = S.
Proof. intros [H _]. assert (E : length (map fst n) = length (map Z.of_nat (seq 0 S))) by congruence. rewrite !map_length, seq_length in E. auto. Qed.

Lemma shape_states n S C : table_shape n S C -> n_states n = map fst n.
Proof. intros H. unfold n_states. rewrite (shape_len _ _ _ H). destruct H as [H _]. auto. Qed.

Lemma shape_row n S C s : table_shape n S C -> 0 <= s < Z.of_nat S ->
  exists sw0, dget n s = Some sw0 /\ map fst sw0 = map Z.of_nat (seq 0 C).
Proof.
  intros [H1 H2] Hs. assert (HI : In s (map fst n)) by (rewrite H1; apply seqZ_in; auto).
  apply dget_in in HI as [sw0 E]. exists sw0. split; auto. apply dget_pair in E.
  rewrite Forall_forall in H2. apply (H2 _ E).
Qed.

Lemma shape_cell sw0 C c : map fst sw0 = map Z.of_nat (seq 0 C) -> 0 <= c < Z.of_nat C -> exists i, dget (sw0 : switch) c = Some i.
Proof. intros H Hc. apply dget_in. rewrite H. apply seqZ_in. auto. Qed.

Lemma shape_get n S C s c i : table_shape n S C -> n_get n s c = Some i -> 0 <= s < Z.of_nat S /\ 0 <= c < Z.of_nat C.
Proof.
  intros [H1 H2] H. unfold n_get in H. destruct (dget n s) as [sw0|] eqn:E; [|discriminate].
  assert (HS : In s (map fst n)) by (apply dget_in; eauto). rewrite H1 in HS. apply seqZ_in in HS. split; auto.
  apply dget_pair in E. rewrite Forall_forall in H2. specialize (H2 _ E). cbn in H2.
  destruct (dget sw0 c) as [[j|]|] eqn:E2; try discriminate.
  apply seqZ_in. rewrite <- H2. apply dget_in. eauto.
Qed.

Lemma shape_colors n S C : table_shape n S C -> (1 <= S)%nat -> n_colors n = Some (map Z.of_nat (seq 0 C)).
Proof.
  intros H HS. destruct (shape_row n S C 0 H ltac:(lia)) as (sw0 & E1 & E2). unfold n_colors. rewrite E1.
  assert (L : length (map fst sw0) = length (map Z.of_nat (seq 0 C))) by congruence.
  rewrite !map_length, seq_length in L. rewrite L. reflexivity.
Qed.

Lemma shape_map f n S C : table_shape n S C -> table_shape (n_map f n) S C.
Proof.
  intros [H1 H2]. split.
  - unfold n_map. rewrite map_map. cbn. auto.
  - unfold n_map. rewrite Forall_map. rewrite Forall_forall in *. intros e He. cbn. rewrite map_map. cbn. apply (H2 e He).
Qed.

Lemma shape_dset n S C s sw0 : table_shape n S C -> 0 <= s < Z.of_nat S -> map fst sw0 = map Z.of_nat (seq 0 C) ->
  table_shape (dset n s sw0) S C.
Proof.
  intros [H1 H2] Hs HW. split.
  - rewrite dset_keys; auto. rewrite H1. apply seqZ_in. auto.
  - clear H1. induction n as [|[k v] n IH]; cbn; [constructor; auto|]. inv H2.
    destruct (k =? s); constructor; auto.
Qed.

Lemma shape_ext n n' S C : table_shape n S C -> table_shape n' S C ->
  (forall s c, n_get n s c = n_get n' s c) -> n = n'.
Proof.
  intros H H' HG. pose proof H as [H1 H2]. pose proof H' as [H1' H2'].
  apply dict_ext; [congruence|rewrite H1; apply seqZ_nodup|].
  intros s. destruct (dget n s) as [w|] eqn:E.
  - assert (HI : In s (map fst n')) by (rewrite H1', <- H1; apply dget_in; eauto).
    apply dget_in in HI as [w' E']. rewrite E'. f_equal.
    pose proof (dget_pair _ _ _ E) as P. pose proof (dget_pair _ _ _ E') as P'.
    rewrite Forall_forall in H2, H2'. specialize (H2 _ P). specialize (H2' _ P'). cbn in H2, H2'.
    apply dict_ext; [congruence|rewrite H2; apply seqZ_nodup|].
    intros c. specialize (HG s c). unfold n_get in HG. rewrite E, E' in HG.
    destruct (dget w c) as [x|] eqn:Ec.
    + assert (HI : In c (map fst w')) by (rewrite H2', <- H2; apply dget_in; eauto).
      apply dget_in in HI as [x' Ex']. rewrite Ex' in *. destruct x, x'; congruence.
    + destruct (dget w' c) as [x'|] eqn:Ec'; auto. exfalso.
      assert (HI : In c (map fst w)) by (rewrite H2, <- H2'; apply dget_in; eauto).
      apply dget_in in HI as [x Ex]. congruence.
  - destruct (dget n' s) as [w'|] eqn:E'; auto. exfalso.
    assert (HI : In s (map fst n)) by (rewrite H1, <- H1'; apply dget_in; eauto).
    apply dget_in in HI as [w Ew]. congruence.
Qed.

(** ** swap_states *)
Lemma swap_states_get n a b n' : swap_states n a b = Some n' ->
  renamed (sw a b) (fun c => c) false (n_get n) (n_get n').
Proof.
  unfold swap_states. destruct (dget n b) as [s2|] eqn:E2; [|discriminate].
  destruct (dget n a) as [s1|] eqn:E1; [|discriminate]. intros H. inv H. intros s c.
  rewrite n_get_map.
  assert (G : n_get (dset (dset n a s2) b s1) (sw a b s) c = n_get n s c).
  { unfold n_get. rewrite !dget_dset. unfold sw.
    destruct (Z.eqb_spec s a) as [->|Na].
    - rewrite Z.eqb_refl, E1. reflexivity.
    - destruct (Z.eqb_spec s b) as [->|Nb].
      + destruct (Z.eqb_spec b a) as [->|N]; [congruence|]. rewrite Z.eqb_refl. rewrite E2. reflexivity.
      + rewrite !(proj2 (Z.eqb_neq _ _)) by congruence. reflexivity. }
  rewrite G. destruct (n_get n s c) as [[[pr sh] tr]|]; cbn; auto. f_equal. f_equal.
  unfold sw. repeat match goal with |- context [?u =? ?v] => destruct (Z.eqb_spec u v) end; congruence.
Qed.

Lemma swap_states_shape n a b S C : table_shape n S C -> 0 <= a < Z.of_nat S -> 0 <= b < Z.of_nat S ->
  exists n', swap_states n a b = Some n' /\ table_shape n' S C.
Proof.
  intros H Ha Hb. destruct (shape_row n S C a H Ha) as (s1 & E1 & K1). destruct (shape_row n S C b H Hb) as (s2 & E2 & K2).
  unfold swap_states. rewrite E1, E2. eexists. split; [reflexivity|].
  apply shape_map. apply shape_dset; auto. apply shape_dset; auto.
Qed.

Lemma swap_states_twice n a b n' S C : table_shape n S C -> 0 <= a < Z.of_nat S -> 0 <= b < Z.of_nat S ->
  swap_states n a b = Some n' -> swap_states n' a b = Some n.
Proof.
  intros H Ha Hb E. destruct (swap_states_shape n a b S C H Ha Hb) as (m & Em & Hm). rewrite E in Em. inv Em.
  destruct (swap_states_shape m a b S C Hm Ha Hb) as (m' & Em' & Hm'). rewrite Em'. f_equal.
  apply (shape_ext _ _ S C); auto. intros s c.
  pose proof (renamed_comp _ _ _ _ _ _ _ _ _ (swap_states_get _ _ _ _ E) (swap_states_get _ _ _ _ Em') s c) as R.
  cbn in R. rewrite sw_inv in R. rewrite R. destruct (n_get n s c) as [[[pr sh] tr]|]; cbn; auto. rewrite sw_inv. reflexivity.
Qed.

(** ** swap_colors *)
Lemma swap_switch_get w a b w' : swap_switch w a b = Some w' -> forall c, dget w' (sw a b c) = dget w c.
Proof.
  unfold swap_switch. destruct (dget w b) as [i2|] eqn:E2; [|discriminate].
  destruct (dget w a) as [i1|] eqn:E1; [|discriminate]. intros H c. inv H. rewrite !dget_dset. unfold sw.
  destruct (Z.eqb_spec c a) as [->|Na].
  - rewrite Z.eqb_refl, E1. reflexivity.
  - destruct (Z.eqb_spec c b) as [->|Nb].
    + destruct (Z.eqb_spec b a) as [->|N]; [congruence|]. rewrite Z.eqb_refl, E2. reflexivity.
    + rewrite !(proj2 (Z.eqb_neq _ _)) by congruence. reflexivity.
Qed.

Lemma swap_switch_shape w a b C : map fst w = map Z.of_nat (seq 0 C) -> 0 <= a < Z.of_nat C -> 0 <= b < Z.of_nat C ->
  exists w', swap_switch w a b = Some w' /\ map fst w' = map Z.of_nat (seq 0 C).
Proof.
  intros H Ha Hb. destruct (shape_cell w C a H Ha) as [i1 E1]. destruct (shape_cell w C b H Hb) as [i2 E2].
  unfold swap_switch. rewrite E1, E2. eexists. split; [reflexivity|].
  rewrite dset_keys; [rewrite dset_keys; auto|rewrite dset_keys; auto]; rewrite H; apply seqZ_in; auto.
Qed.

Lemma swap_switches_get a b l : forall n n', NoDup l -> swap_switches l n a b = Some n' ->
  forall s, match dget n s with
            | Some w => if existsb (Z.eqb s) l then exists w', swap_switch w a b = Some w' /\ dget n' s = Some w'
                        else dget n' s = Some w
            | None => dget n' s = None
            end.
Proof.
  induction l as [|x l IH]; intros n n' HN H s; cbn in *.
  - inv H. destruct (dget n' s); auto.
  - inv HN. destruct (dget n x) as [w|] eqn:Ex; [|discriminate].
    destruct (swap_switch w a b) as [w'|] eqn:Ew; [|discriminate].
    specialize (IH _ _ H3 H s). rewrite dget_dset in IH. rewrite (Z.eqb_sym s x). destruct (Z.eqb_spec x s) as [->|N].
    + assert (NE : existsb (Z.eqb s) l = false).
      { destruct (existsb (Z.eqb s) l) eqn:E; auto. apply existsb_exists in E as (y & Hy & E). apply Z.eqb_eq in E. subst. contradiction. }
      rewrite NE in IH. rewrite Ex. cbn. eauto.
    + cbn. destruct (dget n s); auto.
Qed.

Lemma swap_colors_get n a b n' S C : table_shape n S C -> swap_colors n a b = Some n' ->
  renamed (fun s => s) (sw a b) false (n_get n) (n_get n').
Proof.
  intros HSh. unfold swap_colors. destruct (swap_switches (n_states n) n a b) as [m|] eqn:E; [|discriminate].
  intros H s c. inv H. rewrite n_get_map.
  assert (HN : NoDup (n_states n)) by (unfold n_states; apply seqZ_nodup).
  pose proof (swap_switches_get a b _ _ _ HN E s) as G.
  assert (GG : n_get m s (sw a b c) = n_get n s c).
  { unfold n_get. destruct (dget n s) as [w|] eqn:Es.
    - assert (X : existsb (Z.eqb s) (n_states n) = true).
      { apply existsb_exists. exists s. split; [|apply Z.eqb_refl]. rewrite (shape_states _ _ _ HSh). apply dget_in. eauto. }
      rewrite X in G. destruct G as (w' & Ew & Em). rewrite Em, (swap_switch_get _ _ _ _ Ew). reflexivity.
    - rewrite G. reflexivity. }
  rewrite GG. destruct (n_get n s c) as [[[pr sh] tr]|]; cbn; auto. f_equal. f_equal. f_equal.
  unfold sw. repeat match goal with |- context [?u =? ?v] => destruct (Z.eqb_spec u v) end; congruence.
Qed.

Lemma swap_switches_shape a b S C : 0 <= a < Z.of_nat C -> 0 <= b < Z.of_nat C -> forall l n,
  (forall s, In s l -> 0 <= s < Z.of_nat S) -> table_shape n S C ->
  exists n', swap_switches l n a b = Some n' /\ table_shape n' S C.
Proof.
  intros Ha Hb. induction l as [|s l IH]; intros n HL H; cbn; [eauto|].
  destruct (shape_row n S C s H (HL s (or_introl eq_refl))) as (w & E & K). rewrite E.
  destruct (swap_switch_shape w a b C K Ha Hb) as (w' & E' & K'). rewrite E'.
  apply IH; [intros x Hx; apply HL; right; auto|]. apply shape_dset; auto. apply HL. left; auto.
Qed.

Lemma swap_colors_shape n a b S C : table_shape n S C -> 0 <= a < Z.of_nat C -> 0 <= b < Z.of_nat C ->
  exists n', swap_colors n a b = Some n' /\ table_shape n' S C.
Proof.
  intros H Ha Hb. unfold swap_colors.
  destruct (swap_switches_shape a b S C Ha Hb (n_states n) n) as (m & E & K); auto.
  { intros s Hs. rewrite (shape_states _ _ _ H) in Hs. destruct H as [H _]. rewrite H in Hs. apply seqZ_in in Hs. auto. }
  rewrite E. eexists. split; [reflexivity|]. apply shape_map. auto.
Qed.

Lemma swap_colors_twice n a b n' S C : table_shape n S C -> 0 <= a < Z.of_nat C -> 0 <= b < Z.of_nat C ->
  swap_colors n a b = Some n' -> swap_colors n' a b = Some n.
Proof.
  intros H Ha Hb E. destruct (swap_colors_shape n a b S C H Ha Hb) as (m & Em & Hm). rewrite E in Em. inv Em.
  destruct (swap_colors_shape m a b S C Hm Ha Hb) as (m' & Em' & Hm'). rewrite Em'. f_equal.
  apply (shape_ext _ _ S C); auto. intros s c.
  pose proof (renamed_comp _ _ _ _ _ _ _ _ _ (swap_colors_get _ _ _ _ _ _ H E) (swap_colors_get _ _ _ _ _ _ Hm Em') s c) as R.
  cbn in R. rewrite sw_inv in R. rewrite R. destruct (n_get n s c) as [[[pr sh] tr]|]; cbn; auto. rewrite sw_inv. reflexivity.
Qed.

(** ** normalize_directions *)
Lemma directions_run n n' : normalize_directions n = Some n' ->
  exists pr sh tr, n_get n 0 0 = Some (pr, sh, tr) /\
  (if sh then n' = n else renamed (fun s => s) (fun c => c) true (n_get n) (n_get n')).
Proof.
  unfold normalize_directions. destruct (n_get n 0 0) as [[[pr sh] tr]|]; [|discriminate].
  intros H. exists pr, sh, tr. split; auto. destruct sh; inv H; auto.
  intros s c. rewrite n_get_map. destruct (n_get n s c) as [[[p1 s1] t1]|]; auto.
Qed.

Lemma directions_defined n : n_get n 0 0 <> None -> exists n', normalize_directions n = Some n'.
Proof. unfold normalize_directions. destruct (n_get n 0 0) as [[[pr [|]] tr]|]; eauto. contradiction. Qed.

Lemma directions_shape n n' S C : table_shape n S C -> normalize_directions n = Some n' -> table_shape n' S C.
Proof.
  intros H. unfold normalize_directions. destruct (n_get n 0 0) as [[[pr [|]] tr]|]; intros E; inv E; auto. apply shape_map; auto.
Qed.
