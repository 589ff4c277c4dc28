(** normalize on tables where nothing is cut or cinched; tree_norm. *)
From Coq Require FinFun String Ascii.
From Verif Require Import Base TM TMFacts ProgModel TapeModel ParseModel ParseSpec ParseProofs NormModel NormSpec NormProofs.

Definition bounded (M : program) (CB SB : Z) : Prop :=
  forall s c pr sh tr, M s c = Some (pr, sh, tr) -> 0 <= pr < CB /\ 0 <= tr < SB.

Section Full.
Variables (S C : nat) (CB SB : Z).
Hypothesis HS : (1 <= S)%nat.
Hypothesis HSB : Z.of_nat S <= SB.
Hypothesis HCB : Z.of_nat C <= CB.

(** [n'] is [n] renamed. *)
Definition rel (n n' : nprog) : Prop :=
  table_shape n' S C /\ bounded (n_get n') CB SB /\
  exists f g, bij0 f /\ bij0 g /\ (forall x, 0 <= x < Z.of_nat S <-> 0 <= f x < Z.of_nat S) /\
    (forall x, 0 <= x < Z.of_nat C <-> 0 <= g x < Z.of_nat C) /\ renamed f g false (n_get n) (n_get n').

Lemma rel_refl n : table_shape n S C -> bounded (n_get n) CB SB -> rel n n.
Proof.
  intros H HB. split; auto. split; auto. exists (fun x => x), (fun x => x).
  split; [apply bij0_id|]. split; [apply bij0_id|]. split; [tauto|]. split; [tauto|]. apply renamed_id.
Qed.

Lemma rel_trans n n' n'' : rel n n' -> rel n' n'' -> rel n n''.
Proof.
  intros (_ & _ & f & g & F1 & F2 & F3 & F4 & F5) (H & HB & f' & g' & G1 & G2 & G3 & G4 & G5).
  split; auto. split; auto. exists (fun x => f' (f x)), (fun x => g' (g x)).
  split; [apply bij0_comp; auto|]. split; [apply bij0_comp; auto|].
  split; [intros x; rewrite F3; apply G3|]. split; [intros x; rewrite F4; apply G4|].
  exact (renamed_comp _ _ _ _ _ _ _ _ _ F5 G5).
Qed.

Lemma sw_range a b k x : 0 <= a < k -> 0 <= b < k -> 0 <= x < k <-> 0 <= sw a b x < k.
Proof. intros. unfold sw. destruct (Z.eqb_spec x a); [lia|]. destruct (Z.eqb_spec x b); lia. Qed.

Lemma bij0_pre f : bij0 f -> forall y, exists x, f x = y.
Proof. intros [_ (f' & _ & H)] y. exists (f' y). auto. Qed.

Lemma rel_swap_states n a b : table_shape n S C -> bounded (n_get n) CB SB ->
  1 <= a < Z.of_nat S -> 1 <= b < Z.of_nat S -> exists n', swap_states n a b = Some n' /\ rel n n'.
Proof.
  intros H HB Ha Hb. destruct (swap_states_shape n a b S C H ltac:(lia) ltac:(lia)) as (n' & E & H').
  pose proof (swap_states_get _ _ _ _ E) as R.
  exists n'. split; auto. split; auto. split.
  - intros s c pr sh tr X. rewrite <- (sw_inv a b s) in X. rewrite R in X.
    destruct (n_get n (sw a b s) c) as [[[p1 s1] t1]|] eqn:E1; [|discriminate]. cbn in X. inv X.
    destruct (HB _ _ _ _ _ E1). split; auto. apply (proj1 (sw_range a b SB t1 ltac:(lia) ltac:(lia))); auto.
  - exists (sw a b), (fun x => x). split; [apply sw_bij0; lia|]. split; [apply bij0_id|].
    split; [intros x; apply sw_range; lia|]. split; [tauto|]. auto.
Qed.

Lemma rel_swap_colors n a b : table_shape n S C -> bounded (n_get n) CB SB ->
  1 <= a < Z.of_nat C -> 1 <= b < Z.of_nat C -> exists n', swap_colors n a b = Some n' /\ rel n n'.
Proof.
  intros H HB Ha Hb. destruct (swap_colors_shape n a b S C H ltac:(lia) ltac:(lia)) as (n' & E & H').
  pose proof (swap_colors_get _ _ _ _ _ _ H E) as R.
  exists n'. split; auto. split; auto. split.
  - intros s c pr sh tr X. rewrite <- (sw_inv a b c) in X. rewrite R in X.
    destruct (n_get n s (sw a b c)) as [[[p1 s1] t1]|] eqn:E1; [|discriminate]. cbn in X. inv X.
    destruct (HB _ _ _ _ _ E1). split; auto. apply (proj1 (sw_range a b CB p1 ltac:(lia) ltac:(lia))); auto.
  - exists (fun x => x), (sw a b). split; [apply bij0_id|]. split; [apply sw_bij0; lia|].
    split; [tauto|]. split; [intros x; apply sw_range; lia|]. auto.
Qed.

(** *** normalize_states, normalize_colors *)
Lemma tl_seqZ k x : In x (tl (map Z.of_nat (seq 0 k))) -> 1 <= x < Z.of_nat k.
Proof.
  destruct k as [|k]; cbn; [tauto|]. intros H. apply in_map_iff in H as (y & <- & H). apply in_seq in H. lia.
Qed.

Lemma ns_scan_in instrs : forall todo a b, ns_scan instrs todo = Some (a, b) -> In a todo /\ In b todo.
Proof.
  induction instrs as [|[[pr sh] st] instrs IH]; intros todo a b; cbn; [discriminate|].
  destruct (existsb (Z.eqb st) todo) eqn:E; [|apply IH].
  destruct todo as [|norm rest]; [discriminate|]. destruct (st =? norm).
  - intros H. apply IH in H. destruct H; split; right; auto.
  - intros H. inv H. apply existsb_exists in E as (y & Hy & E). apply Z.eqb_eq in E. subst y. split; auto. left; auto.
Qed.

Lemma normalize_states_ok n : table_shape n S C -> bounded (n_get n) CB SB -> exists n', normalize_states n = Some n' /\ rel n n'.
Proof.
  intros H HB. unfold normalize_states. generalize (length n) as k. intros k. revert n H HB.
  induction k as [|k IH]; intros n H HB; cbn [normalize_states_go].
  - exists n. split; auto. apply rel_refl; auto.
  - destruct (ns_scan (n_used n) (tl (n_states n))) as [[a b]|] eqn:E.
    2:{ exists n. split; auto. apply rel_refl; auto. }
    apply ns_scan_in in E as [Ia Ib]. unfold n_states in Ia, Ib. rewrite (shape_len _ _ _ H) in Ia, Ib.
    apply tl_seqZ in Ia. apply tl_seqZ in Ib.
    destruct (rel_swap_states n a b H HB Ia Ib) as (n1 & E1 & R1). rewrite E1.
    pose proof R1 as (H1 & HB1 & _). destruct (IH n1 H1 HB1) as (n2 & E2 & R2). exists n2. split; auto.
    eapply rel_trans; eauto.
Qed.

Lemma nc_scan_ok slots : forall n todo, table_shape n S C -> bounded (n_get n) CB SB ->
  (forall x, In x todo -> 1 <= x < Z.of_nat C) -> exists n', nc_scan slots n todo = Some n' /\ rel n n'.
Proof.
  induction slots as [|[s c] slots IH]; intros n todo H HB HT; cbn [nc_scan].
  - exists n. split; auto. apply rel_refl; auto.
  - destruct (n_get n s c) as [[[color sh] tr]|]; [|apply IH; auto].
    destruct (existsb (Z.eqb color) todo) eqn:E; [|apply IH; auto].
    destruct todo as [|norm rest]; [discriminate|].
    assert (HT' : forall x, In x rest -> 1 <= x < Z.of_nat C) by (intros; apply HT; right; auto).
    destruct (color =? norm); [apply IH; auto|].
    apply existsb_exists in E as (y & Hy & E). apply Z.eqb_eq in E. subst y.
    destruct (rel_swap_colors n color norm H HB (HT _ Hy) (HT _ (or_introl eq_refl))) as (n1 & E1 & R1). rewrite E1.
    pose proof R1 as (H1 & HB1 & _). destruct (IH n1 rest H1 HB1 HT') as (n2 & E2 & R2). exists n2. split; auto.
    eapply rel_trans; eauto.
Qed.

Lemma normalize_colors_ok n : table_shape n S C -> bounded (n_get n) CB SB -> exists n', normalize_colors n = Some n' /\ rel n n'.
Proof.
  intros H HB. unfold normalize_colors. rewrite (shape_colors _ _ _ H HS).
  destruct (map Z.of_nat (seq 0 C)) as [|x l] eqn:E; [exists n; split; [auto|apply rel_refl; auto]|].
  rewrite <- E. apply nc_scan_ok; auto. intros y Hy. apply tl_seqZ in Hy. auto.
Qed.

(** *** The guard is invariant *)
Lemma rel_full n n' : table_shape n S C -> rel n n' -> full_table (n_get n) (Z.of_nat S) (Z.of_nat C) -> full_table (n_get n') (Z.of_nat S) (Z.of_nat C).
Proof.
  intros HSn (H' & HB & f & g & F1 & F2 & F3 & F4 & F5) (G1 & G2 & G3 & G4).
  pose proof F1 as [F10 _]. pose proof F2 as [F20 (g' & GI & _)].
  split; [|split; [|split]].
  - destruct G1 as (pr & sh & tr & E & N). exists (g pr), sh, (f tr).
    specialize (F5 0 0). rewrite F10, F20, E in F5. cbn in F5. split; auto.
    intros Z0. apply N. rewrite <- (GI pr), Z0, <- F20, GI. auto.
  - intros s Hs. destruct (bij0_pre f F1 s) as [s0 <-]. apply F3 in Hs. destruct (G2 s0 Hs) as (c & i & Hc & E).
    exists (g c). rewrite F5, E. destruct i as [[pr sh] tr]. eexists. split; [exact (proj1 (F4 _) Hc)|reflexivity].
  - intros c Hc. destruct (bij0_pre g F2 c) as [c0 <-]. apply F4 in Hc. destruct (G3 c0 Hc) as (s & i & Hs & E).
    exists (f s). rewrite F5, E. destruct i as [[pr sh] tr]. eexists. split; [exact (proj1 (F3 _) Hs)|reflexivity].
  - intros t Ht. destruct (bij0_pre f F1 t) as [t0 <-].
    assert (Ht0 : 1 <= t0 < Z.of_nat S).
    { assert (0 <= t0 < Z.of_nat S) by (apply F3; lia). assert (t0 <> 0) by (intros ->; lia). lia. }
    destruct (G4 t0 Ht0) as (s & c & pr & sh & Hs & Hc & E). exists (f s), (g c), (g pr), sh.
    split; [exact (proj1 (F3 _) Hs)|]. split; [exact (proj1 (F4 _) Hc)|]. rewrite F5, E. reflexivity.
Qed.

(** *** cut_unused_states, cut_unused_colors, cinch do nothing *)
Lemma n_get_used n s c i : n_get n s c = Some i -> In i (n_used n).
Proof.
  unfold n_get. destruct (dget n s) as [w|] eqn:E; [|discriminate].
  destruct (dget w c) as [[j|]|] eqn:E2; try discriminate. intros H. inv H.
  apply dget_pair in E. apply dget_pair in E2. unfold n_used. apply in_flat_map. exists (s, w). split; auto.
  apply in_flat_map. exists (c, Some i). split; auto. left; auto.
Qed.

Lemma all_none_false w c i : forall colors, In c colors -> (forall x, In x colors -> exists v, dget w x = Some v) ->
  dget w c = Some (Some i) -> all_none w colors = Some false.
Proof.
  induction colors as [|x colors IH]; intros HI HA E; [contradiction|]. cbn.
  destruct (HA x (or_introl eq_refl)) as [v Ev]. rewrite Ev. destruct v as [j|]; auto.
  apply IH; auto.
  - destruct HI as [->|HI]; auto. congruence.
  - intros y Hy. apply HA. right; auto.
Qed.

Lemma cut_states_id n : table_shape n S C -> full_table (n_get n) (Z.of_nat S) (Z.of_nat C) -> cut_unused_states n = Some n.
Proof.
  intros H (G1 & G2 & G3 & G4). unfold cut_unused_states. rewrite (shape_colors _ _ _ H HS).
  assert (D : forall l, (forall e, In e l -> In e n) -> states_to_del (map Z.of_nat (seq 0 C)) l = Some []).
  { induction l as [|[s w] l IH]; intros HL; cbn [states_to_del]; auto.
    assert (HP : In (s, w) n) by (apply HL; left; auto).
    assert (HD : dget n s = Some w).
    { apply pair_dget; auto. destruct H as [H _]. rewrite H. apply seqZ_nodup. }
    assert (Hs : 0 <= s < Z.of_nat S).
    { destruct H as [H _]. apply seqZ_in. rewrite <- H. apply in_map_iff. exists (s, w). auto. }
    destruct (G2 s Hs) as (c & i & Hc & E). unfold n_get in E. rewrite HD in E.
    destruct (dget w c) as [[j|]|] eqn:Ec; try discriminate. inv E.
    assert (HK : map fst w = map Z.of_nat (seq 0 C)).
    { destruct H as [_ H]. rewrite Forall_forall in H. apply (H _ HP). }
    rewrite (all_none_false w c i); [|apply seqZ_in; auto| |auto].
    2:{ intros x Hx. apply dget_in. rewrite HK. auto. }
    rewrite IH; auto. intros e He. apply HL. right; auto. }
  rewrite D by auto. cbn [del_all].
  assert (L : forall x, In x (removelast (rev (n_states n))) -> 1 <= x < Z.of_nat S).
  { unfold n_states. rewrite (shape_len _ _ _ H). destruct S as [|k]; [lia|]. cbn [seq map rev].
    rewrite removelast_last. intros x Hx. apply in_rev in Hx. apply in_map_iff in Hx as (y & <- & Hy). apply in_seq in Hy. lia. }
  revert L. generalize (removelast (rev (n_states n))) as l. induction l as [|x l IH]; intros L; cbn [del_unentered]; auto.
  destruct (G4 x (L x (or_introl eq_refl))) as (s & c & pr & sh & _ & _ & E).
  assert (X : existsb (in_instr x) (n_used n) = true).
  { apply existsb_exists. exists (pr, sh, x). split; [eapply n_get_used; eauto|]. cbn. rewrite Z.eqb_refl. apply Bool.orb_true_r. }
  rewrite X. apply IH. intros y Hy. apply L. right; auto.
Qed.

Lemma cut_colors_id n : table_shape n S C -> full_table (n_get n) (Z.of_nat S) (Z.of_nat C) -> cut_unused_colors n = Some n.
Proof.
  intros H (G1 & G2 & G3 & G4). unfold cut_unused_colors. rewrite (shape_colors _ _ _ H HS).
  assert (L : forall x, In x (map Z.of_nat (seq 0 C)) -> 0 <= x < Z.of_nat C) by (intros; apply seqZ_in; auto).
  revert L. generalize (map Z.of_nat (seq 0 C)) at 1 2 as l. induction l as [|c l IH]; intros L; cbn [cut_colors_go]; auto.
  destruct (G3 c (L c (or_introl eq_refl))) as (s & i & Hs & E). unfold n_get in E.
  destruct (dget n s) as [w|] eqn:Es; [|discriminate]. destruct (dget w c) as [[j|]|] eqn:Ec; try discriminate.
  assert (X : column_used n c = Some true).
  { apply dget_pair in Es. assert (HA : forall e, In e n -> exists v, dget (snd e) c = Some v).
    { intros e He. apply dget_in. destruct H as [_ H]. rewrite Forall_forall in H. assert (K : In c (map Z.of_nat (seq 0 C))) by (apply seqZ_in; apply L; left; auto). rewrite <- (H _ He) in K. exact K. }
    clear - Es Ec HA. induction n as [|[s0 w0] n IH]; [contradiction|]. cbn [column_used].
    destruct (HA (s0, w0) (or_introl eq_refl)) as [v Ev]. cbn in Ev. rewrite Ev. destruct v; auto.
    apply IH; [|intros e He; apply HA; right; auto]. destruct Es as [Es|Es]; auto. inv Es. congruence. }
  rewrite X. apply IH. intros y Hy. apply L. right; auto.
Qed.

Lemma cinch_id n : table_shape n S C -> full_table (n_get n) (Z.of_nat S) (Z.of_nat C) -> cinch n = Some n.
Proof.
  intros H (G1 & _). unfold cinch, n_states. rewrite (shape_len _ _ _ H). destruct S as [|k]; [lia|]. cbn [seq map cinch_go].
  destruct G1 as (pr & sh & tr & E & N). unfold n_get in E. change (Z.of_nat 0) with 0.
  destruct (dget n 0) as [w|]; [|discriminate]. destruct (dget w 0) as [[[[p1 s1] t1]|]|]; try discriminate. inv E.
  rewrite (proj2 (Z.eqb_neq _ _)) by auto. rewrite Z.eqb_refl. reflexivity.
Qed.

Lemma round_ok n : table_shape n S C -> bounded (n_get n) CB SB -> full_table (n_get n) (Z.of_nat S) (Z.of_nat C) ->
  exists n', normalize_round n = Some n' /\ rel n n'.
Proof.
  intros H HB HF. unfold normalize_round.
  destruct (normalize_states_ok n H HB) as (n1 & E1 & R1). rewrite E1.
  pose proof R1 as (H1 & HB1 & _). destruct (normalize_colors_ok n1 H1 HB1) as (n2 & E2 & R2). rewrite E2.
  pose proof R2 as (H2 & HB2 & _).
  assert (HF2 : full_table (n_get n2) (Z.of_nat S) (Z.of_nat C)).
  { apply (rel_full n1); auto. apply (rel_full n); auto. }
  rewrite cut_states_id by auto. rewrite cut_colors_id by auto. rewrite cinch_id by auto.
  exists n2. split; auto. eapply rel_trans; eauto.
Qed.

Lemma rounds_ok k : forall n, table_shape n S C -> bounded (n_get n) CB SB -> full_table (n_get n) (Z.of_nat S) (Z.of_nat C) ->
  exists n', normalize_rounds k n = Some n' /\ rel n n'.
Proof.
  induction k as [|k IH]; intros n H HB HF; cbn [normalize_rounds].
  - exists n. split; auto. apply rel_refl; auto.
  - destruct (round_ok n H HB HF) as (n1 & E1 & R1). rewrite E1. pose proof R1 as (H1 & HB1 & _).
    destruct (IH n1 H1 HB1 (rel_full n n1 H R1 HF)) as (n2 & E2 & R2). exists n2. split; auto. eapply rel_trans; eauto.
Qed.

Lemma n_normalize_ok n : table_shape n S C -> bounded (n_get n) CB SB -> full_table (n_get n) (Z.of_nat S) (Z.of_nat C) ->
  exists n', n_normalize n = Some n' /\ table_shape n' S C /\ bounded (n_get n') CB SB /\
    exists f g mi, bij0 f /\ bij0 g /\ renamed f g mi (n_get n) (n_get n').
Proof.
  intros H HB HF. unfold n_normalize. rewrite (shape_colors _ _ _ H HS).
  destruct (rounds_ok (length (map Z.of_nat (seq 0 C))) n H HB HF) as (n1 & E1 & R1). rewrite E1.
  pose proof (rel_full n n1 H R1 HF) as (G1 & _). destruct R1 as (H1 & HB1 & f & g & F1 & F2 & _ & _ & F5).
  destruct G1 as (pr & sh & tr & E & N).
  destruct (directions_defined n1 ltac:(congruence)) as [n2 E2]. rewrite E2. exists n2. split; auto.
  split; [eapply directions_shape; eauto|].
  destruct (directions_run n1 n2 E2) as (p1 & s1 & t1 & X1 & X2). destruct s1.
  - subst n2. split; auto. exists f, g, false. auto.
  - split.
    + intros s c pr2 sh2 tr2 X. rewrite (X2 s c) in X. destruct (n_get n1 s c) as [[[p3 s3] t3]|] eqn:E3; [|discriminate].
      cbn in X. inv X. eapply HB1; eauto.
    + exists (fun x => f x), (fun x => g x), true. split; auto. split; auto.
      exact (renamed_comp _ _ _ _ _ _ _ _ _ F5 X2).
Qed.
End Full.

(** ** From text to table and back *)
Lemma map_opt_Forall2 {A B} (R : A -> B -> Prop) (f : B -> option A) (l : list A) : forall l',
  Forall2 R l l' -> (forall a b, R a b -> f b = Some a) -> map_opt f l' = Some l.
Proof. induction l as [|a l IH]; intros l' H HR; inv H; cbn; auto. rewrite (HR a y) by auto. rewrite IH; auto. Qed.

Lemma parse_text g s : prog_text g s -> parse s = Some g.
Proof.
  intros H. unfold parse. apply (map_opt_Forall2 row_text); [apply prog_split; auto|].
  intros r t Hr. apply (map_opt_Forall2 cell_text); [apply row_split; auto|]. apply cell_read.
Qed.

Lemma enum_keys {A} (l : list A) : forall k, map fst (enum k l) = map (fun j => k + Z.of_nat j) (seq 0 (length l)).
Proof.
  induction l as [|x l IH]; intros k; cbn; auto. f_equal; [lia|]. rewrite IH, <- seq_shift, map_map.
  apply map_ext. intros j. lia.
Qed.

Lemma enum_get {A} (l : list A) : forall k i, dget (enum k l) i = if k <=? i then nth_error l (Z.to_nat (i - k)) else None.
Proof.
  induction l as [|x l IH]; intros k i; cbn [enum dget].
  - destruct (k <=? i); auto. destruct (Z.to_nat (i - k)); auto.
  - destruct (Z.eqb_spec k i) as [->|N].
    + replace (i <=? i) with true by lia. rewrite Z.sub_diag. reflexivity.
    + rewrite IH. destruct (Z.leb_spec (k + 1) i).
      * replace (k <=? i) with true by lia. replace (Z.to_nat (i - k)) with (S (Z.to_nat (i - (k + 1)))) by lia. reflexivity.
      * replace (k <=? i) with false by lia. reflexivity.
Qed.

Lemma seqZ_shift k : map (fun j => 0 + Z.of_nat j) (seq 0 k) = map Z.of_nat (seq 0 k).
Proof. apply map_ext. intros; lia. Qed.

Lemma norm_shape g cols : rectangular g cols -> table_shape (norm_of g) (length g) cols.
Proof.
  intros H. unfold norm_of. split.
  - rewrite enum_keys, map_length. apply seqZ_shift.
  - apply Forall_forall. intros [k w] Hw. cbn.
    assert (G : forall (l : list switch) k0, In (k, w) (enum k0 l) -> In w l).
    { induction l as [|x l IH]; cbn; intros k0 HI; [auto|]. destruct HI as [HI|HI]; [inv HI; auto|right; eauto]. }
    apply G in Hw. apply in_map_iff in Hw as (r & <- & Hr). rewrite enum_keys.
    unfold rectangular in H. rewrite Forall_forall in H. rewrite (H r Hr). apply seqZ_shift.
Qed.

Lemma norm_get g s c : n_get (norm_of g) s c = table_get g (s, c).
Proof.
  unfold n_get, norm_of, table_get. cbn [fst snd]. rewrite enum_get, Z.sub_0_r.
  destruct (0 <=? s); cbn [andb]; auto. rewrite nth_error_map.
  destruct (nth_error g (Z.to_nat s)) as [r|] eqn:E; cbn [option_map].
  - rewrite (nth_error_nth _ _ [] E). rewrite enum_get, Z.sub_0_r. destruct (0 <=? c); auto.
    destruct (nth_error r (Z.to_nat c)) as [x|] eqn:E2.
    + rewrite (nth_error_nth _ _ None E2). destruct x; auto.
    + apply nth_error_None in E2. rewrite nth_overflow by auto. auto.
  - apply nth_error_None in E. rewrite (nth_overflow g) by auto. destruct (0 <=? c), (Z.to_nat c); auto.
Qed.

(** The rows of a dict. *)
Definition rows_of (n : nprog) : list (list (option instr)) := map (fun e => map snd (snd e)) n.

Lemma enum_values {A} (d : list (Z * A)) : forall k, map fst d = map (fun j => k + Z.of_nat j) (seq 0 (length d)) -> enum k (map snd d) = d.
Proof.
  induction d as [|[x v] d IH]; intros k H; cbn in *; auto. inv H. f_equal; [f_equal; lia|].
  apply IH. rewrite H2, <- seq_shift, map_map. apply map_ext. intros; lia.
Qed.

Lemma rows_norm n S C : table_shape n S C -> norm_of (rows_of n) = n /\ rectangular (rows_of n) C /\ length (rows_of n) = S.
Proof.
  intros H. pose proof H as [H1 H2]. pose proof (shape_len _ _ _ H) as HL.
  assert (RW : map (enum 0) (rows_of n) = map snd n).
  { unfold rows_of. rewrite map_map. apply map_ext_in. intros e He.
    rewrite Forall_forall in H2. specialize (H2 _ He). destruct e as [k w]. cbn [snd] in *. apply enum_values.
    assert (L : length w = C).
    { assert (L : length (map fst w) = length (map Z.of_nat (seq 0 C))) by congruence. rewrite !map_length, seq_length in L. auto. }
    rewrite L. etransitivity; [exact H2|]. symmetry. apply seqZ_shift. }
  split; [|split].
  - unfold norm_of. rewrite RW. apply enum_values. rewrite H1, HL. symmetry. apply seqZ_shift.
  - unfold rectangular, rows_of. rewrite Forall_map. rewrite Forall_forall in *. intros e He. specialize (H2 _ He).
    destruct e as [k w]. cbn [snd] in *. rewrite map_length.
    assert (L : length (map fst w) = length (map Z.of_nat (seq 0 C))) by congruence. rewrite !map_length, seq_length in L. auto.
  - unfold rows_of. rewrite map_length. auto.
Qed.

Lemma repr_text n S C : table_shape n S C -> (1 <= S)%nat -> (1 <= C)%nat -> bounded (n_get n) 10 26 -> prog_text (rows_of n) (n_repr n).
Proof.
  intros H HS HC HB. destruct (rows_norm n S C H) as (R1 & R2 & R3).
  replace (n_repr n) with (join [SPACE; SPACE] (map (fun r => join [SPACE] (map show_instr r)) (rows_of n))).
  2:{ unfold n_repr, rows_of. rewrite map_map. f_equal. apply map_ext. intros e. rewrite map_map. reflexivity. }
  apply join_prog.
  - intros E. rewrite E in R3. cbn in R3. lia.
  - intros r Hr. apply join_row.
    + intros ->. unfold rectangular in R2. rewrite Forall_forall in R2. specialize (R2 _ Hr). cbn in R2. lia.
    + intros i Hi. apply show_cell. intros c sh tr ->.
      destruct (In_nth _ _ [] Hr) as (a & Ha & Ea). destruct (In_nth _ _ None Hi) as (b & Hb & Eb).
      apply (HB (Z.of_nat a) (Z.of_nat b) c sh tr). rewrite <- R1, norm_get. unfold table_get. cbn [fst snd].
      replace ((0 <=? Z.of_nat a) && (0 <=? Z.of_nat b)) with true by lia. rewrite !Nat2Z.id, Ea. auto.
Qed.

Lemma same_run_ext f g mi M M' N N' : (forall s c, M s c = N s c) -> (forall s c, M' s c = N' s c) ->
  same_run f g mi M M' -> same_run f g mi N N'.
Proof.
  intros H H' HR n. specialize (HR n).
  assert (E : forall (P Q : program), (forall s c, P s c = Q s c) -> forall n c, steps P n c = steps Q n c).
  { intros P Q HPQ. induction n0 as [|k IH]; intros c; cbn; auto. unfold step. rewrite HPQ.
    destruct (Q (c_state c) (c_tape c (c_pos c))) as [[[pr sh] tr]|]; auto. }
  rewrite <- (E M N H), <- (E M' N' H'). auto.
Qed.

(** C27, guarded *)
Lemma normalize_full g s cols : prog_text g s -> rectangular g cols -> (length g <= 26)%nat -> (1 <= cols <= 10)%nat ->
  full_table (table_machine g) (Z.of_nat (length g)) (Z.of_nat cols) ->
  exists s' p p', normalize s = Some s' /\ from_str s = Some p /\ from_str s' = Some p' /\
    behaves_like (machine_of p) (machine_of p').
Proof.
  intros HT HR HS HC HF. unfold normalize. rewrite (parse_text _ _ HT).
  pose proof (norm_shape g cols HR) as H.
  assert (HS1 : (1 <= length g)%nat) by (inv HT; cbn; lia).
  assert (HB : bounded (n_get (norm_of g)) 10 26).
  { intros st co pr sh tr E. rewrite norm_get in E. eapply text_shows_ok; eauto. }
  assert (HF' : full_table (n_get (norm_of g)) (Z.of_nat (length g)) (Z.of_nat cols)).
  { assert (EXT : forall st co, n_get (norm_of g) st co = table_machine g st co) by (intros; apply norm_get).
    destruct HF as (G1 & G2 & G3 & G4). split; [rewrite EXT; auto|]. split; [|split].
    - intros st Hst. destruct (G2 st Hst) as (co & i & Hco & E). exists co, i. rewrite EXT. auto.
    - intros co Hco. destruct (G3 co Hco) as (st & i & Hst & E). exists st, i. rewrite EXT. auto.
    - intros t Ht. destruct (G4 t Ht) as (st & co & pr & sh & Hst & Hco & E). exists st, co, pr, sh. rewrite EXT. auto. }
  destruct (n_normalize_ok (length g) cols 10 26 HS1 ltac:(lia) ltac:(lia) (norm_of g) H HB HF') as (n' & E & H' & HB' & f & g' & mi & F1 & F2 & F3).
  rewrite E. pose proof (repr_text n' _ _ H' HS1 ltac:(lia) HB') as HT'.
  destruct (parse_table _ _ HT) as (p & Ep & Gp). destruct (parse_table _ _ HT') as (p' & Ep' & Gp').
  exists (n_repr n'), p, p'. split; auto. split; auto. split; auto.
  exists f, g', mi. split; auto. split; auto.
  apply (same_run_ext f g' mi (n_get (norm_of g)) (n_get n')).
  - intros st co. unfold machine_of. rewrite Gp. apply norm_get.
  - intros st co. unfold machine_of. rewrite Gp'. rewrite <- norm_get. destruct (rows_norm n' _ _ H') as (-> & _). reflexivity.
  - apply renamed_run; auto.
Qed.

(** ** tree_norm gives a renamed program *)
Lemma tn_ok S C CB SB : (1 <= S)%nat -> Z.of_nat S <= SB -> Z.of_nat C <= CB -> forall turns t n', table_shape (tn_norm t) S C -> bounded (n_get (tn_norm t)) CB SB ->
  1 <= tn_avs t -> 1 <= tn_avc t -> tn_loop turns t = Some n' -> rel S C CB SB (tn_norm t) n'.
Proof.
  intros HS HSB HCB. induction turns as [|k IH]; intros t n' H HB Ha Hc E; cbn [tn_loop] in E.
  - inv E. apply rel_refl; auto.
  - unfold tn_turn in E.
    set (step1 := if tn_st t =? tn_avs t then Some (tn_norm t, tn_avs t + 1)
                  else if tn_st t >? tn_avs t then match swap_states (tn_norm t) (tn_st t) (tn_avs t) with Some n => Some (n, tn_st t) | None => None end
                  else Some (tn_norm t, tn_avs t)) in E.
    assert (S1 : forall n avs, step1 = Some (n, avs) -> rel S C CB SB (tn_norm t) n /\ 1 <= avs).
    { unfold step1. intros n avs. destruct (tn_st t =? tn_avs t) eqn:E1; [intros X; inv X; split; [apply rel_refl; auto|lia]|].
      destruct (tn_st t >? tn_avs t) eqn:E2; [|intros X; inv X; split; [apply rel_refl; auto|lia]].
      destruct (swap_states (tn_norm t) (tn_st t) (tn_avs t)) as [m|] eqn:E3; [|discriminate]. intros X. inv X.
      assert (R1 : 1 <= tn_st t < Z.of_nat S /\ 1 <= tn_avs t < Z.of_nat S).
      { unfold swap_states in E3. destruct (dget (tn_norm t) (tn_avs t)) eqn:D1; [|discriminate].
        destruct (dget (tn_norm t) (tn_st t)) eqn:D2; [|discriminate].
        assert (I1 : In (tn_avs t) (map fst (tn_norm t))) by (apply dget_in; eauto).
        assert (I2 : In (tn_st t) (map fst (tn_norm t))) by (apply dget_in; eauto).
        destruct H as [H _]. rewrite H in I1, I2. apply seqZ_in in I1. apply seqZ_in in I2. lia. }
      destruct (rel_swap_states S C CB SB HS HSB (tn_norm t) (tn_st t) (tn_avs t) H HB (proj1 R1) (proj2 R1)) as (m & Em & Rm).
      rewrite Em in E3. inv E3. split; auto. lia. }
    destruct step1 as [[n1 avs]|] eqn:ES1; [|discriminate]. destruct (S1 _ _ eq_refl) as [R1 Havs].
    cbv zeta in E. set (sc := t_scan (tn_tape t)) in *.
    set (step2 := if sc =? tn_avc t then Some (n1, tn_avc t + 1)
                  else if sc >? tn_avc t then match swap_colors n1 sc (tn_avc t) with Some n => Some (n, sc) | None => None end
                  else Some (n1, tn_avc t)) in E.
    pose proof R1 as (H1 & HB1 & _).
    assert (S2 : forall n avc, step2 = Some (n, avc) -> rel S C CB SB (tn_norm t) n /\ 1 <= avc).
    { unfold step2. intros n avc. destruct (sc =? tn_avc t) eqn:E1; [intros X; inv X; split; [auto|lia]|].
      destruct (sc >? tn_avc t) eqn:E2; [|intros X; inv X; split; [auto|lia]].
      destruct (swap_colors n1 sc (tn_avc t)) as [m|] eqn:E3; [|discriminate]. intros X. inv X.
      assert (R2 : 1 <= sc < Z.of_nat C /\ 1 <= tn_avc t < Z.of_nat C).
      { unfold swap_colors in E3. destruct (swap_switches (n_states n1) n1 sc (tn_avc t)) as [m'|] eqn:E4; [|discriminate].
        unfold n_states in E4. rewrite (shape_len _ _ _ H1) in E4. destruct S as [|S']; [lia|]. cbn [seq map swap_switches] in E4.
        destruct (shape_row n1 _ _ 0 H1 ltac:(lia)) as (w & Ew & Kw). change (Z.of_nat 0) with 0 in E4. rewrite Ew in E4.
        unfold swap_switch in E4. destruct (dget w (tn_avc t)) eqn:D1; [|discriminate]. destruct (dget w sc) eqn:D2; [|discriminate].
        assert (I1 : In (tn_avc t) (map fst w)) by (apply dget_in; eauto). assert (I2 : In sc (map fst w)) by (apply dget_in; eauto).
        rewrite Kw in I1, I2. apply seqZ_in in I1. apply seqZ_in in I2. lia. }
      destruct (rel_swap_colors S C CB SB HS HCB n1 sc (tn_avc t) H1 HB1 (proj1 R2) (proj2 R2)) as (m & Em & Rm).
      rewrite Em in E3. inv E3. split; [|lia]. eapply rel_trans; eauto. }
    destruct step2 as [[n2 avc]|] eqn:ES2; [|discriminate]. destruct (S2 _ _ eq_refl) as [R2 Havc].
    destruct (n_colors n2) as [colors|]; [|discriminate].
    destruct ((avs >=? Z.of_nat (length n2)) && (avc >=? Z.of_nat (length colors))); [inv E; auto|].
    destruct (n_get n2 (tn_st t) sc) as [[[color shift] next]|]; [|discriminate].
    destruct (py_step (tn_tape t) shift color (tn_st t =? next)) as [tp x].
    pose proof R2 as (H2 & HB2 & _). apply IH in E; auto. eapply rel_trans; eauto.
Qed.

Lemma tree_norm_renames g s s' cols : prog_text g s -> rectangular g cols -> (length g <= 26)%nat -> (1 <= cols <= 10)%nat ->
  tree_norm s = Some s' ->
  exists p p', from_str s = Some p /\ from_str s' = Some p' /\
    exists f h, bij0 f /\ bij0 h /\ same_run f h false (machine_of p) (machine_of p') /\
      forall st co, machine_of p' (f st) (h co) =
        option_map (fun i => let '(pr, sh, tr) := i in (h pr, sh, f tr)) (machine_of p st co).
Proof.
  intros HT HR HS HC. unfold tree_norm. rewrite (parse_text _ _ HT).
  destruct (tn_loop 1000 (TN (norm_of g) 0 init_tape 1 1)) as [n'|] eqn:E; [|discriminate]. intros X. inv X.
  pose proof (norm_shape g cols HR) as H.
  assert (HS1 : (1 <= length g)%nat) by (inv HT; cbn; lia).
  assert (HB : bounded (n_get (norm_of g)) 10 26).
  { intros st co pr sh tr X. rewrite norm_get in X. eapply text_shows_ok; eauto. }
  destruct (tn_ok (length g) cols 10 26 HS1 ltac:(lia) ltac:(lia) 1000 (TN (norm_of g) 0 init_tape 1 1) n' H HB ltac:(cbn; lia) ltac:(cbn; lia) E)
    as (H' & HB' & f & h & F1 & F2 & _ & _ & F5).
  pose proof (repr_text n' _ _ H' HS1 ltac:(lia) HB') as HT'.
  destruct (parse_table _ _ HT) as (p & Ep & Gp). destruct (parse_table _ _ HT') as (p' & Ep' & Gp').
  exists p, p'. split; auto. split; auto. exists f, h. split; auto. split; auto.
  assert (M1 : forall st co, n_get (norm_of g) st co = machine_of p st co).
  { intros st co. unfold machine_of. rewrite Gp. apply norm_get. }
  assert (M2 : forall st co, n_get n' st co = machine_of p' st co).
  { intros st co. unfold machine_of. rewrite Gp'. rewrite <- norm_get. destruct (rows_norm n' _ _ H') as (-> & _). reflexivity. }
  split; [apply (same_run_ext f h false (n_get (norm_of g)) (n_get n')); auto; apply renamed_run; auto|].
  intros st co. rewrite <- M1, <- M2. apply F5.
Qed.

(** ** What [behaves_like] says of halting and marks *)
Lemma behaves_like_outcome M M' : behaves_like M M' -> forall n c k,
  steps M n init = Some c -> step M c = None -> marks_are (c_tape c) k ->
  exists c', steps M' n init = Some c' /\ step M' c' = None /\ marks_are (c_tape c') k.
Proof.
  intros (f & g & mi & [F0 _] & [G0 (g' & GI & GI')] & HR) n c k E H1 (ps & ND & HP & HL).
  pose proof (HR n) as Hn. rewrite E in Hn. destruct (steps M' n init) as [c'|] eqn:E'; [|contradiction].
  exists c'. split; auto. destruct Hn as (X1 & X2 & X3). split.
  - pose proof (HR (S n)) as Hs.
    assert (A : steps M (S n) init = step M c) by (rewrite <- Nat.add_1_r, (steps_add_some M n 1 init c E); cbn; destruct (step M c); auto).
    assert (B : steps M' (S n) init = step M' c') by (rewrite <- Nat.add_1_r, (steps_add_some M' n 1 init c' E'); cbn; destruct (step M' c'); auto).
    rewrite A, B, H1 in Hs. destruct (step M' c'); auto. contradiction.
  - exists (map (fun p => if mi then - p else p) ps). split; [|split].
    + apply FinFun.Injective_map_NoDup; auto. intros x y. destruct mi; lia.
    + intros p. rewrite in_map_iff.
      assert (P : c_tape c' p = g (c_tape c (if mi then - p else p))).
      { rewrite <- X3. f_equal. destruct mi; lia. }
      assert (Q : g (c_tape c (if mi then - p else p)) <> 0 <-> c_tape c (if mi then - p else p) <> 0).
      { split; intros N Z0; apply N; [rewrite Z0; auto|]. rewrite <- (GI (c_tape c _)), Z0, <- G0, GI. auto. }
      rewrite P, Q, <- HP. split.
      * intros (x & <- & Hx). replace (if mi then - (if mi then - x else x) else (if mi then - x else x)) with x by (destruct mi; lia). auto.
      * intros Hx. eexists. split; [|exact Hx]. destruct mi; lia.
    + rewrite map_length. auto.
Qed.

Lemma halts_step M : halts M <-> exists n c, steps M n init = Some c /\ step M c = None.
Proof.
  split.
  - intros (n & [s x] & c & E & H1 & H2 & H3). exists n, c. split; auto. cbn in *. subst. unfold step. rewrite H3. auto.
  - intros (n & c & E & H). exists n, (c_state c, c_tape c (c_pos c)), c. cbn. repeat split; auto.
    unfold step in H. destruct (M (c_state c) (c_tape c (c_pos c))) as [[[? ?] ?]|]; [discriminate|auto].
Qed.

Lemma behaves_like_halts M M' : behaves_like M M' -> (halts M <-> halts M').
Proof.
  intros (f & g & mi & HF & HG & HR). pose proof (same_run_halts f g mi M M' HF HG HR) as HS.
  assert (K : forall P : program, halts P <-> exists n, steps P n init = None).
  { intros P. rewrite halts_step. split.
    - intros (n & c & E & H). exists (n + 1)%nat. rewrite (steps_add_some P n 1 init c E). cbn. rewrite H. auto.
    - intros (n & E). induction n as [|n IH]; [discriminate|].
      destruct (steps P n init) as [c|] eqn:E2; [|auto]. exists n, c. split; auto.
      rewrite <- Nat.add_1_r, (steps_add_some P n 1 init c E2) in E. cbn in E. destruct (step P c); [discriminate|auto]. }
  rewrite !K. split; intros (n & E); exists n; apply HS; auto.
Qed.

(** ** Statements for the property file *)
Lemma swap_states_run n a b n' : a <> 0 -> b <> 0 -> swap_states n a b = Some n' ->
  same_run (sw a b) (fun c => c) false (n_get n) (n_get n').
Proof. intros Ha Hb E. apply renamed_run; [apply sw_bij0; auto|apply bij0_id|]. apply swap_states_get; auto. Qed.

Lemma swap_states_involutive n a b S C : table_shape n S C -> 0 <= a < Z.of_nat S -> 0 <= b < Z.of_nat S ->
  exists n', swap_states n a b = Some n' /\ table_shape n' S C /\ swap_states n' a b = Some n.
Proof.
  intros H Ha Hb. destruct (swap_states_shape n a b S C H Ha Hb) as (n' & E & H'). exists n'. split; auto. split; auto.
  eapply swap_states_twice; eauto.
Qed.

Lemma swap_colors_run n a b n' S C : table_shape n S C -> a <> 0 -> b <> 0 -> swap_colors n a b = Some n' ->
  same_run (fun s => s) (sw a b) false (n_get n) (n_get n').
Proof. intros H Ha Hb E. apply renamed_run; [apply bij0_id|apply sw_bij0; auto|]. eapply swap_colors_get; eauto. Qed.

Lemma swap_colors_involutive n a b S C : table_shape n S C -> 0 <= a < Z.of_nat C -> 0 <= b < Z.of_nat C ->
  exists n', swap_colors n a b = Some n' /\ table_shape n' S C /\ swap_colors n' a b = Some n.
Proof.
  intros H Ha Hb. destruct (swap_colors_shape n a b S C H Ha Hb) as (n' & E & H'). exists n'. split; auto. split; auto.
  eapply swap_colors_twice; eauto.
Qed.

Lemma directions_same_run n n' : normalize_directions n = Some n' ->
  exists pr sh tr, n_get n 0 0 = Some (pr, sh, tr) /\
  if sh then n' = n else same_run (fun s => s) (fun c => c) true (n_get n) (n_get n').
Proof.
  intros H. destruct (directions_run n n' H) as (pr & sh & tr & E & X). exists pr, sh, tr. split; auto.
  destruct sh; auto. apply renamed_run; auto using bij0_id.
Qed.

Lemma normalize_full_outcome g s cols :
  prog_text g s -> rectangular g cols -> (length g <= 26)%nat -> (1 <= cols <= 10)%nat ->
  full_table (table_machine g) (Z.of_nat (length g)) (Z.of_nat cols) ->
  exists s' p p', normalize s = Some s' /\ from_str s = Some p /\ from_str s' = Some p' /\
    behaves_like (machine_of p) (machine_of p') /\
    (halts (machine_of p) <-> halts (machine_of p')) /\
    forall n c k, steps (machine_of p) n init = Some c -> step (machine_of p) c = None -> marks_are (c_tape c) k ->
      exists c', steps (machine_of p') n init = Some c' /\ step (machine_of p') c' = None /\ marks_are (c_tape c') k.
Proof.
  intros H1 H2 H3 H4 H5. destruct (normalize_full g s cols H1 H2 H3 H4 H5) as (s' & p & p' & E1 & E2 & E3 & B).
  exists s', p, p'. split; auto. split; auto. split; auto. split; auto. split; [apply behaves_like_halts; auto|].
  apply behaves_like_outcome; auto.
Qed.

Lemma normalize_changes : exists s s' p p',
  normalize s = Some s' /\ from_str s = Some p /\ from_str s' = Some p' /\
  never_halts (machine_of p) /\ halts (machine_of p').
Proof.
  exists (text_of "0RA 1RB  1RC ...  ... 1RA"). do 3 eexists.
  split; [vm_compute; reflexivity|]. split; [vm_compute; reflexivity|]. split; [vm_compute; reflexivity|]. split.
  - intros n.
    match goal with |- context [machine_of ?p] => set (M := machine_of p) end.
    assert (K : forall n c, c_state c = 0 -> (forall x, c_tape c x = 0) -> exists d, steps M n c = Some d).
    { clear n. induction n as [|n IH]; intros c Hs Ht; [eexists; reflexivity|]. cbn [steps]. unfold step. rewrite Hs, Ht.
      change (M 0 0) with (Some (0, true, 0)). cbv iota beta. apply IH; cbn [c_state c_tape]; auto.
      intros x. unfold write. destruct (x =? c_pos c); auto. }
    apply K; reflexivity.
  - exists 1%nat, (1, 0). eexists. split; [vm_compute; reflexivity|]. repeat split; vm_compute; reflexivity.
Qed.

Lemma normalize_cuts : exists s s' p p',
  normalize s = Some s' /\ from_str s = Some p /\ from_str s' = Some p' /\
  halts_at (machine_of p) 1 (1, 0) /\ halts_at (machine_of p') 3 (2, 1).
Proof.
  exists (text_of "1RB 1RC  ... ...  1LA 1LC"). do 3 eexists.
  split; [vm_compute; reflexivity|]. split; [vm_compute; reflexivity|]. split; [vm_compute; reflexivity|]. split.
  - eexists. split; [vm_compute; reflexivity|]. repeat split; vm_compute; reflexivity.
  - eexists. split; [vm_compute; reflexivity|]. repeat split; vm_compute; reflexivity.
Qed.

Lemma tree_norm_unordered : exists s s' p',
  tree_norm s = Some s' /\ from_str s' = Some p' /\ ~ states_in_order (machine_of p').
Proof.
  exists (text_of "1RC 1RA  1LD 1RB  1LB 1LA  1RD 1RC"). do 2 eexists.
  split; [vm_compute; reflexivity|]. split; [vm_compute; reflexivity|]. intros H.
  match type of H with states_in_order (machine_of ?p) => set (M := machine_of p) in * end.
  destruct (steps M 2 init) as [c|] eqn:E; [|vm_compute in E; discriminate].
  assert (Hc : c_state c = 3) by (vm_compute in E; inv E; reflexivity).
  destruct (H 2%nat c E ltac:(lia)) as (m & c' & Hm & Em & Es). rewrite Hc in Es. clear E.
  destruct m as [|[|m]]; [| |lia]; vm_compute in Em; inv Em; cbn in Es; lia.
Qed.
