(** Proofs for [GraphModel]. *)
From Coq Require Import Permutation.
From Verif Require Import Base TM ProgModel NormModel ParseModel ParseSpec NormSpec NormProofs NormFull GraphModel GraphSpec.

(** ** Sets *)
Lemma mem_in x s : mem x s = true <-> In x s.
Proof. unfold mem. rewrite existsb_exists. split; [intros (y & H & E); apply Z.eqb_eq in E; subst; auto|intros H; exists x; split; auto; apply Z.eqb_refl]. Qed.
Lemma mem_out x s : mem x s = false <-> ~ In x s.
Proof. rewrite <- mem_in. destruct (mem x s); split; congruence. Qed.
Lemma sadd_in x y s : In y (sadd x s) <-> y = x \/ In y s.
Proof.
  unfold sadd. destruct (mem x s) eqn:E; [apply mem_in in E; split; [auto|intros [->|H]; auto]|].
  rewrite in_app_iff. cbn. split; [intros [H|[H|[]]]; auto|intros [->|H]; auto].
Qed.
Lemma NoDup_snoc {A} (l : list A) x : NoDup l -> ~ In x l -> NoDup (l ++ [x]).
Proof. intros H N. apply NoDup_rev in H. rewrite <- (rev_involutive l). change [x] with (rev [x]). rewrite <- rev_app_distr. apply NoDup_rev. cbn. constructor; auto. rewrite <- in_rev. auto. Qed.
Lemma sadd_nodup x s : NoDup s -> NoDup (sadd x s).
Proof. intros H. unfold sadd. destruct (mem x s) eqn:E; auto. apply mem_out in E. apply NoDup_snoc; auto. Qed.
Lemma sdiscard_in x y s : In y (sdiscard x s) <-> y <> x /\ In y s.
Proof. unfold sdiscard. rewrite filter_In. destruct (Z.eqb_spec x y); split; intros [A B]; split; auto; cbn in *; congruence. Qed.
Lemma sdiscard_nodup x s : NoDup s -> NoDup (sdiscard x s).
Proof. apply NoDup_filter. Qed.
Lemma set_of_in x l : In x (set_of l) <-> In x l.
Proof.
  revert x. induction l as [|y l IH]; intros x; cbn; [tauto|]. destruct (mem y (set_of l)) eqn:E; cbn; [|rewrite IH; tauto].
  apply mem_in in E. rewrite IH in *. split; [auto|intros [->|H]; auto].
Qed.
Lemma set_of_nodup l : NoDup (set_of l).
Proof. induction l as [|y l IH]; cbn; [constructor|]. destruct (mem y (set_of l)) eqn:E; auto. constructor; auto. apply mem_out; auto. Qed.
Lemma somes_in x l : In x (somes l) <-> In (Some x) l.
Proof.
  unfold somes. rewrite in_flat_map. split.
  - intros (o & H & I). destruct o; cbn in I; [|tauto]. destruct I as [->|[]]. auto.
  - intros H. exists (Some x). cbn. auto.
Qed.

(** ** The arrows of a program *)
Lemma arrows_keys g : map fst (arrows_of g) = map Z.of_nat (seq 0 (length g)).
Proof. unfold arrows_of. rewrite enum_keys, map_length. apply seqZ_shift. Qed.

Lemma arrows_get g s : dget (arrows_of g) s = if 0 <=? s then option_map (map (option_map (fun i : instr => snd i))) (nth_error g (Z.to_nat s)) else None.
Proof. unfold arrows_of. rewrite enum_get, Z.sub_0_r, nth_error_map. reflexivity. Qed.

Lemma arrows_edge g s row t : dget (arrows_of g) s = Some row -> (In (Some t) row <-> edge (table_machine g) s t).
Proof.
  rewrite arrows_get. destruct (Z.leb_spec 0 s) as [H0|]; [|discriminate].
  destruct (nth_error g (Z.to_nat s)) as [r|] eqn:E; [|discriminate]. cbn. intros X. inv X.
  rewrite in_map_iff. unfold edge, table_machine, table_get. cbn [fst snd]. split.
  - intros (o & Eo & Ho). destruct o as [[[pr sh] t']|]; [|discriminate]. cbn in Eo. inv Eo.
    destruct (In_nth _ _ None Ho) as (k & Hk & Ek). exists (Z.of_nat k), pr, sh.
    replace ((0 <=? s) && (0 <=? Z.of_nat k)) with true by lia. rewrite Nat2Z.id, (nth_error_nth _ _ [] E). auto.
  - intros (c & pr & sh & H). destruct ((0 <=? s) && (0 <=? c)) eqn:E2; [|discriminate].
    rewrite (nth_error_nth _ _ [] E) in H. exists (Some (pr, sh, t)). split; auto. rewrite <- H. apply nth_In.
    destruct (Nat.lt_ge_cases (Z.to_nat c) (length r)) as [|HG]; auto. rewrite nth_overflow in H by auto. discriminate.
Qed.

Lemma edge_source g s t : edge (table_machine g) s t -> 0 <= s < Z.of_nat (length g).
Proof.
  intros (c & pr & sh & H). unfold table_machine, table_get in H. cbn [fst snd] in H.
  destruct ((0 <=? s) && (0 <=? c)) eqn:E; [|discriminate].
  destruct (Z.lt_ge_cases s (Z.of_nat (length g))); [lia|]. rewrite (nth_overflow g) in H by lia. destruct (Z.to_nat c); discriminate.
Qed.

Lemma arrows_row g s : 0 <= s < Z.of_nat (length g) -> exists row, dget (arrows_of g) s = Some row.
Proof. intros H. apply dget_in. rewrite arrows_keys. apply seqZ_in. auto. Qed.

Lemma exit_points_keys g : map fst (exit_points (arrows_of g)) = map Z.of_nat (seq 0 (length g)).
Proof. unfold exit_points. rewrite map_map. cbn. apply arrows_keys. Qed.

Lemma exit_points_get (a : list (Z * list (option Z))) s : dget (exit_points a) s = option_map (fun r => set_of (somes r)) (dget a s).
Proof. unfold exit_points. apply (dget_map (fun r => set_of (somes r)) a s). Qed.

Lemma exit_points_edge g s : 0 <= s < Z.of_nat (length g) ->
  exists xs, dget (exit_points (arrows_of g)) s = Some xs /\ NoDup xs /\ forall t, In t xs <-> edge (table_machine g) s t.
Proof.
  intros H. destruct (arrows_row g s H) as [row E]. rewrite exit_points_get, E. eexists. split; [reflexivity|].
  split; [apply set_of_nodup|]. intros t. rewrite set_of_in, somes_in. apply arrows_edge; auto.
Qed.

(** ** entry_points *)
Lemma add_entries_ok state : forall exits entries, (forall x, In x exits -> In x (map fst entries)) ->
  exists e, add_entries state exits entries = Some e /\ map fst e = map fst entries /\
    forall t s0, dget entries t = Some s0 -> exists s1, dget e t = Some s1 /\
      forall s, In s s1 <-> In s s0 \/ (s = state /\ In t exits).
Proof.
  induction exits as [|x exits IH]; intros entries HA; cbn [add_entries].
  - exists entries. split; auto. split; auto. intros t s0 E. exists s0. split; auto. intros s. cbn. tauto.
  - destruct (proj1 (dget_in entries x) (HA x (or_introl eq_refl))) as [s0 E0]. rewrite E0.
    assert (K : map fst (dset entries x (sadd state s0)) = map fst entries) by (apply dset_keys; apply HA; left; auto).
    destruct (IH (dset entries x (sadd state s0))) as (e & E & KE & G).
    { intros y Hy. rewrite K. apply HA. right; auto. }
    exists e. split; auto. split; [congruence|]. intros t st Et.
    destruct (Z.eqb_spec x t) as [->|N].
    + rewrite E0 in Et. inv Et. destruct (G t (sadd state st)) as (s1 & E1 & G1); [rewrite dget_dset, Z.eqb_refl; auto|].
      exists s1. split; auto. intros s. rewrite G1, sadd_in. cbn. tauto.
    + destruct (G t st) as (s1 & E1 & G1); [rewrite dget_dset; destruct (Z.eqb_spec x t); congruence|].
      exists s1. split; auto. intros s. rewrite G1. cbn. split; [tauto|]. intros [H|[-> [H|H]]]; auto. congruence.
Qed.

Lemma all_entries_ok : forall exits entries, (forall s xs x, In (s, xs) exits -> In x xs -> In x (map fst entries)) ->
  exists e, all_entries exits entries = Some e /\ map fst e = map fst entries /\
    forall t s0, dget entries t = Some s0 -> exists s1, dget e t = Some s1 /\
      forall s, In s s1 <-> In s s0 \/ exists xs, In (s, xs) exits /\ In t xs.
Proof.
  induction exits as [|[st xs] exits IH]; intros entries HA; cbn [all_entries].
  - exists entries. split; auto. split; auto. intros t s0 E. exists s0. split; auto. intros s. split; auto. intros [H|(xs & [] & _)]; auto.
  - destruct (add_entries_ok st xs entries) as (e1 & E1 & K1 & G1); [intros x Hx; eapply HA; [left; eauto|auto]|].
    rewrite E1. destruct (IH e1) as (e & E & K & G).
    { intros s ys y Hy Iy. rewrite K1. eapply HA; [right; eauto|auto]. }
    exists e. split; auto. split; [congruence|]. intros t s0 Et. destruct (G1 t s0 Et) as (s1 & Es1 & Gs1).
    destruct (G t s1 Es1) as (s2 & Es2 & Gs2). exists s2. split; auto. intros s. rewrite Gs2, Gs1. split.
    + intros [[H|[-> H]]|(ys & H & I)]; auto; right; eexists; split; eauto; [left; eauto|right; eauto].
    + intros [H|(ys & [H|H] & I)]; auto; [inv H; auto|right; eauto].
Qed.

Lemma entry_exit g : closed (table_machine g) (Z.of_nat (length g)) ->
  exists en, entry_points (arrows_of g) = Some en /\
  forall s t, 0 <= s < Z.of_nat (length g) -> 0 <= t < Z.of_nat (length g) ->
  exists xs ys, dget (exit_points (arrows_of g)) s = Some xs /\ dget en t = Some ys /\
    (In t xs <-> edge (table_machine g) s t) /\ (In s ys <-> edge (table_machine g) s t).
Proof.
  intros HC. unfold entry_points.
  assert (KE : map fst (map (fun s => (s, @nil Z)) (g_states (arrows_of g))) = map Z.of_nat (seq 0 (length g))).
  { rewrite map_map. cbn. rewrite map_id. apply arrows_keys. }
  assert (ND : NoDup (map fst (exit_points (arrows_of g)))) by (rewrite exit_points_keys; apply seqZ_nodup).
  destruct (all_entries_ok (exit_points (arrows_of g)) (map (fun s => (s, [])) (g_states (arrows_of g)))) as (en & E & K & G).
  { intros s xs x H I. rewrite KE. apply seqZ_in.
    assert (D : dget (exit_points (arrows_of g)) s = Some xs) by (apply pair_dget; auto).
    assert (Hs : 0 <= s < Z.of_nat (length g)).
    { apply seqZ_in. rewrite <- exit_points_keys. apply in_map_iff. exists (s, xs). auto. }
    destruct (exit_points_edge g s Hs) as (xs' & D' & _ & X). rewrite D in D'. inv D'. apply X in I. apply HC in I. tauto. }
  exists en. split; auto. intros s t Hs Ht. destruct (exit_points_edge g s Hs) as (xs & D & _ & X).
  assert (I0 : dget (map (fun s0 => (s0, @nil Z)) (g_states (arrows_of g))) t = Some []).
  { assert (I : In t (map fst (map (fun s => (s, @nil Z)) (g_states (arrows_of g))))) by (rewrite KE; apply seqZ_in; auto).
    apply dget_in in I as [v Ev]. rewrite Ev. apply dget_pair in Ev. apply in_map_iff in Ev as (y & Ey & _). congruence. }
  destruct (G t [] I0) as (ys & Ey & Gy). exists xs, ys. split; auto. split; auto. split; auto.
  rewrite Gy. cbn. split.
  - intros [[]|(zs & H & I)]. apply (pair_dget _ _ _ ND) in H. rewrite D in H. inv H. apply X. auto.
  - intros H. right. exists xs. split; [apply dget_pair; auto|apply X; auto].
Qed.

(** ** is_connected: the work list *)
Section Work.
Variables (M : program) (S : nat) (exits : list (Z * list Z)).
Hypothesis HS : (1 <= S)%nat.
Hypothesis HC : closed M (Z.of_nat S).
Hypothesis HE : forall s, 0 <= s < Z.of_nat S -> exists xs, dget exits s = Some xs /\ NoDup xs /\ forall t, In t xs <-> (t <> s /\ edge M s t).
Let top := Z.of_nat S - 1.

Record winv (reached todo : list Z) : Prop := {
  w_nd : NoDup todo;
  w_ndr : NoDup reached;
  w_dis : forall x, In x todo -> ~ In x reached;
  w_reach : forall x, In x reached \/ In x todo -> reaches M top x;
  w_top : forall t, edge M top t -> t <> top -> In t reached \/ In t todo;
  w_cl : forall s t, In s reached -> edge M s t -> t <> s -> In t reached \/ In t todo;
  w_zero : ~ In 0 reached }.

Lemma reaches_range s t : reaches M s t -> 0 <= t < Z.of_nat S.
Proof. intros H. destruct H as [t H _|u t _ H _]; apply HC in H; tauto. Qed.

Lemma winv_start l : NoDup l -> (forall t, In t l <-> (t <> top /\ edge M top t)) -> winv [] l.
Proof.
  intros ND HL. constructor.
  - auto.
  - constructor.
  - intros x _ [].
  - intros x [[]|H]. apply HL in H as [A B]. constructor; auto.
  - intros t A B. right. apply HL. auto.
  - intros s t [].
  - intros [].
Qed.

Lemma winv_full reached : winv reached [] -> ~ reaches M top 0.
Proof.
  intros [H1 H2 H3 H4 H5 H6 H7] HR.
  assert (A : forall t, reaches M top t -> In t reached).
  { induction 1 as [t A B|u t A IH B C].
    - destruct (H5 t A B) as [|[]]; auto.
    - destruct (H6 u t IH B C) as [|[]]; auto. }
  apply H7, A, HR.
Qed.

Lemma winv_len reached todo : winv reached todo -> (length reached < S)%nat.
Proof.
  intros [H1 H2 H3 H4 H5 H6 H7].
  assert (I : incl (0 :: reached) (map Z.of_nat (seq 0 S))).
  { intros x [<-|H]; apply seqZ_in; [lia|]. eapply reaches_range; eauto. }
  assert (ND : NoDup (0 :: reached)) by (constructor; auto).
  pose proof (NoDup_incl_length ND I) as L. rewrite map_length, seq_length in L. cbn in L. lia.
Qed.

Lemma winv_step reached todo s reached' todo' xs : winv reached todo -> In s todo -> s <> 0 -> dget exits s = Some xs ->
  NoDup reached' -> NoDup todo' -> (forall x, In x reached' <-> x = s \/ In x reached) ->
  (forall x, In x todo' <-> (In x todo /\ x <> s) \/ (In x xs /\ ~ In x reached')) -> winv reached' todo'.
Proof.
  intros [H1 H2 H3 H4 H5 H6 H7] Is N0 D ND ND' HR HT.
  assert (Rs : 0 <= s < Z.of_nat S) by (eapply reaches_range; eauto).
  destruct (HE s Rs) as (xs' & D' & _ & X). rewrite D in D'. inv D'.
  assert (KEEP : forall t, In t reached \/ In t todo -> In t reached' \/ In t todo').
  { intros t HT0. rewrite HR, HT. destruct (Z.eq_dec t s); [auto|]. destruct HT0; auto. }
  constructor; auto.
  - intros x Hx. apply HT in Hx as [[A B]|[A B]]; auto. rewrite HR. intros [->|C]; auto. apply (H3 x); auto.
  - intros x [H|H].
    + apply HR in H as [->|H]; apply H4; auto.
    + apply HT in H as [[A _]|[A _]]; [apply H4; auto|]. apply X in A as [A B]. apply (reaches_more M top s x); auto.
  - intros s0 t H A B. apply HR in H as [->|H]; [|apply KEEP; eapply H6; eauto].
    destruct (in_dec Z.eq_dec t reached'); auto. right. apply HT. right. split; auto. apply X. auto.
  - rewrite HR. intros [A|A]; auto.
Qed.

Lemma conn_loop_ok pick : picks pick -> forall fuel reached todo, winv reached todo -> (fuel + length reached = S)%nat ->
  exists b, conn_loop pick fuel exits reached todo = Some b /\ (b = true <-> reaches M top 0).
Proof.
  intros HP. induction fuel as [|fuel IH]; intros reached todo HI HF; cbn [conn_loop].
  - pose proof (winv_len _ _ HI). lia.
  - destruct todo as [|x todo].
    + exists false. split; auto. split; [discriminate|]. intros H. destruct (winv_full _ HI H).
    + set (td := x :: todo) in *. assert (Hs : In (pick fuel td) td) by (apply HP; discriminate).
      destruct (Z.eqb_spec (pick fuel td) 0) as [E0|N0].
      * exists true. split; auto. split; auto. intros _. rewrite <- E0. apply (w_reach _ _ HI). auto.
      * assert (Rs : 0 <= pick fuel td < Z.of_nat S) by (eapply reaches_range; apply (w_reach _ _ HI); right; eauto).
        destruct (HE _ Rs) as (xs & D & NDx & X). rewrite D.
        assert (NR : ~ In (pick fuel td) reached) by (apply (w_dis _ _ HI); auto).
        assert (ADD : forall r l t, NoDup t -> NoDup (add_todo l r t) /\ forall y, In y (add_todo l r t) <-> In y t \/ (In y l /\ ~ In y r)).
        { intros r l. unfold add_todo. induction l as [|y l IHl]; intros t NDt; cbn [filter fold_left].
          - split; auto. intros y. cbn. tauto.
          - destruct (mem y r) eqn:Em; cbn [negb].
            + destruct (IHl t NDt) as [A B]. split; auto. intros z. rewrite B. apply mem_in in Em. cbn. split; [tauto|]. intros [H|[[->|H] N]]; tauto.
            + cbn [fold_left]. destruct (IHl (sadd y t) (sadd_nodup y t NDt)) as [A B]. split; auto.
              intros z. rewrite B, sadd_in. apply mem_out in Em. cbn. split; [intros [[->|H]|[H N]]; tauto|intros [H|[[->|H] N]]; tauto]. }
        destruct (ADD (sadd (pick fuel td) reached) xs (sdiscard (pick fuel td) td) (sdiscard_nodup _ _ (w_nd _ _ HI))) as [A B].
        apply IH.
        -- apply (winv_step reached td (pick fuel td) _ _ xs); auto; [apply sadd_nodup; apply (w_ndr _ _ HI)|intros; apply sadd_in|].
           intros y. rewrite B, sdiscard_in. tauto.
        -- unfold sadd. apply mem_out in NR. rewrite NR, app_length. cbn. lia.
Qed.

Lemma rs_push_ok r : forall xs t, NoDup t -> NoDup (rs_push r xs t) /\ forall y, In y (rs_push r xs t) <-> In y t \/ (In y xs /\ ~ In y r).
Proof.
  unfold rs_push. induction xs as [|x xs IHl]; intros t ND; cbn [fold_left].
  - split; auto. intros y. cbn. tauto.
  - destruct (mem x r) eqn:E1; cbn [negb andb].
    + destruct (IHl t ND) as [A B]. split; auto. intros y. rewrite B. apply mem_in in E1. cbn. split; [tauto|]. intros [H|[[->|H] N]]; tauto.
    + apply mem_out in E1. destruct (mem x t) eqn:E2; cbn [negb].
      * apply mem_in in E2. destruct (IHl t ND) as [A B]. split; auto. intros y. rewrite B. cbn. split; [tauto|]. intros [H|[[->|H] N]]; tauto.
      * apply mem_out in E2. destruct (IHl (x :: t)) as [A B]; [constructor; auto|]. split; auto.
        intros y. rewrite B. cbn. split; [intros [[->|H]|[H N]]; tauto|intros [H|[[->|H] N]]; tauto].
Qed.

Lemma rs_conn_loop_ok : forall fuel reached todo, winv reached todo -> (fuel + length reached = S)%nat ->
  exists b, rs_conn_loop fuel exits reached todo = Some b /\ (b = true <-> reaches M top 0).
Proof.
  induction fuel as [|fuel IH]; intros reached todo HI HF; cbn [rs_conn_loop].
  - pose proof (winv_len _ _ HI). lia.
  - destruct todo as [|x todo].
    + exists false. split; auto. split; [discriminate|]. intros H. destruct (winv_full _ HI H).
    + destruct (Z.eqb_spec x 0) as [E0|N0].
      * exists true. split; auto. split; auto. intros _. rewrite <- E0. apply (w_reach _ _ HI). right. left. auto.
      * assert (Rs : 0 <= x < Z.of_nat S) by (eapply reaches_range; apply (w_reach _ _ HI); right; left; eauto).
        assert (NR : ~ In x reached) by (apply (w_dis _ _ HI); left; auto).
        rewrite (proj2 (mem_out x reached) NR).
        destruct (HE _ Rs) as (xs & D & NDx & X). rewrite D.
        pose proof (w_nd _ _ HI) as ND. inv ND.
        destruct (rs_push_ok (x :: reached) xs todo H2) as [A B].
        apply IH; [|cbn; lia].
        apply (winv_step reached (x :: todo) x _ _ xs); auto; [left; auto|constructor; auto; apply (w_ndr _ _ HI)|cbn; intuition congruence|].
        intros y. rewrite B. cbn. split; [intros [H|H]; auto; left; split; auto; intros ->; auto|intros [[[->|H] N]|H]; auto; congruence].
Qed.
End Work.

Lemma other_exits_get (a : list (Z * list (option Z))) s :
  dget (other_exits a) s = option_map (fun r => set_of (filter (fun x => negb (x =? s)) (somes r))) (dget a s).
Proof.
  unfold other_exits. induction a as [|[k r] a IH]; cbn; auto. destruct (Z.eqb_spec k s) as [->|]; auto.
Qed.

Lemma other_exits_edge g s : 0 <= s < Z.of_nat (length g) ->
  exists xs, dget (other_exits (arrows_of g)) s = Some xs /\ NoDup xs /\ forall t, In t xs <-> (t <> s /\ edge (table_machine g) s t).
Proof.
  intros H. destruct (arrows_row g s H) as [row E]. rewrite other_exits_get, E. eexists. split; [reflexivity|].
  split; [apply set_of_nodup|]. intros t. rewrite set_of_in, filter_In, somes_in, (arrows_edge g s row t E).
  destruct (Z.eqb_spec t s); cbn; intuition congruence.
Qed.

Lemma last_seqZ k : (1 <= k)%nat -> last (map Z.of_nat (seq 0 k)) 0 = Z.of_nat k - 1.
Proof. intros H. destruct k as [|k]; [lia|]. rewrite seq_S, map_app. cbn. rewrite last_last. lia. Qed.

Lemma connected_py pick g : picks pick -> g <> [] -> closed (table_machine g) (Z.of_nat (length g)) ->
  exists b, is_connected pick (arrows_of g) = Some b /\ (b = true <-> connected (table_machine g) (Z.of_nat (length g))).
Proof.
  intros HP HN HC. assert (HS : (1 <= length g)%nat) by (destruct g; [congruence|cbn; lia]).
  unfold is_connected. set (ex := other_exits (arrows_of g)).
  assert (KX : map fst ex = map Z.of_nat (seq 0 (length g))) by (unfold ex, other_exits; rewrite map_map; cbn; apply arrows_keys).
  destruct (existsb _ ex) eqn:EX.
  - exists false. split; auto. split; [discriminate|]. intros [H _]. apply existsb_exists in EX as ([s xs] & Hx & Ex). cbn in Ex.
    assert (Hs : 0 <= s < Z.of_nat (length g)) by (apply seqZ_in; rewrite <- KX; apply in_map_iff; exists (s, xs); auto).
    destruct (other_exits_edge g s Hs) as (xs' & D & _ & X). fold ex in D.
    apply pair_dget in Hx; [|rewrite KX; apply seqZ_nodup]. rewrite D in Hx. inv Hx. destruct xs; [|discriminate].
    destruct (H s Hs) as (t & A & B). assert (K : In t []) by (apply X; auto). destruct K.
  - unfold g_states. rewrite arrows_keys, last_seqZ by auto.
    assert (HT : 0 <= Z.of_nat (length g) - 1 < Z.of_nat (length g)) by lia.
    destruct (other_exits_edge g _ HT) as (todo & D & ND & X). fold ex in D. rewrite D, map_length, seq_length.
    destruct (conn_loop_ok (table_machine g) (length g) ex HS HC (other_exits_edge g) pick HP (length g) [] todo) as (b & E & HB).
    { apply winv_start; auto. } { cbn. lia. }
    exists b. split; auto. rewrite HB. unfold connected. split; [|tauto]. intros HR. split; auto. intros s Hs.
    destruct (other_exits_edge g s Hs) as (xs & Ds & _ & Xs). destruct xs as [|t xs].
    + exfalso. assert (C : existsb (fun e : Z * list Z => match snd e with [] => true | _ => false end) ex = true).
      { apply existsb_exists. exists (s, []). split; auto. apply dget_pair. auto. }
      congruence.
    + exists t. apply Xs. left. auto.
Qed.

(** ** Rust *)
Lemma sinsert_in x y l : In y (sinsert x l) <-> y = x \/ In y l.
Proof.
  induction l as [|z l IH]; cbn; [intuition|]. destruct (Z.eqb_spec x z) as [->|]; [cbn; intuition|].
  destruct (x <? z); cbn; [intuition|]. rewrite IH. intuition.
Qed.
Inductive sorted : list Z -> Prop :=
  | sorted_nil : sorted []
  | sorted_cons x l : (forall y, In y l -> x < y) -> sorted l -> sorted (x :: l).
Lemma sinsert_sorted x l : sorted l -> sorted (sinsert x l).
Proof.
  induction 1 as [|z l HZ HS IH]; cbn; [constructor; [cbn; tauto|constructor]|].
  destruct (Z.eqb_spec x z) as [->|]; [constructor; auto|].
  destruct (Z.ltb_spec x z).
  - constructor; [|constructor; auto]. intros y [<-|Hy]; auto. apply HZ in Hy. lia.
  - constructor; auto. intros y Hy. apply sinsert_in in Hy as [->|Hy]; [lia|auto].
Qed.
Lemma sorted_nodup l : sorted l -> NoDup l.
Proof. induction 1 as [|x l H _ IH]; constructor; auto. intros I. apply H in I. lia. Qed.

Definition rs_ex_inv (es : comp_prog) (d : list (Z * list Z)) : Prop :=
  NoDup (map fst d) /\
  forall s, match dget d s with
            | Some xs => xs <> [] /\ sorted xs /\ forall t, In t xs <-> t <> s /\ exists c pr sh, In ((s, c), (pr, sh, t)) es
            | None => forall t c pr sh, In ((s, c), (pr, sh, t)) es -> t = s
            end.

Lemma dset_nodup {V} (d : list (Z * V)) k v : NoDup (map fst d) -> NoDup (map fst (dset d k v)).
Proof.
  intros H. destruct (in_dec Z.eq_dec k (map fst d)) as [I|I]; [rewrite dset_keys; auto|].
  assert (E : map fst (dset d k v) = map fst d ++ [k]).
  { clear H. induction d as [|[k1 v1] d IH]; cbn in *; auto. destruct (Z.eqb_spec k1 k); [tauto|]. cbn. rewrite IH; tauto. }
  rewrite E. apply NoDup_snoc; auto.
Qed.

Lemma snoc_app {A} (a : list A) x b : a ++ x :: b = (a ++ [x]) ++ b.
Proof. rewrite <- app_assoc. reflexivity. Qed.

Lemma rs_exitpoints_ok p : rs_ex_inv p (rs_exitpoints p).
Proof.
  unfold rs_exitpoints.
  assert (G : forall es done d, rs_ex_inv done d -> rs_ex_inv (done ++ es)
    (fold_left (fun d (e : slot * instr) => let src := fst (fst e) in let dst := snd (snd e) in
      if src =? dst then d else dset d src (sinsert dst (match dget d src with Some l => l | None => [] end))) es d)).
  { induction es as [|[[src c] [[pr sh] dst]] es IH]; intros done d HI; cbn [fold_left]; [rewrite app_nil_r; auto|].
    rewrite snoc_app. apply IH. cbn [fst snd]. clear IH es. destruct HI as [ND HI]. destruct (Z.eqb_spec src dst) as [->|N].
    - split; auto. intros s. specialize (HI s). destruct (dget d s) as [xs|].
      + destruct HI as (A & B & C). split; auto. split; auto. intros t. rewrite C. split; intros (D & c' & pr' & sh' & E); split; auto; exists c', pr', sh'.
        * apply in_app_iff. auto.
        * apply in_app_iff in E as [E|[E|[]]]; auto. inv E. congruence.
      + intros t c' pr' sh' H. apply in_app_iff in H as [H|[H|[]]]; [eauto|inv H; auto].
    - split; [apply dset_nodup; auto|]. intros s. rewrite dget_dset. destruct (Z.eqb_spec src s) as [->|N2].
      + specialize (HI s). destruct (dget d s) as [xs|].
        * destruct HI as (A & B & C). split; [intros Z0; pose proof (proj2 (sinsert_in dst dst xs) (or_introl eq_refl)) as I; rewrite Z0 in I; contradiction|].
          split; [apply sinsert_sorted; auto|]. intros t. rewrite sinsert_in, C. split.
          -- intros [->|(D & c' & pr' & sh' & E)]; [split; auto; exists c, pr, sh; apply in_app_iff; right; left; auto|].
             split; auto. exists c', pr', sh'. apply in_app_iff; auto.
          -- intros (D & c' & pr' & sh' & E). apply in_app_iff in E as [E|[E|[]]]; [right; split; eauto|]. inv E; auto.
        * split; [discriminate|]. split; [constructor; [cbn; tauto|constructor]|]. intros t. cbn. split.
          -- intros [<-|[]]. split; auto. exists c, pr, sh. apply in_app_iff; right; left; auto.
          -- intros (D & c' & pr' & sh' & E). apply in_app_iff in E as [E|[E|[]]]; [apply HI in E; congruence|]. inv E; auto.
      + specialize (HI s). destruct (dget d s) as [xs|].
        * destruct HI as (A & B & C). split; auto. split; auto. intros t. rewrite C. split; intros (D & c' & pr' & sh' & E); split; auto; exists c', pr', sh'.
          -- apply in_app_iff. auto.
          -- apply in_app_iff in E as [E|[E|[]]]; auto. inv E. congruence.
        * intros t c' pr' sh' H. apply in_app_iff in H as [H|[H|[]]]; [eauto|inv H; congruence]. }
  apply (G p [] []). split; [constructor|]. intros s. cbn. tauto.
Qed.

Lemma comp_get_in p s i : NoDup (map fst p) -> (In (s, i) p <-> comp_get p s = Some i).
Proof.
  induction p as [|[s0 i0] p IH]; cbn; intros ND; [split; [tauto|discriminate]|]. inv ND.
  assert (EQ : slot_eqb s0 s = true <-> s0 = s).
  { unfold slot_eqb. destruct s0, s. cbn. rewrite Bool.andb_true_iff, !Z.eqb_eq. split; [intros [-> ->]; auto|intros H; inv H; auto]. }
  destruct (slot_eqb s0 s) eqn:E.
  - assert (s0 = s) by (apply EQ; auto). subst. split; [intros [H|H]; [inv H; auto|]|intros H; inv H; auto].
    exfalso. apply H1. apply in_map_iff. exists (s, i). auto.
  - rewrite <- IH by auto. split; [intros [H|H]; auto|auto]. inv H. exfalso. assert (false = true) by (apply EQ; auto). discriminate.
Qed.

Lemma connected_rs p states : 1 <= states -> NoDup (map fst p) -> closed (machine_of p) states ->
  exists b, rs_is_connected p states = Some b /\ (b = true <-> connected (machine_of p) states).
Proof.
  intros HS ND HC. unfold rs_is_connected. pose proof (rs_exitpoints_ok p) as [NK HI]. set (ex := rs_exitpoints p) in *.
  assert (ED : forall s t, edge (machine_of p) s t <-> exists c pr sh, In ((s, c), (pr, sh, t)) p).
  { intros s t. unfold edge, machine_of. split; intros (c & pr & sh & H); exists c, pr, sh; apply comp_get_in; auto. }
  assert (RNG : forall s, In s (map fst ex) -> 0 <= s < states).
  { intros s H. apply dget_in in H as [xs E]. specialize (HI s). rewrite E in HI. destruct HI as (A & B & C).
    destruct xs as [|t xs]; [congruence|]. destruct (proj1 (C t) (or_introl eq_refl)) as [_ D]. apply ED in D. apply HC in D. tauto. }
  assert (ALL : (forall s, 0 <= s < states -> In s (map fst ex)) <-> (forall s, 0 <= s < states -> exists t, t <> s /\ edge (machine_of p) s t)).
  { split; intros H s Hs; specialize (H s Hs).
    - apply dget_in in H as [xs E]. specialize (HI s). rewrite E in HI. destruct HI as (A & B & C).
      destruct xs as [|t xs]; [congruence|]. exists t. destruct (proj1 (C t) (or_introl eq_refl)). split; auto. apply ED; auto.
    - destruct H as (t & A & B). apply ED in B as (c & pr & sh & B). apply dget_in. specialize (HI s).
      destruct (dget ex s); eauto. apply HI in B. congruence. }
  assert (LEN : length (map fst ex) = length ex) by apply map_length.
  destruct (Z.ltb_spec (Z.of_nat (length ex)) states) as [L|L].
  - exists false. split; auto. split; [discriminate|]. intros [H _]. rewrite <- ALL in H.
    assert (I : incl (map Z.of_nat (seq 0 (Z.to_nat states))) (map fst ex)).
    { intros x Hx. apply seqZ_in in Hx. apply H. lia. }
    pose proof (NoDup_incl_length (seqZ_nodup _) I) as X. rewrite !map_length, seq_length in X. lia.
  - assert (FULL : forall s, 0 <= s < states -> In s (map fst ex)).
    { assert (I : incl (map fst ex) (map Z.of_nat (seq 0 (Z.to_nat states)))).
      { intros x Hx. apply seqZ_in. apply RNG in Hx. lia. }
      assert (I2 : incl (map Z.of_nat (seq 0 (Z.to_nat states))) (map fst ex)).
      { apply NoDup_length_incl; auto. rewrite !map_length, seq_length. lia. }
      intros s Hs. apply I2. apply seqZ_in. lia. }
    assert (HE : forall s, 0 <= s < Z.of_nat (Z.to_nat states) -> exists xs, dget ex s = Some xs /\ NoDup xs /\ forall t, In t xs <-> t <> s /\ edge (machine_of p) s t).
    { intros s Hs. assert (I : In s (map fst ex)) by (apply FULL; lia). apply dget_in in I as [xs E]. exists xs. split; auto.
      specialize (HI s). rewrite E in HI. destruct HI as (A & B & C). split; [apply sorted_nodup; auto|]. intros t. rewrite C, ED. tauto. }
    assert (HT : 0 <= states - 1 < Z.of_nat (Z.to_nat states)) by lia.
    destruct (HE _ HT) as (l & D & NDl & X). rewrite D.
    assert (HC' : closed (machine_of p) (Z.of_nat (Z.to_nat states))) by (rewrite Z2Nat.id by lia; auto).
    destruct (rs_conn_loop_ok (machine_of p) (Z.to_nat states) ex ltac:(lia) HC' HE (Z.to_nat states) [] (rev l)) as (b & E & HB).
    { apply winv_start; [apply NoDup_rev; auto|]. intros t. rewrite <- in_rev, X, Z2Nat.id by lia. tauto. } { cbn. lia. }
    exists b. split; auto. rewrite HB, Z2Nat.id by lia. unfold connected. rewrite <- ALL. tauto.
Qed.
