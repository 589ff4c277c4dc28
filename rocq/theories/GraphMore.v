(** Proofs about the questions of [GraphModel]. *)
From Coq Require Import Permutation.
From Verif Require Import Base TM ProgModel ParseModel NormModel ParseSpec NormSpec NormProofs NormFull GraphModel GraphSpec GraphProofs ReduceProofs.

(** ** Reading order *)
Definition cell {A} (rows : list (list A)) (s c : nat) : option A := nth_error (nth s rows []) c.
Definition nbefore (s' c' s c : nat) : Prop := (s' < s)%nat \/ (s' = s /\ (c' < c)%nat).

Lemma nth_error_firstn {A} (l : list A) y k : In y (firstn k l) <-> exists c, (c < k)%nat /\ nth_error l c = Some y.
Proof.
  split.
  - revert k. induction l as [|x l IH]; intros [|k] H; cbn in H; try tauto. destruct H as [->|H].
    + exists 0%nat. split; [lia|reflexivity].
    + destruct (IH _ H) as (c & L & E). exists (S c). split; [lia|exact E].
  - intros (c & L & E). revert k c L E. induction l as [|x l IH]; intros [|k] [|c] L E; cbn in E; try discriminate; try lia.
    + injection E as ->. left. reflexivity.
    + right. eapply IH; [|exact E]. lia.
Qed.

Lemma flat_at {A} : forall (rows : list (list A)) s c x, cell rows s c = Some x ->
  exists l1 l2, concat rows = l1 ++ x :: l2 /\
  forall y, In y l1 <-> exists s' c', nbefore s' c' s c /\ cell rows s' c' = Some y.
Proof.
  unfold cell. induction rows as [|r rows IH]; intros s c x H.
  { destruct s; cbn in H; destruct c; discriminate. }
  destruct s as [|s]; cbn [nth] in H.
  - exists (firstn c r), (skipn (S c) r ++ concat rows). cbn [concat]. split.
    { rewrite <- (firstn_skipn c r) at 1. rewrite <- app_assoc. f_equal.
      destruct (skipn c r) as [|z w] eqn:E.
      - exfalso. rewrite <- (firstn_skipn c r), E, app_nil_r in H.
        assert (length (firstn c r) <= c)%nat by apply firstn_le_length.
        rewrite (proj2 (nth_error_None _ _)) in H by lia. discriminate.
      - assert (z = x).
        { rewrite <- (firstn_skipn c r), E in H. 
          assert (L : length (firstn c r) = c).
          { apply firstn_length_le. assert (c < length (firstn c r ++ z :: w))%nat by (apply nth_error_Some; rewrite H; discriminate).
            rewrite <- E, firstn_skipn in H0. lia. }
          rewrite nth_error_app2 in H by lia. rewrite L, Nat.sub_diag in H. cbn in H. congruence. }
        subst z. cbn [app]. f_equal. f_equal.
        change (skipn (S c) r) with (skipn (1 + c) r). rewrite <- (app_nil_l (skipn (1 + c) r)).
        clear - E. revert c E. induction r as [|y r IH]; intros [|c] E; cbn in *; try discriminate.
        + injection E as _ <-. reflexivity.
        + apply IH. exact E. }
    intros y. rewrite nth_error_firstn. split.
    + intros (c' & L & E). exists 0%nat, c'. split; [right; auto|exact E].
    + intros (s' & c' & [L|[-> L]] & E); [lia|]. exists c'. auto.
  - destruct (IH s c x H) as (l1 & l2 & E & P). exists (r ++ l1), l2. split; [cbn; rewrite E, app_assoc; reflexivity|].
    intros y. rewrite in_app_iff, P. split.
    + intros [I|(s' & c' & B & E')].
      * apply In_nth_error in I. destruct I as (c' & I). exists 0%nat, c'. split; [left; lia|exact I].
      * exists (S s'), c'. split; [destruct B as [B|[-> B]]; [left; lia|right; auto]|exact E'].
    + intros ([|s'] & c' & B & E').
      * left. eapply nth_error_In. exact E'.
      * right. exists s', c'. split; [destruct B as [B|[B1 B2]]; [left; lia|right; split; lia]|exact E'].
Qed.

Lemma flat_in {A} : forall (rows : list (list A)) x, In x (concat rows) -> exists s c, cell rows s c = Some x.
Proof.
  intros rows x H. apply in_concat in H. destruct H as (r & R & X). apply In_nth_error in R, X.
  destruct R as (s & R). destruct X as (c & X). exists s, c. unfold cell. rewrite (nth_error_nth _ _ [] R). exact X.
Qed.

(** Splitting at the first occurrence. *)
Lemma first_split {A} (eq : forall x y : A, {x = y} + {x <> y}) : forall l (x : A), In x l -> exists l1 l2, l = l1 ++ x :: l2 /\ ~ In x l1.
Proof.
  induction l as [|y l IH]; intros x I; [destruct I|]. destruct (eq y x) as [->|N].
  - exists [], l. auto.
  - destruct I as [I|I]; [contradiction|]. destruct (IH x I) as (l1 & l2 & -> & J). exists (y :: l1), l2. split; [reflexivity|].
    intros [K|K]; auto.
Qed.

(** The connections of a table in reading order. *)
Definition conns (g : list (list (option instr))) : list (option Z) := concat (map (map (option_map (fun i : instr => snd i))) g).

Lemma goes_cell g s c t : goes (table_machine g) s c t <->
  0 <= s /\ 0 <= c /\ cell (map (map (option_map (fun i : instr => snd i))) g) (Z.to_nat s) (Z.to_nat c) = Some (Some t).
Proof.
  unfold goes, table_machine, table_get, cell. cbn [fst snd].
  change (@nil (option Z)) with (map (option_map (fun i : instr => snd i)) []). rewrite map_nth, nth_error_map. split.
  - intros (pr & sh & E). destruct ((0 <=? s) && (0 <=? c)) eqn:B; [|discriminate]. split; [lia|]. split; [lia|].
    destruct (nth_error (nth (Z.to_nat s) g []) (Z.to_nat c)) as [i|] eqn:N.
    + rewrite (nth_error_nth _ _ None N) in E. rewrite E. reflexivity.
    + rewrite nth_overflow in E; [discriminate|]. apply nth_error_None; auto.
  - intros (S0 & C0 & E). replace ((0 <=? s) && (0 <=? c)) with true by lia.
    destruct (nth_error (nth (Z.to_nat s) g []) (Z.to_nat c)) as [i|] eqn:N; [|discriminate].
    rewrite (nth_error_nth _ _ None N). cbn in E. injection E as E. destruct i as [[[pr sh] t']|]; [|discriminate].
    cbn in E. injection E as ->. eauto.
Qed.

Definition in_order (l : list (option Z)) (n : Z) : Prop :=
  forall t, 1 <= t < n -> exists l1 l2, l = l1 ++ Some t :: l2 /\ forall t', In (Some t') l1 -> t' < t.

(** The cell of an occurrence. *)
Lemma flat_cell {A} : forall (rows : list (list A)) l1 x l2, concat rows = l1 ++ x :: l2 ->
  exists s c, cell rows s c = Some x /\ forall s' c' y, nbefore s' c' s c -> cell rows s' c' = Some y -> In y l1.
Proof.
  unfold cell. induction rows as [|r rows IH]; intros l1 x l2 E; cbn in E; [destruct l1; discriminate|].
  destruct (Nat.lt_ge_cases (length l1) (length r)) as [L|L].
  - exists 0%nat, (length l1). cbn [nth].
    assert (R : r = l1 ++ x :: skipn (S (length l1)) r /\ True).
    { split; auto. clear IH. revert r L E. induction l1 as [|y l1 IH]; intros [|z r] L E; cbn in *; try lia.
      - injection E as -> _. reflexivity.
      - injection E as -> E. f_equal. apply IH; [lia|exact E]. }
    destruct R as [R _]. split.
    + rewrite R. rewrite nth_error_app2 by lia. rewrite Nat.sub_diag. reflexivity.
    + intros s' c' y [B|[-> B]] Y; [lia|]. cbn [nth] in Y. rewrite R, nth_error_app1 in Y by auto. eapply nth_error_In; eauto.
  - assert (R : exists l3, l1 = r ++ l3).
    { clear IH. revert r L E. induction l1 as [|y l1 IH]; intros [|z r] L E; cbn in *; try lia; try (eexists; reflexivity).
      injection E as -> E. destruct (IH r ltac:(lia) E) as (l3 & ->). exists l3. reflexivity. }
    destruct R as (l3 & ->). rewrite <- app_assoc in E. apply app_inv_head in E.
    destruct (IH _ _ _ E) as (s & c & C & B). exists (S s), c. cbn [nth]. split; [exact C|].
    intros [|s'] c' y NB Y; cbn [nth] in Y; apply in_or_app.
    + left. eapply nth_error_In; eauto.
    + right. apply (B s' c'); auto. destruct NB as [NB|[NB1 NB2]]; [left; lia|right; split; lia].
Qed.

Lemma appear_iff g n : appear_in_order (table_machine g) n <-> in_order (conns g) n.
Proof.
  unfold appear_in_order, in_order, conns. split; intros H t T.
  - destruct (H t T) as (s & c & G & B). apply goes_cell in G. destruct G as (S0 & C0 & G).
    destruct (flat_at _ _ _ _ G) as (l1 & l2 & E & P). exists l1, l2. split; [exact E|]. intros t' I.
    apply P in I. destruct I as (s' & c' & NB & CE). apply (B (Z.of_nat s') (Z.of_nat c')).
    + unfold before. destruct NB as [NB|[-> NB]]; lia.
    + apply goes_cell. rewrite !Nat2Z.id. repeat split; auto; lia.
  - destruct (H t T) as (l1 & l2 & E & P).
    assert (DEC : forall x y : option Z, {x = y} + {x <> y}) by (decide equality; apply Z.eq_dec).
    assert (I : In (Some t) (concat (map (map (option_map (fun i : instr => snd i))) g))) by (rewrite E; apply in_elt).
    destruct (flat_cell _ _ _ _ E) as (s & c & C & B). exists (Z.of_nat s), (Z.of_nat c). split.
    + apply goes_cell. rewrite !Nat2Z.id. repeat split; auto; lia.
    + intros s' c' t' BF G. apply goes_cell in G. destruct G as (S0 & C0 & G). apply P. apply (B (Z.to_nat s') (Z.to_nat c')); auto.
      unfold before in BF. unfold nbefore. lia.
Qed.

(** ** is_normal *)
From Coq Require Import Sorted.

Lemma g_str_conns g : g_str (arrows_of g) = map show_state (conns g).
Proof.
  unfold g_str, arrows_of, conns. generalize 0. induction g as [|r g IH]; intros k; cbn; auto.
  rewrite IH, map_app. reflexivity.
Qed.

Lemma find_some : forall t c, In c t -> exists l1 l2, t = l1 ++ c :: l2 /\ ~ In c l1 /\ str_find t c = Z.of_nat (length l1).
Proof.
  induction t as [|x t IH]; intros c I; [destruct I|]. cbn [str_find]. destruct (Z.eqb_spec x c) as [->|N].
  - exists [], t. auto.
  - destruct I as [I|I]; [contradiction|]. destruct (IH c I) as (l1 & l2 & -> & NI & F). exists (x :: l1), l2.
    split; [reflexivity|]. split; [intros [K|K]; auto|]. rewrite F. destruct (Z.ltb_spec (Z.of_nat (length l1)) 0); [lia|]. cbn. lia.
Qed.

Lemma zlist_eqb_eq : forall a b, zlist_eqb a b = true <-> a = b.
Proof.
  induction a as [|x a IH]; intros [|y b]; cbn; split; intros H; try discriminate; auto.
  - apply andb_prop in H. destruct H as [H1 H2]. apply Z.eqb_eq in H1. apply IH in H2. congruence.
  - injection H as -> ->. rewrite Z.eqb_refl. cbn. apply IH. reflexivity.
Qed.

Lemma zinsert_sorted x : forall l, StronglySorted Z.le l -> StronglySorted Z.le (zinsert x l).
Proof.
  assert (IN : forall l y, In y (zinsert x l) -> y = x \/ In y l).
  { induction l as [|z l IH]; cbn; intros y H; [intuition|]. destruct (x <=? z); cbn in H; [intuition|].
    destruct H as [H|H]; [auto|]. apply IH in H. intuition. }
  induction l as [|y l IH]; intros H; cbn; [repeat constructor|].
  inversion H as [|? ? H1 H2]; subst. destruct (Z.leb_spec x y).
  - constructor; auto. constructor; [auto|]. rewrite Forall_forall in *. intros z I. specialize (H2 z I). lia.
  - constructor; auto. rewrite Forall_forall in *. intros z I. apply IN in I. destruct I as [->|I]; [lia|auto].
Qed.
Lemma zsorted_sorted l : StronglySorted Z.le (zsorted l).
Proof. induction l as [|x l IH]; cbn; [constructor|]. apply zinsert_sorted. exact IH. Qed.
Lemma zsorted_id l : StronglySorted Z.le l -> zsorted l = l.
Proof.
  induction l as [|x l IH]; intros H; auto. inversion H as [|? ? H1 H2]; subst.
  change (zsorted (x :: l)) with (zinsert x (zsorted l)). rewrite (IH H1).
  destruct l as [|y l]; auto. cbn. inversion H2; subst. destruct (Z.leb_spec x y); [auto|lia].
Qed.
Lemma sorted_check l : zlist_eqb l (zsorted l) = true <-> StronglySorted Z.le l.
Proof.
  rewrite zlist_eqb_eq. split; intros H; [rewrite H; apply zsorted_sorted|symmetry; apply zsorted_id; auto].
Qed.
Lemma sorted_seq (f : Z -> Z) : forall n k, StronglySorted Z.le (map f (map Z.of_nat (seq k n))) <->
  forall i j, Z.of_nat k <= i -> i < j -> j < Z.of_nat (k + n) -> f i <= f j.
Proof.
  induction n as [|n IH]; intros k; cbn [seq map].
  - split; [intros; lia|constructor].
  - split.
    + intros H i j A B C. inversion H as [|? ? H1 H2]; subst. destruct (Z.eq_dec i (Z.of_nat k)) as [->|N].
      * rewrite Forall_forall in H2. apply H2. apply in_map. apply in_map_iff. exists (Z.to_nat j). split; [lia|].
        apply in_seq. lia.
      * apply (proj1 (IH (S k)) H1); lia.
    + intros H. constructor.
      * apply IH. intros i j A B C. apply H; lia.
      * rewrite Forall_forall. intros y I. apply in_map_iff in I. destruct I as (x & <- & I). apply in_map_iff in I.
        destruct I as (m & <- & I). apply in_seq in I. apply H; lia.
Qed.

Lemma conns_range g n t : closed (table_machine g) n -> In (Some t) (conns g) -> 0 <= t < n.
Proof.
  intros C I. apply flat_in in I. destruct I as (s & c & E). 
  assert (G : goes (table_machine g) (Z.of_nat s) (Z.of_nat c) t) by (apply goes_cell; rewrite !Nat2Z.id; repeat split; auto; lia).
  destruct G as (pr & sh & G). apply (C (Z.of_nat s) t). exists (Z.of_nat c), pr, sh. exact G.
Qed.

Lemma show_state_inj n s c : 0 <= s < n -> n <= 190 -> (forall t, c = Some t -> 0 <= t < n) -> show_state c = show_state (Some s) -> c = Some s.
Proof.
  intros S0 N C E. unfold show_state, UNDF in E.
  rewrite (Z.mod_small s 256), (Z.mod_small (s + 65) 256) in E by lia. destruct c as [t|].
  - specialize (C t eq_refl). rewrite (Z.mod_small t 256), (Z.mod_small (t + 65) 256) in E by lia. f_equal. lia.
  - lia.
Qed.

Lemma normal_order l n : n <= 190 -> (forall t, In (Some t) l -> 0 <= t < n) ->
  ((forall t, 1 <= t < n -> In (show_state (Some t)) (map show_state l)) /\
   (forall i j, 1 <= i -> i < j -> j < n ->
      str_find (map show_state l) (show_state (Some i)) <= str_find (map show_state l) (show_state (Some j))))
  <-> in_order l n.
Proof.
  intros N R.
  assert (INJ : forall l0 s, incl l0 l -> 0 <= s < n -> In (show_state (Some s)) (map show_state l0) -> In (Some s) l0).
  { intros l0 s IC S0 I. apply in_map_iff in I. destruct I as (c & E & I). apply (show_state_inj n) in E; auto; [subst; auto|].
    intros t ->. apply R, IC, I. }
  assert (FIND : forall t l1 l2, 0 <= t < n -> l = l1 ++ Some t :: l2 -> ~ In (Some t) l1 ->
    str_find (map show_state l) (show_state (Some t)) = Z.of_nat (length l1)).
  { intros t l1 l2 T E NI. assert (IC : incl l1 l) by (intros x X; rewrite E; apply in_or_app; auto).
    rewrite E, map_app. cbn [map]. assert (NI' : ~ In (show_state (Some t)) (map show_state l1)) by (intros X; apply NI; apply INJ; auto).
    clear - NI'. induction l1 as [|x l1 IH]; cbn [map app str_find length].
    - rewrite Z.eqb_refl. reflexivity.
    - cbn in NI'. destruct (Z.eqb_spec (show_state x) (show_state (Some t))) as [X|X]; [exfalso; apply NI'; auto|].
      rewrite IH by auto. destruct (Z.ltb_spec (Z.of_nat (length l1)) 0); lia. }
  assert (DEC : forall x y : option Z, {x = y} + {x <> y}) by (decide equality; apply Z.eq_dec).
  split.
  - intros [A B] t T. pose proof (INJ l t (incl_refl _) ltac:(lia) (A t T)) as I.
    destruct (first_split DEC l _ I) as (l1 & l2 & E & NI). exists l1, l2. split; [exact E|]. intros t' I'.
    assert (T' : 0 <= t' < n) by (apply R; rewrite E; apply in_or_app; auto).
    destruct (Z.lt_ge_cases t' t) as [L|L]; [auto|]. exfalso.
    destruct (Z.eq_dec t' t) as [->|NE]; [contradiction|].
    destruct (first_split DEC l1 _ I') as (l3 & l4 & E' & NI').
    pose proof (B t t' ltac:(lia) ltac:(lia) ltac:(lia)) as X.
    rewrite (FIND t l1 l2) in X by (auto; lia).
    rewrite (FIND t' l3 (l4 ++ Some t :: l2)) in X; [|lia|rewrite E, E', <- app_assoc; reflexivity|auto].
    rewrite E', app_length in X. cbn in X. lia.
  - intros H. split.
    + intros t T. destruct (H t T) as (l1 & l2 & E & _). apply in_map. rewrite E. apply in_elt.
    + intros i j I J K. destruct (H i ltac:(lia)) as (l1 & l2 & E & P). destruct (H j ltac:(lia)) as (l3 & l4 & E' & P').
      rewrite (FIND i l1 l2) by (auto; try lia; intros X; apply P in X; lia).
      rewrite (FIND j l3 l4) by (auto; try lia; intros X; apply P' in X; lia).
      destruct (Nat.le_gt_cases (length l1) (length l3)) as [L|L]; [lia|]. exfalso.
      assert (X : In (Some j) l1).
      { rewrite E in E'. clear - E' L. revert l3 E' L. induction l1 as [|x l1 IH]; intros [|y l3] E' L; cbn in *; try lia.
        - injection E' as -> _. auto.
        - injection E' as -> E'. right. eapply IH; eauto. lia. }
      apply P in X. lia.
Qed.

Lemma is_normal_ok g : closed (table_machine g) (Z.of_nat (length g)) -> (length g <= 190)%nat ->
  is_normal (arrows_of g) = true <-> appear_in_order (table_machine g) (Z.of_nat (length g)).
Proof.
  intros C L. rewrite appear_iff, <- normal_order; [|lia|intros t I; eapply conns_range; eauto].
  unfold is_normal, g_states. rewrite arrows_keys, g_str_conns.
  assert (T : tl (map Z.of_nat (seq 0 (length g))) = map Z.of_nat (seq 1 (length g - 1))).
  { destruct (length g) as [|m]; auto. cbn. rewrite Nat.sub_0_r. reflexivity. }
  rewrite T. set (flat := map show_state (conns g)).
  destruct (existsb _ _) eqn:E.
  - split; [discriminate|]. intros [A _]. exfalso. apply existsb_exists in E. destruct E as (s & I & F).
    apply in_map_iff in I. destruct I as (m & <- & I). apply in_seq in I.
    apply negb_true_iff in F. specialize (A (Z.of_nat m) ltac:(lia)).
    assert (X : existsb (Z.eqb (show_state (Some (Z.of_nat m)))) flat = true) by (apply existsb_exists; exists (show_state (Some (Z.of_nat m))); split; [exact A|apply Z.eqb_refl]).
    congruence.
  - rewrite sorted_check, (sorted_seq (fun s => str_find flat (show_state (Some s)))). split.
    + intros H. split.
      * intros t T'. destruct (existsb (Z.eqb (show_state (Some t))) flat) eqn:F.
        { apply existsb_exists in F. destruct F as (x & I & Q). apply Z.eqb_eq in Q. rewrite Q. exact I. }
        exfalso. assert (X : existsb (fun s => negb (existsb (Z.eqb (show_state (Some s))) flat)) (map Z.of_nat (seq 1 (length g - 1))) = true).
        { apply existsb_exists. exists t. split; [|rewrite F; reflexivity]. apply in_map_iff. exists (Z.to_nat t). split; [lia|]. apply in_seq. lia. }
        congruence.
      * intros i j A B D. apply H; lia.
    + intros [_ H] i j A B D. apply H; lia.
Qed.

(** ** Reflexive states *)
Lemma arrows_in g s row : In (s, row) (arrows_of g) <-> dget (arrows_of g) s = Some row.
Proof.
  split; [|apply dget_pair]. apply pair_dget. rewrite arrows_keys. apply seqZ_nodup.
Qed.
Lemma is_state_in s row : existsb (is_state s) row = true <-> In (Some s) row.
Proof.
  rewrite existsb_exists. split.
  - intros ([t|] & I & E); cbn in E; [|discriminate]. apply Z.eqb_eq in E. subst. exact I.
  - intros I. exists (Some s). split; auto. cbn. apply Z.eqb_refl.
Qed.
Lemma reflexive_states_ok g s : In s (reflexive_states (arrows_of g)) <-> edge (table_machine g) s s.
Proof.
  unfold reflexive_states. rewrite in_map_iff. split.
  - intros ([s' row] & <- & I). apply filter_In in I. destruct I as [I E]. cbn [fst snd] in *. apply is_state_in in E.
    apply arrows_in in I. apply (arrows_edge _ _ _ _ I). exact E.
  - intros E. pose proof (edge_source _ _ _ E) as R. destruct (arrows_row g s R) as [row D]. exists (s, row). split; auto.
    apply filter_In. split; [apply arrows_in; auto|]. apply is_state_in, (arrows_edge _ _ _ _ D). exact E.
Qed.
Lemma is_irreflexive_ok g : is_irreflexive (arrows_of g) = true <-> forall s, ~ edge (table_machine g) s s.
Proof.
  unfold is_irreflexive. pose proof (reflexive_states_ok g) as R. destruct (reflexive_states (arrows_of g)) as [|x l]; split; auto.
  - intros _ s E. apply R in E. exact E.
  - discriminate.
  - intros H. exfalso. apply (H x), R. left. reflexivity.
Qed.

Lemma zero_reflexive_ok g : Forall (fun r => r <> []) g -> exists l, zero_reflexive_states (arrows_of g) = Some l /\
  forall s, In s l <-> goes (table_machine g) s 0 s.
Proof.
  intros F.
  assert (G : forall g k, Forall (fun r : list (option instr) => r <> []) g -> exists l,
    zero_reflexive_states (enum k (map (map (option_map (fun i : instr => snd i))) g)) = Some l /\
    forall s, In s l <-> exists n r, nth_error g n = Some r /\ s = k + Z.of_nat n /\ hd_error (map (option_map (fun i : instr => snd i)) r) = Some (Some s)).
  { clear. induction g as [|r g IH]; intros k F; cbn [map enum zero_reflexive_states].
    - exists []. split; auto. intros s. split; [intros []|]. intros ([|n] & r & E & _); discriminate.
    - inversion F as [|? ? F1 F2]; subst. destruct (IH (k + 1) F2) as (l & E & P). rewrite E. destruct r as [|i r]; [congruence|]. cbn [map].
      eexists. split; [reflexivity|]. intros s.
      assert (T : (exists n r0, nth_error ((i :: r) :: g) n = Some r0 /\ s = k + Z.of_nat n /\ hd_error (map (option_map (fun i0 : instr => snd i0)) r0) = Some (Some s))
        <-> (s = k /\ option_map (fun i0 : instr => snd i0) i = Some s) \/ In s l).
      { rewrite P. split.
        - intros ([|n] & r0 & A & B & C).
          + cbn in A. injection A as <-. cbn in C. left. split; [lia|congruence].
          + right. exists n, r0. split; [exact A|]. split; [lia|exact C].
        - intros [[A B]|(n & r0 & A & B & C)].
          + exists 0%nat, (i :: r). split; auto. split; [lia|]. cbn. rewrite B. reflexivity.
          + exists (S n), r0. split; [exact A|]. split; [lia|exact C]. }
      rewrite T. unfold is_state. destruct (option_map (fun i0 : instr => snd i0) i) as [t|].
      + destruct (Z.eqb_spec t k) as [->|N]; cbn [In].
        * split; [intros [A|A]; [left; split; congruence|auto]|intros [[A B]|A]; auto].
        * split; [auto|intros [[A B]|A]; auto; congruence].
      + split; [auto|intros [[A B]|A]; auto; congruence]. }
  destruct (G g 0 F) as (l & E & P). exists l. split; [exact E|]. intros s. rewrite P, goes_cell. unfold cell.
  change (@nil (option Z)) with (map (option_map (fun i : instr => snd i)) []). rewrite map_nth. split.
  - intros (n & r & N & -> & H). split; [lia|]. split; [lia|]. rewrite Z.add_0_l, Nat2Z.id, (nth_error_nth _ _ [] N).
    rewrite Z.add_0_l in H. change (Z.to_nat 0) with 0%nat. destruct r; [discriminate|exact H].
  - intros (A & _ & H). exists (Z.to_nat s).
    destruct (nth_error g (Z.to_nat s)) as [r|] eqn:N.
    + rewrite (nth_error_nth _ _ [] N) in H. exists r. split; auto. split; [lia|]. destruct r; [discriminate|exact H].
    + rewrite nth_overflow in H by (apply nth_error_None; auto). cbn in H. discriminate.
Qed.
Lemma is_zero_reflexive_ok g : Forall (fun r => r <> []) g -> exists b, is_zero_reflexive (arrows_of g) = Some b /\
  (b = true <-> exists s, goes (table_machine g) s 0 s).
Proof.
  intros F. destruct (zero_reflexive_ok g F) as (l & E & P). unfold is_zero_reflexive. rewrite E. cbn. eexists. split; [reflexivity|].
  destruct l as [|x l]; split.
  - discriminate.
  - intros (s & G). apply P in G. destruct G.
  - intros _. exists x. apply P. left. reflexivity.
  - reflexivity.
Qed.

(** ** Dispersed *)
Lemma exactly_len k P l : NoDup l -> (forall x : Z, In x l <-> P x) -> exactly k P <-> length l = k.
Proof.
  intros ND H. split.
  - intros (l' & ND' & L & H'). rewrite <- L. apply Nat.le_antisymm; apply NoDup_incl_length; auto; intros x; [rewrite H, H'|rewrite H', H]; auto.
  - intros L. exists l. auto.
Qed.
Lemma all_entries_nd : forall exits en en', Forall (fun e => NoDup (snd e)) en -> all_entries exits en = Some en' ->
  Forall (fun e : Z * list Z => NoDup (snd e)) en'.
Proof.
  assert (A : forall s xs en en', Forall (fun e => NoDup (snd e)) en -> add_entries s xs en = Some en' -> Forall (fun e : Z * list Z => NoDup (snd e)) en').
  { intros s. induction xs as [|x xs IH]; cbn; intros en en' F E; [congruence|]. destruct (dget en x) as [l|] eqn:D; [|discriminate].
    apply IH in E; auto. apply dset_in_nd; auto. apply sadd_nodup. apply dget_pair in D. rewrite Forall_forall in F. apply (F _ D). }
  induction exits as [|[s xs] exits IH]; cbn; intros en en' F E; [congruence|].
  destruct (add_entries s xs en) as [e|] eqn:D; [|discriminate]. eapply IH; [|exact E]. eapply A; eauto.
Qed.
Lemma all_entries_keys : forall exits en en', all_entries exits en = Some en' -> map fst en' = map fst en.
Proof.
  assert (A : forall s xs en en', add_entries s xs en = Some en' -> map fst en' = map fst en).
  { intros s. induction xs as [|x xs IH]; cbn; intros en en' E; [congruence|]. destruct (dget en x) as [l|] eqn:D; [|discriminate].
    apply IH in E. rewrite E. apply dset_get_keys. congruence. }
  induction exits as [|[s xs] exits IH]; cbn; intros en en' E; [congruence|].
  destruct (add_entries s xs en) as [e|] eqn:D; [|discriminate]. rewrite (IH _ _ E). eapply A; eauto.
Qed.

Lemma g_colors_ok g : g <> [] -> g_colors (arrows_of g) = Some (length (nth 0 g [])).
Proof.
  intros N. unfold g_colors. rewrite arrows_get. destruct g as [|r g]; [congruence|].
  change (Z.to_nat 0) with 0%nat. cbn [nth_error option_map Z.leb]. change (0 <=? 0) with true. cbv iota. cbn [option_map]. f_equal. apply map_length.
Qed.
Lemma sized_ok (d : list (Z * list Z)) k n (P : Z -> Z -> Prop) : map fst d = map Z.of_nat (seq 0 n) ->
  (forall s, 0 <= s < Z.of_nat n -> exists xs, dget d s = Some xs /\ NoDup xs /\ forall t, In t xs <-> P s t) ->
  forallb (fun e : Z * list Z => (length (snd e) =? k)%nat) d = true <-> forall s, 0 <= s < Z.of_nat n -> exactly k (P s).
Proof.
  intros K H. rewrite forallb_forall. split.
  - intros A s R. destruct (H s R) as (xs & D & ND & X). apply (exactly_len k _ xs ND X). apply dget_pair in D. apply A in D. apply Nat.eqb_eq in D. exact D.
  - intros A [s xs] I. assert (R : 0 <= s < Z.of_nat n) by (apply seqZ_in; rewrite <- K; apply in_map_iff; exists (s, xs); auto).
    destruct (H s R) as (ys & D & ND & X). apply (pair_dget _ _ _) in I; [|rewrite K; apply seqZ_nodup]. rewrite D in I. inv I.
    specialize (A s R). apply (exactly_len k _ xs ND X) in A. apply Nat.eqb_eq. exact A.
Qed.

Lemma exits_dispersed_ok g : g <> [] -> exists b, exits_dispersed (arrows_of g) = Some b /\
  (b = true <-> forall s, 0 <= s < Z.of_nat (length g) -> exactly (length (nth 0 g [])) (edge (table_machine g) s)).
Proof.
  intros N. unfold exits_dispersed, all_sized. rewrite (g_colors_ok g N). eexists. split; [reflexivity|].
  apply sized_ok; [apply exit_points_keys|]. intros s R. destruct (exit_points_edge g s R) as (xs & D & ND & X). exists xs. auto.
Qed.
Lemma entries_dispersed_ok g : g <> [] -> closed (table_machine g) (Z.of_nat (length g)) ->
  exists b, entries_dispersed (arrows_of g) = Some b /\
  (b = true <-> forall t, 0 <= t < Z.of_nat (length g) -> exactly (length (nth 0 g [])) (fun s => edge (table_machine g) s t)).
Proof.
  intros N C. unfold entries_dispersed, all_sized. destruct (entry_exit g C) as (en & E & X). rewrite E, (g_colors_ok g N).
  eexists. split; [reflexivity|]. apply sized_ok.
  - unfold entry_points in E. rewrite (all_entries_keys _ _ _ E), map_map. cbn. rewrite map_id. apply arrows_keys.
  - intros t T. destruct (X t t T T) as (_ & ys & _ & D & _ & _). exists ys. split; [exact D|]. split.
    + assert (F : Forall (fun e : Z * list Z => NoDup (snd e)) en).
      { eapply all_entries_nd; [|exact E]. rewrite Forall_forall. intros e I. apply in_map_iff in I. destruct I as (x & <- & _). constructor. }
      rewrite Forall_forall in F. apply dget_pair in D. exact (F _ D).
    + intros s. split.
      * intros I.
        assert (R : 0 <= s < Z.of_nat (length g)).
        { destruct (all_entries_ok (exit_points (arrows_of g)) (map (fun s => (s, [])) (g_states (arrows_of g)))) as (en' & E' & K & G).
          { intros s0 xs x H I0. rewrite map_map. cbn. rewrite map_id. unfold g_states. rewrite arrows_keys. apply seqZ_in.
            assert (D0 : dget (exit_points (arrows_of g)) s0 = Some xs) by (apply pair_dget; auto; rewrite exit_points_keys; apply seqZ_nodup).
            assert (Hs : 0 <= s0 < Z.of_nat (length g)) by (apply seqZ_in; rewrite <- exit_points_keys; apply dget_in; eauto).
            destruct (exit_points_edge g s0 Hs) as (xs' & D' & _ & X0). rewrite D0 in D'. inv D'. apply X0 in I0. apply C in I0. tauto. }
          unfold entry_points in E. rewrite E in E'. inv E'.
          assert (I0 : dget (map (fun s0 => (s0, @nil Z)) (g_states (arrows_of g))) t = Some []).
          { assert (I1 : In t (map fst (map (fun s => (s, @nil Z)) (g_states (arrows_of g))))) by (rewrite map_map; cbn; rewrite map_id; unfold g_states; rewrite arrows_keys; apply seqZ_in; auto).
            apply dget_in in I1 as [v Ev]. rewrite Ev. apply dget_pair in Ev. apply in_map_iff in Ev as (y & Ey & _). congruence. }
          destruct (G t [] I0) as (ys' & Ey & Gy). rewrite D in Ey. inv Ey. apply Gy in I. destruct I as [[]|(zs & H & _)].
          apply seqZ_in. rewrite <- exit_points_keys. apply in_map_iff. exists (s, zs). auto. }
        destruct (X s t R T) as (xs & ys' & _ & D' & _ & Y). rewrite D in D'. inv D'. apply Y. exact I.
      * intros I. pose proof (edge_source _ _ _ I) as R. destruct (X s t R T) as (xs & ys' & _ & D' & _ & Y). rewrite D in D'. inv D'. apply Y. exact I.
Qed.
Lemma is_dispersed_ok g : g <> [] -> closed (table_machine g) (Z.of_nat (length g)) ->
  exists b, is_dispersed (arrows_of g) = Some b /\
  (b = true <-> forall s, 0 <= s < Z.of_nat (length g) ->
     exactly (length (nth 0 g [])) (edge (table_machine g) s) /\ exactly (length (nth 0 g [])) (fun r => edge (table_machine g) r s)).
Proof.
  intros N C. destruct (entries_dispersed_ok g N C) as (b1 & E1 & H1). destruct (exits_dispersed_ok g N) as (b2 & E2 & H2).
  unfold is_dispersed. rewrite E1. destruct b1.
  - exists b2. split; [exact E2|]. rewrite H2. split; [|intros H s R; apply H; auto].
    intros H s R. split; [apply H; auto|apply (proj1 H1 eq_refl); auto].
  - exists false. split; auto. split; [discriminate|]. intros H. apply H1. intros t T. apply H. auto.
Qed.

(** ** Reduction *)
Lemma pass_len (ord : order) p g g1 g2 : (forall i j l, Permutation (ord i j l) l) -> gok g ->
  inline_single_exit (ord p 0%nat) (cut_reflexive g) = Some g1 -> inline_single_entry (fun k => ord p (S k)) g1 = Some g2 ->
  length g2 = length g -> g2 = cut_reflexive g.
Proof.
  intros HO HG F1 F2 LL.
  assert (HG0 : gok (cut_reflexive g)).
  { destruct HG as [ND HC]. split; rewrite cut_reflexive_keys; auto. intros s xs x D I. rewrite cut_reflexive_get in D.
    destruct (dget g s) as [ys|] eqn:E; [|discriminate]. cbn in D. inv D. apply sdiscard_in in I as [_ I]. eapply HC; eauto. }
  assert (HN : forall s xs, dget (cut_reflexive g) s = Some xs -> ~ In s xs).
  { intros s xs D I. rewrite cut_reflexive_get in D. destruct (dget g s); [|discriminate]. cbn in D. inv D. apply sdiscard_in in I. tauto. }
  assert (L0 : length (cut_reflexive g) = length g) by (unfold cut_reflexive; apply map_length).
  destruct (inline_exit_ok (ord p 0%nat) _ (HO p 0%nat) HG0 HN) as (g1' & E1 & HG1 & L1 & X1).
  destruct (inline_entry_ok (fun k => ord p (S k)) g1' (fun k => HO p (S k)) HG1) as (g2' & E2 & HG2 & L2 & X2).
  rewrite F1 in E1. inv E1. rewrite F2 in E2. inv E2.
  destruct (X2 ltac:(lia)) as (-> & _). destruct (X1 ltac:(lia)) as (-> & _). reflexivity.
Qed.
Lemma cut_cut g : cut_reflexive (cut_reflexive g) = cut_reflexive g.
Proof.
  unfold cut_reflexive. rewrite map_map. apply map_ext. intros [s xs]. cbn. f_equal. unfold sdiscard.
  induction xs as [|x xs IH]; cbn; auto. destruct (Z.eqb_spec s x); cbn; auto. destruct (Z.eqb_spec s x); cbn; congruence.
Qed.

Lemma passes_len (ord : order) : (forall i j l, Permutation (ord i j l) l) -> forall p g g', gok g -> reduce_passes ord p g = Some g' ->
  (length g' <= length g)%nat /\ (p <> 0%nat -> length g' = length g -> g' = cut_reflexive g).
Proof.
  intros HO. induction p as [|p IH]; intros g g' HG E; cbn [reduce_passes] in E.
  { inv E. split; [lia|]. congruence. }
  destruct g as [|e g0] eqn:EG; [inv E; auto|]. rewrite <- EG in *. clear EG e g0.
  destruct (pass_ok ord p g HO HG) as (g1 & g2 & E1 & E2 & HG2 & _ & L). rewrite E1, E2 in E.
  destruct (IH _ _ HG2 E) as [L' Q]. split; [lia|]. intros _ LL.
  pose proof (pass_len ord p g g1 g2 HO HG E1 E2 ltac:(lia)) as ->.
  destruct p as [|p]; [cbn in E; congruence|]. rewrite (Q ltac:(discriminate) ltac:(lia)). apply cut_cut.
Qed.

Lemma passes_stable (ord : order) : (forall i j l, Permutation (ord i j l) l) -> forall p g, gstable g -> reduce_passes ord p g = Some g.
Proof.
  intros HO. induction p as [|p IH]; intros g H; cbn [reduce_passes]; auto. destruct g as [|e g0] eqn:EG; auto. rewrite <- EG in *.
  clear EG e g0. destruct (pass_ok ord p g HO (proj1 H)) as (g1 & g2 & E1 & E2 & _). rewrite E1, E2.
  rewrite (stable_pass ord p g g1 g2 HO H E1 E2). apply IH. exact H.
Qed.
Lemma passes_stable_cut (ord : order) p g : (forall i j l, Permutation (ord i j l) l) -> gok g -> gstable (cut_reflexive g) -> p <> 0%nat ->
  reduce_passes ord p g = Some (cut_reflexive g).
Proof.
  intros HO HG H NP. destruct p as [|p]; [congruence|]. cbn [reduce_passes]. destruct g as [|e g0] eqn:EG; auto. rewrite <- EG in *.
  clear EG e g0. destruct (pass_ok ord p g HO HG) as (g1 & g2 & E1 & E2 & _). rewrite E1, E2.
  rewrite <- (cut_cut g) in E1.
  rewrite (stable_pass ord p (cut_reflexive g) g1 g2 HO H E1 E2). apply passes_stable; auto.
Qed.

Lemma filter_stable g : gstable g -> filter (fun e : Z * list Z => match snd e with [] => false | _ => true end) g = g.
Proof.
  intros ((ND & _) & H & _).
  assert (A : forall e, In e g -> snd e <> []).
  { intros [s xs] I. apply (pair_dget _ _ _ ND) in I. apply H in I as [_ I]. cbn. destruct xs; [cbn in I; lia|discriminate]. }
  clear - A. induction g as [|[s xs] g IH]; cbn; auto. pose proof (A _ (or_introl eq_refl)) as B. cbn in B. destruct xs; [congruence|].
  rewrite IH; auto. intros e I. apply A. right; auto.
Qed.

(** ** What reduction does to a table *)
Lemma arrows_len g : length (exit_points (arrows_of g)) = length g.
Proof. rewrite <- (map_length fst), exit_points_keys, map_length, seq_length. reflexivity. Qed.

Lemma reduced_passes ord g : (forall i j l, Permutation (ord i j l) l) -> closed (table_machine g) (Z.of_nat (length g)) -> nth 0 g [] <> [] ->
  exists p r, p <> 0%nat /\ reduced ord (arrows_of g) = Some r /\ reduce_passes ord p (exit_points (arrows_of g)) = Some r /\ gstable r /\ sets r.
Proof.
  intros HO HC HN. destruct (reduced_ok ord g HO HC HN) as (r & E & ST).
  unfold reduced in *. destruct g as [|row g]; [cbn in HN; congruence|]. cbn in HN.
  rewrite arrows_get in *. change (0 <=? 0) with true in *. change (Z.to_nat 0) with 0%nat in *. cbv iota in *. cbn [nth_error option_map] in *.
  set (p := (length (arrows_of (row :: g)) * length (map (option_map (fun i : instr => snd i)) row))%nat) in *.
  assert (P : (length (exit_points (arrows_of (row :: g))) <= p)%nat).
  { unfold p, exit_points. rewrite !map_length. destruct row; [congruence|]. cbn [length]. nia. }
  destruct (passes_ok ord HO p _ (exit_points_gok _ HC)) as (h & EH & _ & SH). specialize (SH (or_introl P)).
  exists p, r. split; [intros X; rewrite X, arrows_len in P; inversion P|]. split; [exact E|].
  split; [|split; [exact ST|eapply sets_reduce; [apply sets_exits|exact E]]].
  unfold reduce_graph in E. rewrite EH in *. rewrite (filter_stable h SH) in E. inv E. reflexivity.
Qed.

Lemma cut_edge g s t : closed (table_machine g) (Z.of_nat (length g)) ->
  (exists xs, dget (cut_reflexive (exit_points (arrows_of g))) s = Some xs /\ In t xs) <-> edge (table_machine g) s t /\ t <> s.
Proof.
  intros C. rewrite cut_reflexive_get. split.
  - intros (xs & D & I). destruct (dget (exit_points (arrows_of g)) s) as [ys|] eqn:E; [|discriminate]. cbn in D. inv D.
    apply sdiscard_in in I. destruct I as [N I].
    assert (R : 0 <= s < Z.of_nat (length g)) by (apply seqZ_in; rewrite <- exit_points_keys; apply dget_in; eauto).
    destruct (exit_points_edge g s R) as (ys' & D' & _ & X). rewrite E in D'. inv D'. split; [apply X; auto|auto].
  - intros [I N]. pose proof (edge_source _ _ _ I) as R. destruct (exit_points_edge g s R) as (ys & D & _ & X). rewrite D. cbn.
    eexists. split; [reflexivity|]. apply sdiscard_in. split; [exact N|apply X; exact I].
Qed.
Lemma gstable_tight g : closed (table_machine g) (Z.of_nat (length g)) ->
  gstable (cut_reflexive (exit_points (arrows_of g))) <-> tight (table_machine g) (Z.of_nat (length g)).
Proof.
  intros C. set (G := cut_reflexive (exit_points (arrows_of g))).
  assert (K : map fst G = map Z.of_nat (seq 0 (length g))) by (unfold G; rewrite cut_reflexive_keys; apply exit_points_keys).
  assert (ND : NoDup (map fst G)) by (rewrite K; apply seqZ_nodup).
  assert (ST : sets G) by (apply sets_reflexive, sets_exits).
  split.
  - intros ((_ & OK) & H1 & H2). split.
    + intros s R. assert (I : In s (map fst G)) by (rewrite K; apply seqZ_in; auto). apply dget_in in I. destruct I as [xs D].
      destruct (H1 _ _ D) as [N L]. pose proof (sets_get _ _ _ ST D) as NX. destruct xs as [|t [|t' xs]]; cbn in L; try lia.
      exists t, t'. inversion NX as [|? ? A B]; subst.
      destruct (proj1 (cut_edge g s t C)) as [E1 E2]; [exists (t :: t' :: xs); split; [exact D|left; auto]|].
      destruct (proj1 (cut_edge g s t' C)) as [E3 E4]; [exists (t :: t' :: xs); split; [exact D|right; left; auto]|].
      split; [intros ->; apply A; left; auto|]. auto.
    + intros s t E N. destruct (proj2 (cut_edge g s t C)) as (xs & D & I); [auto|]. fold G in D.
      assert (T : In t (map fst G)) by (eapply OK; eauto). specialize (H2 t T).
      assert (ES : In s (entries_of G t)) by (apply entries_in; eauto).
      assert (NE : NoDup (entries_of G t)) by (apply NoDup_map_filter; auto).
      assert (X : exists s', s' <> s /\ In s' (entries_of G t)).
      { destruct (entries_of G t) as [|a [|b l]]; [contradiction|cbn in H2; lia|]. inv NE.
        destruct (Z.eq_dec a s) as [->|N']; [exists b; split; [intros ->; apply H3; left; auto|right; left; auto]|exists a; split; auto; left; auto]. }
      destruct X as (s' & N' & I'). exists s'. apply (entries_in G t s' ND) in I'. apply (cut_edge g s' t C) in I'.
      split; [auto|]. split; [intros ->; tauto|tauto].
  - intros [T1 T2].
    assert (OK : gok G).
    { split; [exact ND|]. intros s xs x D I. rewrite K. apply seqZ_in. destruct (proj1 (cut_edge g s x C)) as [E _]; [exists xs; auto|]. apply C in E. tauto. }
    split; [exact OK|]. split.
    + intros s xs D. split.
      * intros I. destruct (proj1 (cut_edge g s s C)) as [_ E]; [exists xs; auto|]. auto.
      * assert (R : 0 <= s < Z.of_nat (length g)) by (apply seqZ_in; rewrite <- K; apply dget_in; eauto).
        destruct (T1 s R) as (t & t' & A & B & B' & E & E').
        destruct (proj2 (cut_edge g s t C)) as (ys & D1 & I1); [auto|]. destruct (proj2 (cut_edge g s t' C)) as (zs & D2 & I2); [auto|].
        fold G in D1, D2. rewrite D in D1, D2. inv D1. inv D2.
        assert (L : (length [t; t'] <= length zs)%nat).
        { apply NoDup_incl_length; [constructor; [cbn; intros [X|[]]; congruence|constructor; [cbn; tauto|constructor]]|]. intros x [<-|[<-|[]]]; auto. }
        exact L.
    + intros d I L. destruct (entries_of G d) as [|s [|? ?]] eqn:Q; cbn in L; try lia.
      assert (J : In s (entries_of G d)) by (rewrite Q; left; auto).
      apply (entries_in G d s ND) in J. apply (cut_edge g s d C) in J. destruct J as [E N].
      destruct (T2 s d E ltac:(auto)) as (s' & N' & N2 & E').
      assert (J : In s' (entries_of G d)) by (apply (entries_in G d s' ND), (cut_edge g s' d C); auto).
      rewrite Q in J. destruct J as [->|[]]. congruence.
Qed.

Lemma reduced_whole ord g : (forall i j l, Permutation (ord i j l) l) -> closed (table_machine g) (Z.of_nat (length g)) -> nth 0 g [] <> [] ->
  exists r, reduced ord (arrows_of g) = Some r /\ (length r <= length g)%nat /\
  (length r = length g <-> tight (table_machine g) (Z.of_nat (length g))) /\
  (length r = length g -> forall s t, arrow r s t <-> edge (table_machine g) s t /\ s <> t).
Proof.
  intros HO HC HN. destruct (reduced_passes ord g HO HC HN) as (p & r & NP & E & EP & ST & SE). exists r. split; [exact E|].
  pose proof (exit_points_gok g HC) as OK. destruct (passes_len ord HO p _ r OK EP) as [L Q]. rewrite arrows_len in L, Q.
  split; [exact L|]. split.
  - rewrite <- (gstable_tight g HC). split.
    + intros LL. rewrite <- (Q NP LL). exact ST.
    + intros S1. rewrite (passes_stable_cut ord p _ HO OK S1 NP) in EP. inv EP. unfold cut_reflexive. rewrite map_length. apply arrows_len.
  - intros LL s t. rewrite (Q NP LL). split.
    + intros (xs & I & J). apply (pair_dget _ _ _) in I; [|rewrite cut_reflexive_keys; apply OK].
      destruct (proj1 (cut_edge g s t HC)) as [A B]; [exists xs; auto|]. auto.
    + intros [A B]. destruct (proj2 (cut_edge g s t HC)) as (xs & D & J); [auto|]. exists xs. split; [apply dget_pair; exact D|exact J].
Qed.

Lemma irreducible_three r : irreducible_graph r -> r = [] \/ (3 <= length r)%nat.
Proof.
  intros (ND & H1 & H2 & H3). destruct r as [|[s xs] r']; [auto|]. right. set (r := (s, xs) :: r') in *.
  pose proof (proj2 (H2 s xs (or_introl eq_refl))) as L. destruct xs as [|t xs]; [cbn in L; lia|].
  assert (A : arrow r s t) by (exists (t :: xs); split; left; auto).
  destruct (H1 _ _ A) as [T N]. destruct (H3 _ _ A) as (s' & N' & A'). destruct (H1 _ _ A') as [_ N2].
  assert (I : incl [s; t; s'] (map fst r)).
  { intros x [<-|[<-|[<-|[]]]]; [left; auto|auto|]. destruct A' as (ys & I & _). apply in_map_iff. exists (s', ys). auto. }
  apply NoDup_incl_length in I; [rewrite map_length in I; exact I|].
  constructor; [cbn; intros [X|[X|[]]]; congruence|]. constructor; [cbn; intros [X|[]]; congruence|]. constructor; [auto|constructor].
Qed.
Lemma two_states_simple ord g : (forall i j l, Permutation (ord i j l) l) -> closed (table_machine g) (Z.of_nat (length g)) -> nth 0 g [] <> [] ->
  (length g <= 2)%nat -> is_simple ord (arrows_of g) = Some true.
Proof.
  intros HO HC HN L. destruct (reduced_passes ord g HO HC HN) as (p & r & NP & E & EP & ST & SE).
  unfold is_simple. rewrite E. cbn. pose proof (exit_points_gok g HC) as OK. destruct (passes_len ord HO p _ r OK EP) as [LL _]. rewrite arrows_len in LL.
  destruct (irreducible_three r (gstable_irreducible r ST SE)) as [->|K]; [reflexivity|lia].
Qed.

(** ** Concrete tables *)
Definition closedb (g : list (list (option instr))) : bool :=
  forallb (forallb (fun i : option instr => match i with Some (_, _, t) => (0 <=? t) && (t <? Z.of_nat (length g)) | None => true end)) g.
Lemma closedb_ok g : closedb g = true -> closed (table_machine g) (Z.of_nat (length g)).
Proof.
  intros H s t E. pose proof (edge_source _ _ _ E) as R. split; [exact R|]. destruct (arrows_row g s R) as [row D].
  apply (arrows_edge _ _ _ _ D) in E. rewrite arrows_get in D. destruct (0 <=? s); [|discriminate].
  destruct (nth_error g (Z.to_nat s)) as [r|] eqn:N; [|discriminate]. cbn in D. inv D. apply nth_error_In in N.
  unfold closedb in H. rewrite forallb_forall in H. apply H in N. rewrite forallb_forall in N.
  apply in_map_iff in E. destruct E as (o & Eo & I). destruct o as [[[pr sh] t']|]; [|discriminate]. cbn in Eo. inv Eo. apply N in I. lia.
Qed.

(** Tables of which only the targets matter. *)
Definition plain (l : list (list Z)) : list (list (option instr)) := map (map (fun t => Some (1, true, t))) l.
Lemma plain_edge l s t : edge (table_machine (plain l)) s t <-> 0 <= s /\ In t (nth (Z.to_nat s) l []).
Proof.
  split.
  - intros E. pose proof (edge_source _ _ _ E) as R. destruct (arrows_row _ s R) as [row D]. apply (arrows_edge _ _ _ _ D) in E.
    split; [lia|]. rewrite arrows_get in D. destruct (0 <=? s); [|discriminate]. unfold plain in D. rewrite nth_error_map in D.
    destruct (nth_error l (Z.to_nat s)) as [r|] eqn:N; [|discriminate]. cbn in D. inv D. rewrite (nth_error_nth _ _ [] N).
    rewrite map_map in E. cbn in E. apply in_map_iff in E. destruct E as (x & X & I). injection X as <-. exact I.
  - intros [A I]. destruct (nth_error l (Z.to_nat s)) as [r|] eqn:N; [|rewrite nth_overflow in I by (apply nth_error_None; auto); destruct I].
    rewrite (nth_error_nth _ _ [] N) in I.
    apply (arrows_edge _ s (map Some r)).
    + rewrite arrows_get. replace (0 <=? s) with true by lia. unfold plain. rewrite nth_error_map, N. cbn. rewrite map_map. reflexivity.
    + apply in_map. exact I.
Qed.

Definition ren1 (x : Z) : Z := sw 1 2 (sw 1 4 x).
Definition ren2 (x : Z) : Z := sw 2 5 (sw 3 6 x).
Ltac swall := unfold ren1, ren2, sw in *; repeat match goal with
  | |- context [?a =? ?b] => destruct (Z.eqb_spec a b)
  | H : context [?a =? ?b] |- _ => destruct (Z.eqb_spec a b) end; subst; try lia; auto.
Lemma ren1_bij : bij0 ren1.
Proof. split; [reflexivity|]. exists (fun x => sw 1 4 (sw 1 2 x)). split; intros x; swall. Qed.
Lemma ren2_bij : bij0 ren2.
Proof. split; [reflexivity|]. exists (fun x => sw 3 6 (sw 2 5 x)). split; intros x; swall. Qed.

Definition kern1 := plain [[3;4;5]; [1;2;5]; [1;2;5]; [0;1;2]; [1;2;2]; [1;2;2]].
Definition kern1' := plain [[2;3;5]; [1;4;5]; [1;4;4]; [0;1;4]; [1;4;5]; [1;4;4]].
Definition simp := plain [[5;6]; [5;6]; [3;5]; [2;4]; [0;1]; [1;6]; [0;5]].
Definition simp' := plain [[2;3]; [2;3]; [1;3]; [0;2]; [0;1]; [2;6]; [4;5]].

Ltac rows := repeat match goal with |- context [nth (Z.to_nat ?k) ?l []] =>
    let v := eval vm_compute in (nth (Z.to_nat k) l []) in change (nth (Z.to_nat k) l []) with v end;
  cbn [In]; swall.
Lemma kern_renamed s t : edge (table_machine kern1') (ren1 s) (ren1 t) <-> edge (table_machine kern1) s t.
Proof.
  unfold kern1', kern1. rewrite !plain_edge.
  assert (C : s < 0 \/ s = 0 \/ s = 1 \/ s = 2 \/ s = 3 \/ s = 4 \/ s = 5 \/ 6 <= s) by lia.
  destruct C as [C|[->|[->|[->|[->|[->|[->|C]]]]]]].
  - assert (ren1 s < 0) by (unfold ren1, sw; swall). split; intros [A _]; lia.
  - rows.
  - rows.
  - rows.
  - rows.
  - rows.
  - rows.
  - assert (6 <= ren1 s) by (unfold ren1, sw; swall). rewrite !nth_overflow by (cbn; lia). cbn. tauto.
Qed.
Lemma simp_renamed s t : edge (table_machine simp') (ren2 s) (ren2 t) <-> edge (table_machine simp) s t.
Proof.
  unfold simp', simp. rewrite !plain_edge.
  assert (C : s < 0 \/ s = 0 \/ s = 1 \/ s = 2 \/ s = 3 \/ s = 4 \/ s = 5 \/ s = 6 \/ 7 <= s) by lia.
  destruct C as [C|[->|[->|[->|[->|[->|[->|[->|C]]]]]]]].
  - assert (ren2 s < 0) by (unfold ren2, sw; swall). split; intros [A _]; lia.
  - rows.
  - rows.
  - rows.
  - rows.
  - rows.
  - rows.
  - rows.
  - assert (7 <= ren2 s) by (unfold ren2, sw; swall). rewrite !nth_overflow by (cbn; lia). cbn. tauto.
Qed.
Lemma kernel_names : exists ord g g' f, (forall i j l, Permutation (ord i j l) l) /\ bij0 f /\
  closed (table_machine g) (Z.of_nat (length g)) /\
  (forall s t, edge (table_machine g') (f s) (f t) <-> edge (table_machine g) s t) /\
  (forall t, 1 <= t < Z.of_nat (length g) -> reaches (table_machine g) 0 t) /\
  exists r r', reduced ord (arrows_of g) = Some r /\ reduced ord (arrows_of g') = Some r' /\ length r = 4%nat /\ length r' = 3%nat.
Proof.
  exists (fun _ _ l => l), kern1, kern1', ren1. split; [intros; apply Permutation_refl|]. split; [exact ren1_bij|].
  split; [apply closedb_ok; reflexivity|]. split; [exact kern_renamed|]. split.
  - intros t T. change (Z.of_nat (length kern1)) with 6 in T.
    assert (E : forall s t, (0 <=? s) && mem t (nth (Z.to_nat s) [[3;4;5]; [1;2;5]; [1;2;5]; [0;1;2]; [1;2;2]; [1;2;2]] []) = true -> edge (table_machine kern1) s t).
    { intros a b Q. apply andb_prop in Q. destruct Q as [Q1 Q2]. apply plain_edge. apply mem_in in Q2. split; [lia|exact Q2]. }
    assert (R3 : reaches (table_machine kern1) 0 3) by (apply reaches_one; [apply E; reflexivity|lia]).
    assert (C : t = 1 \/ t = 2 \/ t = 3 \/ t = 4 \/ t = 5) by lia.
    destruct C as [->|[->|[->|[->| ->]]]]; auto; try (apply reaches_one; [apply E; reflexivity|lia]);
      (apply (reaches_more _ _ 3); [exact R3|apply E; reflexivity|lia]).
  - eexists _, _. split; [vm_compute; reflexivity|]. split; [vm_compute; reflexivity|]. split; reflexivity.
Qed.
Lemma simple_names : exists ord g g' f, (forall i j l, Permutation (ord i j l) l) /\ bij0 f /\
  closed (table_machine g) (Z.of_nat (length g)) /\
  (forall s t, edge (table_machine g') (f s) (f t) <-> edge (table_machine g) s t) /\
  is_simple ord (arrows_of g) = Some false /\ is_simple ord (arrows_of g') = Some true.
Proof.
  exists (fun _ _ l => l), simp, simp', ren2. split; [intros; apply Permutation_refl|]. split; [exact ren2_bij|].
  split; [apply closedb_ok; reflexivity|]. split; [exact simp_renamed|]. split; vm_compute; reflexivity.
Qed.
