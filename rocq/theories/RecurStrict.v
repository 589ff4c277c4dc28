(** Lemmas about StrictLinRecMachine: the history is right, so what it finds is right. *)
From Verif Require Import Base TM TMFacts ProgModel TapeModel TapeSpec TapeProofs QuickModel QuickProofs TermRecModel TermRecSpec
  TermRecProofs BlocksProofs TermRecComplete RecurModel RecurSpec RecurProofs.

(** ** Lists *)
Lemma nth_fill l m x j : (length l <= m)%nat ->
  nth_error (fill l (Z.of_nat m) x) j = if (j <? length l)%nat then nth_error l j else if (j <=? m)%nat then Some x else None.
Proof.
  intros L. unfold fill, zlen. replace (Z.to_nat (Z.of_nat m - Z.of_nat (length l))) with (m - length l)%nat by lia.
  destruct (Nat.ltb_spec j (length l)) as [A|A]; [apply nth_error_app1; auto|].
  rewrite nth_error_app2 by auto.
  assert (R : forall n k, nth_error (repeat x n ++ [x]) k = if (k <=? n)%nat then Some x else None).
  { induction n as [|n IH]; intros [|k]; cbn [repeat app nth_error]; auto; [destruct k; auto|]. rewrite IH. reflexivity. }
  rewrite R. destruct (Nat.leb_spec (j - length l) (m - length l)), (Nat.leb_spec j m); auto; lia.
Qed.

Lemma len_fill l m x : (length l <= m)%nat -> length (fill l (Z.of_nat m) x) = S m.
Proof. intros L. unfold fill, zlen. rewrite !app_length, repeat_length. cbn. lia. Qed.

Lemma in_skip {A} (l : list A) k i a : nth_error l i = Some a -> (k <= i)%nat -> In a (skipn k l).
Proof.
  revert l i. induction k as [|k IH]; intros l i E L; cbn; [apply nth_error_In in E; auto|].
  destruct l as [|x l], i as [|i]; try discriminate; [lia|]. cbn in E. apply (IH l i E). lia.
Qed.

Lemma skip_in {A} (l : list A) k a : In a (skipn k l) -> exists i, (k <= i)%nat /\ nth_error l i = Some a.
Proof.
  revert l. induction k as [|k IH]; intros l H; cbn in H; [apply In_nth_error in H; destruct H as (i & E); exists i; split; [lia|auto]|].
  destruct l as [|x l]; [destruct H|]. destruct (IH l H) as (i & L & E). exists (S i). split; [lia|auto].
Qed.

Lemma first_in {A} (l : list A) k a : In a (firstn k l) -> exists i, (i < k)%nat /\ nth_error l i = Some a.
Proof.
  revert l. induction k as [|k IH]; intros l H; cbn in H; [destruct H|].
  destruct l as [|x l]; [destruct H|]. destruct H as [<-|H]; [exists 0%nat; split; [lia|auto]|].
  destruct (IH l H) as (i & L & E). exists (S i). split; [lia|auto].
Qed.

Lemma in_first {A} (l : list A) k i a : nth_error l i = Some a -> (i < k)%nat -> In a (firstn k l).
Proof.
  revert l i. induction k as [|k IH]; intros l i E L; [lia|].
  destruct l as [|x l], i as [|i]; try discriminate; cbn in *; [injection E as <-; auto|]. right. apply (IH l i E). lia.
Qed.

Lemma list_min_le l m x : list_min l = Some m -> In x l -> m <= x.
Proof.
  destruct l as [|a l]; [discriminate|]. cbn. intros E. injection E as <-.
  assert (G : forall l a x, a = x \/ In x l -> fold_left Z.min l a <= x).
  { clear. induction l as [|b l IH]; cbn; intros a x [->|H]; [lia|destruct H| |].
    - etransitivity; [apply IH; left; reflexivity|]. lia.
    - destruct H as [->|H]; [etransitivity; [apply IH; left; reflexivity|]; lia|apply IH; auto]. }
  intros H. apply G. auto.
Qed.

Lemma list_max_ge l m x : list_max l = Some m -> In x l -> x <= m.
Proof.
  destruct l as [|a l]; [discriminate|]. cbn. intros E. injection E as <-.
  assert (G : forall l a x, a = x \/ In x l -> x <= fold_left Z.max l a).
  { clear. induction l as [|b l IH]; cbn; intros a x [->|H]; [lia|destruct H| |].
    - etransitivity; [|apply IH; left; reflexivity]. lia.
    - destruct H as [->|H]; [etransitivity; [|apply IH; left; reflexivity]; lia|apply IH; auto]. }
  intros H. apply G. auto.
Qed.

Lemma list_min_in l m : list_min l = Some m -> In m l.
Proof.
  destruct l as [|a l]; [discriminate|]. cbn. intros E. injection E as <-.
  assert (G : forall l a, fold_left Z.min l a = a \/ In (fold_left Z.min l a) l).
  { clear. induction l as [|b l IH]; cbn; intros a; auto. destruct (IH (Z.min a b)) as [X|X]; [|auto].
    rewrite X. destruct (Z.min_spec a b) as [(_ & ->)|(_ & ->)]; auto. }
  destruct (G l a) as [X|X]; [left; congruence|auto].
Qed.

Lemma list_max_in l m : list_max l = Some m -> In m l.
Proof.
  destruct l as [|a l]; [discriminate|]. cbn. intros E. injection E as <-.
  assert (G : forall l a, fold_left Z.max l a = a \/ In (fold_left Z.max l a) l).
  { clear. induction l as [|b l IH]; cbn; intros a; auto. destruct (IH (Z.max a b)) as [X|X]; [|auto].
    rewrite X. destruct (Z.max_spec a b) as [(_ & ->)|(_ & ->)]; auto. }
  destruct (G l a) as [X|X]; [left; congruence|auto].
Qed.

Lemma index_in x a b : In x a -> index_of x (a ++ b) < zlen a.
Proof.
  unfold zlen. induction a as [|y a IH]; cbn [app index_of length In]; [tauto|]. intros [->|H]; [rewrite Z.eqb_refl; lia|].
  specialize (IH H). destruct (x =? y); lia.
Qed.

Lemma index_out x a b : ~ In x a -> index_of x (a ++ b) = zlen a + index_of x b.
Proof.
  unfold zlen. induction a as [|y a IH]; cbn [app index_of length In]; [lia|]. intros H.
  destruct (Z.eqb_spec x y) as [->|N]; [exfalso; apply H; auto|]. rewrite IH by tauto. lia.
Qed.

Lemma index_ge x a : 0 <= index_of x a.
Proof. induction a as [|y a IH]; cbn [index_of]; [lia|]. destruct (x =? y); lia. Qed.

Lemma beep_last hp rest st : In st hp -> (beep (hp ++ rest) st <= beep hp st <-> ~ In st rest).
Proof.
  intros I. unfold beep. rewrite rev_app_distr. unfold zlen. rewrite app_length. split.
  - intros H X. pose proof (index_in st (rev rest) (rev hp) (proj1 (in_rev _ _) X)) as A.
    unfold zlen in A. rewrite rev_length in A. pose proof (index_ge st (rev hp)). lia.
  - intros X. rewrite index_out by (intros Y; apply X, in_rev, Y). unfold zlen. rewrite rev_length. lia.
Qed.

(** ** One pass *)
Definition between (a b x : Z) : Prop := a <= x <= b \/ b <= x <= a.

Lemma hp_move comp state tp t c color shift next tp' st :
  at_time (machine_of comp) state tp t c -> comp_get comp (state, t_scan (h_tape tp)) = Some (color, shift, next) ->
  hp_step tp shift color (state =? next) = (tp', st) ->
  1 <= st /\ exists d, at_time (machine_of comp) next tp' (t + Z.to_nat st) d /\ steps (machine_of comp) (Z.to_nat st) c = Some d
    /\ (forall j e, (j <= Z.to_nat st)%nat -> steps (machine_of comp) j c = Some e -> between (c_pos c) (c_pos d) (c_pos e))
    /\ (forall j e, (0 < j <= Z.to_nat st)%nat -> steps (machine_of comp) j c = Some e -> c_state e = next).
Proof.
  intros [A1 A2 A3 A4 A5] EG E. unfold hp_step in E. rewrite py_rs_step in E by auto using canon_wf.
  destruct (rs_step (h_tape tp) shift color (state =? next)) as [tp1 st1] eqn:ES. injection E as <- <-.
  destruct (rs_step_refines (machine_of comp) (h_tape tp) c shift color next (state =? next) tp1 st1)
    as (N & W & N1 & d & B1 & B2 & B3 & B4); auto using canon_wf.
  { rewrite A5. exact EG. }
  { intros X. zb. congruence. }
  split; [auto|]. exists d. split; [|split; [auto|split]].
  - constructor; cbn [h_tape h_head]; auto.
    + rewrite (steps_add_some _ _ _ _ _ A1). auto.
    + eapply rs_step_canon; eauto.
    + rewrite B4, A4. auto.
  - intros j e J Ee. destruct (Nat.eq_dec j (Z.to_nat st1)) as [Q|Q].
    { rewrite Q, B1 in Ee. injection Ee as <-. unfold between. lia. }
    destruct (straight_stays _ (between (c_pos c) (c_pos d)) _ _ _ B1 ltac:(destruct shift; lia) ltac:(unfold between; lia) j ltac:(lia)) as (e' & Ee' & X).
    rewrite Ee in Ee'. injection Ee' as <-. auto.
  - intros j e J Ee. destruct (Z.eqb_spec state next) as [Q|Q].
    2:{ rewrite N1 in J by reflexivity. replace j with 1%nat in Ee by (change (Z.to_nat 1) with 1%nat in J; lia).
        rewrite N1 in B1 by reflexivity. change (Z.to_nat 1) with 1%nat in B1. rewrite B1 in Ee. injection Ee as <-. auto. }
    subst next. destruct (rs_step_maximal _ _ _ _ _ _ A3 A2 ES) as (X & _).
    assert (SC : c_tape c (c_pos c) = t_scan (h_tape tp)) by (apply represents_iff; auto).
    destruct (run_over (machine_of comp) shift color (t_scan (h_tape tp)) (j - 1) c SC) as (e' & D1 & D2 & _).
    { rewrite A5. rewrite <- Q in EG. exact EG. }
    { intros i I. unfold half. rewrite <- (X (i + 1)) by lia. f_equal. destruct shift; lia. }
    replace (S (j - 1)) with j in D1 by lia. rewrite Ee in D1. injection D1 as <-. congruence.
Qed.

(** ** The history *)
Section hist.
Variable M : program.

Record full (h : history) (n0 n : nat) : Prop := {
  fu_np : length (hs_positions h) = S n;
  fu_ns : length (hs_states h) = S n;
  fu_le : (n0 <= n)%nat;
  fu_tape : forall s q, tape_at (hs_tapes h) s = Some q -> exists j t c, s = Z.of_nat j /\ (n0 <= j <= n)%nat
    /\ at_time M (c_state c) t j c /\ q = from_head t /\ nth_error (hs_positions h) j = Some (c_pos c)
    /\ forall i e, (j <= i <= n)%nat -> steps M i init = Some e -> exists ia ib a b, (j <= ia)%nat /\ (j <= ib)%nat
         /\ nth_error (hs_positions h) ia = Some a /\ nth_error (hs_positions h) ib = Some b /\ a <= c_pos e <= b;
  fu_pos : forall i x, nth_error (hs_positions h) i = Some x -> exists t e, (i <= t <= n)%nat /\ steps M t init = Some e /\ c_pos e = x;
  fu_last : tape_at (hs_tapes h) (Z.of_nat n) <> None;
  fu_slot : forall sl s, In (sl, s) (hs_slots h) -> exists j c, s = Z.of_nat j /\ (j <= n)%nat /\ steps M j init = Some c
    /\ sl = (c_state c, c_tape c (c_pos c)) /\ tape_at (hs_tapes h) s <> None;
  fu_states : forall j c, (n0 <= j <= n)%nat -> steps M j init = Some c -> nth_error (hs_states h) j = Some (c_state c);
  fu_early : forall j, (j < n0)%nat -> nth_error (hs_states h) j = nth_error (hs_states h) n0
}.

Definition straight (n m : nat) : Prop := (n < m)%nat /\ exists c d, steps M n init = Some c /\ steps M m init = Some d
  /\ (forall j e, (n <= j <= m)%nat -> steps M j init = Some e -> between (c_pos c) (c_pos d) (c_pos e))
  /\ (forall j e, (n < j <= m)%nat -> steps M j init = Some e -> c_state e = c_state d).

Lemma add_first state t m c : at_time M state t m c -> full (add_tape (add_state hs_new (Z.of_nat m) state) (Z.of_nat m) t) m m.
Proof.
  intros A. pose proof A as [A1 A2 A3 A4 A5]. unfold add_tape, add_state, hs_new. cbn [hs_tapes hs_positions hs_slots hs_states].
  constructor; cbn [hs_tapes hs_positions hs_slots hs_states tape_at].
  - apply len_fill. cbn. lia.
  - apply len_fill. cbn. lia.
  - lia.
  - intros s q. destruct (Z.eqb_spec (Z.of_nat m) s) as [<-|]; [|discriminate]. intros E. injection E as <-.
    exists m, t, c. subst state. do 4 (split; [auto; lia|]). split.
    + rewrite nth_fill by (cbn; lia). cbn [length]. destruct (Nat.ltb_spec m 0); [lia|]. rewrite (proj2 (Nat.leb_le _ _)) by lia. congruence.
    + intros i e I E. replace i with m in E by lia. rewrite A1 in E. injection E as <-.
      exists m, m, (c_pos c), (c_pos c). do 2 (split; [lia|]).
      rewrite nth_fill by (cbn; lia). cbn [length]. destruct (Nat.ltb_spec m 0); [lia|]. rewrite (proj2 (Nat.leb_le _ _)) by lia.
      rewrite A4. split; [auto|]. split; [auto|]. lia.
  - intros i x. rewrite nth_fill by (cbn; lia). cbn [length]. destruct (Nat.ltb_spec i 0); [lia|].
    destruct (Nat.leb_spec i m); [|discriminate]. intros E. injection E as <-. exists m, c. split; [lia|auto].
  - rewrite Z.eqb_refl. discriminate.
  - intros sl s [].
  - intros j d J E. replace j with m in * by lia. rewrite A1 in E. injection E as <-.
    rewrite nth_fill by (cbn; lia). cbn [length]. destruct (Nat.ltb_spec m 0); [lia|]. rewrite (proj2 (Nat.leb_le _ _)) by lia. congruence.
  - intros j J. rewrite !nth_fill by (cbn; lia). cbn [length]. destruct (Nat.ltb_spec j 0); [lia|]. destruct (Nat.ltb_spec m 0); [lia|].
    rewrite !(proj2 (Nat.leb_le _ _)) by lia. auto.
Qed.

Lemma tape_at_not ts s n : tape_at ts n <> None -> s <> n -> forall q, tape_at ((s, q) :: ts) n <> None.
Proof. intros H N q. cbn [tape_at]. destruct (Z.eqb_spec s n); [contradiction|auto]. Qed.

Lemma add_next h n0 n state t m c : full h n0 n -> straight n m -> at_time M state t m c ->
  full (add_tape (add_state h (Z.of_nat m) state) (Z.of_nat m) t) n0 m.
Proof.
  intros [F1 F2 F3 F4 FP F5 F6 F7 F8] (L & a & d & Sa & Sd & SB & SS) A. pose proof A as [A1 A2 A3 A4 A5].
  rewrite A1 in Sd. injection Sd as <-.
  unfold add_tape, add_state. 
  assert (NP : forall j, nth_error (fill (hs_positions h) (Z.of_nat m) (h_head t)) j = if (j <=? n)%nat then nth_error (hs_positions h) j
     else if (j <=? m)%nat then Some (c_pos c) else None).
  { intros j. rewrite nth_fill by lia. rewrite F1, A4. destruct (Nat.ltb_spec j (S n)), (Nat.leb_spec j n); auto; lia. }
  assert (NS : forall j, nth_error (fill (hs_states h) (Z.of_nat m) state) j = if (j <=? n)%nat then nth_error (hs_states h) j
     else if (j <=? m)%nat then Some (c_state c) else None).
  { intros j. rewrite nth_fill by lia. rewrite F2, A5. destruct (Nat.ltb_spec j (S n)), (Nat.leb_spec j n); auto; lia. }
  assert (NPm : nth_error (fill (hs_positions h) (Z.of_nat m) (h_head t)) m = Some (c_pos c)).
  { rewrite NP. destruct (Nat.leb_spec m n); [lia|]. rewrite Nat.leb_refl. auto. }
  constructor; cbn [hs_tapes hs_positions hs_slots hs_states].
  - apply len_fill. lia.
  - apply len_fill. lia.
  - lia.
  - intros s q. cbn [tape_at]. destruct (Z.eqb_spec (Z.of_nat m) s) as [<-|NE].
    + intros E. injection E as <-. exists m, t, c. subst state. do 4 (split; [auto; lia|]). split; [auto|].
      intros i e I E. replace i with m in E by lia. rewrite A1 in E. injection E as <-.
      exists m, m, (c_pos c), (c_pos c). rewrite NPm. split; [lia|]. split; [lia|]. split; [auto|]. split; [auto|]. lia.
    + intros E. destruct (F4 s q E) as (j & t' & c' & B1 & B2 & B3 & B4 & B5 & B6).
      exists j, t', c'. split; [auto|]. split; [lia|]. split; [auto|]. split; [auto|]. split.
      * rewrite NP. rewrite (proj2 (Nat.leb_le _ _)) by lia. auto.
      * intros i e I Ee. destruct (le_lt_dec i n) as [G|G].
        -- destruct (B6 i e ltac:(lia) Ee) as (ia & ib & x & y & C1 & C2 & C3 & C4 & C5).
           exists ia, ib, x, y. split; [auto|]. split; [auto|].
           assert (K : forall i x, nth_error (hs_positions h) i = Some x -> nth_error (fill (hs_positions h) (Z.of_nat m) (h_head t)) i = Some x).
           { intros i0 x0 X. rewrite NP. assert (i0 < length (hs_positions h))%nat by (apply nth_error_Some; congruence).
             rewrite (proj2 (Nat.leb_le _ _)) by lia. auto. }
           auto.
        -- destruct (tape_at (hs_tapes h) (Z.of_nat n)) as [qn|] eqn:EN; [|contradiction].
           destruct (F4 _ _ EN) as (jn & tn & cn & D1 & D2 & D3 & D4 & D5 & _). assert (jn = n) by lia. subst jn.
           pose proof (at_run _ _ _ _ _ D3) as D6. rewrite Sa in D6. injection D6 as <-.
           assert (X : nth_error (fill (hs_positions h) (Z.of_nat m) (h_head t)) n = Some (c_pos a)).
           { rewrite NP, Nat.leb_refl. auto. }
           destruct (SB i e ltac:(lia) Ee) as [Y|Y]; [exists n, m, (c_pos a), (c_pos c)|exists m, n, (c_pos c), (c_pos a)];
             (split; [lia|]; split; [lia|]; auto).
  - intros i x. rewrite NP. destruct (Nat.leb_spec i n).
    + intros E. destruct (FP i x E) as (u & e & U & Ee & X). exists u, e. split; [lia|auto].
    + destruct (Nat.leb_spec i m); [|discriminate]. intros E. injection E as <-. exists m, c. split; [lia|auto].
  - cbn [tape_at]. rewrite Z.eqb_refl. discriminate.
  - intros sl s I. destruct (F6 sl s I) as (j & c' & B1 & B2 & B3 & B4 & B5). exists j, c'.
    split; [auto|]. split; [lia|]. split; [auto|]. split; [auto|]. apply tape_at_not; auto. lia.
  - intros j e J Ee. rewrite NS. destruct (Nat.leb_spec j n) as [G|G]; [apply F7; auto; lia|].
    rewrite (proj2 (Nat.leb_le _ _)) by lia. f_equal. symmetry. apply (SS j e); auto. lia.
  - intros j J. rewrite !NS. rewrite !(proj2 (Nat.leb_le _ _)) by lia. auto.
Qed.

Lemma full_slot h n0 n c : full h n0 n -> steps M n init = Some c ->
  full (add_slot h (Z.of_nat n) (c_state c, c_tape c (c_pos c))) n0 n.
Proof.
  intros [F1 F2 F3 F4 FP F5 F6 F7 F8] E. unfold add_slot. constructor; cbn [hs_tapes hs_positions hs_slots hs_states]; auto.
  intros sl s I. apply in_app_iff in I. destruct I as [I|[I|[]]]; [auto|]. injection I as <- <-. exists n, c. auto.
Qed.

(** ** The check *)
Lemma verify_right h n0 n c sl s : full h n0 n -> steps M n init = Some c -> In (sl, s) (hs_slots h) -> s < Z.of_nat n ->
  sl = (c_state c, c_tape c (c_pos c)) ->
  exists r, verify_lin_rec h s (Z.of_nat n) = Some r
    /\ forall a b, r = Some (a, b) -> a = s /\ b = Z.of_nat n - s /\ (n0 <= Z.to_nat s)%nat /\ recurs_at M (Z.to_nat s) (n - Z.to_nat s).
Proof.
  intros [F1 F2 F3 F4 FP F5 F6 F7 F8] E I L Q. destruct (F6 sl s I) as (j & cj & B1 & B2 & B3 & B4 & B5).
  subst s. unfold verify_lin_rec.
  destruct (tape_at (hs_tapes h) (Z.of_nat j)) as [q1|] eqn:E1; [|contradiction].
  destruct (tape_at (hs_tapes h) (Z.of_nat n)) as [q2|] eqn:E2; [|contradiction].
  destruct (F4 _ _ E1) as (j1 & t1 & c1 & C1 & C2 & C3 & C4 & C5 & C6). assert (j1 = j) by lia. subst j1.
  destruct (F4 _ _ E2) as (j2 & t2 & c2 & D1 & D2 & D3 & D4 & D5 & _). assert (j2 = n) by lia. subst j2.
  pose proof C3 as [X1 X2 X3 X4 X5]. pose proof D3 as [Y1 Y2 Y3 Y4 Y5].
  rewrite B3 in X1. injection X1 as <-. rewrite E in Y1. injection Y1 as <-.
  rewrite !Nat2Z.id, C5, D5.
  set (since := skipn j (hs_positions h)).
  assert (IN : In (c_pos c) since) by (apply (in_skip _ _ n); auto).
  destruct (list_min since) as [lm|] eqn:EL; [|destruct since; [destruct IN|discriminate]].
  destruct (list_max since) as [rm|] eqn:ER; [|destruct since; [destruct IN|discriminate]].
  eexists. split; [reflexivity|]. intros a b. 
  destruct (p_aligns q2 q1 (c_pos c - c_pos cj) lm rm) eqn:EA; [|discriminate]. intros X. injection X as <- <-.
  split; [auto|]. split; [auto|]. split; [lia|]. subst q1 q2.
  assert (E' : steps M (n - j) cj = Some c).
  { rewrite <- E. replace n with (j + (n - j))%nat at 2 by lia. rewrite (steps_add_some _ _ _ _ _ B3). auto. }
  apply (aligned_recurs M j (n - j) cj c lm rm t2 t1); auto using canon_wf; try lia.
  - rewrite B4 in Q. injection Q as Q _. auto.
  - intros i e I' Ee. destruct (C6 (j + i)%nat e ltac:(lia)) as (ia & ib & x & y & Z1 & Z2 & Z3 & Z4 & Z5).
    { rewrite (steps_add_some _ _ _ _ _ B3). auto. }
    pose proof (list_min_le _ _ x EL (in_skip _ _ ia _ Z3 Z1)). pose proof (list_max_ge _ _ y ER (in_skip _ _ ib _ Z4 Z2)). lia.
Qed.

Lemma check_right h n0 n c : full h n0 n -> steps M n init = Some c -> (forall sl s, In (sl, s) (hs_slots h) -> s < Z.of_nat n) ->
  exists r, check_rec h (Z.of_nat n) (c_state c, c_tape c (c_pos c)) = Some r
    /\ forall a b, r = Some (a, b) -> 0 <= a /\ b = Z.of_nat n - a /\ (n0 <= Z.to_nat a)%nat /\ (Z.to_nat a < n)%nat /\ recurs_at M (Z.to_nat a) (n - Z.to_nat a) /\ exists sl, In (sl, a) (hs_slots h).
Proof.
  intros F E L. unfold check_rec.
  assert (G : forall l, (forall x, In x l -> In x (hs_slots h)) -> exists r, check_steps h l (Z.of_nat n) (c_state c, c_tape c (c_pos c)) = Some r
    /\ forall a b, r = Some (a, b) -> 0 <= a /\ b = Z.of_nat n - a /\ (n0 <= Z.to_nat a)%nat /\ (Z.to_nat a < n)%nat /\ recurs_at M (Z.to_nat a) (n - Z.to_nat a) /\ exists sl, In (sl, a) (hs_slots h)).
  { induction l as [|[sl s] l IH]; intros S; cbn [check_steps]; [exists None; split; [auto|discriminate]|].
    destruct (slot_eqb sl (c_state c, c_tape c (c_pos c))) eqn:EQ; [|apply IH; intros x X; apply S; right; auto].
    assert (SQ : sl = (c_state c, c_tape c (c_pos c))).
    { unfold slot_eqb in EQ. cbn in EQ. destruct sl as [x y]. cbn in EQ. zb. congruence. }
    pose proof (S (sl, s) (or_introl eq_refl)) as I. pose proof (L sl s I) as LS.
    destruct (verify_right h n0 n c sl s F E I LS SQ) as (r & V & R). rewrite V.
    destruct r as [[a b]|]; [|apply IH; intros x X; apply S; right; auto].
    exists (Some (a, b)). split; [auto|]. intros a' b' X. injection X as <- <-. destruct (R a b eq_refl) as (R1 & R2 & R3 & R4).
    subst a b. destruct (fu_slot h n0 n F sl s I) as (j & cj & -> & _). repeat split; auto; try lia. exists sl. auto. }
  apply G. auto.
Qed.
End hist.

(** ** Blank tapes *)
Lemma blank_tape_iff tp c : canon tp -> represents tp c -> (t_blank tp = true <-> is_blank c).
Proof.
  intros K R. split; [apply represents_blank; auto|]. intros B. apply blank_iff; auto.
  intros i. rewrite <- (R i). apply B.
Qed.

Lemma hp_blank comp state tp t c color shift next tp' st :
  at_time (machine_of comp) state tp t c -> comp_get comp (state, t_scan (h_tape tp)) = Some (color, shift, next) ->
  hp_step tp shift color (state =? next) = (tp', st) ->
  forall j e, (0 < j <= Z.to_nat st)%nat -> steps (machine_of comp) j c = Some e -> is_blank e -> j = Z.to_nat st /\ color = 0.
Proof.
  intros A EG E j e J Ee B. pose proof A as [A1 A2 A3 A4 A5]. unfold hp_step in E. rewrite py_rs_step in E by auto using canon_wf.
  destruct (rs_step (h_tape tp) shift color (state =? next)) as [tp1 st1] eqn:ES. injection E as <- <-.
  assert (SC : c_tape c (c_pos c) = t_scan (h_tape tp)) by (apply represents_iff; auto).
  assert (HM : machine_of comp (c_state c) (t_scan (h_tape tp)) = Some (color, shift, next)) by (rewrite A5; exact EG).
  destruct (rs_step_refines (machine_of comp) (h_tape tp) c shift color next (state =? next) tp1 st1)
    as (N & _ & N1 & _); auto using canon_wf.
  { intros X. zb. congruence. }
  destruct (Z.eqb_spec state next) as [Q|Q].
  2:{ rewrite N1 in * by reflexivity. change (Z.to_nat 1) with 1%nat in *. assert (j = 1)%nat by lia. subst j. split; auto.
      cbn in Ee. unfold step in Ee. rewrite SC, HM in Ee. injection Ee as <-. specialize (B (c_pos c)). cbn in B.
      unfold write in B. rewrite Z.eqb_refl in B. auto. }
  subst next. destruct (rs_step_maximal _ _ _ _ _ _ A3 A2 ES) as (X & _).
  destruct (run_over (machine_of comp) shift color (t_scan (h_tape tp)) (j - 1) c SC) as (e' & D1 & _ & _ & D4).
  { rewrite HM. congruence. }
  { intros i I. unfold half. rewrite <- (X (i + 1)) by lia. f_equal. destruct shift; lia. }
  replace (S (j - 1)) with j in D1 by lia. rewrite Ee in D1. injection D1 as <-.
  assert (C0 : color = 0).
  { rewrite <- (B (c_pos c)), D4. destruct shift; bdestr; auto; lia. }
  split; auto. destruct (Nat.eq_dec j (Z.to_nat st1)) as [|NE]; auto. exfalso.
  assert (S0 : t_scan (h_tape tp) = 0).
  { rewrite <- (X (Z.of_nat j) ltac:(lia)). rewrite <- (B (if shift then c_pos c + Z.of_nat j else c_pos c - Z.of_nat j)), D4.
    destruct shift; bdestr; auto; lia. }
  assert (BC : is_blank c).
  { intros p. specialize (B p). rewrite D4 in B. destruct shift.
    - destruct ((c_pos c <=? p) && (p <=? c_pos c + Z.of_nat (j - 1))) eqn:IN; auto. zb.
      specialize (X (p - c_pos c) ltac:(lia)). replace (c_pos c + (p - c_pos c)) with p in X by lia. congruence.
    - destruct ((c_pos c - Z.of_nat (j - 1) <=? p) && (p <=? c_pos c)) eqn:IN; auto. zb.
      specialize (X (c_pos c - p) ltac:(lia)). replace (c_pos c - (c_pos c - p)) with p in X by lia. congruence. }
  apply (blank_tape_iff (h_tape tp) c A3 A2) in BC. unfold t_blank in BC.
  destruct (h_tape tp) as [l sc r]. cbn in BC. destruct l, r; zb; try discriminate.
  unfold rs_step in ES. cbn in ES. destruct shift; injection ES as _ <-; cbn in *; lia.
Qed.

Definition binv (M : program) (blanks : blanks_t) (n : nat) : Prop :=
  (forall s k, In (s, k) blanks -> 0 <= k <= Z.of_nat n /\ first_blank M s (Z.to_nat k))
  /\ (forall j d, (0 < j <= n)%nat -> steps M j init = Some d -> is_blank d -> blanks_has blanks (c_state d) = true).

Lemma has_in blanks s k : In (s, k) blanks -> blanks_has blanks s = true.
Proof.
  induction blanks as [|[s' k'] b IH]; cbn; [tauto|]. intros [E|I]; [injection E as -> ->; rewrite Z.eqb_refl; auto|].
  rewrite IH by auto. apply orb_true_r.
Qed.

Lemma binv_step comp state tp t c color shift next tp' st blanks :
  at_time (machine_of comp) state tp t c -> comp_get comp (state, t_scan (h_tape tp)) = Some (color, shift, next) ->
  hp_step tp shift color (state =? next) = (tp', st) -> binv (machine_of comp) blanks t ->
  binv (machine_of comp) (if (color =? 0) && t_blank (h_tape tp') && negb (blanks_has blanks next)
    then (next, Z.of_nat (t + Z.to_nat st)) :: blanks else blanks) (t + Z.to_nat st).
Proof.
  intros A EG ES (B1 & B2).
  destruct (hp_move comp state tp t c color shift next tp' st A EG ES) as (N & d & D1 & D2 & _ & D3).
  pose proof (hp_blank comp state tp t c color shift next tp' st A EG ES) as HB.
  pose proof D1 as [E1 E2 E3 E4 E5].
  pose proof (blank_tape_iff _ _ E3 E2) as TB.
  assert (OLD : forall j e, (0 < j <= t + Z.to_nat st)%nat -> steps (machine_of comp) j init = Some e -> is_blank e ->
     ((j <= t)%nat /\ blanks_has blanks (c_state e) = true) \/ (j = (t + Z.to_nat st)%nat /\ e = d /\ color = 0)).
  { intros j e J Ee Be. destruct (le_lt_dec j t) as [L|L]; [left; split; [auto|]; apply (B2 j); auto; lia|]. right.
    assert (Ej : steps (machine_of comp) (j - t) c = Some e).
    { rewrite <- Ee. replace j with (t + (j - t))%nat at 2 by lia. rewrite (steps_add_some _ _ _ _ _ (at_run _ _ _ _ _ A)). auto. }
    destruct (HB (j - t)%nat e ltac:(lia) Ej Be) as (Q & C0). split; [lia|]. split; auto.
    rewrite Q in Ej. congruence. }
  destruct ((color =? 0) && t_blank (h_tape tp') && negb (blanks_has blanks next)) eqn:T; split.
  - apply andb_true_iff in T. destruct T as (T12 & T3). apply andb_true_iff in T12. destruct T12 as (T1 & T2). apply negb_true_iff in T3.
    intros s k [I|I].
    + injection I as <- <-. split; [lia|]. rewrite Nat2Z.id. split; [lia|]. exists d. split; [auto|]. split; [auto|].
      split; [apply TB; auto|]. intros j e J Ee Se Be.
      destruct (OLD j e ltac:(lia) Ee Be) as [(_ & X)|(X & _)]; [|lia]. rewrite Se in X. congruence.
    + destruct (B1 s k I). split; [lia|auto].
  - intros j e J Ee Be. cbn [blanks_has]. destruct (OLD j e J Ee Be) as [(_ & X)|(_ & -> & _)]; [rewrite X; apply orb_true_r|].
    rewrite E5, Z.eqb_refl. auto.
  - intros s k I. destruct (B1 s k I). split; [lia|auto].
  - intros j e J Ee Be. destruct (OLD j e J Ee Be) as [(_ & X)|(_ & -> & C0)]; [auto|].
    apply TB in Be. rewrite C0, Be in T. cbn in T. rewrite E5. destruct (blanks_has blanks next); auto.
Qed.

(** ** What a recurrence says about the states *)
Lemma recurs_at_recurs M n m : recurs_at M n m -> recurs M.
Proof. intros (c & d & k & H). exists n, m, c, d, k. exact H. Qed.

Lemma recurs_at_region M n m : recurs_at M n m -> exists c d k (R : Z -> Prop), (0 < m)%nat /\ steps M n init = Some c
  /\ steps M m c = Some d /\ agree R k c d /\ stays M R m c /\ (forall p, R p -> R (p + k)).
Proof.
  intros (c & d & k & Hm & E & F & A & B & C). exists c, d, k.
  assert (ST : forall j, (j < m)%nat -> exists e, steps M j c = Some e).
  { intros j J. apply (steps_le M m j c d); [lia|auto]. }
  destruct C as [(-> & C)|[(L & C)|(L & C)]].
  - exists (fun _ => True). do 3 (split; [auto|]). split; [split; auto; split; auto; intros; rewrite Z.add_0_r; auto|].
    split; [intros j J; destruct (ST j J) as (e & ?); eauto|]. auto.
  - exists (fun p => exists j e, (j < m)%nat /\ steps M j c = Some e /\ c_pos e <= p). do 3 (split; [auto|]).
    split; [split; auto; split; auto; intros p (j & e & ? & ? & ?); eauto|].
    split; [intros j J; destruct (ST j J) as (e & X); exists e; split; auto; exists j, e; repeat split; auto; lia|].
    intros p (j & e & ? & ? & ?); exists j, e; repeat split; auto; lia.
  - exists (fun p => exists j e, (j < m)%nat /\ steps M j c = Some e /\ p <= c_pos e). do 3 (split; [auto|]).
    split; [split; auto; split; auto; intros p (j & e & ? & ? & ?); eauto|].
    split; [intros j J; destruct (ST j J) as (e & X); exists e; split; auto; exists j, e; repeat split; auto; lia|].
    intros p (j & e & ? & ? & ?); exists j, e; repeat split; auto; lia.
Qed.

Lemma recur_states M n m : recurs_at M n m -> forall t e, (n <= t)%nat -> steps M t init = Some e ->
  exists i x, (i < m)%nat /\ steps M (n + i) init = Some x /\ c_state e = c_state x.
Proof.
  intros H. destruct (recurs_at_region M n m H) as (c & d & k & R & Hm & E & F & A & S & P).
  assert (G : forall j, exists e e', steps M (j * m) c = Some e /\ steps M m e = Some e' /\ stays M R m e /\ agree R k e e'
     /\ forall i x, (i < m)%nat -> steps M i c = Some x -> exists y, steps M i e = Some y /\ c_state y = c_state x).
  { induction j as [|j (e & e' & F1 & F2 & F3 & F4 & F5)].
    - exists c, d. do 4 (split; [auto|]). intros i x _ X. exists x. auto.
    - exists e'. destruct (agree_steps M R k m e e' e' F4 F3 F2) as (e'' & G1 & G2).
      exists e''. split; [|split; [auto|split; [|split; [auto|]]]].
      + replace (Datatypes.S j * m)%nat with (j * m + m)%nat by lia.
        rewrite (steps_add_some _ _ _ _ _ F1). auto.
      + intros i Hi. destruct (F3 i Hi) as (x & Ex & Rx).
        destruct (agree_steps M R k i e e' x F4 (stays_le M R m i e ltac:(lia) F3) Ex) as (y & Ey & Ay).
        exists y. split; auto. destruct Ay as (_ & Q & _). rewrite Q. auto.
      + intros i x Hi Ex. destruct (F5 i x Hi Ex) as (y & Ey & Sy).
        destruct (agree_steps M R k i e e' y F4 (stays_le M R m i e ltac:(lia) F3) Ey) as (z & Ez & Az).
        exists z. split; auto. destruct Az as (Q & _). congruence. }
  intros t e L Ee. destruct (G ((t - n) / m)%nat) as (b & _ & B1 & _ & _ & _ & B2).
  pose proof (Nat.div_mod (t - n) m ltac:(lia)) as DM. pose proof (Nat.mod_upper_bound (t - n) m ltac:(lia)) as UB.
  set (i := ((t - n) mod m)%nat) in *. set (q := ((t - n) / m)%nat) in *.
  destruct (steps_le M m i c d ltac:(lia) F) as (x & Ex).
  exists i, x. split; auto. split; [rewrite (steps_add_some _ _ _ _ _ E); auto|].
  destruct (B2 i x UB Ex) as (y & Ey & Sy).
  assert (e = y); [|congruence].
  replace t with (n + (q * m + i))%nat in Ee by lia.
  rewrite (steps_add_some _ _ _ _ _ E), (steps_add_some _ _ _ _ _ B1) in Ee. congruence.
Qed.

(** Far away the tape is blank. *)
Lemma far_blank M n c : steps M n init = Some c -> forall p, Z.of_nat n < Z.abs p -> c_tape c p = 0.
Proof.
  intros E p P. rewrite (untouched M p n init c E); [reflexivity|].
  intros i e I Ee. apply pos_lipschitz in Ee. cbn in Ee. lia.
Qed.

Lemma recurs_one_spins M n : recurs_at M n 1 -> exists c, steps M n init = Some c /\ spins_out_from M c.
Proof.
  intros (c & d & k & _ & E & F & A & B & H). exists c. split; auto.
  cbn in F. destruct (step M c) as [d'|] eqn:ST; [|discriminate]. injection F as ->.
  unfold step in ST. destruct (M (c_state c) (c_tape c (c_pos c))) as [[[co dir] nx]|] eqn:EM; [|discriminate].
  injection ST as <-. cbn in A, B. subst nx.
  assert (K : k = if dir then 1 else -1) by (unfold move in B; destruct dir; lia).
  destruct H as [(K0 & _)|[(K0 & H)|(K0 & H)]]; [destruct dir; lia| |].
  - destruct dir; [|lia].
    assert (ALL : forall i, c_tape c (c_pos c + Z.of_nat i) = c_tape c (c_pos c)).
    { induction i as [|i IH]; [f_equal; lia|]. rewrite <- IH.
      rewrite <- (H 0%nat c (c_pos c + Z.of_nat i) ltac:(lia) eq_refl ltac:(lia)). cbn. unfold write. bdestr; [lia|]. f_equal. lia. }
    assert (Z0 : c_tape c (c_pos c) = 0).
    { rewrite <- (ALL (Z.to_nat (Z.abs (c_pos c) + Z.of_nat n + 1))). apply (far_blank M n c E). lia. }
    rewrite Z0 in EM. apply (spin_out_lemma M c true co EM). intros i I. rewrite <- Z0, <- (ALL (Z.to_nat i)). f_equal. lia.
  - destruct dir; [lia|].
    assert (ALL : forall i, c_tape c (c_pos c - Z.of_nat i) = c_tape c (c_pos c)).
    { induction i as [|i IH]; [f_equal; lia|]. rewrite <- IH.
      rewrite <- (H 0%nat c (c_pos c - Z.of_nat i) ltac:(lia) eq_refl ltac:(lia)). cbn. unfold write. bdestr; [lia|]. f_equal. lia. }
    assert (Z0 : c_tape c (c_pos c) = 0).
    { rewrite <- (ALL (Z.to_nat (Z.abs (c_pos c) + Z.of_nat n + 1))). apply (far_blank M n c E). lia. }
    rewrite Z0 in EM. apply (spin_out_lemma M c false co EM). intros i I. rewrite <- Z0, <- (ALL (Z.to_nat i)). f_equal. lia.
Qed.

Lemma quasi_right M h n0 n a : full M h n0 n -> (n0 <= a < n)%nat -> recurs_at M a (n - a) ->
  let hp := firstn a (hs_states h) in
  let q := existsb (fun st => beep (hs_states h) st <=? beep hp st) hp in
  (q = true -> quasihalts M) /\ (n0 = 0%nat -> quasihalts M -> q = true).
Proof.
  intros F L RC hp q. pose proof (recurs_never_halts M (recurs_at_recurs _ _ _ RC)) as NH.
  assert (EQ : forall st, In st hp -> (beep (hs_states h) st <= beep hp st <-> ~ In st (skipn a (hs_states h)))).
  { intros st I. unfold hp in *. rewrite <- (firstn_skipn a (hs_states h)) at 1. apply beep_last. auto. }
  assert (REST : forall st, In st (skipn a (hs_states h)) <-> exists t e, (a <= t)%nat /\ steps M t init = Some e /\ c_state e = st).
  { intros st. split.
    - intros I. destruct (skip_in _ _ _ I) as (i & Li & Ei).
      assert (Ui : (i < length (hs_states h))%nat) by (apply nth_error_Some; congruence). rewrite (fu_ns _ _ _ _ F) in Ui.
      destruct (NH i) as (e & Ee). exists i, e. split; auto. split; auto.
      pose proof (fu_states _ _ _ _ F i e ltac:(lia) Ee). congruence.
    - intros (t & e & Lt & Ee & <-). destruct (recur_states M a (n - a) RC t e Lt Ee) as (i & x & Hi & Ex & ->).
      apply (in_skip _ _ (a + i)); [|lia]. apply (fu_states _ _ _ _ F); auto. lia. }
  split.
  - intros Q. unfold q in Q. apply existsb_exists in Q. destruct Q as (st & I & B). apply Z.leb_le in B.
    apply EQ in B; auto. exists st. split.
    + unfold hp in I. destruct (first_in _ _ _ I) as (i & Li & Ei). destruct (le_lt_dec n0 i) as [X|X].
      * destruct (NH i) as (e & Ee). exists i, e. split; auto. pose proof (fu_states _ _ _ _ F i e ltac:(lia) Ee). congruence.
      * rewrite (fu_early _ _ _ _ F i X) in Ei. destruct (NH n0) as (e & Ee). exists n0, e. split; auto.
        pose proof (fu_states _ _ _ _ F n0 e ltac:(lia) Ee). congruence.
    + exists a. intros t e Lt Ee X. apply B, REST. eauto.
  - intros -> (st & (t & e & Ee & Se) & N & HN).
    assert (NI : ~ In st (skipn a (hs_states h))).
    { intros I. apply REST in I. destruct I as (u & x & Lu & Ex & Sx).
      (* the state comes back at u + N * m *)
      destruct (recur_states M a (n - a) RC u x Lu Ex) as (i & y & Hi & Ey & Sy).
      assert (AG : forall j, exists z, steps M (a + i + j * (n - a)) init = Some z /\ c_state z = c_state y).
      { destruct (recurs_at_region M a (n - a) RC) as (c & d & k & R & Hm & E & F' & A & S & P).
        assert (Eic : steps M i c = Some y) by (rewrite (steps_add_some _ _ _ _ _ E) in Ey; auto).
        assert (G : forall j, exists e e', steps M (j * (n - a)) c = Some e /\ steps M (n - a) e = Some e' /\ stays M R (n - a) e /\ agree R k e e'
           /\ exists z, steps M i e = Some z /\ c_state z = c_state y).
        { induction j as [|j (e0 & e' & F1 & F2 & F3 & F4 & (z & F5 & F6))].
          - exists c, d. do 4 (split; [auto|]). exists y. auto.
          - exists e'. destruct (agree_steps M R k (n - a) e0 e' e' F4 F3 F2) as (e'' & G1 & G2).
            exists e''. split; [|split; [auto|split; [|split; [auto|]]]].
            + replace (Datatypes.S j * (n - a))%nat with (j * (n - a) + (n - a))%nat by lia.
              rewrite (steps_add_some _ _ _ _ _ F1). auto.
            + intros i' Hi'. destruct (F3 i' Hi') as (x' & Ex' & Rx).
              destruct (agree_steps M R k i' e0 e' x' F4 (stays_le M R (n - a) i' e0 ltac:(lia) F3) Ex') as (y' & Ey' & Ay).
              exists y'. split; auto. destruct Ay as (_ & Q & _). rewrite Q. auto.
            + destruct (agree_steps M R k i e0 e' z F4 (stays_le M R (n - a) i e0 ltac:(lia) F3) F5) as (w & Ew & Aw).
              exists w. split; auto. destruct Aw as (Q & _). congruence. }
        intros j. destruct (G j) as (b & _ & B1 & _ & _ & _ & (z & Z1 & Z2)). exists z. split; auto.
        replace (a + i + j * (n - a))%nat with (a + (j * (n - a) + i))%nat by lia.
        rewrite (steps_add_some _ _ _ _ _ E), (steps_add_some _ _ _ _ _ B1). auto. }
      destruct (AG N) as (z & Ez & Sz). apply (HN (a + i + N * (n - a))%nat z); auto; [nia|congruence]. }
    assert (Lt : (t < a)%nat).
    { destruct (le_lt_dec a t) as [X|X]; auto. exfalso. apply NI, REST. eauto. }
    unfold q. apply existsb_exists. exists st. split.
    + unfold hp. apply (in_first _ _ t); auto. rewrite <- Se. apply (fu_states _ _ _ _ F); auto. lia.
    + apply Z.leb_le, EQ; auto. unfold hp. apply (in_first _ _ t); auto. rewrite <- Se. apply (fu_states _ _ _ _ F); auto. lia.
Qed.

(** ** The loop *)
Definition end_step (e : strict_end) : nat :=
  Z.to_nat match e with SLin a m _ _ => a + m | SUndfnd n _ => n | SXlimit n => n | SErr => 0 end.
Definition strict_ok (M : program) (check : Z) (low : Z) (r : strict) : Prop :=
  (exists c, steps M (end_step (sr_end r)) init = Some c /\ binv M (sr_blanks r) (end_step (sr_end r)))
  /\ match sr_end r with
     | SLin a m sp q => 0 <= a /\ 0 < m /\ recurs_at M (Z.to_nat a) (Z.to_nat m)
         /\ (sp = if m =? 1 then Some a else None)
         /\ (q = true -> quasihalts M) /\ (check <= 0 -> quasihalts M -> q = true)
     | SUndfnd n s => 0 <= n /\ halts_at M (Z.to_nat n) s
     | SXlimit n => low <= n /\ exists c, steps M (Z.to_nat n) init = Some c
     | SErr => False
     end.

Definition sinv (M : program) (check : Z) (h : history) (m : nat) : Prop :=
  (h = hs_new /\ (check <= 0 -> m = 0%nat)) \/ exists n0 n, full M h n0 n /\ straight M n m /\ check <= Z.of_nat n /\ (check <= 0 -> n0 = 0%nat).

Lemma strict_loop_ok comp check fuel : forall cycle h tp state step blanks c,
  at_time (machine_of comp) state tp step c -> sinv (machine_of comp) check h step -> binv (machine_of comp) blanks step ->
  strict_ok (machine_of comp) check (Z.of_nat step + Z.of_nat fuel) (strict_loop comp check fuel cycle h tp state (Z.of_nat step) blanks).
Proof.
  induction fuel as [|fuel IH]; intros cycle h tp state step blanks c A SI BI; pose proof A as [A1 A2 A3 A4 A5].
  { cbn [strict_loop]. split; cbn [sr_blanks sr_end end_step]; [unfold end_step; rewrite Nat2Z.id; eauto|]. split; [lia|]. exists c. rewrite Nat2Z.id. auto. }
  cbn [strict_loop].
  assert (SC : c_tape c (c_pos c) = t_scan (h_tape tp)) by (apply represents_iff; auto).
  assert (GO : forall h', (h' = hs_new /\ Z.of_nat step < check \/
       exists n0, full (machine_of comp) h' n0 step /\ check <= Z.of_nat step /\ (check <= 0 -> n0 = 0%nat)) ->
     strict_ok (machine_of comp) check (Z.of_nat step + Z.of_nat (S fuel))
      (match comp_get comp (state, t_scan (h_tape tp)) with
       | None => Strict (SUndfnd (Z.of_nat step) (state, t_scan (h_tape tp))) cycle blanks h'
       | Some (color, shift, next) =>
            let '(tp, stepped) := hp_step tp shift color (state =? next) in
            strict_loop comp check fuel (cycle + 1) h' tp next (Z.of_nat step + stepped)
              (if (color =? 0) && t_blank (h_tape tp) && negb (blanks_has blanks next) then (next, Z.of_nat step + stepped) :: blanks else blanks)
       end)).
  { intros h' H'. destruct (comp_get comp (state, t_scan (h_tape tp))) as [[[color shift] next]|] eqn:EG.
    2:{ split; cbn [sr_blanks sr_end end_step]; [unfold end_step; rewrite Nat2Z.id; eauto|]. split; [lia|]. rewrite Nat2Z.id. exists c. cbn [fst snd]. split; [auto|].
        split; [auto|]. split; [auto|]. exact EG. }
    destruct (hp_step tp shift color (state =? next)) as [tp' st] eqn:ES.
    destruct (hp_move comp state tp step c color shift next tp' st A EG ES) as (N & d & D1 & D2 & D3 & D4).
    replace (Z.of_nat step + st) with (Z.of_nat (step + Z.to_nat st)) by lia.
    assert (OK : strict_ok (machine_of comp) check (Z.of_nat (step + Z.to_nat st) + Z.of_nat fuel)
       (strict_loop comp check fuel (cycle + 1) h' tp' next (Z.of_nat (step + Z.to_nat st))
         (if (color =? 0) && t_blank (h_tape tp') && negb (blanks_has blanks next) then (next, Z.of_nat (step + Z.to_nat st)) :: blanks else blanks))).
    { apply (IH _ _ _ _ _ _ d); auto; [|eapply binv_step; eauto].
      destruct H' as [(-> & H')|(n0 & H1 & H2 & H3)]; [left; split; [auto|]; lia|].
      right. exists n0, step. split; [auto|]. split; [|auto]. split; [lia|]. exists c, d. split; [auto|].
      pose proof (at_run _ _ _ _ _ D1) as D5. split; [auto|]. split.
      - intros j e J Ee. apply (D3 (j - step)%nat); [lia|]. rewrite <- Ee.
        replace j with (step + (j - step))%nat at 2 by lia. rewrite (steps_add_some _ _ _ _ _ A1). auto.
      - intros j e J Ee. rewrite (at_st _ _ _ _ _ D1). apply (D4 (j - step)%nat); [lia|]. rewrite <- Ee.
        replace j with (step + (j - step))%nat at 2 by lia. rewrite (steps_add_some _ _ _ _ _ A1). auto. }
    destruct OK as (O1 & O2). split; [exact O1|]. destruct (sr_end _); auto. destruct O2 as (O2 & O3). split; auto. lia. }
  destruct (Z.leb_spec check (Z.of_nat step)) as [CK|CK].
  2:{ apply GO. left. destruct SI as [(-> & _)|(n0 & n & F & (L & _) & G & _)]; [auto|lia]. }
  set (h' := add_tape (add_state h (Z.of_nat step) state) (Z.of_nat step) tp).
  assert (FH : exists n0, full (machine_of comp) h' n0 step /\ (check <= 0 -> n0 = 0%nat)
     /\ forall sl s, In (sl, s) (hs_slots h') -> s < Z.of_nat step).
  { destruct SI as [(-> & Z0)|(n0 & n & F & G & _ & Z0)].
    - exists step. split; [eapply add_first; eauto|]. split; [auto|]. cbn. tauto.
    - exists n0. split; [eapply add_next; eauto|]. split; [auto|]. unfold h'. cbn [add_tape add_state hs_slots]. intros sl s I.
      destruct (fu_slot _ _ _ _ F sl s I) as (j & _ & -> & Lj & _). destruct G as (G & _). lia. }
  destruct FH as (n0 & F & Z0 & SL).
  destruct (check_right (machine_of comp) h' n0 step c F A1 SL) as (r & CR & RR).
  rewrite A5, SC in CR. fold h'. rewrite CR.
  destruct r as [[a b]|].
  - destruct (RR a b eq_refl) as (R1 & -> & R2 & R3 & R4 & _).
    unfold strict_found. split; cbn [sr_blanks sr_end].
    { unfold end_step. replace (a + (Z.of_nat step - a)) with (Z.of_nat step) by lia. rewrite Nat2Z.id. eauto. }
    split; [auto|]. split; [lia|].
    replace (Z.to_nat (Z.of_nat step - a)) with (step - Z.to_nat a)%nat by lia. split; [auto|].
    split; [destruct (Z.eqb_spec (Z.of_nat step - a) 1); [f_equal; lia|auto]|].
    destruct (quasi_right (machine_of comp) h' n0 step (Z.to_nat a) F ltac:(lia) R4) as (Q1 & Q2). split; [exact Q1|]. auto.
  - apply GO. right. exists n0. split; [|auto]. rewrite <- A5, <- SC. apply full_slot; auto.
Qed.

Lemma strict_run_ok comp lim check : strict_ok (machine_of comp) check (Z.of_nat lim) (strict_run comp lim check).
Proof.
  unfold strict_run. change 0 with (Z.of_nat 0) at 2.
  replace (Z.of_nat lim) with (Z.of_nat 0 + Z.of_nat lim) by lia.
  apply (strict_loop_ok comp check lim 0 hs_new hp_init 0 0%nat [] init).
  - constructor; auto; [|split; cbn; auto]. intros i. cbn. unfold blank_tape, tape_cell. cbn. destruct (i =? 0), (0 <? i); auto.
  - left. auto.
  - split; [intros s k []|]. intros j d J. lia.
Qed.
