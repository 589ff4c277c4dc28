(** * Proofs about the tapes of idris/ *)
From Coq Require FinFun.
From Verif Require Import Base TM TMFacts IdrisModel IdrisSpec.

Definition span_right {A} (sp : spannable A) (good : Z -> Prop) (ok : A -> Prop) (den : A -> nat -> Z) : Prop :=
  (ok (sp_none sp) /\ forall n, den (sp_none sp) n = 0)
  /\ (forall s, ok s -> fst (sp_pull sp s) = den s 0%nat /\ ok (snd (sp_pull sp s))
        /\ forall n, den (snd (sp_pull sp s)) n = den s (S n))
  /\ (forall s cx, ok s -> good cx -> ok (sp_push sp cx 1 s)
        /\ forall n, den (sp_push sp cx 1 s) n = match n with O => cx | S n => den s n end)
  /\ (forall s, ok s -> (sp_blank sp s = true <-> forall n, den s n = 0))
  /\ (forall s, ok s -> exists ps : list nat, NoDup ps /\ (forall n, In n ps <-> den s n <> 0) /\ length ps = sp_marks sp s).

Definition skip_right_spec {A} (sp : spannable A) (good : Z -> Prop) (ok : A -> Prop) (den : A -> nat -> Z)
    (skip : scan_n_span A -> Z -> option (nat * scan_n_span A)) : Prop :=
  (forall l c r cx, ok l -> ok r -> good cx -> exists k l' x r',
     skip (l, c, r) cx = Some (S k, (l', x, r')) /\ ok l' /\ ok r'
     /\ (forall n, (n < k)%nat -> den l n = c) /\ x = den l k
     /\ (forall n, den l' n = den l (S k + n)%nat)
     /\ (forall n, den r' n = if (n <? S k)%nat then cx else den r (n - S k)%nat)
     /\ (c <> 0 \/ (exists n, den l n <> 0) -> den l k <> c))
  /\ (forall c r cx, skip (sp_none sp, c, r) cx = Some (sn_step_left sp (sp_none sp, c, r) cx)).

(** ** From spans to tapes *)

Lemma around_0 {A} den (l : A) c r : around den (l, c, r) 0 = c.
Proof. reflexivity. Qed.
Lemma around_pos {A} den (l : A) c r n : around den (l, c, r) (1 + Z.of_nat n) = den r n.
Proof. unfold around. bdestr; try lia. f_equal. lia. Qed.
Lemma around_neg {A} den (l : A) c r n : around den (l, c, r) (- (1 + Z.of_nat n)) = den l n.
Proof. unfold around. bdestr; try lia. f_equal. lia. Qed.

Lemma around_cases i : i = 0 \/ (exists n, i = 1 + Z.of_nat n) \/ exists n, i = - (1 + Z.of_nat n).
Proof.
  destruct (Z.eq_dec i 0); auto. right. destruct (Z.ltb_spec 0 i); [left; exists (Z.to_nat (i - 1))|right; exists (Z.to_nat (- i - 1))]; lia.
Qed.

Lemma moved_left {A} (den : A -> nat -> Z) l c r l' x r' k cx :
  x = den l k -> (forall n, den l' n = den l (S k + n)%nat) ->
  (forall n, den r' n = if (n <? S k)%nat then cx else den r (n - S k)%nat) ->
  (forall n, (n < k)%nat -> den l n = c) ->
  moved false (S k) cx (around den (l, c, r)) (around den (l', x, r')).
Proof.
  intros X L R _ i. destruct (around_cases i) as [->|[(n & ->)|(n & ->)]].
  - rewrite around_0. replace ((0 - Z.of_nat (S k) <=? 0) && (0 <? 0)) with false by (destruct (0 - Z.of_nat (S k) <=? 0); reflexivity).
    replace (0 - Z.of_nat (S k)) with (- (1 + Z.of_nat k)) by lia. rewrite around_neg. exact X.
  - rewrite around_pos, R. destruct (Nat.ltb_spec n (S k)) as [K|K].
    + replace ((1 + Z.of_nat n - Z.of_nat (S k) <=? 0) && (0 <? 1 + Z.of_nat n)) with true; auto.
      symmetry. apply andb_true_iff. split; [apply Z.leb_le|apply Z.ltb_lt]; lia.
    + replace ((1 + Z.of_nat n - Z.of_nat (S k) <=? 0) && (0 <? 1 + Z.of_nat n)) with false.
      * replace (1 + Z.of_nat n - Z.of_nat (S k)) with (1 + Z.of_nat (n - S k)) by lia. rewrite around_pos. reflexivity.
      * symmetry. apply andb_false_iff. left. apply Z.leb_gt. lia.
  - rewrite around_neg, L. replace ((- (1 + Z.of_nat n) - Z.of_nat (S k) <=? 0) && (0 <? - (1 + Z.of_nat n))) with false.
    + replace (- (1 + Z.of_nat n) - Z.of_nat (S k)) with (- (1 + Z.of_nat (S k + n))) by lia. rewrite around_neg. reflexivity.
    + symmetry. apply andb_false_iff. right. apply Z.ltb_ge. lia.
Qed.

Lemma around_mirror {A} (den : A -> nat -> Z) l c r i : around den (l, c, r) i = around den (r, c, l) (- i).
Proof.
  destruct (around_cases i) as [->|[(n & ->)|(n & ->)]]; [reflexivity| |].
  - rewrite around_pos, around_neg. reflexivity.
  - rewrite around_neg. rewrite Z.opp_involutive, around_pos. reflexivity.
Qed.

Lemma moved_mirror k cx f g f' g' : moved false k cx f g -> (forall i, f' i = f (- i)) -> (forall i, g' i = g (- i)) ->
  moved true k cx f' g'.
Proof.
  intros H F G i. rewrite G, H.
  destruct ((0 <=? i + Z.of_nat k) && (i <? 0)) eqn:E.
  - replace ((- i - Z.of_nat k <=? 0) && (0 <? - i)) with true; auto.
    zb. symmetry. apply andb_true_iff. split; [apply Z.leb_le|apply Z.ltb_lt]; lia.
  - replace ((- i - Z.of_nat k <=? 0) && (0 <? - i)) with false.
    + rewrite F. f_equal. lia.
    + symmetry. apply andb_false_iff in E. apply andb_false_iff. destruct E; zb; [left; apply Z.leb_gt|right; apply Z.ltb_ge]; lia.
Qed.

Lemma sn_right {A} (sp : spannable A) good ok den skip :
  span_right sp good ok den -> skip_right_spec sp good ok den skip ->
  tape_right (sn_ops sp skip) good (both ok) (around den) /\ tape_sharp (sn_ops sp skip) good (both ok) (around den).
Proof.
  intros ((N1 & N2) & PU & PS & BL & MK) (SK & SN).
  assert (side_l : forall l c r, blank_toward (around den (l, c, r)) false <-> c = 0 /\ forall n, den l n = 0).
  { intros l c r. unfold blank_toward. split.
    - intros H. split; [apply (H 0); lia|]. intros n. rewrite <- (around_neg den l c r n). apply (H (1 + Z.of_nat n)). lia.
    - intros (-> & H) i Hi. destruct (around_cases i) as [->|[(n & ->)|(n & ->)]]; [reflexivity| |lia].
      cbn [toward]. rewrite around_neg. apply H. }
  assert (side_r : forall l c r, blank_toward (around den (l, c, r)) true <-> c = 0 /\ forall n, den r n = 0).
  { intros l c r. unfold blank_toward. split.
    - intros H. split; [apply (H 0); lia|]. intros n. rewrite <- (around_pos den l c r n). apply (H (1 + Z.of_nat n)). lia.
    - intros (-> & H) i Hi. destruct (around_cases i) as [->|[(n & ->)|(n & ->)]]; [reflexivity| |lia].
      cbn [toward]. rewrite around_pos. apply H. }
  assert (step1 : forall l c r cx, ok l -> ok r -> good cx -> exists l' x r', sn_step_left sp (l, c, r) cx = (1%nat, (l', x, r'))
     /\ ok l' /\ ok r' /\ moved false 1 cx (around den (l, c, r)) (around den (l', x, r'))).
  { intros l c r cx Hl Hr G. unfold sn_step_left. specialize (PU l Hl). specialize (PS r cx Hr G).
    destruct (sp_pull sp l) as [x k]. cbn [fst snd] in PU. exists k, x, (sp_push sp cx 1 r).
    split; [reflexivity|]. split; [apply PU|]. split; [apply PS|]. apply moved_left.
    - apply PU.
    - intros n. apply PU.
    - intros n. rewrite (proj2 PS). destruct n; [reflexivity|]. cbn [Nat.ltb Nat.leb Nat.sub]. rewrite Nat.sub_0_r. reflexivity.
    - intros n Hn. lia. }
  split; [split; [|split; [|split; [|split; [|split]]]]|split; [|split]].
  - (* init *) split; [cbn; auto|]. intros i. change (tp_init (sn_ops sp skip)) with (sp_none sp, 0, sp_none sp).
    destruct (around_cases i) as [->|[(n & ->)|(n & ->)]]; [reflexivity|rewrite around_pos|rewrite around_neg]; apply N2.
  - (* read *) intros [[l c] r] (Hl & Hr). cbn [tp_read sn_ops sn_read]. rewrite around_0.
    destruct (Z.eqb_spec c 0) as [->|C]; cbn [fst snd].
    + split; [reflexivity|]. intros dir E. destruct (sp_blank sp l) eqn:B1.
      * injection E as <-. apply side_l. split; auto. apply BL; auto.
      * destruct (sp_blank sp r) eqn:B2; [|discriminate]. injection E as <-. apply side_r. split; auto. apply BL; auto.
    + split; [reflexivity|]. intros dir E. discriminate.
  - (* step *) intros [[l c] r] dir cx (Hl & Hr) G. destruct dir; cbn [tp_step sn_ops tp_step_left tp_step_right].
    + unfold sn_step_right. destruct (step1 r c l cx Hr Hl G) as (l' & x & r' & E & A1 & A2 & A3). rewrite E. cbn [fst snd].
      split; [reflexivity|]. split; [split; auto|]. eapply moved_mirror; [exact A3| |]; intros i; apply around_mirror.
    + destruct (step1 l c r cx Hl Hr G) as (l' & x & r' & E & A1 & A2 & A3). rewrite E. cbn [fst snd].
      split; [reflexivity|]. split; [split; auto|]. exact A3.
  - (* skip *) intros [[l c] r] dir cx k t' (Hl & Hr) G E. destruct dir; cbn [tp_skip sn_ops tp_skip_left tp_skip_right] in E.
    + unfold sn_skip_right in E. destruct (SK r c l cx Hr Hl G) as (j & l' & x & r' & F & A1 & A2 & A3 & A4 & A5 & A6 & A7).
      rewrite F in E. injection E as <- <-. split; [lia|]. split; [split; auto|].
      split; [eapply moved_mirror; [apply (moved_left den r c l l' x r' j cx); auto| |]; intros i; apply around_mirror|].
      split.
      * intros i Hi. cbn [toward]. rewrite around_0. destruct (around_cases i) as [->|[(n & ->)|(n & ->)]]; [reflexivity| |lia].
        rewrite around_pos. apply A3. lia.
      * intros Q. change (tp_init (sn_ops sp skip)) with (sp_none sp, 0, sp_none sp) in Q. injection Q as Q1 Q2 Q3. subst r.
        rewrite SN in F. unfold sn_step_left in F. destruct (sp_pull sp (sp_none sp)) in F. injection F. intros. lia.
    + destruct (SK l c r cx Hl Hr G) as (j & l' & x & r' & F & A1 & A2 & A3 & A4 & A5 & A6 & A7).
      rewrite F in E. injection E as <- <-. split; [lia|]. split; [split; auto|].
      split; [apply (moved_left den l c r l' x r' j cx); auto|].
      split.
      * intros i Hi. cbn [toward]. rewrite around_0. destruct (around_cases i) as [->|[(n & ->)|(n & ->)]]; [reflexivity| |lia].
        rewrite around_neg. apply A3. lia.
      * intros Q. change (tp_init (sn_ops sp skip)) with (sp_none sp, 0, sp_none sp) in Q. injection Q as Q1 Q2 Q3. subst l.
        rewrite SN in F. unfold sn_step_left in F. destruct (sp_pull sp (sp_none sp)) in F. injection F. intros. lia.
  - (* blank *) intros [[l c] r] (Hl & Hr). cbn [tp_blank sn_ops sn_blank]. destruct (Z.eqb_spec c 0) as [->|C].
    + rewrite andb_true_iff, (BL l Hl), (BL r Hr). split.
      * intros (A1 & A2) i. destruct (around_cases i) as [->|[(n & ->)|(n & ->)]]; [reflexivity|rewrite around_pos|rewrite around_neg]; auto.
      * intros H. split; intros n; [rewrite <- (around_neg den l 0 r n)|rewrite <- (around_pos den l 0 r n)]; apply H.
    + split; [discriminate|]. intros H. exfalso. apply C. apply (H 0).
  - (* marks *) intros [[l c] r] (Hl & Hr). cbn [tp_marks sn_ops sn_marks].
    destruct (MK l Hl) as (pl & L1 & L2 & L3), (MK r Hr) as (pr & R1 & R2 & R3).
    exists (map (fun n => - (1 + Z.of_nat n)) pl ++ (if c =? 0 then [] else [0]) ++ map (fun n => 1 + Z.of_nat n) pr).
    assert (Il : forall p, In p (map (fun n => - (1 + Z.of_nat n)) pl) <-> exists n, p = - (1 + Z.of_nat n) /\ den l n <> 0).
    { intros p. rewrite in_map_iff. split; intros (n & X & Y); exists n; (split; [lia|]); apply L2; auto. }
    assert (Ir : forall p, In p (map (fun n => 1 + Z.of_nat n) pr) <-> exists n, p = 1 + Z.of_nat n /\ den r n <> 0).
    { intros p. rewrite in_map_iff. split; intros (n & X & Y); exists n; (split; [lia|]); apply R2; auto. }
    assert (Ic : forall p, In p (if c =? 0 then [] else [0]) <-> p = 0 /\ c <> 0).
    { intros p. destruct (Z.eqb_spec c 0); cbn; intuition lia. }
    split; [|split].
    + assert (app : forall (a b : list Z), NoDup a -> NoDup b -> (forall x, In x a -> In x b -> False) -> NoDup (a ++ b)).
      { intros a b Ha Hb D. induction Ha as [|x a X Ha IH]; auto. cbn. constructor.
        - rewrite in_app_iff. intros [Y|Y]; [auto|]. apply (D x); cbn; auto.
        - apply IH. intros y Y1 Y2. apply (D y); cbn; auto. }
      apply app; [|apply app|].
      * apply FinFun.Injective_map_NoDup; auto. intros x y. lia.
      * destruct (c =? 0); repeat constructor; cbn; tauto.
      * apply FinFun.Injective_map_NoDup; auto. intros x y. lia.
      * intros x X Y. apply Ic in X. apply Ir in Y. destruct Y as (n & -> & _). lia.
      * intros x X Y. apply Il in X. destruct X as (n & -> & _). apply in_app_iff in Y. destruct Y as [Y|Y].
        -- apply Ic in Y. lia.
        -- apply Ir in Y. destruct Y as (m & Y & _). lia.
    + intros p. rewrite !in_app_iff, Il, Ic, Ir. destruct (around_cases p) as [->|[(n & ->)|(n & ->)]].
      * rewrite around_0. split; [intros [(n & X & _)|[X|(n & X & _)]]; [lia|tauto|lia]|tauto].
      * rewrite around_pos. split; [intros [(m & X & _)|[X|(m & X & Y)]]; [lia|lia|]|].
        -- replace n with m by lia. exact Y.
        -- intros X. right. right. exists n. auto.
      * rewrite around_neg. split; [intros [(m & X & Y)|[X|(m & X & Y)]]; [|lia|lia]|].
        -- replace n with m by lia. exact Y.
        -- intros X. left. exists n. auto.
    + rewrite !app_length, !map_length, L3, R3. destruct (c =? 0); cbn [length]; lia.
  - (* left edge *) intros [[l c] r] (Hl & Hr) H. apply side_l in H. destruct H as (-> & H). cbn. rewrite Z.eqb_refl.
    apply BL in H; auto. rewrite H. reflexivity.
  - intros [[l c] r] (Hl & Hr) H0 H. apply side_r in H. destruct H as (-> & H). cbn. rewrite Z.eqb_refl.
    apply BL in H; auto. rewrite H. destruct (sp_blank sp l) eqn:B; [|reflexivity].
    exfalso. apply H0. apply side_l. split; auto. apply BL; auto.
  - intros [[l c] r] dir cx (Hl & Hr) G. destruct dir; cbn [tp_skip sn_ops tp_skip_left tp_skip_right].
    + unfold sn_skip_right. destruct (SK r c l cx Hr Hl G) as (j & l' & x & r' & F & A1 & A2 & A3 & A4 & A5 & A6 & A7).
      rewrite F. eexists _, _. split; [reflexivity|]. intros NB. cbn [toward]. rewrite around_0.
      replace (Z.of_nat (S j)) with (1 + Z.of_nat j) by lia. rewrite around_pos. apply A7.
      destruct (Z.eq_dec c 0) as [->|C]; [|auto]. right.
      destruct (sp_blank sp r) eqn:B.
      * exfalso. apply NB. apply side_r. split; auto. apply BL; auto.
      * destruct (MK r Hr) as (pr & R1 & R2 & R3). destruct pr as [|n pr].
        -- exfalso. assert (B' : sp_blank sp r = true); [|congruence]. apply BL; auto. intros n.
           destruct (Z.eq_dec (den r n) 0); auto. apply R2 in n0. destruct n0.
        -- exists n. apply R2. cbn. auto.
    + destruct (SK l c r cx Hl Hr G) as (j & l' & x & r' & F & A1 & A2 & A3 & A4 & A5 & A6 & A7).
      rewrite F. eexists _, _. split; [reflexivity|]. intros NB. cbn [toward]. rewrite around_0.
      replace (Z.of_nat (S j)) with (1 + Z.of_nat j) by lia. rewrite around_neg. apply A7.
      destruct (Z.eq_dec c 0) as [->|C]; [|auto]. right.
      destruct (sp_blank sp l) eqn:B.
      * exfalso. apply NB. apply side_l. split; auto. apply BL; auto.
      * destruct (MK l Hl) as (pl & R1 & R2 & R3). destruct pl as [|n pl].
        -- exfalso. assert (B' : sp_blank sp l = true); [|congruence]. apply BL; auto. intros n.
           destruct (Z.eq_dec (den l n) 0); auto. apply R2 in n0. destruct n0.
        -- exists n. apply R2. cbn. auto.
Qed.

(** ** Lists of cells *)

Lemma list_marks l : exists ps : list nat, NoDup ps /\ (forall n, In n ps <-> nth n l 0 <> 0) /\ length ps = cell_marks l.
Proof.
  induction l as [|x l (ps & A & B & C)].
  - exists []. split; [constructor|]. split; [|reflexivity]. intros n. destruct n; cbn; tauto.
  - unfold cell_marks in *. cbn [filter].
    assert (I : forall n, In n (map S ps) <-> exists m, n = S m /\ nth m l 0 <> 0).
    { intros n. rewrite in_map_iff. split; intros (m & X & Y); exists m; (split; [auto|]); apply B; auto. }
    assert (D : NoDup (map S ps)) by (apply FinFun.Injective_map_NoDup; auto; intros a b; lia).
    destruct (Z.eqb_spec x 0) as [->|X]; cbn [negb].
    + exists (map S ps). split; [exact D|]. split; [|rewrite map_length; exact C]. intros n. rewrite I. destruct n as [|n]; cbn [nth].
      * split; [intros (m & Y & _); lia|tauto].
      * split; [intros (m & Y & W); injection Y as ->; auto|]. intros Y. exists n. auto.
    + exists (0%nat :: map S ps). split; [constructor; [rewrite I; intros (m & Y & _); lia|exact D]|].
      split; [|cbn [length]; rewrite map_length; lia]. intros n. cbn [In]. rewrite I. destruct n as [|n]; cbn [nth].
      * tauto.
      * split; [intros [Y|(m & Y & W)]; [lia|injection Y as ->; auto]|]. intros Y. right. exists n. auto.
Qed.

Lemma cell_blank_iff l : cell_blank l = true <-> forall n, nth n l 0 = 0.
Proof.
  induction l as [|x l IH]; cbn [cell_blank].
  - split; auto. intros _ [|n]; reflexivity.
  - destruct (Z.eqb_spec x 0) as [->|X].
    + rewrite IH. split; [intros H [|n]; cbn; auto|intros H n; apply (H (S n))].
    + split; [discriminate|]. intros H. exfalso. apply X. apply (H 0%nat).
Qed.

Lemma cell_span_right : span_right cell_span any_color (fun _ => True) cells_den.
Proof.
  unfold cells_den. split; [|split; [|split; [|split]]].
  - split; auto. intros [|n]; reflexivity.
  - intros [|x s] _; (split; [reflexivity|split; [exact Logic.I|]]); intros [|n]; reflexivity.
  - intros s cx _ _. split; [exact Logic.I|]. intros [|n]; reflexivity.
  - intros s _. apply cell_blank_iff.
  - intros s _. apply list_marks.
Qed.

Lemma cell_skip_right : skip_right_spec cell_span any_color (fun _ => True) cells_den
  (fun t cx => let '(l, c, r) := t in Some (cell_skip l c r cx)).
Proof.
  unfold cells_den. split; [|reflexivity]. intros l c r cx _ _ _. revert c r. induction l as [|cn l IH]; intros c r; cbn [cell_skip].
  - exists 0%nat, [], 0, (cx :: r). split; [reflexivity|]. repeat split; auto.
    + intros n Hn. lia.
    + intros n. destruct n; reflexivity.
    + intros n. destruct n; [reflexivity|]. cbn [nth Nat.ltb Nat.leb Nat.sub]. rewrite Nat.sub_0_r. reflexivity.
    + intros [C|(n & N)] E; [cbn in E; congruence|destruct n; cbn in N; congruence].
  - destruct (Z.eqb_spec cn c) as [->|C]; cbn [negb].
    + destruct (IH c (cx :: r)) as (k & l' & x & r' & E & _ & _ & A3 & A4 & A5 & A6 & A7).
      injection E as E. rewrite E. exists (S k), l', x, r'. split; [reflexivity|]. repeat split; auto.
      * intros [|n] Hn; cbn; auto. apply A3. lia.
      * intros n. rewrite A6. destruct (Nat.ltb_spec n (S k)) as [H|H], (Nat.ltb_spec n (S (S k))) as [H'|H']; try lia; auto.
        -- replace (n - S k)%nat with 0%nat by lia. reflexivity.
        -- replace (n - S k)%nat with (S (n - S (S k))) by lia. reflexivity.
      * intros H. apply A7. destruct H as [H|(n & H)]; auto. destruct n; cbn in H; eauto.
    + exists 0%nat, l, cn, (cx :: r). split; [reflexivity|]. repeat split; auto.
      * intros n Hn. lia.
      * intros n. destruct n; [reflexivity|]. cbn [nth Nat.ltb Nat.leb Nat.sub]. rewrite Nat.sub_0_r. reflexivity.
Qed.

Lemma cell_tape_right : tape_right cell_ops any_color (both (fun _ => True)) (around cells_den)
  /\ tape_sharp cell_ops any_color (both (fun _ => True)) (around cells_den).
Proof. exact (sn_right _ _ _ _ _ cell_span_right cell_skip_right). Qed.

(** ** CellVectTape is no different *)

Lemma cvect_pull_eq s : cvect_pull s = cell_pull s.
Proof. destruct s; reflexivity. Qed.

Lemma cvect_step_eq t cx : sn_step_left cvect_span t cx = sn_step_left cell_span t cx.
Proof. destruct t as [[l c] r]. unfold sn_step_left. cbn. rewrite cvect_pull_eq. reflexivity. Qed.

Lemma cvect_skip_eq l : forall c r cx, cvect_skip l c r cx = cell_skip l c r cx.
Proof.
  induction l as [|cn l IH]; intros c r cx; cbn [cvect_skip cell_skip]; rewrite cvect_step_eq; [reflexivity|].
  rewrite IH. reflexivity.
Qed.

Lemma cvect_tape_right : tape_right cvect_ops any_color (both (fun _ => True)) (around cells_den)
  /\ tape_sharp cvect_ops any_color (both (fun _ => True)) (around cells_den).
Proof.
  apply sn_right.
  - destruct cell_span_right as (A & B & C & D & E). split; [exact A|]. split; [|split; [exact C|split; [exact D|exact E]]].
    intros s H. specialize (B s H). cbn [sp_pull cvect_span cell_span] in *. rewrite cvect_pull_eq. exact B.
  - destruct cell_skip_right as (A & B). split.
    + intros l c r cx H1 H2 H3. rewrite cvect_skip_eq. exact (A l c r cx H1 H2 H3).
    + reflexivity.
Qed.

(** ** Blocks *)

Definition expand (s : bspan) : list Z := flat_map (fun b => repeat (fst b) (snd b)) s.

Lemma repeat_snoc {A} (x : A) n : repeat x (S n) = repeat x n ++ [x].
Proof. induction n; cbn in *; congruence. Qed.

Lemma expand_pull s : blocks_ok s -> expand s = match s with [] => [] | _ => fst (block_pull s) :: expand (snd (block_pull s)) end.
Proof. destruct s as [|(c, [|[|n]]) s]; cbn [blocks_ok]; auto. lia. Qed.

Lemma block_pull_ok s : blocks_ok s -> blocks_ok (snd (block_pull s)).
Proof. destruct s as [|(c, [|[|n]]) s]; cbn [blocks_ok block_pull snd]; try tauto. intros (A & B & C). repeat split; auto. lia. Qed.

Lemma expand_push c k s : expand (block_push c k s) = repeat c k ++ expand s.
Proof.
  destruct s as [|(q, n) s]; cbn [block_push]; [reflexivity|].
  destruct (Z.eqb_spec c q) as [->|C]; cbn [expand flat_map fst snd]; [|reflexivity].
  rewrite repeat_app, <- app_assoc. reflexivity.
Qed.

Lemma block_push_ok c k s : (1 <= k)%nat -> blocks_ok s -> blocks_ok (block_push c k s).
Proof.
  intros K. destruct s as [|(q, n) s]; cbn [block_push]; [cbn; auto|].
  destruct (Z.eqb_spec c q) as [->|C]; cbn [blocks_ok]; [|tauto]. intros (A & B & D). split; [lia|]. auto.
Qed.

Lemma block_blank_iff s : blocks_ok s -> (block_blank s = true <-> forall n, nth n (expand s) 0 = 0).
Proof.
  induction s as [|(c, n) s IH]; cbn [blocks_ok block_blank]; intros H.
  - split; auto. intros _ [|n]; reflexivity.
  - destruct H as (A & B & C). destruct (Z.eqb_spec c 0) as [->|N].
    + rewrite (IH C). cbn [expand flat_map fst snd]. split.
      * intros H m. destruct (Nat.ltb_spec m n) as [M|M].
        -- rewrite app_nth1 by (rewrite repeat_length; auto). apply nth_repeat.
        -- rewrite app_nth2 by (rewrite repeat_length; auto). apply H.
      * intros H m. specialize (H (n + m)%nat). rewrite app_nth2 in H by (rewrite repeat_length; lia).
        rewrite repeat_length in H. replace (n + m - n)%nat with m in H by lia. exact H.
    + split; [discriminate|]. intros H. exfalso. apply N. specialize (H 0%nat). destruct n; [lia|]. exact H.
Qed.

Lemma fold_add {A} (f : A -> nat) l : forall a, fold_left (fun a b => (a + f b)%nat) l a = (a + fold_left (fun a b => (a + f b)%nat) l 0)%nat.
Proof. induction l as [|x l IH]; intros a; cbn [fold_left]; [lia|]. rewrite IH, (IH (0 + f x)%nat). lia. Qed.

Lemma filter_repeat c n : length (filter (fun x => negb (x =? 0)) (repeat c n)) = (if (c =? 0)%Z then 0 else n)%nat.
Proof. induction n; cbn [repeat filter]; [destruct (c =? 0); reflexivity|]. destruct (c =? 0); cbn [negb length]; lia. Qed.

Lemma block_marks_expand s : block_marks s = cell_marks (expand s).
Proof.
  unfold block_marks, cell_marks. induction s as [|(c, n) s IH]; [reflexivity|]. cbn [fold_left expand flat_map fst snd].
  rewrite (fold_add (fun b => if (fst b =? 0)%Z then 0%nat else snd b)).
  rewrite IH, filter_app, app_length, filter_repeat. fold (expand s). lia.
Qed.

Lemma block_span_right : span_right block_span any_color blocks_ok blocks_den.
Proof.
  unfold blocks_den. split; [|split; [|split; [|split]]].
  - split; [cbn; auto|]. intros [|n]; reflexivity.
  - intros s H. cbn [sp_pull block_span]. fold (expand s). fold (expand (snd (block_pull s))).
    split; [|split; [apply block_pull_ok; auto|]].
    + rewrite (expand_pull s H). destruct s as [|b s]; reflexivity.
    + intros n. rewrite (expand_pull s H). destruct s as [|b s]; [destruct n; reflexivity|]. reflexivity.
  - intros s cx H _. cbn [sp_push block_span]. fold (expand s). fold (expand (block_push cx 1 s)).
    split; [apply block_push_ok; auto|]. intros n. rewrite expand_push. destruct n; reflexivity.
  - intros s H. apply block_blank_iff; auto.
  - intros s H. cbn [sp_marks block_span]. rewrite block_marks_expand. apply list_marks.
Qed.

Lemma nth_run (c : Z) k rest n : nth n (repeat c k ++ rest) 0 = if (n <? k)%nat then c else nth (n - k)%nat rest 0.
Proof.
  destruct (Nat.ltb_spec n k) as [H|H].
  - rewrite app_nth1 by (rewrite repeat_length; auto). rewrite <- (repeat_length c k) in H.
    apply (repeat_spec k c). apply nth_In. exact H.
  - rewrite app_nth2 by (rewrite repeat_length; auto). rewrite repeat_length. reflexivity.
Qed.

Lemma step_case {A} (sp : spannable A) good ok den l c r cx : span_right sp good ok den -> ok l -> ok r -> good cx ->
  (c <> 0 \/ (exists n, den l n <> 0) -> den l 0%nat <> c) ->
  exists k l' x r', Some (sn_step_left sp (l, c, r) cx) = Some (S k, (l', x, r')) /\ ok l' /\ ok r'
     /\ (forall n, (n < k)%nat -> den l n = c) /\ x = den l k
     /\ (forall n, den l' n = den l (S k + n)%nat)
     /\ (forall n, den r' n = if (n <? S k)%nat then cx else den r (n - S k)%nat)
     /\ (c <> 0 \/ (exists n, den l n <> 0) -> den l k <> c).
Proof.
  intros (_ & PU & PS & _) Hl Hr G MX. unfold sn_step_left. specialize (PU l Hl). specialize (PS r cx Hr G).
  destruct (sp_pull sp l) as [x l']. cbn [fst snd] in PU. exists 0%nat, l', x, (sp_push sp cx 1 r).
  split; [reflexivity|]. split; [apply PU|]. split; [apply PS|]. split; [intros n Hn; lia|]. split; [apply PU|].
  split; [intros n; apply PU|]. split; [|exact MX]. intros n. rewrite (proj2 PS). destruct n; [reflexivity|].
  cbn [Nat.ltb Nat.leb Nat.sub]. rewrite Nat.sub_0_r. reflexivity.
Qed.

Lemma block_skip_right : skip_right_spec block_span any_color blocks_ok blocks_den (fun t cx => Some (block_skip t cx)).
Proof.
  split; [|reflexivity]. intros l c r cx Hl Hr G. unfold block_skip. destruct l as [|(bc, bn) l].
  - apply (step_case block_span any_color blocks_ok blocks_den); auto using block_span_right.
    intros [C|(n & N)]; [cbn; congruence|destruct n; cbn in N; congruence].
  - destruct (Z.eqb_spec bc c) as [->|C]; cbn [negb].
    + cbn [blocks_ok] in Hl. destruct Hl as (A & B & D). pose proof (expand_pull l D) as X.
      pose proof (block_pull_ok l D) as O. destruct (block_pull l) as [x l'] eqn:P. cbn [fst snd] in *.
      exists bn, l', x, (block_push cx (1 + bn) r). split; [reflexivity|]. split; [exact O|].
      split; [apply block_push_ok; [lia|auto]|]. unfold blocks_den. cbn [flat_map fst snd].
      fold (expand l). fold (expand l'). fold (expand r). fold (expand (block_push cx (1 + bn) r)).
      assert (X0 : nth 0 (expand l) 0 = x).
      { rewrite X. destruct l; [cbn in P; injection P as <- <-; reflexivity|reflexivity]. }
      split; [intros n Hn; rewrite nth_run; destruct (Nat.ltb_spec n bn); [reflexivity|lia]|].
      split; [rewrite nth_run, Nat.ltb_irrefl, Nat.sub_diag; symmetry; exact X0|].
      split; [|split].
      * intros n. rewrite nth_run. destruct (Nat.ltb_spec (S bn + n) bn); [lia|].
        replace (S bn + n - bn)%nat with (S n) by lia. rewrite X. destruct l; [cbn in P; injection P as <- <-; destruct n; reflexivity|reflexivity].
      * intros n. rewrite expand_push, nth_run. reflexivity.
      * intros H. rewrite nth_run, Nat.ltb_irrefl, Nat.sub_diag, X0. destruct l as [|(q, m) l].
        -- cbn in P. injection P as <- <-. destruct H as [H|(n & H)]; [congruence|].
           rewrite nth_run in H. destruct (n <? bn)%nat; [congruence|]. destruct (n - bn)%nat; cbn in H; congruence.
        -- cbn in P. injection P as <- _. congruence.
    + apply (step_case block_span any_color blocks_ok blocks_den); auto using block_span_right. intros _.
      cbn [blocks_ok] in Hl. destruct bn; [lia|]. exact C.
Qed.

Lemma block_tape_right : tape_right block_ops any_color (both blocks_ok) (around blocks_den)
  /\ tape_sharp block_ops any_color (both blocks_ok) (around blocks_den).
Proof. exact (sn_right _ _ _ _ _ block_span_right block_skip_right). Qed.

(** ** BlockVectTape *)

Lemma bvect_pull_eq s : bvect_pull s = block_pull s.
Proof. destruct s; reflexivity. Qed.

Lemma bvect_step_eq t cx : sn_step_left bvect_span t cx = sn_step_left block_span t cx.
Proof. destruct t as [[l c] r]. unfold sn_step_left. cbn. rewrite bvect_pull_eq. reflexivity. Qed.

Lemma bvect_skip_eq t cx : bvect_skip t cx = block_skip t cx.
Proof.
  destruct t as [[l c] r]. unfold bvect_skip, block_skip. rewrite bvect_step_eq. destruct l as [|(bc, bn) l]; [reflexivity|].
  rewrite bvect_pull_eq. reflexivity.
Qed.

Lemma bvect_tape_right : tape_right bvect_ops any_color (both blocks_ok) (around blocks_den)
  /\ tape_sharp bvect_ops any_color (both blocks_ok) (around blocks_den).
Proof.
  apply sn_right.
  - destruct block_span_right as (A & B & C & D & E). split; [exact A|]. split; [|split; [exact C|split; [exact D|exact E]]].
    intros s H. specialize (B s H). cbn [sp_pull bvect_span block_span] in *. rewrite bvect_pull_eq. exact B.
  - destruct block_skip_right as (A & B). split.
    + intros l c r cx H1 H2 H3. rewrite bvect_skip_eq. exact (A l c r cx H1 H2 H3).
    + reflexivity.
Qed.

(** ** SplitTape *)

Definition comb (s : sspan) : bspan := combine (fst s) (snd s).

Lemma split_pull_comb s : split_ok s ->
  fst (split_pull s) = fst (block_pull (comb s)) /\ comb (snd (split_pull s)) = snd (block_pull (comb s))
  /\ length (fst (snd (split_pull s))) = length (snd (snd (split_pull s))).
Proof.
  destruct s as [[|c cs] [|n ns]]; intros (L & O); cbn in L; try discriminate L; [cbn; auto|].
  injection L as L. cbn [fst snd combine blocks_ok] in O. destruct n as [|[|n]]; [lia|cbn; auto|]. cbn. auto.
Qed.

Lemma split_push_comb cx k s : split_ok s ->
  comb (split_push cx k s) = block_push cx k (comb s) /\ length (fst (split_push cx k s)) = length (snd (split_push cx k s)).
Proof.
  destruct s as [[|c cs] [|n ns]]; intros (L & O); cbn in L; try discriminate L; [cbn; auto|].
  injection L as L. cbn [split_push comb fst snd combine block_push]. destruct (cx =? c) eqn:E; cbn; auto.
Qed.

Lemma split_blank_comb s : split_ok s -> split_blank s = block_blank (comb s).
Proof.
  destruct s as [cs ns]. intros (L & _). unfold split_blank, comb. cbn [fst snd] in *. revert ns L.
  induction cs as [|c cs IH]; intros [|n ns] L; cbn in L; try discriminate L; [reflexivity|].
  injection L as L. cbn. rewrite (IH ns L). destruct (c =? 0); reflexivity.
Qed.

Lemma split_span_right : span_right split_span any_color split_ok split_den.
Proof.
  destruct block_span_right as (A & B & C & D & E). split; [|split; [|split; [|split]]].
  - split; [split; cbn; auto|]. apply A.
  - intros s H. destruct (split_pull_comb s H) as (X & Y & W). destruct H as (L & O). specialize (B _ O).
    cbn [sp_pull split_span block_span] in *. unfold split_den. change (combine (fst s) (snd s)) with (comb s) in *.
    change (combine (fst (snd (split_pull s))) (snd (snd (split_pull s)))) with (comb (snd (split_pull s))).
    rewrite X. split; [apply B|]. split; [split; [exact W|change (blocks_ok (comb (snd (split_pull s)))); rewrite Y; apply B]|].
    rewrite Y. apply B.
  - intros s cx H G. destruct (split_push_comb cx 1 s H) as (X & W). destruct H as (L & O). specialize (C _ cx O G).
    cbn [sp_push split_span block_span] in *. unfold split_den. change (combine (fst s) (snd s)) with (comb s) in *.
    change (combine (fst (split_push cx 1 s)) (snd (split_push cx 1 s))) with (comb (split_push cx 1 s)).
    split; [split; [exact W|change (blocks_ok (comb (split_push cx 1 s))); rewrite X; apply C]|]. rewrite X. apply C.
  - intros s H. cbn [sp_blank split_span]. rewrite (split_blank_comb s H). apply D. apply H.
  - intros s H. exact (E (comb s) (proj2 H)).
Qed.

Lemma split_skip_right : skip_right_spec split_span any_color split_ok split_den (fun t cx => Some (split_skip t cx)).
Proof.
  split; [|reflexivity]. intros l c r cx Hl Hr G. unfold split_skip. destruct l as [[|bc lcol] [|bn lcnt]].
  - apply (step_case split_span any_color split_ok split_den); auto using split_span_right.
    intros [C|(n & N)]; [cbn; congruence|destruct n; cbn in N; congruence].
  - destruct Hl as (L & _). discriminate L.
  - destruct Hl as (L & _). discriminate L.
  - destruct (Z.eqb_spec bc c) as [->|C]; cbn [negb].
    + destruct block_skip_right as (BS & _).
      destruct (BS ((c, bn) :: combine lcol lcnt) c (comb r) cx) as (k & l' & x & r' & E & A1 & A2 & A3 & A4 & A5 & A6 & A7);
        [apply (proj2 Hl)|apply (proj2 Hr)|exact G|].
      injection E as E. unfold block_skip in E. rewrite Z.eqb_refl in E. cbn [negb] in E.
      assert (Hl' : split_ok (lcol, lcnt)).
      { destruct Hl as (L & O). cbn in L. injection L as L. split; [exact L|]. cbn [fst snd combine blocks_ok] in *. tauto. }
      destruct (split_pull_comb _ Hl') as (X & Y & W). destruct (split_push_comb cx (1 + bn) r Hr) as (X' & W').
      destruct (split_pull (lcol, lcnt)) as [y m]. cbn [fst snd] in *. unfold comb in X at 1, Y at 2. cbn [fst snd] in X, Y.
      destruct (block_pull (combine lcol lcnt)) as [z q]. cbn [fst snd] in *. injection E as E1 E2 E3 E4. subst k l' x y r'.
      exists bn, m, z, (split_push cx (1 + bn) r). split; [reflexivity|]. unfold split_den. cbn [fst snd combine].
      change (combine (fst m) (snd m)) with (comb m). change (combine (fst r) (snd r)) with (comb r).
      change (combine (fst (split_push cx (1 + bn) r)) (snd (split_push cx (1 + bn) r))) with (comb (split_push cx (1 + bn) r)).
      split; [split; [exact W|]; change (blocks_ok (comb m)); rewrite Y; exact A1|].
      split; [split; [exact W'|]; change (blocks_ok (comb (split_push cx (1 + bn) r))); rewrite X'; exact A2|].
      rewrite Y, X'. split; [exact A3|]. split; [exact A4|]. split; [exact A5|]. split; [exact A6|exact A7].
    + apply (step_case split_span any_color split_ok split_den); auto using split_span_right. intros _.
      destruct Hl as (L & O). cbn [fst snd combine blocks_ok] in O. destruct bn; [lia|]. exact C.
Qed.

Lemma split_tape_right : tape_right split_ops any_color (both split_ok) (around split_den)
  /\ tape_sharp split_ops any_color (both split_ok) (around split_den).
Proof. exact (sn_right _ _ _ _ _ split_span_right split_skip_right). Qed.

(** ** NumTape *)

Lemma num_den_S z n : num_den z (S n) = num_den (z / 10) n.
Proof.
  unfold num_den. rewrite Nat2Z.inj_succ, Z.pow_succ_r by lia. rewrite Z.div_div; [reflexivity|lia|]. apply Z.pow_pos_nonneg; lia.
Qed.

Lemma num_den_0 z : num_den z 0 = z mod 10.
Proof. unfold num_den. change (Z.of_nat 0) with 0. rewrite Z.pow_0_r, Z.div_1_r. reflexivity. Qed.

Lemma num_den_zero n : num_den 0 n = 0.
Proof. unfold num_den. rewrite Z.div_0_l; [reflexivity|]. pose proof (Z.pow_pos_nonneg 10 (Z.of_nat n)). lia. Qed.

Lemma num_digits fuel : forall z, 0 <= z < 2 ^ Z.of_nat fuel -> forall n, nth n (digits fuel z) 0 = num_den z n.
Proof.
  induction fuel as [|fuel IH]; intros z Hz n.
  - change (2 ^ Z.of_nat 0) with 1 in Hz. replace z with 0 by lia. rewrite num_den_zero. destruct n; reflexivity.
  - cbn [digits]. rewrite Nat2Z.inj_succ, Z.pow_succ_r in Hz by lia. destruct (Z.ltb_spec z 10) as [H|H].
    + destruct n as [|n]; cbn [nth].
      * rewrite num_den_0, Z.mod_small; lia.
      * rewrite num_den_S, Z.div_small, num_den_zero by lia. destruct n; reflexivity.
    + destruct n as [|n]; cbn [nth]; [symmetry; apply num_den_0|]. rewrite num_den_S. apply IH.
      split; [apply Z.div_pos; lia|]. apply Z.div_lt_upper_bound; lia.
Qed.

Lemma log2_fuel z : 0 <= z -> 0 <= z < 2 ^ Z.of_nat (S (Z.to_nat (Z.log2 z))).
Proof.
  intros H. split; auto. rewrite Nat2Z.inj_succ, Z2Nat.id by apply Z.log2_nonneg.
  destruct (Z.eq_dec z 0) as [->|N]; [reflexivity|]. apply Z.log2_spec. lia.
Qed.

Lemma num_blank_iff z : 0 <= z -> ((z =? 0) = true <-> forall n, num_den z n = 0).
Proof.
  intros H. rewrite Z.eqb_eq. split; [intros -> n; apply num_den_zero|].
  intros A. assert (X : forall fuel y, 0 <= y < 2 ^ Z.of_nat fuel -> (forall n, num_den y n = 0) -> y = 0).
  { induction fuel as [|fuel IH]; intros y Hy B.
    - change (2 ^ Z.of_nat 0) with 1 in Hy. lia.
    - rewrite Nat2Z.inj_succ, Z.pow_succ_r in Hy by lia. pose proof (B 0%nat) as B0. rewrite num_den_0 in B0.
      assert (y / 10 = 0).
      { apply IH; [|intros n; rewrite <- num_den_S; apply B]. split; [apply Z.div_pos; lia|]. apply Z.div_lt_upper_bound; lia. }
      pose proof (Z.div_mod y 10). lia. }
  exact (X _ z (log2_fuel z H) A).
Qed.

Lemma num_span_right : span_right num_span digit (fun z => 0 <= z) num_den.
Proof.
  split; [|split; [|split; [|split]]].
  - split; [cbn; lia|]. apply num_den_zero.
  - intros z Hz. cbn [sp_pull num_span num_pull fst snd]. rewrite num_den_0. split; [reflexivity|].
    split; [apply Z.div_pos; lia|]. intros n. rewrite num_den_S. reflexivity.
  - intros z cx Hz G. cbn [sp_push num_span]. unfold num_push, digit in *. split; [lia|]. intros [|n].
    + rewrite num_den_0, Z.add_comm, Z.mul_comm, Z.add_comm, Z.mod_add, Z.mod_small; lia.
    + rewrite num_den_S. f_equal. symmetry. apply (Z.div_unique _ 10 z cx); lia.
  - intros z Hz. apply num_blank_iff. exact Hz.
  - intros z Hz. cbn [sp_marks num_span]. unfold num_marks.
    destruct (list_marks (digits (S (Z.to_nat (Z.log2 z))) z)) as (ps & A & B & C). exists ps. split; [exact A|]. split; [|exact C].
    intros n. rewrite B, (num_digits _ _ (log2_fuel z Hz)). reflexivity.
Qed.

Lemma num_skip_S fuel l c r cx : num_skip (S fuel) l c r cx =
  if l =? 0 then Some (sn_step_left num_span (l, c, r) cx) else
  let '(cn, nl) := num_pull l in
  if negb (c =? cn) then Some (sn_step_left num_span (l, c, r) cx) else
  match num_skip fuel nl cn (num_push cx 1 r) cx with
  | Some (steps_, shifted) => Some (S steps_, shifted)
  | None => None
  end.
Proof. reflexivity. Qed.

Lemma num_skip_fuel fuel : forall l c r cx, 0 <= l < 2 ^ Z.of_nat fuel -> 0 <= r -> digit cx -> exists k l' x r',
     num_skip (S fuel) l c r cx = Some (S k, (l', x, r')) /\ 0 <= l' /\ 0 <= r'
     /\ (forall n, (n < k)%nat -> num_den l n = c) /\ x = num_den l k
     /\ (forall n, num_den l' n = num_den l (S k + n)%nat)
     /\ (forall n, num_den r' n = if (n <? S k)%nat then cx else num_den r (n - S k)%nat)
     /\ (c <> 0 \/ (exists n, num_den l n <> 0) -> num_den l k <> c).
Proof.
  assert (Z0 : forall l c r cx, 0 <= l -> 0 <= r -> digit cx -> l = 0 \/ l mod 10 <> c -> exists k l' x r',
     Some (sn_step_left num_span (l, c, r) cx) = Some (S k, (l', x, r')) /\ 0 <= l' /\ 0 <= r'
     /\ (forall n, (n < k)%nat -> num_den l n = c) /\ x = num_den l k
     /\ (forall n, num_den l' n = num_den l (S k + n)%nat)
     /\ (forall n, num_den r' n = if (n <? S k)%nat then cx else num_den r (n - S k)%nat)
     /\ (c <> 0 \/ (exists n, num_den l n <> 0) -> num_den l k <> c)).
  { intros l c r cx Hl Hr G D. apply (step_case num_span digit (fun z => 0 <= z) num_den); auto using num_span_right.
    rewrite num_den_0. destruct D as [->|D]; [|auto]. intros [X|(n & X)]; [rewrite Z.mod_0_l; congruence|].
    rewrite num_den_zero in X. congruence. }
  induction fuel as [|fuel IH]; intros l c r cx Hl Hr G; rewrite num_skip_S.
  - change (2 ^ Z.of_nat 0) with 1 in Hl. replace l with 0 by lia. cbn [Z.eqb]. apply Z0; auto; lia.
  - destruct (Z.eqb_spec l 0) as [->|N]; [apply Z0; auto; lia|]. cbn [num_pull].
    destruct (Z.eqb_spec c (l mod 10)) as [->|C]; cbn [negb]; [|apply Z0; auto; lia].
    rewrite Nat2Z.inj_succ, Z.pow_succ_r in Hl by lia.
    assert (Hl' : 0 <= l / 10 < 2 ^ Z.of_nat fuel) by (split; [apply Z.div_pos; lia|apply Z.div_lt_upper_bound; lia]).
    assert (Hp : 0 <= num_push cx 1 r) by (unfold num_push, digit in *; lia).
    destruct (IH (l / 10) (l mod 10) (num_push cx 1 r) cx Hl' Hp G) as (k & l' & x & r' & E & A1 & A2 & A3 & A4 & A5 & A6 & A7).
    rewrite E. exists (S k), l', x, r'. split; [reflexivity|]. split; [exact A1|]. split; [exact A2|].
    split; [|split; [|split; [|split]]].
    + intros [|n] Hn; [apply num_den_0|]. rewrite num_den_S. apply A3. lia.
    + rewrite num_den_S. exact A4.
    + intros n. rewrite A5. cbn [Nat.add]. rewrite (num_den_S l). reflexivity.
    + intros n. rewrite A6. destruct num_span_right as (_ & _ & PS & _). specialize (PS r cx Hr G). cbn [sp_push num_span] in PS.
      destruct (Nat.ltb_spec n (S k)) as [H|H], (Nat.ltb_spec n (S (S k))) as [H'|H']; try lia; auto.
      * rewrite (proj2 PS). replace (n - S k)%nat with 0%nat by lia. reflexivity.
      * rewrite (proj2 PS). replace (n - S k)%nat with (S (n - S (S k))) by lia. reflexivity.
    + intros H. rewrite num_den_S. apply A7. destruct H as [H|(n & H)]; auto.
      destruct n; [left; rewrite num_den_0 in H; exact H|right; exists n; rewrite <- num_den_S; exact H].
Qed.

Lemma num_skip_right : skip_right_spec num_span digit (fun z => 0 <= z) num_den
  (fun t cx => let '(l, c, r) := t in num_skip (S (S (Z.to_nat (Z.log2 l)))) l c r cx).
Proof.
  split; [|reflexivity]. intros l c r cx Hl Hr G. apply num_skip_fuel; auto. apply log2_fuel. exact Hl.
Qed.

Lemma num_tape_right : tape_right num_ops digit (both (fun z => 0 <= z)) (around num_den)
  /\ tape_sharp num_ops digit (both (fun z => 0 <= z)) (around num_den).
Proof. exact (sn_right _ _ _ _ _ num_span_right num_skip_right). Qed.

(** ** PtrTape *)

Lemma replace_at_length pos cx : forall tape, length (replace_at pos cx tape) = length tape.
Proof. induction pos; intros [|x tape]; cbn; auto. Qed.

Lemma replace_at_nth pos cx : forall tape n, (pos < length tape)%nat ->
  nth n (replace_at pos cx tape) 0 = if Nat.eqb n pos then cx else nth n tape 0.
Proof.
  induction pos as [|pos IH]; intros [|x tape] n H; cbn in H; try lia.
  - destruct n; reflexivity.
  - destruct n as [|n]; [reflexivity|]. cbn. apply IH. lia.
Qed.

Lemma ptr_read_spec pos : forall tape, (pos < length tape)%nat ->
  fst (ptr_read pos tape) = nth pos tape 0
  /\ (snd (ptr_read pos tape) = Some false -> forall n, (n <= pos)%nat -> nth n tape 0 = 0)
  /\ (snd (ptr_read pos tape) = Some true -> nth pos tape 0 = 0 /\ length tape = S pos).
Proof.
  induction pos as [|pos IH]; intros [|c0 rest] H; cbn [length] in H; try lia.
  - cbn. destruct (Z.eqb_spec c0 0) as [->|C]; cbn [fst snd]; (split; [reflexivity|]); (split; [|intros X; discriminate X]).
    + intros _ n Hn. replace n with 0%nat by lia. reflexivity.
    + intros X; discriminate X.
  - cbn [ptr_read]. destruct (Z.eqb_spec c0 0) as [->|C].
    + destruct (IH rest) as (A & B & D); [lia|]. split; [exact A|]. split.
      * intros X [|n] Hn; [reflexivity|]. apply B; [exact X|lia].
      * intros X. destruct (D X) as (D1 & D2). cbn [nth length]. rewrite D2. auto.
    + destruct (Z.eqb_spec (nth (S pos) (c0 :: rest) 0) 0) as [E|E].
      * destruct (Nat.ltb_spec (S (S pos)) (length (c0 :: rest))) as [L|L]; cbn [fst snd].
        -- split; [congruence|]. split; intros X; discriminate X.
        -- split; [congruence|]. split; [intros X; discriminate X|]. intros _. split; [exact E|]. cbn [length] in *. lia.
      * cbn [fst snd]. split; [reflexivity|]. split; intros X; discriminate X.
Qed.

Lemma ptr_step_spec t dir cx : ptr_ok t -> let t' := snd (tp_step (ptr_ops 0) dir t cx) in
  ptr_ok t' /\ moved dir 1 cx (ptr_cell t) (ptr_cell t').
Proof.
  destruct t as [pos tape]. unfold ptr_ok, moved, ptr_cell. cbn [fst snd]. intros H. cbv zeta. destruct dir.
  - cbn [tp_step ptr_ops tp_step_right ptr_step_right snd]. destruct (Nat.ltb_spec (S pos) (length tape)) as [L|L]; cbn [fst snd].
    + rewrite replace_at_length. split; [exact L|]. intros i. change (Z.of_nat 1) with 1.
      destruct (Z.ltb_spec (Z.of_nat (S pos) + i) 0) as [N|N].
      * destruct (Z.ltb_spec (Z.of_nat pos + (i + 1)) 0) as [N'|N']; [|lia].
        destruct ((0 <=? i + 1) && (i <? 0)) eqn:E; [zb; lia|reflexivity].
      * destruct (Z.ltb_spec (Z.of_nat pos + (i + 1)) 0) as [N'|N']; [lia|]. rewrite replace_at_nth by exact H.
        replace (Z.to_nat (Z.of_nat (S pos) + i)) with (Z.to_nat (Z.of_nat pos + (i + 1))) by lia.
        destruct (Nat.eqb_spec (Z.to_nat (Z.of_nat pos + (i + 1))) pos) as [E|E].
        -- replace ((0 <=? i + 1) && (i <? 0)) with true; [reflexivity|]. symmetry. apply andb_true_iff. split; [apply Z.leb_le|apply Z.ltb_lt]; lia.
        -- destruct ((0 <=? i + 1) && (i <? 0)) eqn:Q; [zb; lia|reflexivity].
    + split; [rewrite app_length, replace_at_length; cbn; lia|]. intros i. change (Z.of_nat 1) with 1.
      destruct (Z.ltb_spec (Z.of_nat (S pos) + i) 0) as [N|N].
      * destruct (Z.ltb_spec (Z.of_nat pos + (i + 1)) 0) as [N'|N']; [|lia].
        destruct ((0 <=? i + 1) && (i <? 0)) eqn:E; [zb; lia|reflexivity].
      * destruct (Z.ltb_spec (Z.of_nat pos + (i + 1)) 0) as [N'|N']; [lia|].
        replace (Z.to_nat (Z.of_nat (S pos) + i)) with (Z.to_nat (Z.of_nat pos + (i + 1))) by lia.
        set (m := Z.to_nat (Z.of_nat pos + (i + 1))).
        assert (X : nth m (replace_at pos cx tape ++ [0]) 0 = nth m (replace_at pos cx tape) 0).
        { destruct (Nat.ltb_spec m (length (replace_at pos cx tape))) as [K|K]; [apply app_nth1; exact K|].
          rewrite app_nth2 by exact K. rewrite (nth_overflow (replace_at pos cx tape)) by exact K.
          destruct (m - length (replace_at pos cx tape))%nat as [|[|j]]; reflexivity. }
        rewrite X, replace_at_nth by exact H. destruct (Nat.eqb_spec m pos) as [E|E]; subst m.
        -- replace ((0 <=? i + 1) && (i <? 0)) with true; [reflexivity|]. symmetry. apply andb_true_iff. split; [apply Z.leb_le|apply Z.ltb_lt]; lia.
        -- destruct ((0 <=? i + 1) && (i <? 0)) eqn:Q; [zb; lia|reflexivity].
  - cbn [tp_step ptr_ops tp_step_left ptr_step_left snd]. destruct pos as [|pos]; cbn [fst snd].
    + split; [cbn; lia|]. intros i. change (Z.of_nat 1) with 1. change (Z.of_nat 0) with 0. rewrite !Z.add_0_l.
      destruct (Z.ltb_spec i 0) as [N|N].
      * destruct (Z.ltb_spec (i - 1) 0) as [N'|N']; [|lia].
        destruct ((i - 1 <=? 0) && (0 <? i)) eqn:E; [zb; lia|reflexivity].
      * destruct (Z.to_nat i) as [|m] eqn:M.
        -- replace i with 0 by lia. reflexivity.
        -- cbn [nth]. rewrite replace_at_nth by exact H. destruct (Nat.eqb_spec m 0) as [E|E].
           ++ replace ((i - 1 <=? 0) && (0 <? i)) with true; [reflexivity|]. symmetry. apply andb_true_iff. split; [apply Z.leb_le|apply Z.ltb_lt]; lia.
           ++ destruct ((i - 1 <=? 0) && (0 <? i)) eqn:Q; [zb; lia|]. destruct (Z.ltb_spec (i - 1) 0); [lia|].
              replace (Z.to_nat (i - 1)) with m by lia. reflexivity.
    + rewrite replace_at_length. split; [lia|]. intros i. change (Z.of_nat 1) with 1.
      destruct (Z.ltb_spec (Z.of_nat pos + i) 0) as [N|N].
      * destruct (Z.ltb_spec (Z.of_nat (S pos) + (i - 1)) 0) as [N'|N']; [|lia].
        destruct ((i - 1 <=? 0) && (0 <? i)) eqn:E; [zb; lia|reflexivity].
      * destruct (Z.ltb_spec (Z.of_nat (S pos) + (i - 1)) 0) as [N'|N']; [lia|]. rewrite replace_at_nth by exact H.
        replace (Z.to_nat (Z.of_nat (S pos) + (i - 1))) with (Z.to_nat (Z.of_nat pos + i)) by lia.
        destruct (Nat.eqb_spec (Z.to_nat (Z.of_nat pos + i)) (S pos)) as [E|E].
        -- replace ((i - 1 <=? 0) && (0 <? i)) with true; [reflexivity|]. symmetry. apply andb_true_iff. split; [apply Z.leb_le|apply Z.ltb_lt]; lia.
        -- destruct ((i - 1 <=? 0) && (0 <? i)) eqn:Q; [zb; lia|reflexivity].
Qed.

Lemma moved_compose dir k cx f g h : moved dir 1 cx f g -> moved dir k cx g h -> moved dir (S k) cx f h.
Proof.
  intros A B i. rewrite B. destruct dir.
  - destruct ((0 <=? i + Z.of_nat k) && (i <? 0)) eqn:E.
    + replace ((0 <=? i + Z.of_nat (S k)) && (i <? 0)) with true; [reflexivity|]. zb. symmetry. apply andb_true_iff. split; [apply Z.leb_le|apply Z.ltb_lt]; lia.
    + rewrite A. change (Z.of_nat 1) with 1. replace (i + Z.of_nat k + 1) with (i + Z.of_nat (S k)) by lia.
      replace ((0 <=? i + Z.of_nat (S k)) && (i + Z.of_nat k <? 0)) with ((0 <=? i + Z.of_nat (S k)) && (i <? 0)); [reflexivity|].
      apply andb_false_iff in E. destruct (Z.leb_spec 0 (i + Z.of_nat (S k))); [|reflexivity]. cbn [andb].
      destruct E as [E|E]; zb; destruct (Z.ltb_spec i 0), (Z.ltb_spec (i + Z.of_nat k) 0); auto; lia.
  - destruct ((i - Z.of_nat k <=? 0) && (0 <? i)) eqn:E.
    + replace ((i - Z.of_nat (S k) <=? 0) && (0 <? i)) with true; [reflexivity|]. zb. symmetry. apply andb_true_iff. split; [apply Z.leb_le|apply Z.ltb_lt]; lia.
    + rewrite A. change (Z.of_nat 1) with 1. replace (i - Z.of_nat k - 1) with (i - Z.of_nat (S k)) by lia.
      replace ((i - Z.of_nat (S k) <=? 0) && (0 <? i - Z.of_nat k)) with ((i - Z.of_nat (S k) <=? 0) && (0 <? i)); [reflexivity|].
      apply andb_false_iff in E. destruct (Z.leb_spec (i - Z.of_nat (S k)) 0); [|reflexivity]. cbn [andb].
      destruct E as [E|E]; zb; destruct (Z.ltb_spec 0 i), (Z.ltb_spec 0 (i - Z.of_nat k)); auto; lia.
Qed.

Lemma moved_ahead dir cx f g i : moved dir 1 cx f g -> 0 <= i -> g (toward dir i) = f (toward dir (i + 1)).
Proof.
  intros A H. rewrite A. change (Z.of_nat 1) with 1. destruct dir; cbn [toward].
  - destruct ((0 <=? i + 1) && (i <? 0)) eqn:E; [zb; lia|reflexivity].
  - destruct ((- i - 1 <=? 0) && (0 <? - i)) eqn:E; [zb; lia|]. f_equal. lia.
Qed.

Lemma ptr_cell_0 t : ptr_cell t 0 = nth (fst t) (snd t) 0.
Proof. unfold ptr_cell. destruct (Z.ltb_spec (Z.of_nat (fst t) + 0) 0); [lia|]. f_equal. lia. Qed.

(** One more cell: what a longer skip needs. *)
Lemma ptr_skip_more dir t t1 t' k cx : ptr_ok t -> ptr_ok t1 -> moved dir 1 cx (ptr_cell t) (ptr_cell t1) ->
  scan_eqb (ptr_read (fst t1) (snd t1)) (ptr_read (fst t) (snd t)) = true ->
  moved dir k cx (ptr_cell t1) (ptr_cell t') ->
  (forall i, 0 <= i < Z.of_nat k -> ptr_cell t1 (toward dir i) = ptr_cell t1 0) ->
  moved dir (S k) cx (ptr_cell t) (ptr_cell t')
  /\ forall i, 0 <= i < Z.of_nat (S k) -> ptr_cell t (toward dir i) = ptr_cell t 0.
Proof.
  intros O O1 M E M' R. split; [eapply moved_compose; eauto|]. intros i Hi.
  unfold scan_eqb in E. apply andb_true_iff in E. destruct E as (E & _). apply Z.eqb_eq in E.
  rewrite (proj1 (ptr_read_spec _ _ O)), (proj1 (ptr_read_spec _ _ O1)), <- !ptr_cell_0 in E.
  destruct (Z.eq_dec i 0) as [->|N]; [destruct dir; reflexivity|].
  replace i with ((i - 1) + 1) by lia. rewrite <- (moved_ahead _ _ _ _ (i - 1) M) by lia. rewrite R by lia. exact E.
Qed.

Lemma moved_1_run dir t : forall i, 0 <= i < Z.of_nat 1 -> ptr_cell t (toward dir i) = ptr_cell t 0.
Proof. intros i Hi. replace i with 0 by lia. destruct dir; reflexivity. Qed.

Lemma ptr_skip_left_spec fuel : forall t cx k t', ptr_ok t -> ptr_skip_left fuel t cx = Some (k, t') ->
  (1 <= k)%nat /\ ptr_ok t' /\ moved false k cx (ptr_cell t) (ptr_cell t')
  /\ (forall i, 0 <= i < Z.of_nat k -> ptr_cell t (toward false i) = ptr_cell t 0).
Proof.
  induction fuel as [|fuel IH]; intros t cx k t' O E; [discriminate E|]. cbn [ptr_skip_left] in E.
  destruct (ptr_step_spec t false cx O) as (O1 & M1). cbn [tp_step ptr_ops tp_step_left] in O1, M1.
  assert (ST : fst (ptr_step_left t cx) = 1%nat) by (destruct t; reflexivity).
  assert (ONE : Some (ptr_step_left t cx) = Some (k, t') -> (1 <= k)%nat /\ ptr_ok t' /\ moved false k cx (ptr_cell t) (ptr_cell t')
      /\ (forall i, 0 <= i < Z.of_nat k -> ptr_cell t (toward false i) = ptr_cell t 0)).
  { intros X. injection X as X. rewrite X in *. cbn [fst snd] in *. subst k. split; [lia|]. split; [exact O1|]. split; [exact M1|]. apply moved_1_run. }
  destruct (fst t) eqn:F; [apply ONE; exact E|]. rewrite <- F in E.
  destruct (negb (scan_eqb (ptr_read (fst (snd (ptr_step_left t cx))) (snd (snd (ptr_step_left t cx)))) (ptr_read (fst t) (snd t)))) eqn:C;
    [apply ONE; exact E|].
  destruct (ptr_skip_left fuel (snd (ptr_step_left t cx)) cx) as [[s u]|] eqn:G; [|discriminate E]. injection E as <- <-.
  destruct (IH _ _ _ _ O1 G) as (A1 & A2 & A3 & A4). apply negb_false_iff in C.
  destruct (ptr_skip_more false t _ u s cx O O1 M1 C A3 A4) as (B1 & B2). split; [lia|]. auto.
Qed.

Lemma ptr_skip_right_spec fuel : forall t cx k t', ptr_ok t -> ptr_skip_right fuel t cx = Some (k, t') ->
  (1 <= k)%nat /\ ptr_ok t' /\ moved true k cx (ptr_cell t) (ptr_cell t')
  /\ (forall i, 0 <= i < Z.of_nat k -> ptr_cell t (toward true i) = ptr_cell t 0).
Proof.
  induction fuel as [|fuel IH]; intros t cx k t' O E; [discriminate E|]. cbn [ptr_skip_right] in E.
  destruct (ptr_step_spec t true cx O) as (O1 & M1). cbn [tp_step ptr_ops tp_step_right] in O1, M1.
  assert (ST : fst (ptr_step_right t cx) = 1%nat) by (destruct t; reflexivity).
  destruct (negb (scan_eqb (ptr_read (fst (snd (ptr_step_right t cx))) (snd (snd (ptr_step_right t cx)))) (ptr_read (fst t) (snd t)))) eqn:C.
  - injection E as E. rewrite E in *. cbn [fst snd] in *. subst k. split; [lia|]. split; [exact O1|]. split; [exact M1|]. apply moved_1_run.
  - destruct (ptr_skip_right fuel (snd (ptr_step_right t cx)) cx) as [[s u]|] eqn:G; [|discriminate E]. injection E as <- <-.
    destruct (IH _ _ _ _ O1 G) as (A1 & A2 & A3 & A4). apply negb_false_iff in C.
    destruct (ptr_skip_more true t _ u s cx O O1 M1 C A3 A4) as (B1 & B2). split; [lia|]. auto.
Qed.

Lemma ptr_read_zeros pos : forall n, (pos < n)%nat -> ptr_read pos (repeat 0 n) = (0, Some false).
Proof. induction pos as [|pos IH]; intros [|n] H; try lia; [reflexivity|]. cbn. apply IH. lia. Qed.

Lemma replace_zeros pos : forall n, replace_at pos 0 (repeat 0 n) = repeat 0 n.
Proof. induction pos as [|pos IH]; intros [|n]; cbn; try reflexivity. rewrite IH. reflexivity. Qed.

(** Printing blanks to the right on a blank tape, a skip never comes back. *)
Lemma ptr_skip_hangs fuel : forall pos n, (pos < n)%nat -> ptr_skip_right fuel (pos, repeat 0 n) 0 = None.
Proof.
  induction fuel as [|fuel IH]; intros pos n H; [reflexivity|]. cbn [ptr_skip_right ptr_step_right snd fst].
  rewrite replace_zeros, repeat_length.
  assert (X : exists m, (S pos < m)%nat
     /\ (if (S pos <? n)%nat then (S pos, repeat 0 n) else (S pos, repeat 0 n ++ [0])) = (S pos, repeat 0 m)).
  { destruct (Nat.ltb_spec (S pos) n); [exists n; auto|]. exists (S n). split; [lia|]. rewrite (repeat_snoc 0 n). reflexivity. }
  destruct X as (m & Hm & ->). cbn [fst snd]. rewrite !ptr_read_zeros by lia. cbn [scan_eqb fst snd negb andb]. rewrite IH by lia. reflexivity.
Qed.

Lemma ptr_tape_right fuel : tape_right (ptr_ops fuel) any_color ptr_ok ptr_cell.
Proof.
  split; [|split; [|split; [|split; [|split]]]].
  - split; [unfold ptr_ok; cbn; lia|]. intros i. unfold ptr_cell. cbn [tp_init ptr_ops fst snd]. destruct (Z.of_nat 0 + i <? 0); [reflexivity|].
    destruct (Z.to_nat (Z.of_nat 0 + i)) as [|[|n]]; reflexivity.
  - intros t O. cbn [tp_read ptr_ops]. destruct (ptr_read_spec _ _ O) as (A & B & C). rewrite ptr_cell_0. split; [exact A|].
    intros dir E i Hi. unfold ptr_cell. destruct dir; cbn [toward].
    + destruct (C E) as (C1 & C2). destruct (Z.ltb_spec (Z.of_nat (fst t) + i) 0); [reflexivity|].
      destruct (Z.eq_dec i 0) as [->|N]; [rewrite Z.add_0_r, Nat2Z.id; exact C1|]. apply nth_overflow. lia.
    + destruct (Z.ltb_spec (Z.of_nat (fst t) + - i) 0); [reflexivity|]. apply (B E). lia.
  - intros t dir cx O _. destruct (ptr_step_spec t dir cx O) as (A & B).
    split; [destruct t, dir; reflexivity|]. split; [exact A|exact B].
  - intros t dir cx k t' O _ E. assert (INIT : t = (0%nat, [0]) -> k = 1%nat).
    { intros ->. destruct dir; cbn [tp_skip ptr_ops tp_skip_left tp_skip_right] in E; destruct fuel as [|fuel]; try discriminate E.
      - destruct (Z.eq_dec cx 0) as [->|C].
        + change (0%nat, [0]) with (0%nat, repeat 0 1) in E. rewrite ptr_skip_hangs in E by lia. discriminate E.
        + cbn [ptr_skip_right ptr_step_right snd fst replace_at length] in E.
          replace (1 <? 1)%nat with false in E by reflexivity. cbn [fst snd app ptr_read] in E.
          destruct (Z.eqb_spec cx 0); [congruence|]. cbn in E. injection E. intros. lia.
      - cbn in E. injection E. intros. lia. }
    destruct dir; cbn [tp_skip ptr_ops tp_skip_left tp_skip_right] in E.
    + destruct (ptr_skip_right_spec _ _ _ _ _ O E) as (A1 & A2 & A3 & A4). repeat (split; [assumption|]). exact INIT.
    + destruct (ptr_skip_left_spec _ _ _ _ _ O E) as (A1 & A2 & A3 & A4). repeat (split; [assumption|]). exact INIT.
  - intros t O. cbn [tp_blank ptr_ops]. rewrite cell_blank_iff. unfold ptr_cell. split.
    + intros H i. destruct (Z.of_nat (fst t) + i <? 0); auto.
    + intros H n. specialize (H (Z.of_nat n - Z.of_nat (fst t))). destruct (Z.ltb_spec (Z.of_nat (fst t) + (Z.of_nat n - Z.of_nat (fst t))) 0); [lia|].
      replace (Z.to_nat (Z.of_nat (fst t) + (Z.of_nat n - Z.of_nat (fst t)))) with n in H by lia. exact H.
  - intros t O. cbn [tp_marks ptr_ops]. destruct (list_marks (snd t)) as (ps & A & B & C).
    exists (map (fun n => Z.of_nat n - Z.of_nat (fst t)) ps). split; [|split].
    + apply FinFun.Injective_map_NoDup; auto. intros x y. lia.
    + intros p. rewrite in_map_iff. unfold ptr_cell. split.
      * intros (n & <- & Hn). destruct (Z.ltb_spec (Z.of_nat (fst t) + (Z.of_nat n - Z.of_nat (fst t))) 0); [lia|].
        apply B in Hn. replace (Z.to_nat (Z.of_nat (fst t) + (Z.of_nat n - Z.of_nat (fst t)))) with n by lia. exact Hn.
      * intros N. destruct (Z.ltb_spec (Z.of_nat (fst t) + p) 0); [congruence|]. exists (Z.to_nat (Z.of_nat (fst t) + p)). split; [lia|]. apply B. exact N.
    + rewrite map_length, C. reflexivity.
Qed.
