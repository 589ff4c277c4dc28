(** * Proofs about the runs of idris/Machine.idr *)
From Verif Require Import Base TM TMFacts TapeProofs MachineProofs IdrisModel IdrisSpec IdrisProofs.

(** The tape shows the configuration. *)
Definition shows {T} (cell : T -> Z -> Z) (t : T) (c : config) : Prop := forall i, cell t i = c_tape c (c_pos c + i).

(** All colours printed are good. *)
Definition prints (good : Z -> Prop) (P : iprogram) : Prop := forall s c, good (fst (fst (P s c))).

Lemma prints_any P : prints any_color P.
Proof. intros s c. exact Logic.I. Qed.

Lemma prints_digit P : prints_digits P -> prints digit P.
Proof. intros H s c. specialize (H s c). destruct (P s c) as [[x d] n]. exact H. Qed.

Lemma machine_at P s c : s <> 0 -> machine_of_idris P (s - 1) c = let '(cx, dir, next) := P s c in Some (cx, dir, next - 1).
Proof.
  intros H. unfold machine_of_idris. destruct (Z.eqb_spec (s - 1) (-1)); [lia|]. replace (s - 1 + 1) with s by lia. reflexivity.
Qed.

Lemma shows_run M cx dir st k (f g : Z -> Z) c : (1 <= k)%nat -> (forall i, f i = c_tape c (c_pos c + i)) ->
  c_state c = st -> moved dir k cx f g -> M st (f 0) = Some (cx, dir, st) ->
  (forall i, 0 <= i < Z.of_nat k -> f (toward dir i) = f 0) ->
  exists d, steps M k c = Some d /\ c_state d = st /\ (forall i, g i = c_tape d (c_pos d + i))
  /\ forall j e, (1 <= j < k)%nat -> steps M j c = Some e -> (exists p, c_tape c p <> 0) -> ~ is_blank e.
Proof.
  intros Hk F <- MV HM R.
  assert (RO : forall j, (1 <= j <= k)%nat -> exists d, steps M j c = Some d
    /\ c_state d = c_state c
    /\ c_pos d = (if dir then c_pos c + Z.of_nat j else c_pos c - Z.of_nat j)
    /\ forall p, c_tape d p =
         if dir then (if (c_pos c <=? p) && (p <? c_pos c + Z.of_nat j) then cx else c_tape c p)
         else (if (c_pos c - Z.of_nat j <? p) && (p <=? c_pos c) then cx else c_tape c p)).
  { intros j Hj. destruct (run_over M dir cx (f 0) (j - 1) c) as (d & A & B & C & D).
    - rewrite F, Z.add_0_r. reflexivity.
    - exact HM.
    - intros n Hn. rewrite <- (R (n + 1)) by lia. rewrite F. unfold half. f_equal. destruct dir; cbn [toward]; lia.
    - replace (S (j - 1)) with j in A by lia. exists d. split; [exact A|]. split; [exact B|]. split; [rewrite C; destruct dir; lia|].
      intros p. rewrite D. destruct dir.
      + replace (p <? c_pos c + Z.of_nat j) with (p <=? c_pos c + Z.of_nat (j - 1)); [reflexivity|].
        destruct (Z.leb_spec p (c_pos c + Z.of_nat (j - 1))), (Z.ltb_spec p (c_pos c + Z.of_nat j)); auto; lia.
      + replace (c_pos c - Z.of_nat j <? p) with (c_pos c - Z.of_nat (j - 1) <=? p); [reflexivity|].
        destruct (Z.leb_spec (c_pos c - Z.of_nat (j - 1)) p), (Z.ltb_spec (c_pos c - Z.of_nat j) p); auto; lia. }
  destruct (RO k) as (d & A & B & C & D); [lia|]. exists d. split; [exact A|]. split; [exact B|]. split.
  - intros i. rewrite MV, D, C. destruct dir.
    + rewrite F. replace (c_pos c + Z.of_nat k + i) with (c_pos c + (i + Z.of_nat k)) by lia.
      replace ((c_pos c <=? c_pos c + (i + Z.of_nat k)) && (c_pos c + (i + Z.of_nat k) <? c_pos c + Z.of_nat k)) with ((0 <=? i + Z.of_nat k) && (i <? 0)); [reflexivity|].
      f_equal; [destruct (Z.leb_spec 0 (i + Z.of_nat k)), (Z.leb_spec (c_pos c) (c_pos c + (i + Z.of_nat k)))
               |destruct (Z.ltb_spec i 0), (Z.ltb_spec (c_pos c + (i + Z.of_nat k)) (c_pos c + Z.of_nat k))]; auto; lia.
    + rewrite F. replace (c_pos c - Z.of_nat k + i) with (c_pos c + (i - Z.of_nat k)) by lia.
      replace ((c_pos c - Z.of_nat k <? c_pos c + (i - Z.of_nat k)) && (c_pos c + (i - Z.of_nat k) <=? c_pos c)) with ((i - Z.of_nat k <=? 0) && (0 <? i)); [reflexivity|].
      rewrite andb_comm. f_equal; [destruct (Z.ltb_spec 0 i), (Z.ltb_spec (c_pos c - Z.of_nat k) (c_pos c + (i - Z.of_nat k)))
               |destruct (Z.leb_spec (i - Z.of_nat k) 0), (Z.leb_spec (c_pos c + (i - Z.of_nat k)) (c_pos c))]; auto; lia.
  - intros j e Hj Ee (p & Hp) Be. destruct (RO j) as (e' & A' & B' & C' & D'); [lia|]. rewrite Ee in A'. injection A' as <-.
    assert (S0 : f 0 = 0).
    { rewrite <- (R (Z.of_nat j)) by lia. rewrite F. pose proof (Be (c_pos c + toward dir (Z.of_nat j))) as X. rewrite D' in X.
      destruct dir; cbn [toward] in *.
      - destruct ((c_pos c <=? c_pos c + Z.of_nat j) && (c_pos c + Z.of_nat j <? c_pos c + Z.of_nat j)) eqn:Q; [zb; lia|exact X].
      - destruct ((c_pos c - Z.of_nat j <? c_pos c + - Z.of_nat j) && (c_pos c + - Z.of_nat j <=? c_pos c)) eqn:Q; [zb; lia|exact X]. }
    apply Hp. specialize (Be p). rewrite D' in Be. destruct dir.
    + destruct ((c_pos c <=? p) && (p <? c_pos c + Z.of_nat j)) eqn:Q; [|exact Be]. zb.
      rewrite <- S0, <- (R (p - c_pos c)) by lia. rewrite F. cbn [toward]. f_equal. lia.
    + destruct ((c_pos c - Z.of_nat j <? p) && (p <=? c_pos c)) eqn:Q; [|exact Be]. zb.
      rewrite <- S0, <- (R (c_pos c - p)) by lia. rewrite F. cbn [toward]. f_equal. lia.
Qed.

Lemma shows_step M cx dir st next (f g : Z -> Z) c : (forall i, f i = c_tape c (c_pos c + i)) ->
  c_state c = st -> moved dir 1 cx f g -> M st (f 0) = Some (cx, dir, next) ->
  exists d, steps M 1 c = Some d /\ c_state d = next /\ (forall i, g i = c_tape d (c_pos d + i)).
Proof.
  intros F <- MV HM. rewrite F, Z.add_0_r in HM. exists (Cfg next (move dir (c_pos c)) (write (c_tape c) (c_pos c) cx)).
  cbn [steps]. unfold step. rewrite HM. split; [reflexivity|]. split; [reflexivity|]. cbn [c_tape c_pos]. intros i. rewrite MV. unfold write, move.
  change (Z.of_nat 1) with 1. destruct dir; rewrite F.
  - destruct (Z.eqb_spec (c_pos c + 1 + i) (c_pos c)) as [E|E].
    + replace i with (-1) by lia. reflexivity.
    + destruct ((0 <=? i + 1) && (i <? 0)) eqn:Q; [zb; lia|]. f_equal. lia.
  - destruct (Z.eqb_spec (c_pos c - 1 + i) (c_pos c)) as [E|E].
    + replace i with 1 by lia. reflexivity.
    + destruct ((i - 1 <=? 0) && (0 <? i)) eqn:Q; [zb; lia|]. f_equal. lia.
Qed.

Section Runs.
Context {T : Type} (o : tape_ops T) (good : Z -> Prop) (ok : T -> Prop) (cell : T -> Z -> Z) (TR : tape_right o good ok cell).
Context (P : iprogram) (PG : prints good P).
Let M := machine_of_idris P.

Lemma exec_right st t c n t' k r : ok t -> shows cell t c -> c_state c = st - 1 -> st <> 0 -> exec o P st t = Some (n, t', k, r) ->
  if r then n = st /\ t' = t /\ k = 0%nat /\ spins_out_from M c
  else (1 <= k)%nat /\ ok t' /\ (t = tp_init o -> k = 1%nat)
    /\ exists d, steps M k c = Some d /\ c_state d = n - 1 /\ shows cell t' d
    /\ forall j e, (1 <= j < k)%nat -> steps M j c = Some e -> (exists p, c_tape c p <> 0) -> ~ is_blank e.
Proof.
  destruct TR as (_ & RD & ST & SK & _ & _). intros O SH SC N E. unfold exec in E.
  destruct (RD t O) as (R1 & R2). destruct (tp_read o t) as [scan edge]. cbn [fst snd] in *. subst scan.
  pose proof (machine_at P st (cell t 0) N) as HM. pose proof (PG st (cell t 0)) as G.
  destruct (P st (cell t 0)) as [[cx dir] next]. cbn [fst] in G. fold M in HM. cbv beta iota in E.
  destruct (Z.eqb_spec st next) as [EQ|NE]; [subst next|]; cbn [andb] in E.
  - destruct (check_edge dir edge) eqn:CE.
    + injection E as <- <- <- <-. repeat (split; [reflexivity|]). unfold check_edge in CE. destruct edge as [d|]; [|discriminate CE].
      apply Bool.eqb_prop in CE. subst d. specialize (R2 dir eq_refl).
      assert (C0 : cell t 0 = 0) by (pose proof (R2 0 (Z.le_refl 0)) as Q; destruct dir; exact Q).
      apply (spin_out_lemma M c dir cx).
      * rewrite C0 in HM. rewrite SC. exact HM.
      * intros i Hi. specialize (R2 i Hi). rewrite SH in R2. rewrite <- R2. destruct dir; cbn [toward]; f_equal; lia.
    + destruct (tp_skip o dir t cx) as [[k' t'']|] eqn:K; [|discriminate E]. injection E as <- <- <- <-.
      destruct (SK _ _ _ _ _ O G K) as (A1 & A2 & A3 & A4 & A5). split; [exact A1|]. split; [exact A2|]. split; [exact A5|].
      exact (shows_run M cx dir (st - 1) k' (cell t) (cell t'') c A1 SH SC A3 HM A4).
  - destruct (ST t dir cx O G) as (S1 & S2 & S3). destruct (tp_step o dir t cx) as [k' t'']. cbn [fst snd] in *. subst k'. injection E as <- <- <- <-.
    split; [lia|]. split; [exact S2|]. split; [reflexivity|].
    destruct (shows_step M cx dir (st - 1) (next - 1) (cell t) (cell t'') c SH SC S3 HM) as (d & D1 & D2 & D3).
    exists d. split; [exact D1|]. split; [exact D2|]. split; [exact D3|]. intros j e Hj. lia.
Qed.

(** What holds before each cycle. *)
Definition at_cycle (st : Z) (t : T) (s : nat) : Prop :=
  ok t /\ st <> 0 /\ (exists c, steps M s init = Some c /\ shows cell t c /\ c_state c = st - 1)
  /\ (t = tp_init o /\ s = 0%nat \/ exists i, cell t i <> 0)
  /\ forall j d, (1 <= j <= s)%nat -> steps M j init = Some d -> ~ is_blank d.

Lemma at_start : at_cycle 1 (tp_init o) 0.
Proof.
  destruct TR as ((O & B) & _). split; [exact O|]. split; [lia|]. split; [|split; [left; auto|intros; lia]].
  exists init. split; [reflexivity|]. split; [intros i; rewrite B; reflexivity|reflexivity].
Qed.

Lemma cell_blank_cfg t c : shows cell t c -> ((forall i, cell t i = 0) <-> is_blank c).
Proof.
  intros SH. split.
  - intros H p. specialize (H (p - c_pos c)). rewrite SH in H. replace (c_pos c + (p - c_pos c)) with p in H by lia. exact H.
  - intros H i. rewrite SH. apply H.
Qed.

(** Before the tape is blank again: no blank tape during the cycle. *)
Lemma cycle_not_blank st t s n t' k : at_cycle st t s -> exec o P st t = Some (n, t', k, false) ->
  (1 <= k)%nat /\ ok t' /\ (exists c, steps M (k + s) init = Some c /\ shows cell t' c /\ c_state c = n - 1)
  /\ forall j d, (1 <= j < k + s)%nat -> steps M j init = Some d -> ~ is_blank d.
Proof.
  intros (O & N & (c & C1 & C2 & C3) & D & NB) E.
  destruct (exec_right _ _ _ _ _ _ _ O C2 C3 N E) as (K1 & O' & K0 & d & D1 & D2 & D3 & D4). split; [exact K1|]. split; [exact O'|]. split.
  - exists d. rewrite Nat.add_comm, (steps_add_some _ _ _ _ _ C1). auto.
  - intros j e Hj Ej. destruct (Nat.leb_spec j s) as [L|L]; [apply (NB j); [lia|exact Ej]|].
    replace j with (s + (j - s))%nat in Ej by lia. rewrite (steps_add_some _ _ _ _ _ C1) in Ej.
    destruct D as [(I & ->)|(i & Hi)]; [specialize (K0 I); lia|].
    apply (D4 (j - s)%nat); [lia|exact Ej|]. exists (c_pos c + i). rewrite <- C2. exact Hi.
Qed.

Lemma cycle_next st t s n t' k : at_cycle st t s -> exec o P st t = Some (n, t', k, false) ->
  n <> 0 -> tp_blank o t' = false -> at_cycle n t' (k + s).
Proof.
  intros A E N B. destruct (cycle_not_blank _ _ _ _ _ _ A E) as (K1 & O' & (c & C1 & C2 & C3) & NB).
  destruct TR as (_ & _ & _ & _ & BL & MK).
  assert (NBc : ~ is_blank c).
  { intros X. pose proof (proj2 (BL _ O') (proj2 (cell_blank_cfg _ _ C2) X)). congruence. }
  split; [exact O'|]. split; [exact N|]. split; [eauto|]. split.
  - right. destruct (MK t' O') as (ps & P1 & P2 & P3). destruct ps as [|p ps]; [|exists p; apply P2; left; reflexivity].
    exfalso. apply NBc. apply (proj1 (cell_blank_cfg _ _ C2)). intros i. destruct (Z.eq_dec (cell t' i) 0); auto. exfalso. apply (proj2 (P2 i)). exact n0.
  - intros j d Hj Ej. destruct (Nat.eq_dec j (k + s)) as [->|]; [rewrite C1 in Ej; injection Ej as <-; exact NBc|]. apply (NB j); [lia|exact Ej].
Qed.

Lemma loop_right left_ : forall st t s, at_cycle st t s ->
  match irun_loop o left_ P st t s with
  | IHang => True
  | ILimit => exists c, steps M (left_ + s) init = Some c /\ c_state c <> -1
      /\ forall j d, (1 <= j <= left_ + s)%nat -> steps M j init = Some d -> ~ is_blank d
  | IDone s' _ t' => run_truth M s' (tp_marks o t')
  end.
Proof.
  pose proof TR as (_ & _ & _ & _ & BL & MK).
  induction left_ as [|left_ IH]; intros st t s A.
  - cbn [irun_loop]. destruct A as (O & N & (c & C1 & C2 & C3) & D & NB). exists c. split; [exact C1|]. split; [lia|]. exact NB.
  - cbn [irun_loop]. destruct (exec o P st t) as [[[[n t'] k] r]|] eqn:E; [|exact Logic.I]. destruct r.
    + pose proof A as (O & N & (c & C1 & C2 & C3) & D & NB). pose proof (exec_right _ _ _ _ _ _ _ O C2 C3 N E) as (-> & -> & -> & SP).
      rewrite !orb_true_r. cbn [Nat.add]. exists c. split; [exact C1|]. split; [|split].
      * apply (marks_are_shift (cell t) _ _ (c_pos c)); [intros p; symmetry; apply C2|]. apply MK. exact O.
      * intros j d Hj. apply NB. lia.
      * right; right. split; [exact SP|]. eapply spins_out_never_halts; eauto.
    + rewrite orb_false_r. destruct (cycle_not_blank _ _ _ _ _ _ A E) as (K1 & O' & (c & C1 & C2 & C3) & NB).
      assert (MA : marks_are (c_tape c) (Z.of_nat (tp_marks o t'))).
      { apply (marks_are_shift (cell t') _ _ (c_pos c)); [intros p; symmetry; apply C2|]. apply MK. exact O'. }
      unfold ihalt. destruct (Z.eqb_spec n 0) as [->|N]; cbn [orb].
      * exists c. split; [exact C1|]. split; [exact MA|]. split; [exact NB|]. left. exact C3.
      * destruct (tp_blank o t') eqn:B.
        -- exists c. split; [exact C1|]. split; [exact MA|]. split; [exact NB|]. right; left. split; [|lia].
           apply (proj1 (cell_blank_cfg _ _ C2)). apply (proj1 (BL _ O')). exact B.
        -- pose proof (IH _ _ _ (cycle_next _ _ _ _ _ _ A E N B)) as X. destruct (irun_loop o left_ P n t' (k + s)); auto.
           destruct X as (e & X1 & X2 & X3). 
           assert (LE : (S left_ + s <= left_ + (k + s))%nat) by lia.
           destruct (steps_le M _ _ _ _ LE X1) as (e' & E'). exists e'. split; [exact E'|]. split.
           ++ intros Z1. destruct (Nat.eq_dec (S left_ + s) (left_ + (k + s))) as [Q|Q]; [rewrite Q, X1 in E'; injection E' as <-; contradiction|].
              replace (left_ + (k + s))%nat with ((S left_ + s) + S (left_ + (k + s) - (S left_ + s) - 1))%nat in X1 by lia.
              rewrite (steps_add_some _ _ _ _ _ E') in X1. cbn [steps] in X1. unfold step in X1. rewrite Z1 in X1. discriminate X1.
           ++ intros j d Hj. apply X3. lia.
Qed.

Lemma run_right sim_lim :
  match run_on_blank o sim_lim P with
  | IHang => True
  | ILimit => exists c, steps M sim_lim init = Some c /\ c_state c <> -1
      /\ forall j d, (1 <= j <= sim_lim)%nat -> steps M j init = Some d -> ~ is_blank d
  | IDone s _ t => run_truth M s (tp_marks o t)
  end.
Proof.
  unfold run_on_blank. pose proof (loop_right sim_lim _ _ _ at_start) as X. destruct (irun_loop o sim_lim P 1 (tp_init o) 0); auto.
  rewrite Nat.add_0_r in X. exact X.
Qed.

End Runs.

(** ** Two tapes, one report *)
Section Agree.
Context {T1 T2 : Type} (o1 : tape_ops T1) (o2 : tape_ops T2) (good1 good2 : Z -> Prop) (ok1 : T1 -> Prop) (ok2 : T2 -> Prop)
  (cell1 : T1 -> Z -> Z) (cell2 : T2 -> Z -> Z).
Context (TR1 : tape_right o1 good1 ok1 cell1) (TS1 : tape_sharp o1 good1 ok1 cell1).
Context (TR2 : tape_right o2 good2 ok2 cell2) (TS2 : tape_sharp o2 good2 ok2 cell2).
Context (P : iprogram) (PG1 : prints good1 P) (PG2 : prints good2 P).

Definition alike (t1 : T1) (t2 : T2) : Prop := ok1 t1 /\ ok2 t2 /\ forall i, cell1 t1 i = cell2 t2 i.

Lemma blank_toward_ext (f g : Z -> Z) dir : (forall i, f i = g i) -> blank_toward f dir -> blank_toward g dir.
Proof. intros E H i Hi. rewrite <- E. apply H. exact Hi. Qed.

Lemma read_alike t1 t2 : alike t1 t2 -> tp_read o1 t1 = tp_read o2 t2.
Proof.
  intros (O1 & O2 & E). destruct TR1 as (_ & RD1 & _), TR2 as (_ & RD2 & _), TS1 as (L1 & R1 & _), TS2 as (L2 & R2 & _).
  destruct (RD1 t1 O1) as (A1 & B1), (RD2 t2 O2) as (A2 & B2). specialize (L1 t1 O1). specialize (R1 t1 O1). specialize (L2 t2 O2). specialize (R2 t2 O2).
  destruct (tp_read o1 t1) as [c1 e1], (tp_read o2 t2) as [c2 e2]. cbn [fst snd] in *. subst c1 c2. rewrite E. f_equal.
  assert (X : forall d, blank_toward (cell1 t1) d <-> blank_toward (cell2 t2) d) by (intros d; split; apply blank_toward_ext; auto).
  destruct e1 as [[|]|], e2 as [[|]|]; try reflexivity; exfalso.
  - pose proof (B2 false eq_refl) as Y. apply X in Y. apply L1 in Y. discriminate Y.
  - pose proof (B1 true eq_refl) as Y. apply X in Y. assert (N : ~ blank_toward (cell2 t2) false) by (intros Q; apply L2 in Q; discriminate Q).
    specialize (R2 N Y). discriminate R2.
  - pose proof (B1 false eq_refl) as Y. apply X in Y. apply L2 in Y. discriminate Y.
  - pose proof (B1 false eq_refl) as Y. apply X in Y. apply L2 in Y. discriminate Y.
  - pose proof (B2 true eq_refl) as Y. apply X in Y. assert (N : ~ blank_toward (cell1 t1) false) by (intros Q; apply L1 in Q; discriminate Q).
    specialize (R1 N Y). discriminate R1.
  - pose proof (B2 false eq_refl) as Y. apply X in Y. apply L1 in Y. discriminate Y.
Qed.

Lemma moved_alike dir k cx f1 g1 f2 g2 : (forall i, f1 i = f2 i) -> moved dir k cx f1 g1 -> moved dir k cx f2 g2 -> forall i, g1 i = g2 i.
Proof. intros E A B i. rewrite A, B. destruct dir; rewrite E; reflexivity. Qed.

(** Both tapes are as at the start, or neither is blank. *)
Definition fresh (t1 : T1) (t2 : T2) : Prop := t1 = tp_init o1 /\ t2 = tp_init o2 \/ exists i, cell1 t1 i <> 0.

Lemma exec_alike st t1 t2 : alike t1 t2 -> fresh t1 t2 ->
  match exec o1 P st t1, exec o2 P st t2 with
  | Some (n1, t1', k1, r1), Some (n2, t2', k2, r2) => n1 = n2 /\ k1 = k2 /\ r1 = r2 /\ alike t1' t2' /\ (r1 = true -> t1' = t1 /\ t2' = t2)
  | _, _ => False
  end.
Proof.
  intros AL FR. pose proof AL as (O1 & O2 & E). unfold exec. rewrite (read_alike _ _ AL). destruct (tp_read o2 t2) as [scan edge] eqn:RD.
  pose proof (PG1 st scan) as G1. pose proof (PG2 st scan) as G2. destruct (P st scan) as [[cx dir] next]. cbn [fst] in *.
  destruct (Z.eqb_spec st next) as [<-|NE]; cbn [andb].
  - destruct (check_edge dir edge) eqn:CE; [repeat (split; [reflexivity|]); auto|].
    destruct TS1 as (_ & _ & K1), TS2 as (_ & _ & K2). destruct (K1 t1 dir cx O1 G1) as (k1 & t1' & S1 & D1), (K2 t2 dir cx O2 G2) as (k2 & t2' & S2 & D2).
    rewrite S1, S2. destruct TR1 as (_ & _ & _ & Q1 & _), TR2 as (_ & RD2 & _ & Q2 & _).
    destruct (Q1 _ _ _ _ _ O1 G1 S1) as (A1 & A2 & A3 & A4 & A5), (Q2 _ _ _ _ _ O2 G2 S2) as (B1 & B2 & B3 & B4 & B5).
    assert (KK : k1 = k2).
    { destruct FR as [(I1 & I2)|(i & Hi)]; [rewrite A5, B5 by assumption; reflexivity|].
      assert (NB : ~ blank_toward (cell2 t2) dir).
      { intros BT. destruct TS2 as (L2 & R2 & _). specialize (L2 t2 O2). specialize (R2 t2 O2). rewrite RD in L2, R2. cbn [snd] in L2, R2.
        destruct dir.
        - destruct edge as [[|]|]; [discriminate CE| |].
          + apply Hi. rewrite E. destruct (RD2 t2 O2) as (_ & B). rewrite RD in B. specialize (B false eq_refl).
            destruct (Z.leb_spec 0 i) as [P0|P0]; [exact (BT i P0)|]. specialize (B (- i)). cbn [toward] in B. rewrite Z.opp_involutive in B. apply B. lia.
          + assert (N : ~ blank_toward (cell2 t2) false) by (intros Q; apply L2 in Q; discriminate Q). specialize (R2 N BT). discriminate R2.
        - rewrite (L2 BT) in CE. discriminate CE. }
      assert (NB1 : ~ blank_toward (cell1 t1) dir) by (intros Q; apply NB; eapply blank_toward_ext; eauto).
      specialize (D1 NB1). specialize (D2 NB). destruct (Nat.lt_trichotomy k1 k2) as [L|[L|L]]; [|exact L|]; exfalso.
      - apply D1. rewrite !E. apply B4. lia.
      - apply D2. rewrite <- !E. apply A4. lia. }
    subst k2. repeat (split; [reflexivity|]). split; [|intros X; discriminate X]. split; [exact A2|]. split; [exact B2|].
    exact (moved_alike _ _ _ _ _ _ _ E A3 B3).
  - destruct TR1 as (_ & _ & Q1 & _), TR2 as (_ & _ & Q2 & _).
    destruct (Q1 t1 dir cx O1 G1) as (A1 & A2 & A3), (Q2 t2 dir cx O2 G2) as (B1 & B2 & B3).
    destruct (tp_step o1 dir t1 cx) as [k1 t1'], (tp_step o2 dir t2 cx) as [k2 t2']. cbn [fst snd] in *. subst k1 k2.
    repeat (split; [reflexivity|]). split; [|intros X; discriminate X]. split; [exact A2|]. split; [exact B2|].
    exact (moved_alike _ _ _ _ _ _ _ E A3 B3).
Qed.

Lemma marks_alike t1 t2 : alike t1 t2 -> tp_marks o1 t1 = tp_marks o2 t2.
Proof.
  intros (O1 & O2 & E). destruct TR1 as (_ & _ & _ & _ & _ & M1), TR2 as (_ & _ & _ & _ & _ & M2).
  apply Nat2Z.inj. eapply marks_unique; [apply (M1 _ O1)|]. eapply marks_are_ext; [|apply (M2 _ O2)]. intros p. symmetry. apply E.
Qed.

Lemma blank_alike t1 t2 : alike t1 t2 -> tp_blank o1 t1 = tp_blank o2 t2.
Proof.
  intros (O1 & O2 & E). destruct TR1 as (_ & _ & _ & _ & B1 & _), TR2 as (_ & _ & _ & _ & B2 & _).
  apply Bool.eq_true_iff_eq. rewrite (B1 _ O1), (B2 _ O2). split; intros H i; [rewrite <- E|rewrite E]; apply H.
Qed.

Lemma not_blank_fresh t1 t2 : alike t1 t2 -> tp_blank o1 t1 = false -> fresh t1 t2.
Proof.
  intros (O1 & _) B. destruct TR1 as (_ & _ & _ & _ & BL & MK). right.
  destruct (MK t1 O1) as (ps & P1 & P2 & P3). destruct ps as [|p ps]; [|exists p; apply P2; left; reflexivity]. exfalso.
  assert (X : tp_blank o1 t1 = true); [|congruence]. apply (BL t1 O1). intros i. destruct (Z.eq_dec (cell1 t1 i) 0); auto. exfalso. apply (proj2 (P2 i)). exact n.
Qed.

Lemma loop_alike left_ : forall st t1 t2 s, alike t1 t2 -> fresh t1 t2 ->
  report_of o1 (irun_loop o1 left_ P st t1 s) = report_of o2 (irun_loop o2 left_ P st t2 s) /\ irun_loop o1 left_ P st t1 s <> IHang.
Proof.
  induction left_ as [|left_ IH]; intros st t1 t2 s AL FR; cbn [irun_loop]; [split; [reflexivity|discriminate]|].
  pose proof (exec_alike st t1 t2 AL FR) as X. destruct (exec o1 P st t1) as [[[[n1 t1'] k1] r1]|]; [|contradiction].
  destruct (exec o2 P st t2) as [[[[n2 t2'] k2] r2]|]; [|contradiction]. destruct X as (<- & <- & <- & AL' & RR).
  rewrite <- (blank_alike _ _ AL'). destruct ((n1 =? ihalt) || tp_blank o1 t1' || r1) eqn:Q.
  - cbn [report_of]. rewrite (marks_alike _ _ AL'). split; [reflexivity|discriminate].
  - apply orb_false_iff in Q. destruct Q as (Q & _). apply orb_false_iff in Q. destruct Q as (_ & Q).
    apply IH; [exact AL'|]. apply not_blank_fresh; assumption.
Qed.

Lemma run_alike sim_lim : report_of o1 (run_on_blank o1 sim_lim P) = report_of o2 (run_on_blank o2 sim_lim P)
  /\ report_of o1 (run_on_blank o1 sim_lim P) <> Hangs.
Proof.
  assert (AL : alike (tp_init o1) (tp_init o2)).
  { destruct TR1 as ((A1 & B1) & _), TR2 as ((A2 & B2) & _). split; [exact A1|]. split; [exact A2|]. intros i. rewrite B1, B2. reflexivity. }
  destruct (loop_alike sim_lim 1 _ _ 0%nat AL) as (X & Y); [left; auto|]. unfold run_on_blank.
  destruct (irun_loop o1 sim_lim P 1 (tp_init o1) 0), (irun_loop o2 sim_lim P 1 (tp_init o2) 0); cbn [report_of] in *;
    try discriminate X; try contradiction; (split; [|discriminate]); try reflexivity. injection X as -> -> ->. reflexivity.
Qed.

End Agree.
