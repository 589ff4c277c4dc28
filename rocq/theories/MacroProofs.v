(** Lemmas about the macro machines. *)
From Verif Require Import Base TM TMFacts ProgModel MacroModel MacroSpec TermRecProofs.

(** ** Numbers and tuples *)

Lemma color_sum_shift b l : forall p, 0 <= p -> color_sum b (p + 1) l = b * color_sum b p l.
Proof.
  induction l as [|x l IH]; intros p Hp; cbn; [lia|].
  rewrite IH by lia. rewrite Z.pow_add_r by lia. rewrite Z.pow_1_r. ring.
Qed.

Lemma number_snoc b l : forall acc d, number b acc (l ++ [d]) = number b acc l * b + d.
Proof. induction l as [|x l IH]; intros acc d; cbn; auto. Qed.

Lemma color_of_number b t : color_of b t = number b 0 t.
Proof.
  unfold color_of. induction t as [|d t IH] using rev_ind; [reflexivity|].
  rewrite rev_app_distr, number_snoc. cbn. rewrite <- IH.
  rewrite (color_sum_shift b (rev t) 0) by lia. rewrite Z.pow_0_r. ring.
Qed.

Lemma number_bound b t : 0 < b -> Forall (fun d => 0 <= d < b) t ->
  0 <= number b 0 t < b ^ Z.of_nat (length t).
Proof.
  intros Hb. induction t as [|d t IH] using rev_ind; intros H.
  - cbn. lia.
  - apply Forall_app in H as [H1 H2]. inv H2. specialize (IH H1).
    rewrite number_snoc, app_length. cbn [length].
    rewrite Nat2Z.inj_add, Z.pow_add_r by lia. change (Z.of_nat 1) with 1. rewrite Z.pow_1_r.
    nia.
Qed.

Lemma number_inj b t : forall t', 0 < b -> length t = length t' ->
  Forall (fun d => 0 <= d < b) t -> Forall (fun d => 0 <= d < b) t' ->
  number b 0 t = number b 0 t' -> t = t'.
Proof.
  induction t as [|d t IH] using rev_ind; intros t' Hb Hl H H' E.
  - destruct t'; [reflexivity|discriminate].
  - destruct t' as [|d' t' _] using rev_ind; [rewrite app_length in Hl; cbn in Hl; lia|].
    rewrite !app_length in Hl. cbn in Hl.
    apply Forall_app in H as [H1 H2]. inv H2. apply Forall_app in H' as [H1' H2']. inv H2'.
    rewrite !number_snoc in E.
    assert (E1 : number b 0 t = number b 0 t').
    { generalize dependent (number b 0 t). generalize dependent (number b 0 t'). intros x y. intros.
      destruct (Z.lt_trichotomy x y) as [L|[L|L]]; nia. }
    assert (d = d') as -> by nia. f_equal. apply IH; auto. lia.
Qed.

Lemma number_blank b k : number b 0 (repeat 0 k) = 0.
Proof. induction k; cbn; auto. Qed.

Lemma cells_eqb_eq a : forall b, cells_eqb a b = true <-> a = b.
Proof.
  induction a as [|x a IH]; intros [|y b]; cbn; split; intro H; try discriminate; auto.
  - apply andb_true_iff in H as [H1 H2]. apply Z.eqb_eq in H1. apply IH in H2. congruence.
  - inv H. rewrite Z.eqb_refl. cbn. apply IH. auto.
Qed.

(** ** Windows *)

Lemma set_cell_length t : forall pos v, length (set_cell t pos v) = length t.
Proof. induction t; intros [|pos] v; cbn; auto. Qed.

Lemma set_cell_nth t : forall pos v j, (pos < length t)%nat ->
  nth j (set_cell t pos v) 0 = if Nat.eqb j pos then v else nth j t 0.
Proof.
  induction t as [|x t IH]; intros [|pos] v [|j] H; cbn in *; auto; try lia.
  apply IH. lia.
Qed.

Lemma set_cell_Forall (P : Z -> Prop) t : forall pos v, Forall P t -> P v -> Forall P (set_cell t pos v).
Proof. induction t; intros [|pos] v H Hv; cbn; auto; inv H; constructor; auto. Qed.

Section Window.
Variables (look : lookup) (off : Z) (k : nat) (out : Z -> Z).

Let inside (p : Z) : Prop := off <= p < off + Z.of_nat k.

(** A base configuration shows the window contents [t], and [out] elsewhere. *)
Definition shows (state : Z) (t : cells_t) (p : Z) (c : config) : Prop :=
  length t = k /\ c_state c = state /\ c_pos c = p /\ holds off t (c_tape c) /\
  (forall q, ~ inside q -> c_tape c q = out q).

Lemma shows_step state t pos c color shift next : (pos < k)%nat ->
  shows state t (off + Z.of_nat pos) c -> look state (cell_at t pos) = LOk (color, shift, next) ->
  exists d, step (prog_of look) c = Some d /\ inside (c_pos c) /\
    shows next (set_cell t pos color) (move shift (off + Z.of_nat pos)) d.
Proof.
  intros Hp (HL & HS & HP & HT & HO) HI.
  assert (HC : c_tape c (c_pos c) = cell_at t pos) by (rewrite HP; apply HT; lia).
  eexists. split.
  { unfold step, prog_of. rewrite HC, HS, HI. reflexivity. }
  split; [unfold inside; lia|].
  repeat split; cbn.
  - rewrite set_cell_length. auto.
  - rewrite HP. reflexivity.
  - intros j Hj. rewrite set_cell_length in Hj. unfold write. rewrite set_cell_nth by lia.
    rewrite HP. destruct (Nat.eqb_spec j pos) as [->|N].
    + rewrite Z.eqb_refl. reflexivity.
    + rewrite (proj2 (Z.eqb_neq _ _)) by lia. apply HT. lia.
  - intros q Hq. unfold write. rewrite HP.
    rewrite (proj2 (Z.eqb_neq _ _)); [apply HO; auto|].
    intros ->. apply Hq. unfold inside. lia.
Qed.

(** [c] goes to a configuration satisfying [P] in [n] steps without leaving the window before. *)
Definition goes (n : nat) (c : config) (P : config -> Prop) : Prop :=
  exists d, steps (prog_of look) n c = Some d /\ stays (prog_of look) inside n c /\ P d.

Lemma goes_trans n m c (P Q : config -> Prop) : goes n c P -> (forall d, P d -> goes m d Q) -> goes (n + m) c Q.
Proof.
  intros (d & H1 & H2 & H3) H. destruct (H d H3) as (e & G1 & G2 & G3).
  exists e. split; [rewrite (steps_add_some _ _ _ _ _ H1); auto|].
  split; auto. eapply stays_app; eauto.
Qed.

Lemma goes_one state t pos c color shift next : (pos < k)%nat ->
  shows state t (off + Z.of_nat pos) c -> look state (cell_at t pos) = LOk (color, shift, next) ->
  goes 1 c (shows next (set_cell t pos color) (move shift (off + Z.of_nat pos))).
Proof.
  intros Hp HS HI. destruct (shows_step _ _ _ _ _ _ _ Hp HS HI) as (d & H1 & H2 & H3).
  exists d. split; [cbn; rewrite H1; auto|]. split; auto.
  intros m Hm. assert (m = 0)%nat as -> by lia. exists c. auto.
Qed.

Definition wres_reached (r : wres) (d : config) : Prop :=
  match r with
  | WIn s t p => (p < k)%nat /\ shows s t (off + Z.of_nat p) d
  | WOut s right_ t => shows s t (if right_ then off + Z.of_nat k else off - 1) d
  | WErr e => False
  end.

Lemma sweep_right_ok state scan color : forall fuel t pos c, (pos < k)%nat ->
  look state scan = LOk (color, true, state) ->
  shows state t (off + Z.of_nat pos) c -> cell_at t pos = scan -> (0 < fuel)%nat ->
  exists n, (0 < n)%nat /\ goes n c (wres_reached (sweep_right fuel state scan color t pos)).
Proof.
  induction fuel as [|fuel IH]; intros t pos c Hp HI HS HC HF; [lia|].
  cbn [sweep_right]. rewrite HC, Z.eqb_refl. rewrite set_cell_length.
  rewrite <- HC in HI. pose proof (goes_one _ _ _ _ _ _ _ Hp HS HI) as G. cbn [move] in G.
  assert (HL : length t = k) by apply HS. rewrite HL.
  destruct (Nat.leb_spec k (S pos)) as [L|L].
  - exists 1%nat. split; [lia|]. destruct G as (d & G1 & G2 & G3). exists d. repeat split; auto; try apply G3.
    destruct G3 as (_ & _ & -> & _). lia.
  - replace (off + Z.of_nat pos + 1) with (off + Z.of_nat (S pos)) in G by lia.
    destruct (cell_at (set_cell t pos color) (S pos) =? scan) eqn:E.
    + destruct fuel as [|fuel].
      * exists 1%nat. split; [lia|]. destruct G as (d & G1 & G2 & G3). exists d. repeat split; auto; apply G3.
      * apply Z.eqb_eq in E. destruct G as (d & G1 & G2 & G3). rewrite HC in HI.
        destruct (IH _ _ _ L HI G3 E ltac:(lia)) as (n & Hn & Hg).
        exists (1 + n)%nat. split; [lia|]. eapply goes_trans with (P := fun x => x = d).
        { exists d. auto. }
        intros ? ->. exact Hg.
    + exists 1%nat. split; [lia|].
      destruct fuel as [|fuel]; cbn [sweep_right]; try rewrite E;
        (destruct G as (d & G1 & G2 & G3); exists d; repeat split; auto; apply G3).
Qed.

Lemma sweep_left_ok state scan color : forall fuel t pos c, (pos < k)%nat ->
  look state scan = LOk (color, false, state) ->
  shows state t (off + Z.of_nat pos) c -> cell_at t pos = scan -> (0 < fuel)%nat ->
  exists n, (0 < n)%nat /\ goes n c (wres_reached (sweep_left fuel state scan color t pos)).
Proof.
  induction fuel as [|fuel IH]; intros t pos c Hp HI HS HC HF; [lia|].
  cbn [sweep_left]. rewrite HC, Z.eqb_refl.
  rewrite <- HC in HI. pose proof (goes_one _ _ _ _ _ _ _ Hp HS HI) as G. cbn [move] in G.
  destruct pos as [|pos].
  - exists 1%nat. split; [lia|]. destruct G as (d & G1 & G2 & G3). exists d. repeat split; auto; try apply G3.
    destruct G3 as (_ & _ & -> & _). lia.
  - replace (off + Z.of_nat (S pos) - 1) with (off + Z.of_nat pos) in G by lia.
    assert (L : (pos < k)%nat) by lia.
    destruct (cell_at (set_cell t (S pos) color) pos =? scan) eqn:E.
    + destruct fuel as [|fuel].
      * exists 1%nat. split; [lia|]. destruct G as (d & G1 & G2 & G3). exists d. repeat split; auto; apply G3.
      * apply Z.eqb_eq in E. destruct G as (d & G1 & G2 & G3). rewrite HC in HI.
        destruct (IH _ _ _ L HI G3 E ltac:(lia)) as (n & Hn & Hg).
        exists (1 + n)%nat. split; [lia|]. eapply goes_trans with (P := fun x => x = d).
        { exists d. auto. }
        intros ? ->. exact Hg.
    + exists 1%nat. split; [lia|].
      destruct fuel as [|fuel]; cbn [sweep_left]; try rewrite E;
        (destruct G as (d & G1 & G2 & G3); exists d; repeat split; auto; apply G3).
Qed.

Lemma sim_step_ok state t pos c : (pos < k)%nat -> shows state t (off + Z.of_nat pos) c ->
  match sim_step look state t pos with
  | WErr e => look state (cell_at t pos) = e /\ forall i, e <> LOk i
  | r => exists n, (0 < n)%nat /\ goes n c (wres_reached r)
  end.
Proof.
  intros Hp HS. unfold sim_step. assert (HL : length t = k) by apply HS.
  destruct (look state (cell_at t pos)) as [[[color shift] next]| | |] eqn:HI; try (split; [auto|discriminate]).
  pose proof (goes_one _ _ _ _ _ _ _ Hp HS HI) as G.
  destruct (negb (next =? state)) eqn:EN.
  - destruct shift; cbn [move] in G.
    + rewrite set_cell_length, HL. destruct (Nat.leb_spec k (S pos)) as [L|L];
        exists 1%nat; (split; [lia|]); destruct G as (d & G1 & G2 & G3); exists d; repeat split; auto; try apply G3;
        destruct G3 as (_ & _ & -> & _); lia.
    + destruct pos as [|pos]; exists 1%nat; (split; [lia|]); destruct G as (d & G1 & G2 & G3); exists d;
        repeat split; auto; try apply G3; try lia; destruct G3 as (_ & _ & -> & _); lia.
  - assert (next = state) as -> by lia. rewrite HL.
    destruct shift.
    + pose proof (sweep_right_ok state (cell_at t pos) color k t pos c Hp HI HS eq_refl ltac:(lia)) as (n & Hn & Hg).
      destruct (sweep_right k state (cell_at t pos) color t pos); [exists n|exists n|]; auto.
      destruct Hg as (? & _ & _ & []).
    + pose proof (sweep_left_ok state (cell_at t pos) color k t pos c Hp HI HS eq_refl ltac:(lia)) as (n & Hn & Hg).
      destruct (sweep_left k state (cell_at t pos) color t pos); [exists n|exists n|]; auto.
      destruct Hg as (? & _ & _ & []).
Qed.

(** What a whole run of the loop establishes, when it does not run out of turns. *)
Lemma sim_loop_out fuel : forall state t pos c state' right_ t', (pos < k)%nat ->
  shows state t (off + Z.of_nat pos) c ->
  sim_loop look fuel state t pos = WOut state' right_ t' ->
  exists n, (0 < n)%nat /\ goes n c (shows state' t' (if right_ then off + Z.of_nat k else off - 1)).
Proof.
  induction fuel as [|fuel IH]; intros state t pos c state' right_ t' Hp HS HR; [discriminate|].
  cbn [sim_loop] in HR. pose proof (sim_step_ok state t pos c Hp HS) as H.
  destruct (sim_step look state t pos) as [s1 t1 p1|s1 r1 t1|e]; try discriminate.
  - destruct H as (n & Hn & d & G1 & G2 & Hp1 & G3).
    destruct (IH _ _ _ _ _ _ _ Hp1 G3 HR) as (m & Hm & G).
    exists (n + m)%nat. split; [lia|]. eapply goes_trans with (P := fun x => x = d); [exists d; auto|].
    intros ? ->. exact G.
  - inv HR. exact H.
Qed.

Definition wstep (r : wres) : wres := match r with WIn s t p => sim_step look s t p | r => r end.
Fixpoint witer (n : nat) (r : wres) : wres := match n with O => r | S n => witer n (wstep r) end.

Lemma sim_loop_err fuel : forall state t pos c e, (pos < k)%nat ->
  shows state t (off + Z.of_nat pos) c ->
  sim_loop look fuel state t pos = WErr e ->
  fails_inside look off (Z.of_nat k) c e \/
  (e = LInf /\ exists state' t' pos', witer fuel (WIn state t pos) = WIn state' t' pos').
Proof.
  induction fuel as [|fuel IH]; intros state t pos c e Hp HS HR.
  - right. inv HR. split; auto. exists state, t, pos. auto.
  - cbn [sim_loop] in HR. pose proof (sim_step_ok state t pos c Hp HS) as H.
    destruct (sim_step look state t pos) as [s1 t1 p1|s1 r1 t1|e1] eqn:ES; try discriminate.
    + destruct H as (n & Hn & d & G1 & G2 & Hp1 & G3).
      destruct (IH _ _ _ _ _ Hp1 G3 HR) as [F|(-> & s' & t' & p' & HN)].
      * left. destruct F as (m & d' & F1 & F2 & F3). exists (n + m)%nat, d'.
        split; [rewrite (steps_add_some _ _ _ _ _ G1); auto|]. split; auto.
        intros i c' Hi Hc. destruct (Nat.lt_ge_cases i n) as [L|L].
        -- destruct (G2 i L) as (c'' & E1 & E2). rewrite E1 in Hc. inv Hc. exact E2.
        -- replace i with (n + (i - n))%nat in Hc by lia. rewrite (steps_add_some _ _ _ _ _ G1) in Hc.
           eapply F2; [|exact Hc]. lia.
      * right. split; auto. exists s', t', p'. cbn [witer wstep]. rewrite ES. exact HN.
    + inv HR. destruct H as [H1 H2]. left. exists 0%nat, c. split; auto.
      destruct HS as (HL & HS & HP & HT & HO). split.
      * intros m c' Hm Hc. assert (m = 0)%nat as -> by lia. cbn in Hc. inv Hc. lia.
      * rewrite HS, HP. split; auto. rewrite (HT pos) by lia. exact H1.
Qed.

Lemma witer_add n m r : witer (n + m) r = witer m (witer n r).
Proof. revert r. induction n; intro r; cbn; auto. Qed.

Lemma witer_in_le n m r s t p : (m <= n)%nat -> witer n r = WIn s t p ->
  exists s' t' p', witer m r = WIn s' t' p'.
Proof.
  intros L H. replace n with (m + (n - m))%nat in H by lia. rewrite witer_add in H.
  destruct (witer m r) as [s1 t1 p1|s1 r1 t1|e]; eauto; exfalso; revert H; clear;
    induction (n - m)%nat; cbn; congruence.
Qed.

Lemma witer_goes n : forall s t p s' t' p' c, (p < k)%nat -> shows s t (off + Z.of_nat p) c ->
  witer n (WIn s t p) = WIn s' t' p' ->
  exists m, (n <= m)%nat /\ goes m c (wres_reached (WIn s' t' p')).
Proof.
  induction n as [|n IH]; intros s t p s' t' p' c Hp HS H.
  - cbn in H. inv H. exists 0%nat. split; [lia|]. exists c. repeat split; auto; try apply HS.
    intros j Hj. lia.
  - cbn [witer wstep] in H. pose proof (sim_step_ok s t p c Hp HS) as G.
    destruct (sim_step look s t p) as [s1 t1 p1|s1 r1 t1|e].
    + destruct G as (m & Hm & d & G1 & G2 & Hp1 & G3).
      destruct (IH _ _ _ _ _ _ _ Hp1 G3 H) as (m' & Hm' & G').
      exists (m + m')%nat. split; [lia|]. eapply goes_trans with (P := fun x => x = d); [exists d; auto|].
      intros ? ->. exact G'.
    + exfalso. revert H. clear. induction n; cbn; congruence.
    + exfalso. revert H. clear. induction n; cbn; congruence.
Qed.

Lemma forever_trapped s t p c : (p < k)%nat -> shows s t (off + Z.of_nat p) c ->
  (forall n, exists s' t' p', witer n (WIn s t p) = WIn s' t' p') ->
  trapped (prog_of look) off (Z.of_nat k) c.
Proof.
  intros Hp HS H n. destruct (H (S n)) as (s' & t' & p' & H').
  destruct (witer_goes _ _ _ _ _ _ _ _ Hp HS H') as (m & Hm & d & G1 & G2 & G3).
  destruct (G2 n ltac:(lia)) as (e & E1 & E2). exists e. auto.
Qed.

End Window.

(** ** Counting the situations inside a window *)

Lemma dup_or_nodup (f : nat -> Z) n :
  (exists i j, (i < j < n)%nat /\ f i = f j) \/ NoDup (map f (seq 0 n)).
Proof.
  induction n as [|n [(i & j & H & E)|IH]].
  - right. constructor.
  - left. exists i, j. split; [lia|auto].
  - destruct (in_dec Z.eq_dec (f n) (map f (seq 0 n))) as [H|H].
    + left. apply in_map_iff in H as (i & E & Hi). apply in_seq in Hi. exists i, n. split; [lia|auto].
    + right. rewrite seq_S, map_app. cbn. apply NoDup_Add with (a := f n) (l := map f (seq 0 n)); auto.
      rewrite <- (app_nil_r (map f (seq 0 n))) at 1. apply Add_app.
Qed.

Lemma pigeon m : forall f : nat -> Z, (forall i, (i <= m)%nat -> 0 <= f i < Z.of_nat m) ->
  exists i j, (i < j <= m)%nat /\ f i = f j.
Proof.
  intros f Hf.
  destruct (dup_or_nodup f (S m)) as [(i & j & H & E)|N].
  - exists i, j. split; [lia|auto].
  - exfalso. assert (I : incl (map f (seq 0 (S m))) (map Z.of_nat (seq 0 m))).
    { intros x Hx. apply in_map_iff in Hx as (i & <- & Hi). apply in_seq in Hi.
      apply in_map_iff. exists (Z.to_nat (f i)). specialize (Hf i ltac:(lia)).
      split; [lia|]. apply in_seq. lia. }
    pose proof (NoDup_incl_length N I) as L. rewrite !map_length, !seq_length in L. lia.
Qed.

Definition wcode (C : Z) (k : nat) (r : wres) : Z :=
  match r with
  | WIn s t p => (s * Z.of_nat k + Z.of_nat p) * C ^ Z.of_nat k + number C 0 t
  | _ => 0
  end.

Definition wvalid (S C : Z) (k : nat) (r : wres) : Prop :=
  match r with
  | WIn s t p => 0 <= s < S /\ tuple_ok C k t /\ (p < k)%nat
  | WOut s _ t => 0 <= s < S /\ tuple_ok C k t
  | WErr _ => True
  end.

Lemma sweep_right_valid S C k state scan color : forall fuel t pos,
  0 <= state < S -> 0 <= color < C -> tuple_ok C k t -> (pos < k)%nat ->
  wvalid S C k (sweep_right fuel state scan color t pos).
Proof.
  induction fuel as [|fuel IH]; intros t pos Hs Hc [Ht1 Ht2] Hp; cbn; [split; [auto|split; [split; auto|auto]]|].
  assert (HT : tuple_ok C k (set_cell t pos color)).
  { split; [rewrite set_cell_length; auto|apply set_cell_Forall; auto]. }
  destruct (cell_at t pos =? scan); [|cbn; split; [auto|split; [split; auto|auto]]].
  rewrite set_cell_length, Ht1. destruct (Nat.leb_spec k (Datatypes.S pos)); [cbn; auto|]. apply IH; auto.
Qed.

Lemma sweep_left_valid S C k state scan color : forall fuel t pos,
  0 <= state < S -> 0 <= color < C -> tuple_ok C k t -> (pos < k)%nat ->
  wvalid S C k (sweep_left fuel state scan color t pos).
Proof.
  induction fuel as [|fuel IH]; intros t pos Hs Hc [Ht1 Ht2] Hp; cbn; [split; [auto|split; [split; auto|auto]]|].
  assert (HT : tuple_ok C k (set_cell t pos color)).
  { split; [rewrite set_cell_length; auto|apply set_cell_Forall; auto]. }
  destruct (cell_at t pos =? scan); [|cbn; split; [auto|split; [split; auto|auto]]].
  destruct pos as [|pos]; [cbn; auto|]. apply IH; auto. lia.
Qed.

Lemma cell_at_ok C k t p : tuple_ok C k t -> (p < k)%nat -> 0 <= cell_at t p < C.
Proof. intros [H1 H2] Hp. rewrite Forall_forall in H2. apply H2. apply nth_In. lia. Qed.

Lemma wstep_valid look S C k r : params_ok look S C -> wvalid S C k r -> wvalid S C k (wstep look r).
Proof.
  intros HP. destruct r as [s t p|s r t|e]; cbn [wstep]; auto.
  intros (Hs & Ht & Hp). unfold sim_step.
  destruct (look s (cell_at t p)) as [[[color shift] next]| | |] eqn:E; try exact I.
  destruct (HP _ _ _ _ _ Hs (cell_at_ok _ _ _ _ Ht Hp) E) as [Hc Hn].
  assert (HT : tuple_ok C k (set_cell t p color)).
  { destruct Ht. split; [rewrite set_cell_length; auto|apply set_cell_Forall; auto]. }
  destruct (negb (next =? s)).
  - destruct shift.
    + rewrite set_cell_length. destruct (Nat.leb_spec (length t) (Datatypes.S p)); [cbn; auto|].
      cbn. split; auto. split; auto. destruct Ht. lia.
    + destruct p; cbn; auto. split; auto. split; auto. lia.
  - destruct shift; [apply sweep_right_valid|apply sweep_left_valid]; auto.
Qed.

Lemma witer_valid look S C k n : forall r, params_ok look S C -> wvalid S C k r -> wvalid S C k (witer look n r).
Proof. induction n; intros r HP HV; cbn; auto. apply IHn; auto. apply wstep_valid; auto. Qed.

Lemma wcode_bound S C k s t p : 0 < C -> wvalid S C k (WIn s t p) ->
  0 <= wcode C k (WIn s t p) < S * Z.of_nat k * C ^ Z.of_nat k.
Proof.
  intros HC (Hs & [Ht1 Ht2] & Hp). cbn. pose proof (number_bound C t HC Ht2) as B. rewrite Ht1 in B.
  assert (0 <= s * Z.of_nat k + Z.of_nat p <= S * Z.of_nat k - 1) by nia.
  nia.
Qed.

Lemma wcode_inj S C k s t p s' t' p' : 0 < C -> wvalid S C k (WIn s t p) -> wvalid S C k (WIn s' t' p') ->
  wcode C k (WIn s t p) = wcode C k (WIn s' t' p') -> WIn s t p = WIn s' t' p'.
Proof.
  intros HC (Hs & [Ht1 Ht2] & Hp) (Hs' & [Ht1' Ht2'] & Hp') E. cbn in E.
  pose proof (number_bound C t HC Ht2) as B. pose proof (number_bound C t' HC Ht2') as B'.
  rewrite Ht1 in B. rewrite Ht1' in B'.
  assert (E1 : s * Z.of_nat k + Z.of_nat p = s' * Z.of_nat k + Z.of_nat p').
  { revert E B B'. generalize (s * Z.of_nat k + Z.of_nat p) (s' * Z.of_nat k + Z.of_nat p')
      (C ^ Z.of_nat k) (number C 0 t) (number C 0 t'). intros x y z u v E B B'.
    destruct (Z.lt_trichotomy x y) as [L|[L|L]]; nia. }
  rewrite E1 in E. assert (E2 : number C 0 t = number C 0 t') by lia.
  assert (E3 : s = s') by (destruct (Z.lt_trichotomy s s') as [L|[L|L]]; nia).
  subst s'. assert (p = p') as -> by lia.
  rewrite (number_inj C t t' HC ltac:(lia) Ht2 Ht2' E2). reflexivity.
Qed.

(** If the loop is still inside after as many turns as there are situations, it stays for ever. *)
Lemma loop_forever look S C k s t p lim : 0 < C -> params_ok look S C -> wvalid S C k (WIn s t p) ->
  Z.of_nat lim = S * Z.of_nat k * C ^ Z.of_nat k ->
  (exists s' t' p', witer look lim (WIn s t p) = WIn s' t' p') ->
  forall n, exists s' t' p', witer look n (WIn s t p) = WIn s' t' p'.
Proof.
  intros HC HP HV HL (sl & tl & pl & HN).
  set (w := WIn s t p) in *.
  assert (HI : forall i, (i <= lim)%nat -> exists s' t' p', witer look i w = WIn s' t' p').
  { intros i Hi. eapply witer_in_le; eauto. }
  destruct (pigeon lim (fun i => wcode C k (witer look i w))) as (i & j & Hij & E).
  { intros i Hi. destruct (HI i Hi) as (s' & t' & p' & E). rewrite HL, E. apply wcode_bound; auto.
    rewrite <- E. apply witer_valid; auto. }
  assert (EW : witer look i w = witer look j w).
  { destruct (HI i ltac:(lia)) as (s1 & t1 & p1 & E1). destruct (HI j ltac:(lia)) as (s2 & t2 & p2 & E2).
    cbn beta in E. rewrite E1, E2 in *. eapply wcode_inj with (S := S); eauto.
    - rewrite <- E1. apply witer_valid; auto.
    - rewrite <- E2. apply witer_valid; auto. }
  intros n.
  assert (HQ : forall q, witer look (i + q * (j - i)) w = witer look i w).
  { induction q as [|q IH].
    - cbn. rewrite Nat.add_0_r. reflexivity.
    - replace (i + Datatypes.S q * (j - i))%nat with ((i + q * (j - i)) + (j - i))%nat by lia.
      rewrite witer_add, IH, <- witer_add. replace (i + (j - i))%nat with j by lia. auto. }
  destruct (HI i ltac:(lia)) as (s1 & t1 & p1 & E1).
  apply (witer_in_le look (i + n * (j - i)) n w s1 t1 p1); [nia|]. rewrite HQ. exact E1.
Qed.
