(** Lemmas about LinRecSampler: what a denial and a confirmation from samples say. *)
From Verif Require Import Base TM TMFacts ProgModel TapeModel TapeSpec TapeProofs QuickModel QuickProofs TermRecModel TermRecSpec
  TermRecProofs BlocksProofs TermRecComplete RecurModel RecurSpec RecurProofs RecurStrict RecurComplete.

Lemma hp_one comp state tp t c color shift next tp' st :
  at_time (machine_of comp) state tp t c -> comp_get comp (state, t_scan (h_tape tp)) = Some (color, shift, next) ->
  hp_step tp shift color false = (tp', st) -> st = 1 /\ exists d, at_time (machine_of comp) next tp' (S t) d.
Proof.
  intros [A1 A2 A3 A4 A5] EG E. unfold hp_step in E. rewrite py_rs_step in E by auto using canon_wf.
  destruct (rs_step (h_tape tp) shift color false) as [tp1 st1] eqn:ES. injection E as <- <-.
  destruct (rs_step_refines (machine_of comp) (h_tape tp) c shift color next false tp1 st1)
    as (N & W & N1 & d & B1 & B2 & B3 & B4); auto using canon_wf.
  { rewrite A5. exact EG. }
  { discriminate. }
  specialize (N1 eq_refl). subst st1. split; auto. exists d. constructor; cbn [h_tape h_head]; auto.
  - replace (S t) with (t + 1)%nat by lia. rewrite (steps_add_some _ _ _ _ _ A1). auto.
  - eapply rs_step_canon; eauto.
  - rewrite B4, A4. auto.
Qed.

Record sampled (M : program) (samples : list Z) (h : history) (n : nat) : Prop := {
  sm_np : (length (hs_positions h) <= n)%nat;
  sm_ns : length (hs_states h) = length (hs_positions h);
  sm_tape : forall s q, tape_at (hs_tapes h) s = Some q -> exists j t c, s = Z.of_nat j /\ (j < n)%nat
    /\ at_time M (c_state c) t j c /\ q = from_head t /\ nth_error (hs_positions h) j = Some (c_pos c)
    /\ nth_error (hs_states h) j = Some (c_state c);
  sm_all : forall j, (j < n)%nat -> In (Z.of_nat j) samples -> tape_at (hs_tapes h) (Z.of_nat j) <> None;
  sm_pos : forall i x, nth_error (hs_positions h) i = Some x -> exists t e, (i <= t)%nat /\ steps M t init = Some e /\ c_pos e = x
}.

Lemma sampled_add M samples h n state t c : sampled M samples h n -> at_time M state t n c ->
  sampled M samples (add_tape (add_state h (Z.of_nat n) state) (Z.of_nat n) t) (S n).
Proof.
  intros [S1 S2 S3 S4 S5] [A1 A2 A3 A4 A5]. unfold add_tape, add_state.
  assert (KP : forall l x j v, (length l <= n)%nat -> nth_error l j = Some v -> nth_error (fill l (Z.of_nat n) x) j = Some v).
  { intros l x j v L E. rewrite nth_fill by auto. assert (j < length l)%nat by (apply nth_error_Some; congruence).
    rewrite (proj2 (Nat.ltb_lt _ _)) by auto. auto. }
  assert (KN : forall l x, (length l <= n)%nat -> nth_error (fill l (Z.of_nat n) x) n = Some x).
  { intros l x L. rewrite nth_fill by auto. destruct (Nat.ltb_spec n (length l)); [lia|]. rewrite Nat.leb_refl. auto. }
  constructor; cbn [hs_tapes hs_positions hs_slots hs_states].
  - rewrite len_fill by auto. lia.
  - rewrite !len_fill by (auto; lia). auto.
  - intros s q. cbn [tape_at]. destruct (Z.eqb_spec (Z.of_nat n) s) as [<-|NE].
    + intros E. injection E as <-. exists n, t, c. do 2 (split; [auto|]). split; [subst state; constructor; auto|]. split; [auto|].
      rewrite !KN by lia. rewrite A4, A5. auto.
    + intros E. destruct (S3 s q E) as (j & t' & c' & B1 & B2 & B3 & B4 & B5 & B6). exists j, t', c'.
      split; [auto|]. split; [lia|]. do 2 (split; [auto|]). split; apply KP; auto; lia.
  - intros j J I. cbn [tape_at]. destruct (Z.eqb_spec (Z.of_nat n) (Z.of_nat j)); [discriminate|]. apply S4; auto; lia.
  - intros i x E. rewrite nth_fill in E by auto. destruct (Nat.ltb_spec i (length (hs_positions h))); [eauto|].
    destruct (Nat.leb_spec i n); [|discriminate]. injection E as <-. exists n, c. rewrite A4. auto.
Qed.

Lemma sampled_skip M samples h n : sampled M samples h n -> ~ In (Z.of_nat n) samples -> sampled M samples h (S n).
Proof.
  intros [S1 S2 S3 S4 S5] NI. constructor; auto.
  - intros s q E. destruct (S3 s q E) as (j & t & c & B1 & B2 & B). exists j, t, c. split; [auto|]. split; [lia|auto].
  - intros j J I. destruct (Nat.eq_dec j n) as [->|]; [contradiction|]. apply S4; auto; lia.
Qed.

Lemma sampler_loop_ok comp samples fuel : forall h tp state step c,
  at_time (machine_of comp) state tp step c -> sampled (machine_of comp) samples h step ->
  exists n, sampled (machine_of comp) samples (sampler_loop comp samples fuel h tp state (Z.of_nat step)) n
    /\ ((step + fuel)%nat = n \/ exists s, (n <= step + fuel)%nat /\ (0 < n)%nat /\ halts_at (machine_of comp) (n - 1) s).
Proof.
  induction fuel as [|fuel IH]; intros h tp state step c A SM; cbn [sampler_loop].
  { exists step. split; auto. }
  set (h' := if existsb (Z.eqb (Z.of_nat step)) samples then _ else h).
  assert (SM' : sampled (machine_of comp) samples h' (S step)).
  { unfold h'. destruct (existsb (Z.eqb (Z.of_nat step)) samples) eqn:EX; [eapply sampled_add; eauto|].
    apply sampled_skip; auto. intros I. assert (X : existsb (Z.eqb (Z.of_nat step)) samples = true); [|congruence].
    apply existsb_exists. exists (Z.of_nat step). split; auto. apply Z.eqb_refl. }
  pose proof A as [A1 A2 A3 A4 A5].
  assert (SC : c_tape c (c_pos c) = t_scan (h_tape tp)) by (apply represents_iff; auto).
  destruct (comp_get comp (state, t_scan (h_tape tp))) as [[[color shift] next]|] eqn:EG.
  - destruct (hp_step tp shift color false) as [tp' st] eqn:ES.
    destruct (hp_one comp state tp step c color shift next tp' st A EG ES) as (-> & d & D).
    replace (Z.of_nat step + 1) with (Z.of_nat (S step)) by lia.
    destruct (IH h' tp' next (S step) d D SM') as (n & N1 & N2). exists n. split; auto.
    destruct N2 as [N2|(s & N2)]; [left; lia|right; exists s; split; [lia|tauto]].
  - exists (S step). split; auto. right. exists (state, t_scan (h_tape tp)). split; [lia|]. split; [lia|].
    replace (S step - 1)%nat with step by lia. exists c. cbn [fst snd]. auto.
Qed.

Lemma sampler_run_ok comp lim samples : exists n, sampled (machine_of comp) samples (sampler_run comp lim samples) n
  /\ (lim = n \/ exists s, (n <= lim)%nat /\ (0 < n)%nat /\ halts_at (machine_of comp) (n - 1) s).
Proof.
  unfold sampler_run. change 0 with (Z.of_nat 0) at 2. apply (sampler_loop_ok comp samples lim hs_new hp_init 0 0%nat init).
  - constructor; auto; [|split; cbn; auto]. intros i. cbn. unfold blank_tape, tape_cell. cbn. destruct (i =? 0), (0 <? i); auto.
  - constructor; cbn; auto; try discriminate; [intros; lia|]. intros [|i] x; discriminate.
Qed.

(** A recurrence between two samples is always confirmed. *)
Lemma sample_finds comp lim samples a b : (a < b < lim)%nat -> In (Z.of_nat a) samples -> In (Z.of_nat b) samples ->
  recurs_at (machine_of comp) a (b - a) ->
  assert_lin_rec (sampler_run comp lim samples) (Z.of_nat a) (Z.of_nat b) = true.
Proof.
  intros L Ia Ib RC. pose proof (recurs_never_halts _ (recurs_at_recurs _ _ _ RC)) as NH.
  destruct (sampler_run_ok comp lim samples) as (n & SM & NL). set (h := sampler_run comp lim samples) in *.
  assert (n = lim).
  { destruct NL as [NL|(s & _ & _ & H)]; auto. exfalso. apply (halts_not_never (machine_of comp)); [exists (n - 1)%nat, s; auto|auto]. }
  subst n. destruct SM as [S1 S2 S3 S4 S5]. pose proof (S4 a ltac:(lia) Ia) as TA. pose proof (S4 b ltac:(lia) Ib) as TB.
  unfold assert_lin_rec, verify_lin_rec.
  destruct (tape_at (hs_tapes h) (Z.of_nat a)) as [q1|] eqn:E1; [|contradiction].
  destruct (tape_at (hs_tapes h) (Z.of_nat b)) as [q2|] eqn:E2; [|contradiction].
  destruct (S3 _ _ E1) as (j1 & t1 & c1 & C1 & C2 & C3 & C4 & C5 & C6). assert (j1 = a) by lia. subst j1.
  destruct (S3 _ _ E2) as (j2 & t2 & c2 & D1 & D2 & D3 & D4 & D5 & D6). assert (j2 = b) by lia. subst j2.
  pose proof C3 as [X1 X2 X3 X4 X5]. pose proof D3 as [Y1 Y2 Y3 Y4 Y5].
  rewrite !Nat2Z.id, C5, C6, D5, D6. set (since := skipn a (hs_positions h)).
  assert (IN1 : In (c_pos c1) since) by (apply (in_skip _ _ a); auto).
  destruct (list_min since) as [lm|] eqn:EL; [|destruct since; [destruct IN1|discriminate]].
  destruct (list_max since) as [rm|] eqn:ER; [|destruct since; [destruct IN1|discriminate]].
  assert (VIS : forall x, In x since -> exists t, (a <= t)%nat /\ c_pos (C comp t) = x).
  { intros x I. destruct (skip_in _ _ _ I) as (i & Li & Ei). destruct (S5 i x Ei) as (t & e & Lt & Ee & P).
    exists t. split; [lia|]. pose proof (C_run comp NH t) as X. congruence. }
  rewrite (C_run comp NH) in X1, Y1. injection X1 as <-. injection Y1 as <-.
  destruct (recurs_run comp NH _ _ RC) as (k & R & _ & AG & IR & RG). destruct (AG a ltac:(lia)) as (ST & P & T).
  replace (a + (b - a))%nat with b in * by lia.
  destruct (VIS lm (list_min_in _ _ EL)) as (tl & TL1 & TL2). destruct (VIS rm (list_max_in _ _ ER)) as (tr & TR1 & TR2).
  pose proof (IR tl TL1) as RL. rewrite TL2 in RL. pose proof (IR tr TR1) as RR. rewrite TR2 in RR.
  pose proof (list_min_le _ _ _ EL IN1). pose proof (list_max_ge _ _ _ ER IN1).
  subst q1 q2. replace (c_pos (C comp b) - c_pos (C comp a)) with k by lia.
  rewrite (ptr_agree (C comp a) (C comp b) lm rm t2 t1 k); auto; [rewrite ST, !Z.eqb_refl; auto|].
  destruct RG as [(K & RG)|[(K & RG)|(K & RG)]]; [left|right; left|right; right]; (split; [auto|]).
  - intros p. rewrite <- (T p) by auto. f_equal. lia.
  - intros p LP. apply T, (RG lm); auto.
  - intros p LP. apply T, (RG rm); auto.
Qed.

(** So a denial is right, whatever was sampled. *)
Lemma sample_denies comp lim samples a b : (a < b < lim)%nat -> In (Z.of_nat a) samples -> In (Z.of_nat b) samples ->
  deny_lin_rec (sampler_run comp lim samples) (Z.of_nat a) (Z.of_nat b) = true -> ~ recurs_at (machine_of comp) a (b - a).
Proof.
  intros L Ia Ib D RC. pose proof (sample_finds comp lim samples a b L Ia Ib RC) as F. unfold deny_lin_rec in D. unfold assert_lin_rec in F.
  set (h := sampler_run comp lim samples) in *.
  destruct (nth_error (hs_states h) (Z.to_nat (Z.of_nat a))) as [x|]; [|discriminate].
  destruct (nth_error (hs_states h) (Z.to_nat (Z.of_nat b))) as [y|]; [|discriminate].
  destruct (verify_lin_rec h (Z.of_nat a) (Z.of_nat b)) as [[[u v]|]|]; try discriminate F.
  destruct (Z.eqb_spec x y); [discriminate D|]. cbn in F. discriminate F.
Qed.

(** A confirmation is right if every step between was sampled. *)
Lemma sample_right comp lim samples a b : (a < b)%nat -> (forall t, (a <= t <= b)%nat -> In (Z.of_nat t) samples) ->
  assert_lin_rec (sampler_run comp lim samples) (Z.of_nat a) (Z.of_nat b) = true -> recurs_at (machine_of comp) a (b - a).
Proof.
  intros L IS. unfold assert_lin_rec, verify_lin_rec.
  destruct (sampler_run_ok comp lim samples) as (n & SM & _). set (h := sampler_run comp lim samples) in *.
  destruct SM as [S1 S2 S3 S4 S5]. rewrite !Nat2Z.id.
  destruct (nth_error (hs_states h) a) as [sa|] eqn:SA; [|discriminate].
  destruct (nth_error (hs_states h) b) as [sb|] eqn:SB; [|discriminate].
  destruct (tape_at (hs_tapes h) (Z.of_nat a)) as [q1|] eqn:E1; [|discriminate].
  destruct (tape_at (hs_tapes h) (Z.of_nat b)) as [q2|] eqn:E2; [|discriminate].
  destruct (S3 _ _ E1) as (j1 & t1 & c1 & C1 & C2 & C3 & C4 & C5 & C6). assert (j1 = a) by lia. subst j1.
  destruct (S3 _ _ E2) as (j2 & t2 & c2 & D1 & D2 & D3 & D4 & D5 & D6). assert (j2 = b) by lia. subst j2.
  pose proof C3 as [X1 X2 X3 X4 X5]. pose proof D3 as [Y1 Y2 Y3 Y4 Y5].
  rewrite C5, D5. rewrite SA in C6. rewrite SB in D6. injection C6 as ->. injection D6 as ->. set (since := skipn a (hs_positions h)).
  destruct (list_min since) as [lm|] eqn:EL; [|discriminate]. destruct (list_max since) as [rm|] eqn:ER; [|discriminate].
  destruct (p_aligns q2 q1 (c_pos c2 - c_pos c1) lm rm) eqn:EA; [|discriminate]. intros Q. zb. subst q1 q2.
  assert (E' : steps (machine_of comp) (b - a) c1 = Some c2).
  { rewrite <- Y1. replace b with (a + (b - a))%nat at 2 by lia. rewrite (steps_add_some _ _ _ _ _ X1). auto. }
  apply (aligned_recurs _ a (b - a) c1 c2 lm rm t2 t1); auto using canon_wf; try lia.
  intros i e I Ee. assert (Ei : steps (machine_of comp) (a + i) init = Some e) by (rewrite (steps_add_some _ _ _ _ _ X1); auto).
  pose proof (S4 (a + i)%nat ltac:(lia) (IS (a + i)%nat ltac:(lia))) as TI.
  destruct (tape_at (hs_tapes h) (Z.of_nat (a + i))) as [q|] eqn:E3; [|contradiction].
  destruct (S3 _ _ E3) as (j3 & t3 & c3 & F1 & F2 & F3 & F4 & F5 & F6). assert (j3 = (a + i)%nat) by lia. subst j3.
  pose proof (at_run _ _ _ _ _ F3) as F7. rewrite Ei in F7. injection F7 as <-.
  pose proof (in_skip _ a _ _ F5 ltac:(lia)) as IN.
  pose proof (list_min_le _ _ _ EL IN). pose proof (list_max_ge _ _ _ ER IN). lia.
Qed.
