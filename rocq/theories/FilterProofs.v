(** Lemmas about the filter of the tree search. *)
From Verif Require Import Base TM TMFacts ProgModel TapeModel TapeSpec TapeProofs QuickProofs TermRecModel TermRecSpec
  TermRecProofs TermRecComplete GraphModel GraphSpec GraphProofs ReasonModel ReasonSpec ReasonSound ReasonKinds SegModel SegSpec
  SegSound BlocksModel BlocksProofs EnumModel RulesModel PastModel ProverModel MacroModel RsMacroModel FilterModel FilterSpec.

(** ** Spinning out *)

Lemma spins_self M c : spins_out_from M c -> exists color dir,
  M (c_state c) 0 = Some (color, dir, c_state c) /\ c_tape c (c_pos c) = 0
  /\ forall i, 0 <= i -> c_tape c (if dir : bool then c_pos c + i else c_pos c - i) = 0.
Proof.
  intros (dir & H). destruct (H 0%nat) as (d0 & E0 & _ & _ & Z0). injection E0 as <-.
  destruct (H 1%nat) as (d1 & E1 & S1 & P1 & _). cbn in E1. unfold step in E1. rewrite Z0 in E1.
  destruct (M (c_state c) 0) as [[[color dir'] next]|] eqn:EM; [|discriminate]. injection E1 as <-. cbn in S1, P1. subst next.
  assert (dir' = dir) by (destruct dir, dir'; cbn in P1; auto; lia). subst dir'.
  exists color, dir. split; auto. split; auto. intros i Hi.
  destruct (H (Z.to_nat i)) as (d & E & S & P & Z). rewrite Z2Nat.id in P by lia.
  rewrite <- P. rewrite <- Z. symmetry. apply (untouched M (c_pos d) (Z.to_nat i) c d E).
  intros j e J Ee. destruct (H j) as (e' & Ee' & _ & Pe & _). rewrite Ee in Ee'. injection Ee' as <-.
  rewrite P, Pe. destruct dir; lia.
Qed.

Lemma spins_no_stretch M c n : spins_out_from M c -> ~ stretch M c n.
Proof.
  intros SP (co & dir & nx & E & N & A & B). destruct (spins_self M c SP) as (co' & dir' & E' & Z & T).
  rewrite Z in *. rewrite E' in E. injection E as <- <- <-. destruct (B eq_refl) as (_ & X). apply X. apply T. lia.
Qed.

Lemma spins_later M c n d : spins_out_from M c -> steps M n c = Some d -> spins_out_from M d.
Proof.
  intros (dir & H) E. exists dir. intros m. destruct (H n) as (d' & E' & S & P & _). rewrite E in E'. injection E' as <-.
  destruct (H (n + m)%nat) as (e & Ee & Se & Pe & Ze). rewrite (steps_add_some _ _ _ _ _ E) in Ee.
  exists e. split; auto. split; [congruence|]. split; auto. rewrite Pe, P. destruct dir; lia.
Qed.

(** ** What repeats itself and spins out has been spinning out all along *)

Lemma loop_all M (R : Z -> Prop) k m c d : (0 < m)%nat -> (forall p, R p -> R (p + k)) ->
  steps M m c = Some d -> stays M R m c -> agree R k c d ->
  forall j, exists e, steps M (j * m) c = Some e /\ agree R (Z.of_nat j * k) c e /\ stays M R (j * m) c.
Proof.
  intros Hm HR E S A. assert (CL : forall j p, R p -> R (p + Z.of_nat j * k)).
  { induction j as [|j IH]; intros p Hp; [rewrite Z.add_0_r; auto|].
    replace (p + Z.of_nat (Datatypes.S j) * k) with (p + Z.of_nat j * k + k) by lia. auto. }
  induction j as [|j (e & E1 & A1 & S1)].
  - exists c. split; [reflexivity|]. split; [|intros i Hi; lia]. split; auto. split; [lia|].
    intros p _. f_equal. lia.
  - destruct (agree_steps M R (Z.of_nat j * k) m c e d A1 S E) as (e' & E2 & (B1 & B2 & B3)).
    exists e'. split; [replace (Datatypes.S j * m)%nat with (j * m + m)%nat by lia; rewrite (steps_add_some _ _ _ _ _ E1); auto|].
    split.
    + destruct A as (C1 & C2 & C3). split; [congruence|]. split; [lia|]. intros p Hp.
      replace (p + Z.of_nat (Datatypes.S j) * k) with (p + k + Z.of_nat j * k) by lia. rewrite B3 by auto. auto.
    + replace (Datatypes.S j * m)%nat with (j * m + m)%nat by lia. eapply stays_app; [exact S1|exact E1|].
      intros i Hi. destruct (S i Hi) as (x & Ex & Rx).
      destruct (agree_steps M R (Z.of_nat j * k) i c e x A1 (stays_le M R m i c ltac:(lia) S) Ex) as (y & Ey & (_ & P & _)).
      exists y. split; auto. rewrite P. auto.
Qed.

Lemma loop_spin M (R : Z -> Prop) k m n c d : (0 < m)%nat -> (forall p, R p -> R (p + k)) ->
  steps M n init = Some c -> steps M m c = Some d -> stays M R m c -> agree R k c d ->
  ~ never_spins_out M -> ~ ~ spins_out_from M c.
Proof.
  intros Hm HR E0 E S A NN NS. apply NN. intros t x Ex SP. apply NS. clear NN NS.
  pose proof (loop_all M R k m c d Hm HR E S A) as LA.
  destruct (LA t) as (e & Ee & (A1 & A2 & A3) & _).
  assert (SE : spins_out_from M e).
  { assert (E' : steps M (n + t * m) init = Some e) by (rewrite (steps_add_some _ _ _ _ _ E0); auto).
    replace (n + t * m)%nat with (t + (n + t * m - t))%nat in E' by nia.
    rewrite (steps_add_some _ _ _ _ _ Ex) in E'. eapply spins_later; eauto. }
  destruct SE as (dir & H). exists dir. intros i.
  destruct (LA (Datatypes.S i)) as (f & Ef & _ & Sf).
  destruct (Sf i ltac:(nia)) as (x' & Ex' & Rx).
  destruct (agree_steps M R (Z.of_nat t * k) i c e x') as (y & Ey & (B1 & B2 & B3)); auto.
  { split; auto. }
  { eapply stays_le; [|exact Sf]. nia. }
  destruct (H i) as (y' & Ey' & Q1 & Q2 & Q3). rewrite Ey in Ey'. injection Ey' as <-.
  exists x'. split; auto. split; [congruence|]. split; [rewrite B2, A2 in Q2; destruct dir; lia|].
  rewrite <- B3 by auto. rewrite <- B2. auto.
Qed.

(** ** Stretches and the passes of quick_term_or_rec *)

Lemma stretch_sweeps M c n : stretch M c n <-> sweeps M c n.
Proof. reflexivity. Qed.

Lemma stretches_snoc M k : forall c d n e, stretches M k c d -> stretch M d n -> steps M n d = Some e -> stretches M (S k) c e.
Proof.
  induction k as [|k IH]; intros c d n e H; inversion H; subst; intros.
  - eapply one_more; eauto. constructor.
  - eapply one_more; eauto.
Qed.

Lemma stretches_det M k : forall c d e, stretches M k c d -> stretches M k c e -> d = e.
Proof.
  induction k as [|k IH]; intros c d e A B; inversion A; inversion B; subst; auto.
  assert (n = n0) by (eapply sweeps_unique; apply stretch_sweeps; eauto). subst n0.
  assert (d0 = d1) by congruence. subst d1. eauto.
Qed.

Lemma stretches_prefix M k : forall c e j, (j <= k)%nat -> stretches M k c e -> exists d, stretches M j c d.
Proof.
  induction k as [|k IH]; intros c e j J A; inversion A; subst; destruct j as [|j]; try lia; try (eexists; constructor; fail).
  destruct (IH d e j ltac:(lia)) as (x & X); auto. exists x. eapply one_more; eauto.
Qed.

Lemma stretches_run M k : forall c e, stretches M k c e -> exists n, steps M n c = Some e.
Proof.
  induction k as [|k IH]; intros c e A; inversion A; subst; [exists 0%nat; reflexivity|].
  match goal with X : stretches _ k _ _ |- _ => destruct (IH _ _ X) as (m & E) end. exists (n + m)%nat.
  match goal with X : steps _ n _ = _ |- _ => rewrite (steps_add_some _ _ _ _ _ X) end. auto.
Qed.

Section run.
Variable comp : comp_prog.
Hypothesis start : comp_get comp (0, 0) = Some (1, true, 1).
Let M := machine_of comp.

Lemma first_stretch : exists c1, steps M 1 init = Some c1 /\ stretch M init 1 /\ tinv M 1 ht_init_stepped c1.
Proof.
  set (c1 := Cfg 1 1 (write blank_tape 0 1)).
  assert (E1 : steps M 1 init = Some c1).
  { cbn. unfold step. cbn. unfold M, blank_tape, machine_of. rewrite start. reflexivity. }
  exists c1. split; auto. split.
  - exists 1, true, 1. split; [exact start|]. split; [lia|]. split; [auto|]. cbn. discriminate.
  - constructor; auto; [exists 1%nat; auto| |].
    + intro i. cbn. unfold write, blank_tape, tape_cell. cbn [cell b_count b_color t_scan t_lspan t_rspan].
      bdestr; auto; lia.
    + cbn. repeat split; cbn; lia.
Qed.

Lemma cy_stretches i : forall s tp t c, cy comp i = Some (s, tp, t) -> steps M t init = Some c -> stretches M (S i) init c.
Proof.
  induction i as [|i IH]; intros s tp t c E Et.
  - injection E as <- <- <-. destruct first_stretch as (c1 & E1 & S1 & _). rewrite E1 in Et. injection Et as <-.
    eapply one_more; [exact S1|exact E1|constructor].
  - destruct (cy comp i) as [[[s0 tp0] t0]|] eqn:E0; [|cbn in E; rewrite E0 in E; discriminate].
    destruct (cy_at comp start i _ _ _ E0) as (c0 & A0).
    destruct (cy_sweeps comp i _ _ _ _ _ _ c0 E0 E A0) as (L & SW). destruct A0 as [A1 _ _ _ _].
    eapply stretches_snoc; [eapply IH; eauto|apply stretch_sweeps; exact SW|].
    replace t with (t0 + (t - t0))%nat in Et by lia. rewrite (steps_add_some _ _ _ _ _ A1) in Et. exact Et.
Qed.

(** A pass that goes on shows that the machine neither halts there nor spins out. *)
Lemma cy_goes_on i s tp t c : cy comp i = Some (s, tp, t) -> cy comp (S i) <> None -> steps M t init = Some c ->
  step M c <> None /\ ~ spins_out_from M c.
Proof.
  intros E N Et. destruct (cy comp (S i)) as [[[s' tp'] t']|] eqn:E'; [|contradiction].
  destruct (cy_at comp start i _ _ _ E) as (c0 & A0). pose proof A0 as [A1 _ _ _ _]. fold M in A1.
  rewrite Et in A1. injection A1 as <-.
  destruct (cy_sweeps comp i _ _ _ _ _ _ c E E' A0) as (_ & SW). split.
  - destruct SW as (co & dir & nx & EM & _). unfold step, M. rewrite EM. discriminate.
  - intros SP. eapply spins_no_stretch; [exact SP|apply stretch_sweeps; exact SW].
Qed.

Lemma not_yet lim : quick_term_or_rec comp lim true = false -> ~ ends_within M (lim - 1).
Proof.
  intros Q (j & e & J & A & B).
  assert (AF := fun x => answered_false comp start true lim x (or_introl eq_refl) Q).
  destruct j as [|j].
  - inversion A; subst. destruct first_stretch as (c1 & E1 & S1 & _). destruct B as [B|B].
    + cbn in E1. rewrite B in E1. discriminate.
    + eapply spins_no_stretch; eauto.
  - pose proof (AF j ltac:(lia)) as X. pose proof (AF (S j) ltac:(lia)) as Y.
    destruct (cy comp j) as [[[s tp] t]|] eqn:E; [|contradiction].
    destruct (cy_at comp start j _ _ _ E) as (c & [A1 _ _ _ _]).
    pose proof (cy_stretches j _ _ _ _ E A1) as A2. rewrite (stretches_det _ _ _ _ _ A A2) in B.
    destruct (cy_goes_on j _ _ _ c E Y A1). tauto.
Qed.

(** ** A yes of quick_term_or_rec *)

Lemma tr_loop_says drop fuel : forall k cycle state tp rs rt lm rm reset c cr n,
  tinv M state tp c -> stretches M k init c ->
  rinv M rt rs lm rm c cr n -> (cr = c \/ ~ spins_out_from M cr) ->
  tr_loop comp drop fuel cycle state tp rs rt lm rm reset = true ->
  ends_within M (k + fuel - 1) \/ (never_halts M /\ never_spins_out M).
Proof.
  induction fuel as [|fuel IH]; intros k cycle state tp rs rt lm rm reset c cr n T SK RI NS H; [discriminate|].
  cbn [tr_loop] in H.
  pose proof T as [[j Hj] Hrep Hcan Hpos Hst].
  assert (HS : c_tape c (c_pos c) = t_scan (h_tape tp)) by (apply represents_iff; auto).
  destruct (comp_get comp (state, t_scan (h_tape tp))) as [[[color shift] next]|] eqn:EG.
  2:{ left. exists k, c. split; [lia|]. split; auto. left. unfold step, M, machine_of. rewrite Hst, HS, EG. reflexivity. }
  cbn zeta in H. destruct ((state =? next) && t_at_edge (h_tape tp) shift) eqn:EE.
  { zb. subst next. left. exists k, c. split; [lia|]. split; auto. right. apply (spin_out_lemma _ c shift color).
    - pose proof H1 as Z0. unfold t_at_edge in Z0. zb. rewrite H0 in EG. rewrite Hst. exact EG.
    - intros i Hi. eapply represents_edge; eauto. }
  unfold ht_step in H.
  destruct (rs_step (h_tape tp) shift color (state =? next)) as [tp' st] eqn:ES.
  destruct (rs_step_refines M (h_tape tp) c shift color next (state =? next) tp' st)
    as (N & W & N1 & d & A & B & C & D); auto using canon_wf.
  { rewrite Hst. auto. }
  { intros X. zb. congruence. }
  assert (SW : stretch M c (Z.to_nat st)).
  { exists color, shift, next. rewrite HS, Hst. split; [exact EG|]. split; [lia|].
    split; [intros Q; rewrite N1; [reflexivity|apply Z.eqb_neq; auto]|].
    intros Q. assert (SE : (state =? next) = true) by (rewrite Q; apply Z.eqb_refl). rewrite SE in EE, ES. cbn [andb] in EE.
    destruct (rs_step_maximal _ _ _ _ _ _ Hcan Hrep ES) as (X & Y). specialize (Y EE).
    cbn zeta. rewrite Z2Nat.id by lia. auto. }
  assert (NC : ~ spins_out_from M c) by (intros SP; eapply spins_no_stretch; eauto).
  assert (RI' : exists rs' rt' lm' rm' reset' cr' n',
     (if reset =? 0 then (state, tp, h_head tp, h_head tp, cycle) else (rs, rt, lm, rm, reset))
       = (rs', rt', lm', rm', reset')
     /\ rinv M rt' rs' lm' rm' c cr' n' /\ ~ spins_out_from M cr').
  { destruct (reset =? 0).
    - do 5 eexists. exists c, 0%nat. split; [reflexivity|]. split; [|auto]. constructor; auto.
      + rewrite Hpos. lia.
      + intros i Hi. lia.
    - do 5 eexists. exists cr, n. split; [reflexivity|]. split; [auto|]. destruct NS as [->|]; auto. }
  destruct RI' as (rs' & rt' & lm' & rm' & reset' & cr' & n' & EQ & [R1 R2 R3 R4] & NS').
  rewrite EQ in H. clear EQ RI.
  pose proof (rs_step_canon _ _ _ _ _ _ Hcan ES) as C'.
  cbn [h_head] in H.
  set (curr := if shift then h_head tp + st else h_head tp - st) in *.
  assert (PD : c_pos d = curr) by (unfold curr; destruct shift; lia).
  assert (T' : tinv M next (HT curr tp') d).
  { constructor; cbn; auto. exists (j + Z.to_nat st)%nat. rewrite (steps_add_some _ _ _ _ _ Hj). auto. }
  assert (LR : exists lm2 rm2,
     (if curr <? lm' then (curr, rm') else if rm' <? curr then (lm', curr) else (lm', rm')) = (lm2, rm2)
     /\ lm2 <= lm' /\ rm' <= rm2 /\ lm2 <= curr <= rm2).
  { bdestr; do 2 eexists; (split; [reflexivity|lia]). }
  destruct LR as (lm2 & rm2 & EQ & L1 & L2 & L3). rewrite EQ in H. clear EQ.
  assert (RI2 : rinv M rt' rs' lm2 rm2 d cr' (n' + Z.to_nat st)).
  { constructor; auto.
    - rewrite (steps_add_some _ _ _ _ _ R2). auto.
    - lia.
    - eapply stays_app; [|exact R2|].
      + eapply stays_weaken; [|exact R4]. cbn. intros; lia.
      + eapply straight_stays; [exact A| |].
        * unfold curr in PD. destruct shift; lia.
        * intros p Hp. lia. }
  destruct ((next =? rs') && ht_aligns_with (HT curr tp') rt' lm2 rm2) eqn:EA.
  - zb. destruct R1 as [[kr Hkr] Rrep Rcan Rpos Rst]. destruct RI2 as [_ Q2 Q3 Q4].
    destruct (aligned_agree cr' d lm2 rm2 (HT curr tp') rt') as (R & s & X1 & X2);
      auto using canon_wf; try congruence; try tauto.
    right.
    assert (RC : exists R', agree R' s cr' d /\ (forall p, R' p -> R' (p + s)) /\ stays M R' (n' + Z.to_nat st) cr').
    { destruct X1 as (Y1 & Y2 & Y3). destruct X2 as [(-> & X)|[(L & X)|(L & X)]].
      - exists (fun _ => True). split; [split; auto|]. split; [auto|]. eapply stays_weaken; [|exact Q4]. auto.
      - exists (fun p => lm2 <= p). split; [split; auto|]. split; [intros; lia|]. eapply stays_weaken; [|exact Q4]. cbn. intros; lia.
      - exists (fun p => p <= rm2). split; [split; auto|]. split; [intros; lia|]. eapply stays_weaken; [|exact Q4]. cbn. intros; lia. }
    clear X1 X2 R. destruct RC as (R & X1 & RC & RS).
    split.
    + eapply never_halts_from; [exact Hkr|]. eapply (agree_loop _ R s (n' + Z.to_nat st)); eauto. lia.
    + intros t x Ex SP.
      eapply (loop_spin M R s (n' + Z.to_nat st) kr cr' d); eauto; [lia|]. intros Y. apply (Y t x Ex SP).
  - destruct (IH (S k) (cycle + 1) next (HT curr tp') rs' rt' lm2 rm2 (reset' - 1) d cr' (n' + Z.to_nat st)%nat) as [X|X]; auto.
    + eapply stretches_snoc; eauto.
    + left. replace (k + S fuel - 1)%nat with (S k + fuel - 1)%nat by lia. exact X.
Qed.

Lemma quick_yes drop lim : quick_term_or_rec comp lim drop = true ->
  ends_within M (lim - 1) \/ (never_halts M /\ never_spins_out M).
Proof.
  intros H. unfold quick_term_or_rec in H. destruct first_stretch as (c1 & E1 & S1 & T1).
  destruct (tr_loop_says drop (lim - 1) 1 1 1 ht_init_stepped 1 ht_init_stepped 1 1 1 c1 c1 0) as [X|X]; auto.
  - eapply one_more; [exact S1|exact E1|constructor].
  - constructor; auto; [split; (destruct T1 as [_ _ _ P _]; rewrite P; cbn; lia)|intros j J; lia].
  - left. replace (1 + (lim - 1) - 1)%nat with (lim - 1)%nat in X by lia. exact X.
Qed.

End run.

(** ** The tables the filter is given *)

Definition slots (params : Z * Z) : list slot :=
  list_prod (map Z.of_nat (seq 0 (Z.to_nat (fst params)))) (map Z.of_nat (seq 0 (Z.to_nat (snd params)))).

Lemma in_range n x : In x (map Z.of_nat (seq 0 (Z.to_nat n))) <-> 0 <= x < n.
Proof.
  rewrite in_map_iff. split.
  - intros (i & <- & I). apply in_seq in I. lia.
  - intros H. exists (Z.to_nat x). split; [lia|]. apply in_seq. lia.
Qed.

Lemma in_range1 n x : In x (map Z.of_nat (seq 1 (Z.to_nat n - 1))) <-> 1 <= x < n.
Proof.
  rewrite in_map_iff. split.
  - intros (i & <- & I). apply in_seq in I. lia.
  - intros H. exists (Z.to_nat x). split; [lia|]. apply in_seq. lia.
Qed.

Lemma in_slots params s c : In (s, c) (slots params) <-> 0 <= s < fst params /\ 0 <= c < snd params.
Proof. unfold slots. rewrite in_prod_iff, !in_range. reflexivity. Qed.

Lemma nodup_prod {A B} (l : list A) (l' : list B) : NoDup l -> NoDup l' -> NoDup (list_prod l l').
Proof.
  intros H H'. induction H as [|x l N H IH]; [constructor|]. cbn. apply TapeProofs.NoDup_app; auto.
  - apply FinFun.Injective_map_NoDup; auto. intros a b E. congruence.
  - intros [a b] I J. apply in_map_iff in I. destruct I as (b' & E & _). injection E as <- <-. apply in_prod_iff in J. tauto.
Qed.

Lemma nodup_slots params : NoDup (slots params).
Proof.
  apply nodup_prod; (apply FinFun.Injective_map_NoDup; [intros a b E; lia|apply seq_NoDup]).
Qed.

Lemma slots_length params : 0 <= fst params -> 0 <= snd params -> Z.of_nat (length (slots params)) = fst params * snd params.
Proof. intros. unfold slots, slot. rewrite prod_length, !map_length, !seq_length. lia. Qed.

Lemma filter_both {A} (f : A -> bool) l : (length (filter f l) + length (filter (fun x => negb (f x)) l) = length l)%nat.
Proof. induction l as [|x l IH]; auto. cbn. destruct (f x); cbn; lia. Qed.

Section table.
Variables (comp : comp_prog) (params : Z * Z).
Hypothesis TB : table_of params comp.
Let M := machine_of comp.

Lemma table_in s c i : M s c = Some i <-> In ((s, c), i) comp.
Proof. destruct TB as (_ & _ & ND & _). symmetry. apply (comp_get_in comp (s, c) i ND). Qed.

Lemma table_range s c pr sh t : M s c = Some (pr, sh, t) ->
  0 <= s < fst params /\ 0 <= c < snd params /\ 0 <= pr < snd params /\ 0 <= t < fst params.
Proof. intros E. destruct TB as (_ & _ & _ & R). apply (R s c pr sh t). apply table_in. auto. Qed.

Lemma keys_in s c : In (s, c) (map fst comp) <-> M s c <> None.
Proof.
  split.
  - intros I. apply in_map_iff in I. destruct I as ([k i] & E & I). cbn in E. subst k. rewrite (proj2 (table_in s c i) I). discriminate.
  - intros N. destruct (M s c) as [i|] eqn:E; [|contradiction]. apply table_in in E. apply in_map_iff. exists ((s, c), i). auto.
Qed.

Lemma enough halt : Z.of_nat (length comp) <? (if halt : bool then fst params * snd params - 1 else fst params * snd params) = false
  <-> exists free : list slot, (length free <= if halt then 1 else 0)%nat /\
     forall s c, 0 <= s < fst params -> 0 <= c < snd params -> M s c = None -> In (s, c) free.
Proof.
  destruct TB as (S2 & C2 & ND & R). pose proof (slots_length params ltac:(lia) ltac:(lia)) as SL. rewrite Z.ltb_ge. split.
  - intros L. set (df := fun sl : slot => match comp_get comp sl with Some _ => true | None => false end).
    exists (filter (fun x => negb (df x)) (slots params)). split.
    + pose proof (filter_both df (slots params)) as FB.
      assert (X : (length (map fst comp) <= length (filter df (slots params)))%nat).
      { apply NoDup_incl_length; auto. intros [s c] I. apply filter_In. pose proof (proj1 (keys_in s c) I) as K. unfold M, machine_of in K.
        split.
        - destruct (comp_get comp (s, c)) as [[[pr sh] t]|] eqn:E; [|contradiction]. apply in_slots. pose proof (table_range s c pr sh t E). tauto.
        - unfold df. destruct (comp_get comp (s, c)); auto. }
      rewrite map_length in X. destruct halt; lia.
    + intros s c Hs Hc E. apply filter_In. split; [apply in_slots; auto|]. unfold df. unfold M, machine_of in E. rewrite E. auto.
  - intros (free & L & F).
    assert (X : (length (slots params) <= length (map fst comp ++ free))%nat).
    { apply NoDup_incl_length; [apply nodup_slots|]. intros [s c] I. apply in_slots in I. apply in_or_app.
      destruct (M s c) eqn:E; [left; apply keys_in; congruence|right; apply F; tauto]. }
    rewrite app_length, map_length in X. destruct halt; lia.
Qed.

Lemma some_missing (l : list Z) (P : Z -> Prop) (used : list Z) : (forall x, In x l <-> P x) ->
  existsb (fun x => negb (mem x used)) l = false <-> forall x, P x -> In x used.
Proof.
  intros H. split.
  - intros E x Px. apply H in Px. destruct (mem x used) eqn:EM; [apply mem_in; auto|].
    exfalso. assert (existsb (fun x => negb (mem x used)) l = true); [|congruence].
    apply existsb_exists. exists x. rewrite EM. auto.
  - intros F. destruct (existsb _ l) eqn:E; auto. apply existsb_exists in E. destruct E as (x & I & N).
    apply H, F in I. apply (mem_in x used) in I. rewrite I in N. discriminate.
Qed.

Lemma used_state t : In t (map (fun e : slot * instr => snd (snd e)) comp) <-> exists s c pr sh, M s c = Some (pr, sh, t).
Proof.
  rewrite in_map_iff. split.
  - intros ([[s c] [[pr sh] t']] & E & I). cbn in E. subst t'. exists s, c, pr, sh. apply table_in. auto.
  - intros (s & c & pr & sh & E). apply table_in in E. exists ((s, c), (pr, sh, t)). auto.
Qed.

Lemma used_color pr : In pr (map (fun e : slot * instr => fst (fst (snd e))) comp) <-> exists s c sh t, M s c = Some (pr, sh, t).
Proof.
  rewrite in_map_iff. split.
  - intros ([[s c] [[pr' sh] t]] & E & I). cbn in E. subst pr'. exists s, c, sh, t. apply table_in. auto.
  - intros (s & c & sh & t & E). apply table_in in E. exists ((s, c), (pr, sh, t)). auto.
Qed.

Lemma incomplete_iff halt : incomplete comp params halt = false <-> complete params halt M.
Proof.
  pose proof (enough halt) as EN. pose proof used_state as US. pose proof used_color as UC.
  pose proof TB as (S2 & C2 & _). clear TB. unfold incomplete, complete. destruct params as [S C]. cbn [fst snd] in *.
  destruct (Z.of_nat (length comp) <? (if halt then S * C - 1 else S * C)) eqn:EL.
  - split; [discriminate|]. intros (F & _). apply EN in F. discriminate.
  - rewrite !orb_false_iff, andb_false_iff, negb_false_iff.
    rewrite (some_missing _ (fun x => 0 <= x < S) _ (in_range S)), (some_missing _ (fun x => 1 <= x < C) _ (in_range1 C)).
    rewrite mem_in, Z.eqb_neq. pose proof (proj1 EN eq_refl) as F. split.
    + intros ((A & B) & D). split; [exact F|]. split.
      * intros t Ht. apply US. auto.
      * intros pr Hp. apply UC. destruct (Z.eqb_spec C 2) as [->|NE].
        -- destruct (Z.eq_dec pr 0) as [->|]; [destruct A; [lia|auto]|apply D; lia].
        -- apply D. lia.
    + intros (_ & B & D). split; [split|].
      * destruct (Z.eqb_spec C 2) as [->|NE]; [right; apply UC, D; lia|auto].
      * intros t Ht. apply US. auto.
      * intros pr Hp. apply UC, D. destruct (C =? 2); lia.
Qed.

Lemma complete_restartable halt : complete params halt M -> restartable M.
Proof.
  destruct TB as (S2 & C2 & _). intros (_ & B & _). exists (fun s => 0 <= s < fst params). split; [lia|].
  intros t Ht. destruct (B t Ht) as (s & c & pr & sh & E). exists s. split; [|exists c, pr, sh; auto].
  pose proof (table_range _ _ _ _ _ E). tauto.
Qed.

Lemma complete_named : comp_get comp (0, 0) = Some (1, true, 1) -> complete params true M -> named M.
Proof.
  destruct TB as (S2 & C2 & _). intros H0 ((free & L & F) & _). split; [unfold M, machine_of; rewrite H0; discriminate|].
  assert (X : forall a b a' b', (a, b) <> (a', b') -> 0 <= a < fst params -> 0 <= b < snd params -> 0 <= a' < fst params -> 0 <= b' < snd params ->
    M a b <> None \/ M a' b' <> None).
  { intros a b a' b' NE A1 A2 A3 A4. destruct (M a b) eqn:E1; [left; congruence|]. destruct (M a' b') eqn:E2; [right; congruence|].
    exfalso. pose proof (F a b A1 A2 E1) as I1. pose proof (F a' b' A3 A4 E2) as I2.
    destruct free as [|x [|y free]]; cbn in L, I1, I2; [tauto| |lia]. destruct I1 as [I1|[]], I2 as [I2|[]]. congruence. }
  intros s c pr sh t E. pose proof (table_range _ _ _ _ _ E) as R. do 2 (split; [tauto|]). split.
  - destruct (X (fst params - 1) 0 (fst params - 1) 1); try lia; [congruence|exists (fst params - 1), 0; split; [lia|auto]|exists (fst params - 1), 1; split; [lia|auto]].
  - destruct (X 0 (snd params - 1) 1 (snd params - 1)); try lia; [congruence|exists 0, (snd params - 1); split; [lia|auto]|exists 1, (snd params - 1); split; [lia|auto]].
Qed.

Lemma table_fits : fits M params.
Proof. destruct TB as (S2 & C2 & _). split; [lia|]. split; [lia|]. intros s c pr sh t _ _ E. pose proof (table_range _ _ _ _ _ E). tauto. Qed.

Lemma table_closed : GraphSpec.closed M (fst params).
Proof. intros s t (c & pr & sh & E). pose proof (table_range _ _ _ _ _ E). tauto. Qed.

Lemma connected_answer : exists b, rs_is_connected comp (fst params) = Some b /\ (b = true <-> connected M (fst params)).
Proof. destruct TB as (S2 & C2 & ND & _). apply connected_rs; auto; [lia|apply table_closed]. Qed.

Section answer.
Hypothesis start : comp_get comp (0, 0) = Some (1, true, 1).
Variables (near cycles depth before rules : nat) (segs : Z) (rfuel fuel : nat) (halt : bool).

Lemma reach_yes d : complete params halt M ->
  is_some (if halt then cant_halt comp d else cant_spin_out comp d) = Some true -> hopeless halt M.
Proof.
  intros CM H. pose proof TB as (S2 & C2 & ND & _). pose proof (complete_restartable halt CM) as RS. destruct halt; cbn.
  - destruct (cant_halt comp d) as [r| |] eqn:E; try discriminate. eapply cant_halt_sound; eauto. apply complete_named; auto.
  - destruct (cant_spin_out comp d) as [r| |] eqn:E; try discriminate. eapply cant_spin_out_sound; eauto.
Qed.

Lemma skip_yes :
  skip_with near cycles depth before rules segs rfuel fuel comp params halt = Some true ->
  (quick_term_or_rec comp cycles true = false ->
   forall blocks, opt_block comp before = Some blocks -> check_inf comp params blocks rules <> Some true) ->
  ~ complete params halt M \/ (4 <= fst params /\ ~ connected M (fst params)) \/ ends_within M (cycles - 1) \/ hopeless halt M.
Proof.
  intros H NI. unfold skip_with in H.
  destruct (incomplete comp params halt) eqn:EI.
  { left. intros C. apply incomplete_iff in C. congruence. }
  apply incomplete_iff in EI. right.
  destruct connected_answer as (b & EC & B). rewrite EC in H. cbn [option_map] in H.
  destruct (Z.leb_spec 4 (fst params)) as [L|L].
  { destruct b; [|left; split; [auto|intros C; apply B in C; discriminate]]. cbn [negb] in H. right.
    destruct (is_some (if halt then cant_halt comp near else cant_spin_out comp near)) as [[|]|] eqn:E1; [right; eapply reach_yes; eauto| |discriminate].
    destruct (quick_term_or_rec comp cycles true) eqn:E2.
    { destruct (quick_yes comp start true cycles E2) as [X|(X & Y)]; [left; exact X|]. right. destruct halt; [exact X|exact Y]. }
    right. destruct (is_some (if halt then cant_halt comp depth else cant_spin_out comp depth)) as [[|]|] eqn:E3; [eapply reach_yes; eauto| |discriminate].
    destruct (opt_block comp before) as [bl|] eqn:E4; [|discriminate]. specialize (NI eq_refl bl eq_refl).
    destruct (check_inf comp params bl rules) as [[|]|]; [contradiction| |discriminate].
    destruct halt; [|discriminate]. destruct (segment_cant_halt comp params segs rfuel fuel) eqn:E5; try discriminate.
    eapply segment_says; eauto. apply table_fits. }
  right.
  destruct (is_some (if halt then cant_halt comp near else cant_spin_out comp near)) as [[|]|] eqn:E1; [right; eapply reach_yes; eauto| |discriminate].
  destruct (quick_term_or_rec comp cycles true) eqn:E2.
  { destruct (quick_yes comp start true cycles E2) as [X|(X & Y)]; [left; exact X|]. right. destruct halt; [exact X|exact Y]. }
  right. destruct (is_some (if halt then cant_halt comp depth else cant_spin_out comp depth)) as [[|]|] eqn:E3; [eapply reach_yes; eauto| |discriminate].
  destruct (opt_block comp before) as [bl|] eqn:E4; [|discriminate]. specialize (NI eq_refl bl eq_refl).
  destruct (check_inf comp params bl rules) as [[|]|]; [contradiction| |discriminate].
  destruct halt; [|discriminate]. destruct (segment_cant_halt comp params segs rfuel fuel) eqn:E5; try discriminate.
  eapply segment_says; eauto. apply table_fits.
Qed.

Lemma skip_no :
  skip_with near cycles depth before rules segs rfuel fuel comp params halt = Some false ->
  complete params halt M /\ (4 <= fst params -> connected M (fst params)) /\ ~ ends_within M (cycles - 1).
Proof.
  intros H. unfold skip_with in H.
  destruct (incomplete comp params halt) eqn:EI; [discriminate|]. apply incomplete_iff in EI. split; [auto|].
  destruct connected_answer as (b & EC & B). rewrite EC in H. cbn [option_map] in H. split.
  - intros L. destruct (Z.leb_spec 4 (fst params)); [|lia]. destruct b; [apply B; auto|discriminate].
  - destruct (if 4 <=? fst params then Some (negb b) else Some false) as [[|]|]; try discriminate.
    destruct (is_some (if halt then cant_halt comp near else cant_spin_out comp near)) as [[|]|]; try discriminate.
    destruct (quick_term_or_rec comp cycles true) eqn:E2; [discriminate|]. apply not_yet; auto.
Qed.

End answer.
End table.

Lemma skip_all_yes comp params rfuel fuel halt : table_of params comp -> comp_get comp (0, 0) = Some (1, true, 1) ->
  skip_all rfuel fuel comp params halt = Some true ->
  (quick_term_or_rec comp 301 true = false ->
   forall blocks, opt_block comp 300 = Some blocks -> check_inf comp params blocks 306 <> Some true) ->
  ~ complete params halt (machine_of comp) \/ (4 <= fst params /\ ~ connected (machine_of comp) (fst params))
  \/ ends_within (machine_of comp) 300 \/ hopeless halt (machine_of comp).
Proof. intros T S H N. exact (skip_yes comp params T S 1 301 256 300 306 3 rfuel fuel halt H N). Qed.

Lemma skip_all_no comp params rfuel fuel halt : table_of params comp -> comp_get comp (0, 0) = Some (1, true, 1) ->
  skip_all rfuel fuel comp params halt = Some false ->
  complete params halt (machine_of comp) /\ (4 <= fst params -> connected (machine_of comp) (fst params))
  /\ ~ ends_within (machine_of comp) 300.
Proof. intros T S H. exact (skip_no comp params T S 1 301 256 300 306 3 rfuel fuel halt H). Qed.
