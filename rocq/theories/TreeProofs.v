(** Lemmas about the program tree. *)
From Coq Require Import Permutation.
From Verif Require Import Base TM TMFacts ProgModel TapeModel TapeSpec TapeProofs QuickProofs ParseModel ParseSpec ParseProofs
  TreeModel TreeSpec.

Lemma slot_eqb_eq a b : slot_eqb a b = true <-> a = b.
Proof.
  unfold slot_eqb. destruct a as [a1 a2], b as [b1 b2]. cbn. rewrite andb_true_iff, !Z.eqb_eq.
  split; [intros []; congruence|intros X; inv X; auto].
Qed.

Lemma slot_eqb_refl a : slot_eqb a a = true.
Proof. apply slot_eqb_eq. auto. Qed.

Lemma comp_get_in p s i : comp_get p s = Some i -> In (s, i) p.
Proof.
  induction p as [|[k v] p IH]; cbn; [discriminate|].
  destruct (slot_eqb k s) eqn:E; auto. apply slot_eqb_eq in E. intros X. inv X. auto.
Qed.

Lemma in_comp_get p s i : NoDup (map fst p) -> In (s, i) p -> comp_get p s = Some i.
Proof.
  induction p as [|[k v] p IH]; cbn; [intros _ []|]. intros D H. inv D.
  destruct (slot_eqb k s) eqn:E.
  - apply slot_eqb_eq in E. subst. destruct H as [H|H]; [inv H; auto|].
    exfalso. apply H2. apply in_map_iff. exists (s, i). auto.
  - destruct H as [H|H]; [|auto]. inv H. rewrite slot_eqb_refl in E. discriminate.
Qed.

Lemma comp_get_key p s : In s (map fst p) -> exists i, comp_get p s = Some i.
Proof.
  induction p as [|[k v] p IH]; cbn; [intros []|]. intros H. destruct (slot_eqb k s) eqn:E; eauto.
  destruct H as [H|H]; auto. subst. rewrite slot_eqb_refl in E. discriminate.
Qed.

(** ** Runs of partial programs *)

Lemma steps_sub (P Q : program) : (forall s c i, P s c = Some i -> Q s c = Some i) ->
  forall n c d, steps P n c = Some d -> steps Q n c = Some d.
Proof.
  intros H. induction n as [|n IH]; intros c d E; cbn in *; auto.
  unfold step in *. destruct (P (c_state c) (c_tape c (c_pos c))) as [i|] eqn:EP; [|discriminate].
  rewrite (H _ _ _ EP). destruct i as [[pr sh] tr]. auto.
Qed.

(** A run that goes on from a configuration has used an instruction there. *)
Lemma used_before M n m c d : steps M n init = Some d -> (m < n)%nat -> steps M m init = Some c ->
  exists i, M (c_state c) (c_tape c (c_pos c)) = Some i.
Proof.
  intros HN L HM. replace n with (m + (1 + (n - m - 1)))%nat in HN by lia.
  rewrite (steps_add_some _ _ _ _ _ HM) in HN. cbn in HN. unfold step in HN.
  destruct (M (c_state c) (c_tape c (c_pos c))) as [i|]; [eauto|discriminate].
Qed.

Lemma state_seen M n : forall c, steps M n init = Some c ->
  c_state c = 0 \/ exists s k pr sh, M s k = Some (pr, sh, c_state c).
Proof.
  induction n as [|n IH]; intros c H.
  - inv H. auto.
  - rewrite steps_S_r in H. destruct (steps M n init) as [d|]; [|discriminate]. unfold step in H.
    destruct (M (c_state d) (c_tape d (c_pos d))) as [[[pr sh] tr]|] eqn:E; [|discriminate]. inv H. cbn. right. eauto 6.
Qed.

Lemma color_seen M n : forall c p, steps M n init = Some c ->
  c_tape c p = 0 \/ exists s k sh tr, M s k = Some (c_tape c p, sh, tr).
Proof.
  induction n as [|n IH]; intros c p H.
  - inv H. auto.
  - rewrite steps_S_r in H. destruct (steps M n init) as [d|] eqn:ED; [|discriminate]. unfold step in H.
    destruct (M (c_state d) (c_tape d (c_pos d))) as [[[pr sh] tr]|] eqn:E; [|discriminate]. inv H. cbn.
    unfold write. destruct (p =? c_pos d); [right; eauto 6|]. apply (IH d p eq_refl).
Qed.

(** ** run_for_undefined *)

Definition at_node (P : comp_prog) (state : Z) (t : tape) (n : nat) (c : config) : Prop :=
  steps (machine_of P) n init = Some c /\ represents t c /\ canon t /\ c_state c = state.

Lemma tree_rfu_spec P lim : forall state t n c, at_node P state t n c ->
  match tree_rfu P lim state t with
  | (TRSlot sl, t') => exists n' c', at_node P (fst sl) t' n' c' /\ (n <= n')%nat /\ at_slot c' = sl /\ comp_get P sl = None
  | (TRErr, _) => never_halts (machine_of P)
                  \/ exists n' c', (0 < n')%nat /\ steps (machine_of P) n' init = Some c' /\ is_blank c'
  | (TRLimit, _) => exists c', steps (machine_of P) (n + lim) init = Some c'
  end.
Proof.
  induction lim as [|lim IH]; intros state t n c (HR & REP & CN & ST); cbn [tree_rfu].
  - exists c. rewrite Nat.add_0_r. auto.
  - assert (HSC : c_tape c (c_pos c) = t_scan t) by (apply represents_iff; auto).
    destruct (comp_get P (state, t_scan t)) as [[[color shift] next]|] eqn:E.
    2:{ exists n, c. unfold at_node, at_slot. cbn [fst]. rewrite HSC, ST. auto. }
    destruct ((state =? next) && t_at_edge t shift) eqn:EE.
    { left. zb. subst next. apply (spins_out_never_halts _ _ _ HR). apply (spin_out_lemma _ c shift color).
      - match goal with X : t_at_edge t shift = true |- _ => unfold t_at_edge in X end. zb.
        replace (t_scan t) with 0 in E by auto. rewrite ST. exact E.
      - intros i Hi. eapply represents_edge; eauto. }
    destruct (rs_step t shift color (state =? next)) as [t' k] eqn:ES.
    destruct (rs_step_refines (machine_of P) t c shift color next (state =? next) t' k) as (N & W & _ & d & A & B & D & F).
    + apply canon_wf; auto.
    + auto.
    + rewrite ST. auto.
    + intros X. zb. congruence.
    + auto.
    + assert (CN' : canon t') by (eapply rs_step_canon; eauto).
      assert (HR' : steps (machine_of P) (n + Z.to_nat k) init = Some d).
      { rewrite (steps_add_some _ _ _ _ _ HR). auto. }
      destruct (t_blank t') eqn:EB.
      { right. exists (n + Z.to_nat k)%nat, d. split; [lia|]. split; auto. eapply represents_blank; eauto. }
      assert (AN : at_node P next t' (n + Z.to_nat k) d) by (unfold at_node; auto).
      specialize (IH next t' (n + Z.to_nat k)%nat d AN).
      destruct (tree_rfu P lim next t') as [[| |sl] t''].
      * auto.
      * destruct IH as (c' & X). destruct (steps_le (machine_of P) (n + Z.to_nat k + lim) (n + S lim) init c' ltac:(lia) X) as (c'' & Y).
        eauto.
      * destruct IH as (n' & c' & X & L & Y). exists n', c'. split; auto. split; auto. lia.
Qed.

Lemma upto_in n x : In x (upto n) <-> 0 <= x < n.
Proof.
  unfold upto. rewrite in_map_iff. split.
  - intros (k & <- & H). apply in_seq in H. lia.
  - intros H. exists (Z.to_nat x). split; [lia|]. apply in_seq. lia.
Qed.

Lemma make_instrs_in s c pr sh tr : In (pr, sh, tr) (make_instrs s c) <-> 0 <= pr < c /\ 0 <= tr < s.
Proof.
  unfold make_instrs. rewrite in_flat_map. split.
  - intros (x & Hx & H). apply in_flat_map in H. destruct H as (y & Hy & H). apply in_map_iff in H.
    destruct H as (z & X & Hz). inv X. apply upto_in in Hx. apply upto_in in Hz. auto.
  - intros (H1 & H2). exists pr. split; [apply upto_in; auto|]. apply in_flat_map. exists sh.
    split; [destruct sh; cbn; auto|]. apply in_map_iff. exists tr. split; auto. apply upto_in. auto.
Qed.

Lemma NoDup_flat_map {A B} (f : A -> list B) (key : B -> A) l :
  NoDup l -> (forall x y, In y (f x) -> key y = x) -> (forall x, NoDup (f x)) -> NoDup (flat_map f l).
Proof.
  intros D K F. induction D as [|x l N D IH]; cbn; [constructor|].
  apply NoDup_app; auto. intros y Hy Hy'. apply in_flat_map in Hy'. destruct Hy' as (z & Hz & Hy').
  apply K in Hy. apply K in Hy'. congruence.
Qed.

Lemma NoDup_map_inj {A B} (f : A -> B) l : (forall x y, f x = f y -> x = y) -> NoDup l -> NoDup (map f l).
Proof.
  intros I D. induction D as [|x l N D IH]; cbn; constructor; auto.
  intros H. apply in_map_iff in H. destruct H as (y & E & Hy). apply I in E. congruence.
Qed.

Lemma upto_nodup n : NoDup (upto n).
Proof. apply NoDup_map_inj; [intros; lia|apply seq_NoDup]. Qed.

Lemma make_instrs_nodup s c : NoDup (make_instrs s c).
Proof.
  unfold make_instrs. apply (NoDup_flat_map _ (fun i : instr => fst (fst i))).
  - apply upto_nodup.
  - intros x y H. apply in_flat_map in H. destruct H as (z & _ & H). apply in_map_iff in H.
    destruct H as (w & <- & _). reflexivity.
  - intros x. apply (NoDup_flat_map _ (fun i : instr => snd (fst i))).
    + repeat constructor; cbn; intuition discriminate.
    + intros y z H. apply in_map_iff in H. destruct H as (w & <- & _). reflexivity.
    + intros y. apply NoDup_map_inj; [|apply upto_nodup]. intros a b X. inv X. auto.
Qed.

(** ** Lists of pairwise different programs *)

Lemma fop_app {A} (R : A -> A -> Prop) l l' : ForallOrdPairs R l -> ForallOrdPairs R l' ->
  (forall x y, In x l -> In y l' -> R x y) -> ForallOrdPairs R (l ++ l').
Proof.
  intros H H' X. induction H as [|a l F H IH]; cbn; auto. constructor.
  - apply Forall_app. split; auto. apply Forall_forall. intros y Hy. apply X; cbn; auto.
  - apply IH. intros x y Hx Hy. apply X; cbn; auto.
Qed.

Lemma children_ok sl (f : instr -> option (list comp_prog)) (G : instr -> comp_prog -> Prop) l :
  NoDup l ->
  (forall i, In i l -> exists out, f i = Some out /\ Forall (G i) out /\ ForallOrdPairs differ out) ->
  (forall i p, G i p -> comp_get p sl = Some i) ->
  exists out, seq_all (map f l) = Some out /\ Forall (fun p => exists i, In i l /\ G i p) out
    /\ ForallOrdPairs differ out.
Proof.
  intros D H K. induction D as [|i l N D IH]; cbn [map seq_all].
  - exists []. repeat split; constructor.
  - destruct (H i (or_introl eq_refl)) as (a & Ea & Fa & Pa). rewrite Ea.
    destruct IH as (b & Eb & Fb & Pb); [intros j Hj; apply H; right; auto|]. rewrite Eb.
    exists (a ++ b). split; auto. rewrite Forall_forall in Fa, Fb. split.
    + apply Forall_forall. intros p Hp. apply in_app_iff in Hp. destruct Hp as [Hp|Hp].
      * exists i. cbn. auto.
      * destruct (Fb p Hp) as (j & Hj & X). exists j. cbn. auto.
    + apply fop_app; auto. intros x y Hx Hy. exists sl.
      rewrite (K i x (Fa x Hx)). destruct (Fb y Hy) as (j & Hj & X). rewrite (K j y X). congruence.
Qed.

Lemma seq_all_leaf (g : instr -> list comp_prog) l : Some (flat_map g l) = seq_all (map (fun i => Some (g i)) l).
Proof. induction l as [|i l IH]; cbn; auto. rewrite <- IH. auto. Qed.

(** ** branch *)

Lemma bump_spec avail mx sv iv : 2 <= avail <= mx -> 0 <= sv < avail -> 0 <= iv < avail ->
  avail <= bump avail mx sv iv <= mx /\ (iv + 1 < bump avail mx sv iv \/ bump avail mx sv iv = mx).
Proof. intros H1 H2 H3. unfold bump. bdestr; lia. Qed.

Section Branch.
Variables (states colors : Z) (lim : nat).
Hypothesis HS : 2 <= states.
Hypothesis HC : 2 <= colors.

Record node_ok (P : comp_prog) (ins : instr) (avail : Z * Z) : Prop := {
  no_keys : NoDup (map fst P);
  no_range : forall s i, In (s, i) P -> slot_in states colors s /\ instr_in states colors i;
  no_first : comp_get P (0, 0) = Some (1, true, 1);
  no_avs : 2 <= fst avail <= states;
  no_avc : 2 <= snd avail <= colors;
  no_ins : exists s, In (s, ins) P;
  no_below : forall s pr sh tr, In (s, (pr, sh, tr)) P -> tr < fst avail /\ pr < snd avail;
  no_next : forall s pr sh tr, In (s, (pr, sh, tr)) P -> (pr, sh, tr) <> ins ->
    (tr + 1 < fst avail \/ fst avail = states) /\ (pr + 1 < snd avail \/ snd avail = colors)
}.

(** What is known about a slot reached by the run of a node's program. *)
Lemma node_slot P ins avail n c : node_ok P ins avail -> steps (machine_of P) n init = Some c ->
  0 <= c_state c < fst avail /\ 0 <= c_tape c (c_pos c) < snd avail.
Proof.
  intros [K R F A1 A2 I B X] E. split.
  - destruct (state_seen _ _ _ E) as [->|(s & k & pr & sh & H)]; [lia|]. apply comp_get_in in H.
    destruct (R _ _ H) as (_ & R2). destruct (B _ _ _ _ H). cbn in R2. lia.
  - destruct (color_seen _ _ _ (c_pos c) E) as [->|(s & k & sh & tr & H)]; [lia|]. apply comp_get_in in H.
    destruct (R _ _ H) as (_ & R2). destruct (B _ _ _ _ H). cbn in R2. lia.
Qed.

Lemma child_ok P ins avail n c i av' :
  node_ok P ins avail -> steps (machine_of P) n init = Some c -> comp_get P (at_slot c) = None ->
  av' = (bump (fst avail) states (c_state c) (snd ins), bump (snd avail) colors (c_tape c (c_pos c)) (fst (fst ins))) ->
  In i (make_instrs (fst av') (snd av')) ->
  node_ok ((at_slot c, i) :: P) i av'.
Proof.
  intros NO E U -> Hi. destruct (node_slot _ _ _ _ _ NO E) as (SS & SC). pose proof NO as [K R F A1 A2 I B X].
  destruct ins as [[ip ish] it]. cbn [fst snd] in *. destruct I as (s0 & I).
  destruct (R _ _ I) as (_ & RI). cbn in RI. destruct (B _ _ _ _ I) as (BI1 & BI2).
  destruct (bump_spec (fst avail) states (c_state c) it A1 SS ltac:(lia)) as (U1 & U2).
  destruct (bump_spec (snd avail) colors (c_tape c (c_pos c)) ip A2 SC ltac:(lia)) as (V1 & V2).
  set (bs := bump (fst avail) states (c_state c) it) in *.
  set (bc := bump (snd avail) colors (c_tape c (c_pos c)) ip) in *.
  destruct i as [[pr sh] tr]. apply make_instrs_in in Hi.
  constructor; cbn [fst snd map].
  - constructor; auto. intros H. apply comp_get_key in H. destruct H as (j & H). congruence.
  - intros s j [H|H]; [|auto]. inv H. split; [unfold slot_in, at_slot; cbn; lia|cbn; lia].
  - cbn [comp_get]. destruct (slot_eqb (at_slot c) (0, 0)) eqn:ES; auto. apply slot_eqb_eq in ES. congruence.
  - lia.
  - lia.
  - exists (at_slot c). left. auto.
  - intros s p h q [H|H]; [inv H; lia|]. destruct (B _ _ _ _ H). lia.
  - intros s p h q [H|H] N; [inv H; congruence|].
    destruct (B _ _ _ _ H).
    assert (D : (p, h, q) = (ip, ish, it) \/ (p, h, q) <> (ip, ish, it)).
    { destruct (Z.eq_dec p ip), (Bool.bool_dec h ish), (Z.eq_dec q it); try (right; congruence). left; congruence. }
    destruct D as [D|D]; [inv D; auto|]. destruct (X _ _ _ _ H D). lia.
Qed.

Lemma child_node P c n i t : at_node P (c_state c) t n c -> comp_get P (at_slot c) = None ->
  at_node ((at_slot c, i) :: P) (c_state c) t n c.
Proof.
  intros (A & B & D & E) U. split; auto. apply (steps_sub (machine_of P)); auto.
  intros s k j H. unfold machine_of in *. cbn [comp_get]. destruct (slot_eqb (at_slot c) (s, k)) eqn:ES; auto.
  apply slot_eqb_eq in ES. congruence.
Qed.

Definition out_ok (P : comp_prog) (rem : nat) (p : comp_prog) : Prop :=
  (forall s i, comp_get P s = Some i -> comp_get p s = Some i)
  /\ NoDup (map fst p)
  /\ (forall s i, In (s, i) p -> slot_in states colors s /\ instr_in states colors i)
  /\ (length p <= length P + rem)%nat
  /\ ~ misses_last states colors p.

Lemma leaf_spec P : NoDup (map fst P) -> (forall s i, In (s, i) P -> slot_in states colors s /\ instr_in states colors i) ->
  (leaf P (states, colors) = [P] /\ ~ misses_last states colors P)
  \/ (leaf P (states, colors) = [] /\ misses_last states colors P).
Proof.
  intros K R. unfold leaf.
  destruct (forallb (fun e : slot * instr => let '(_, _, state) := snd e in 1 + state <? states) P) eqn:E1; cbn [orb].
  - right. split; auto. left. intros s pr sh tr H X. apply comp_get_in in H. rewrite forallb_forall in E1.
    specialize (E1 _ H). cbn in E1. zb. lia.
  - destruct (forallb (fun e : slot * instr => let '(color, _, _) := snd e in 1 + color <? colors) P) eqn:E2.
    + right. split; auto. right. intros s pr sh tr H X. apply comp_get_in in H. rewrite forallb_forall in E2.
      specialize (E2 _ H). cbn in E2. zb. lia.
    + left. split; auto. intros [M|M].
      * assert (C : forallb (fun e : slot * instr => let '(_, _, state) := snd e in 1 + state <? states) P = true); [|congruence].
        apply forallb_forall. intros [s [[pr sh] tr]] H. cbn. destruct (R _ _ H) as (_ & RI). cbn in RI.
        specialize (M s pr sh tr (in_comp_get _ _ _ K H)). lia.
      * assert (C : forallb (fun e : slot * instr => let '(color, _, _) := snd e in 1 + color <? colors) P = true); [|congruence].
        apply forallb_forall. intros [s [[pr sh] tr]] H. cbn. destruct (R _ _ H) as (_ & RI). cbn in RI.
        specialize (M s pr sh tr (in_comp_get _ _ _ K H)). lia.
Qed.

Lemma leaf_ok P rem : NoDup (map fst P) -> (forall s i, In (s, i) P -> slot_in states colors s /\ instr_in states colors i) ->
  Forall (out_ok P rem) (leaf P (states, colors)) /\ ForallOrdPairs differ (leaf P (states, colors)).
Proof.
  intros K R. destruct (leaf_spec P K R) as [(-> & H)|(-> & H)].
  - split; [|repeat constructor]. constructor; [|constructor]. split; [auto|]. split; [auto|]. split; [auto|].
    split; [lia|auto].
  - split; constructor.
Qed.

Lemma out_ok_weaken sl i P rem p : comp_get P sl = None -> out_ok ((sl, i) :: P) rem p ->
  out_ok P (S rem) p /\ comp_get p sl = Some i.
Proof.
  intros U (A & B & C & D & E). split.
  - split; [|split; auto; split; auto; split; auto; cbn in D; lia].
    intros s j H. apply A. cbn. destruct (slot_eqb sl s) eqn:ES; auto. apply slot_eqb_eq in ES. congruence.
  - apply A. cbn. rewrite slot_eqb_refl. auto.
Qed.

Lemma make_instrs_nonempty s c : 1 <= s -> 1 <= c -> make_instrs s c <> [].
Proof.
  intros H1 H2 E. assert (X : In (0, true, 0) (make_instrs s c)) by (apply make_instrs_in; lia).
  rewrite E in X. destruct X.
Qed.

Lemma branch_ok : forall rem ins P state t avail n c,
  (1 <= rem)%nat -> node_ok P ins avail -> at_node P state t n c ->
  exists out, branch rem ins P state t lim avail (states, colors) = Some out
    /\ Forall (out_ok P rem) out /\ ForallOrdPairs differ out.
Proof.
  induction rem as [|rem IH]; intros ins P state t avail n c HR NO AN; [lia|].
  pose proof (tree_rfu_spec P lim state t n c AN) as T.
  cbn [branch]. pose proof NO as [K R _ _ _ _ _ _].
  destruct (tree_rfu P lim state t) as [[| |sl] t'].
  1, 2: destruct (leaf_ok P (S rem) K R); eauto.
  destruct T as (n' & c' & AN' & L & ESL & U). subst sl. cbn [at_slot fst] in AN'.
  destruct ins as [[ip ish] it] eqn:EI. unfold at_slot at 1 2 3. cbn [fst snd].
  set (bs := bump (fst avail) states (c_state c') it).
  set (bc := bump (snd avail) colors (c_tape c' (c_pos c')) ip).
  assert (CH : forall i, In i (make_instrs bs bc) -> node_ok ((at_slot c', i) :: P) i (bs, bc)).
  { intros i Hi. apply (child_ok P (ip, ish, it) avail n' c' i (bs, bc) NO (proj1 AN') U eq_refl Hi). }
  assert (NE : make_instrs bs bc <> []).
  { destruct (node_slot _ _ _ _ _ NO (proj1 AN')) as (SS & SC).
    destruct (no_ins _ _ _ NO) as (s0 & I). destruct (R _ _ I) as (_ & RI). cbn in RI.
    destruct (no_below _ _ _ NO _ _ _ _ I) as (BI1 & BI2).
    pose proof (no_avs _ _ _ NO) as A1. pose proof (no_avc _ _ _ NO) as A2.
    destruct (bump_spec (fst avail) states (c_state c') it A1 SS ltac:(lia)) as (U1 & _).
    destruct (bump_spec (snd avail) colors (c_tape c' (c_pos c')) ip A2 SC ltac:(lia)) as (V1 & _).
    apply make_instrs_nonempty; unfold bs, bc; lia. }
  change (c_state c', c_tape c' (c_pos c')) with (at_slot c').
  assert (G : forall f, (forall i, In i (make_instrs bs bc) -> exists out, f i = Some out
      /\ Forall (out_ok ((at_slot c', i) :: P) rem) out /\ ForallOrdPairs differ out) ->
    exists out, seq_all (map f (make_instrs bs bc)) = Some out /\ Forall (out_ok P (S rem)) out /\ ForallOrdPairs differ out).
  { intros f Hf. destruct (children_ok (at_slot c') f (fun i p => out_ok ((at_slot c', i) :: P) rem p)
      (make_instrs bs bc) (make_instrs_nodup _ _) Hf) as (out & E & Fo & Po).
    - intros i p X. eapply out_ok_weaken; eauto.
    - exists out. split; auto. split; auto. rewrite Forall_forall in *. intros p Hp.
      destruct (Fo p Hp) as (i & _ & X). eapply out_ok_weaken; eauto. }
  destruct rem as [|rem'].
  - rewrite seq_all_leaf. apply G. intros i Hi. pose proof (CH i Hi) as [K' R' _ _ _ _ _ _].
    eexists. split; [reflexivity|]. apply leaf_ok; auto.
  - destruct (make_instrs bs bc) as [|x l] eqn:EM; [congruence|]. rewrite <- EM in *. apply G.
    intros i Hi. apply (IH i ((at_slot c', i) :: P) (c_state c') t' (bs, bc) n' c' ltac:(lia) (CH i Hi)).
    apply child_node; auto.
Qed.

(** ** Nothing is missed *)

Variable (halt : bool) (M : program).
Hypothesis MR : forall s c i, M s c = Some i -> slot_in states colors (s, c) /\ instr_in states colors i.
Hypothesis MO : in_order M.
Hypothesis MU : uses_all states colors halt M.

Lemma all_slots_length : length (flat_map (fun s => map (fun c => (s, c)) (upto colors)) (upto states)) = Z.to_nat (states * colors).
Proof.
  assert (X : forall l, length (flat_map (fun s : Z => map (fun c => (s, c)) (upto colors)) l) = (length l * Z.to_nat colors)%nat).
  { induction l as [|a l IH]; cbn; auto. rewrite app_length, IH, map_length. unfold upto. rewrite map_length, seq_length. auto. }
  rewrite X. unfold upto. rewrite map_length, seq_length. nia.
Qed.

Lemma all_slots_in s : In s (flat_map (fun s => map (fun c => (s, c)) (upto colors)) (upto states)) <-> slot_in states colors s.
Proof.
  rewrite in_flat_map. unfold slot_in. destruct s as [a b]. cbn. split.
  - intros (x & Hx & H). apply in_map_iff in H. destruct H as (y & E & Hy). inv E. apply upto_in in Hx. apply upto_in in Hy. auto.
  - intros (H1 & H2). exists a. split; [apply upto_in; auto|]. apply in_map_iff. exists b. split; auto. apply upto_in; auto.
Qed.

Lemma all_slots_nodup : NoDup (flat_map (fun s => map (fun c => (s, c)) (upto colors)) (upto states)).
Proof.
  apply (NoDup_flat_map _ fst).
  - apply upto_nodup.
  - intros x y H. apply in_map_iff in H. destruct H as (z & <- & _). auto.
  - intros x. apply NoDup_map_inj; [|apply upto_nodup]. intros a b X. inv X. auto.
Qed.

(** A program that has every slot but one has at least that many entries. *)
Lemma count_slots P sl : (forall s, slot_in states colors s -> s <> sl -> exists i, comp_get P s = Some i) ->
  states * colors - 1 <= Z.of_nat (length P).
Proof.
  intros H. set (A := flat_map (fun s => map (fun c => (s, c)) (upto colors)) (upto states)).
  assert (L : (length A <= length (sl :: map fst P))%nat).
  { apply NoDup_incl_length; [apply all_slots_nodup|]. intros s Hs. apply all_slots_in in Hs.
    destruct (slot_eqb sl s) eqn:E; [apply slot_eqb_eq in E; left; auto|]. right.
    destruct (H s Hs) as (i & X).
    - intros ->. rewrite slot_eqb_refl in E. discriminate.
    - apply comp_get_in in X. apply in_map_iff. exists (s, i). auto. }
  unfold A in L. rewrite all_slots_length in L. cbn [length] in L. rewrite map_length in L. lia.
Qed.

Lemma steps_both P n m c d : part_of P M -> steps (machine_of P) n init = Some c -> (m <= n)%nat ->
  steps M m init = Some d -> steps (machine_of P) m init = Some d.
Proof.
  intros PM E L D. destruct (steps_le _ _ _ _ _ L E) as (d' & E').
  rewrite (steps_sub (machine_of P) M PM m init d' E') in D. congruence.
Qed.

Lemma branch_complete : forall rem ins P state t avail n c out,
  (1 <= rem)%nat -> node_ok P ins avail -> at_node P state t n c ->
  part_of P M -> Z.of_nat (length P + rem) = states * colors - (if halt then 1 else 0) ->
  branch rem ins P state t lim avail (states, colors) = Some out ->
  exists p, part_of p M /\ settled states colors halt lim p /\ (In p out \/ misses_last states colors p).
Proof.
  induction rem as [|rem IH]; intros ins P state t avail n c out HR NO AN PM CNT; [lia|].
  pose proof (tree_rfu_spec P lim state t n c AN) as T.
  cbn [branch]. pose proof NO as [K R _ _ _ _ _ _].
  destruct (tree_rfu P lim state t) as [[| |sl] t'].
  1: { intros X. exists P. split; auto. split; [right; destruct T; auto|].
       destruct (leaf_spec P K R) as [(E & H)|(E & H)]; [|auto]. left. rewrite E in X. inv X. cbn; auto. }
  1: { intros X. exists P. split; auto. split.
       - right. right. right. destruct T as (c' & T). apply (steps_le (machine_of P) (n + lim) lim init c' ltac:(lia) T).
       - destruct (leaf_spec P K R) as [(E & H)|(E & H)]; [|auto]. left. rewrite E in X. inv X. cbn; auto. }
  destruct T as (n' & c' & AN' & L & ESL & U). subst sl. cbn [at_slot fst] in AN'.
  destruct ins as [[ip ish] it] eqn:EI. unfold at_slot at 1 2 3. cbn [fst snd].
  set (bs := bump (fst avail) states (c_state c') it).
  set (bc := bump (snd avail) colors (c_tape c' (c_pos c')) ip).
  change (c_state c', c_tape c' (c_pos c')) with (at_slot c').
  assert (CH : forall i, In i (make_instrs bs bc) -> node_ok ((at_slot c', i) :: P) i (bs, bc)).
  { intros i Hi. apply (child_ok P (ip, ish, it) avail n' c' i (bs, bc) NO (proj1 AN') U eq_refl Hi). }
  pose proof (steps_sub (machine_of P) M PM n' init c' (proj1 AN')) as RM.
  destruct (node_slot _ _ _ _ _ NO (proj1 AN')) as (SS & SC).
  destruct (no_ins _ _ _ NO) as (s0 & I). destruct (R _ _ I) as (_ & RI). cbn in RI.
  destruct (no_below _ _ _ NO _ _ _ _ I) as (BI1 & BI2).
  pose proof (no_avs _ _ _ NO) as A1. pose proof (no_avc _ _ _ NO) as A2.
  destruct (bump_spec (fst avail) states (c_state c') it A1 SS ltac:(lia)) as (U1 & U2). fold bs in U1, U2.
  destruct (bump_spec (snd avail) colors (c_tape c' (c_pos c')) ip A2 SC ltac:(lia)) as (V1 & V2). fold bc in V1, V2.
  (* the program goes on at this slot *)
  destruct (M (c_state c') (c_tape c' (c_pos c'))) as [[[pr sh] tr]|] eqn:EM.
  2:{ exfalso. destruct (MU n' (at_slot c')) as (HH & ALL).
      { exists c'. cbn. auto. }
      assert (X : states * colors - 1 <= Z.of_nat (length P)).
      { apply (count_slots P (at_slot c')). intros s Hs Ns. destruct (ALL s Hs Ns) as (m & d & Lm & Dm & <-).
        pose proof (steps_both P n' m c' d PM (proj1 AN') ltac:(lia) Dm) as DP.
        apply (used_before (machine_of P) n' m d c' (proj1 AN') Lm DP). }
      rewrite HH in CNT. lia. }
  destruct (MR _ _ _ EM) as (_ & RG). cbn in RG.
  assert (IN : In (pr, sh, tr) (make_instrs bs bc)).
  { apply make_instrs_in. destruct (MO n' c' pr sh tr RM EM) as (O1 & O2). split; split; try lia.
    - destruct O2 as [O2|(m & d & sh' & tr' & Lm & Dm & Em)]; [lia|].
      pose proof (steps_both P n' m c' d PM (proj1 AN') ltac:(lia) Dm) as DP.
      destruct (used_before (machine_of P) n' m d c' (proj1 AN') Lm DP) as (j & Ej).
      assert (j = (pr - 1, sh', tr')).
      { unfold machine_of in Ej. rewrite (PM _ _ _ Ej) in Em. congruence. }
      subst j. unfold machine_of in Ej. apply comp_get_in in Ej.
      assert (D : (pr - 1, sh', tr') = (ip, ish, it) \/ (pr - 1, sh', tr') <> (ip, ish, it)).
      { destruct (Z.eq_dec (pr - 1) ip), (Bool.bool_dec sh' ish), (Z.eq_dec tr' it); try (right; congruence). left; congruence. }
      destruct D as [D|D]; [inv D; lia|]. destruct (no_next _ _ _ NO _ _ _ _ Ej D) as (_ & Y). lia.
    - destruct O1 as [O1|(m & d & Lm & Dm & Em)]; [lia|].
      pose proof (steps_both P n' m c' d PM (proj1 AN') ltac:(lia) Dm) as DP.
      destruct (state_seen _ _ _ DP) as [Z0|(s & k & p & h & Ej)]; [lia|].
      rewrite Em in Ej. unfold machine_of in Ej. apply comp_get_in in Ej.
      assert (D : (p, h, tr - 1) = (ip, ish, it) \/ (p, h, tr - 1) <> (ip, ish, it)).
      { destruct (Z.eq_dec p ip), (Bool.bool_dec h ish), (Z.eq_dec (tr - 1) it); try (right; congruence). left; congruence. }
      destruct D as [D|D]; [inv D; lia|]. destruct (no_next _ _ _ NO _ _ _ _ Ej D) as (Y & _). lia. }
  set (i := (pr, sh, tr)) in *.
  assert (PM' : part_of ((at_slot c', i) :: P) M).
  { intros s k j. cbn [comp_get]. destruct (slot_eqb (at_slot c') (s, k)) eqn:ES; [|apply PM].
    apply slot_eqb_eq in ES. unfold at_slot in ES. inv ES. intros X. inv X. exact EM. }
  destruct rem as [|rem'].
  - intros X. match type of X with Some ?a = Some out => assert (X' : out = a) by congruence end.
    rewrite X'. clear X X'. exists ((at_slot c', i) :: P). split; auto.
    pose proof (CH i IN) as [K' R' _ _ _ _ _ _]. split.
    + left. cbn [length]. lia.
    + destruct (leaf_spec _ K' R') as [(E & H)|(E & H)]; auto. left. apply in_flat_map. exists i. split; auto.
      rewrite E. cbn. auto.
  - destruct (make_instrs bs bc) as [|x l] eqn:EL; [destruct IN|]. rewrite <- EL in *. intros X.
    assert (Y : exists o, branch (S rem') i ((at_slot c', i) :: P) (c_state c') t' lim (bs, bc) (states, colors) = Some o /\ incl o out).
    { clear - IN X. revert out X IN. generalize (make_instrs bs bc) as l. induction l as [|j l IHl]; intros out X IN; [destruct IN|].
      cbn [map seq_all] in X.
      destruct (branch (S rem') j ((at_slot c', j) :: P) (c_state c') t' lim (bs, bc) (states, colors)) as [a|] eqn:EB; [|discriminate].
      destruct (seq_all _) as [b|] eqn:ES in X; [|discriminate]. inv X. destruct IN as [->|IN].
      - exists a. split; auto. apply incl_appl, incl_refl.
      - destruct (IHl b ES IN) as (o & Ho & Io). exists o. split; auto. apply incl_appr. auto. }
    destruct Y as (o & Eo & Io).
    destruct (IH i ((at_slot c', i) :: P) (c_state c') t' (bs, bc) n' c' o) as (p & P1 & P2 & P3); auto.
    + lia.
    + apply child_node; auto.
    + cbn [length]. lia.
    + exists p. split; auto. split; auto. destruct P3; auto.
Qed.

End Branch.
