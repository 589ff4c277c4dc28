(** build_tree and tree_progs as a whole. *)
From Coq Require Import Permutation.
From Verif Require Import Base TM TMFacts ProgModel TapeModel TapeSpec TapeProofs QuickProofs ParseModel ParseSpec ParseProofs
  TreeModel TreeSpec TreeProofs.

Lemma shuffle_perm {A} (ls : list (list A)) r : shuffle ls r -> Permutation (concat ls) r.
Proof.
  induction 1 as [ls H|pre x l post r H IH].
  - replace (concat ls) with (@nil A); [auto|]. induction H as [|l ls E H IH]; cbn; auto. subst. auto.
  - rewrite concat_app in *. cbn [concat app] in *. rewrite <- IH.
    symmetry. apply Permutation_middle.
Qed.

Lemma fop_perm {A} (R : A -> A -> Prop) l l' : (forall x y, R x y -> R y x) -> Permutation l l' ->
  ForallOrdPairs R l -> ForallOrdPairs R l'.
Proof.
  intros S H. induction H as [|x l l' H IH|x y l|l l' l'' H IH H' IH']; intros F; auto.
  - inv F. constructor; auto. rewrite Forall_forall in *. intros z Hz. apply H2. eapply Permutation_in; [symmetry|]; eauto.
  - inv F. inv H2. inv H1. constructor; [constructor; auto|]. constructor; auto.
Qed.

Lemma differ_sym p q : differ p q -> differ q p.
Proof. intros (s & H). exists s. congruence. Qed.

Lemma all_some_seq {A} (l : list (option (list A))) : forall r, all_some l = Some r -> seq_all l = Some (concat r).
Proof.
  induction l as [|[a|] l IH]; intros r H; cbn in *; try discriminate; [inv H; auto|].
  destruct (all_some l) as [r'|]; [|discriminate]. inv H. rewrite (IH r' eq_refl). auto.
Qed.

Lemma seq_all_some {A} (l : list (option (list A))) : forall r, seq_all l = Some r -> exists r', all_some l = Some r'.
Proof.
  induction l as [|[a|] l IH]; intros r H; cbn in *; try discriminate; [eauto|].
  destruct (seq_all l) as [r'|]; [|discriminate]. destruct (IH r' eq_refl) as (x & ->). eauto.
Qed.

Lemma all_some_perm_in {A} (l : list (option (list A))) : forall r a, all_some l = Some r -> In (Some a) l -> incl a (concat r).
Proof.
  induction l as [|[b|] l IH]; intros r a H HI; cbn in *; try discriminate; [destruct HI|].
  destruct (all_some l) as [r'|]; [|discriminate]. inv H. cbn. destruct HI as [HI|HI].
  - inv HI. apply incl_appl, incl_refl.
  - apply incl_appr. apply (IH r' a eq_refl HI).
Qed.

Definition root (i : instr) : comp_prog := [((1, 0), i); ((0, 0), (1, true, 1))].
Definition root_cfg : config := Cfg 1 1 (write blank_tape 0 1).

Lemma root_at i : at_node (root i) 1 init_stepped 1 root_cfg.
Proof.
  split; [reflexivity|]. split; [|split].
  - intros k. unfold root_cfg, init_stepped, tape_cell, write, blank_tape. cbn [c_tape c_pos t_scan t_lspan t_rspan cell b_count b_color].
    bdestr; lia.
  - split; cbn; auto. split; [lia|]. split; [lia|auto].
  - reflexivity.
Qed.

Lemma root_ok states colors i : 2 <= states -> 2 <= colors -> In i (make_instrs (Z.min 3 states) (Z.min 3 colors)) ->
  node_ok states colors (root i) i (Z.min 3 states, Z.min 3 colors).
Proof.
  intros HS HC Hi. destruct i as [[pr sh] tr]. apply make_instrs_in in Hi. constructor; cbn [fst snd root map].
  - repeat constructor; cbn; intuition congruence.
  - intros s j [H|[H|[]]]; inv H; unfold slot_in, instr_in; cbn; lia.
  - reflexivity.
  - lia.
  - lia.
  - exists (1, 0). left. auto.
  - intros s p h q [H|[H|[]]]; inv H; lia.
  - intros s p h q [H|[H|[]]] N; inv H; [congruence|]. lia.
Qed.

(** What is said of every program produced. *)
Definition produced_ok (states colors : Z) (halt : bool) (p : comp_prog) : Prop :=
  comp_get p (0, 0) = Some (1, true, 1)
  /\ in_range states colors p
  /\ NoDup (map fst p)
  /\ Z.of_nat (length p) <= states * colors - (if halt then 1 else 0)
  /\ ~ misses_last states colors p.

Lemma build_tree_ok states colors halt lim : 2 <= states -> 2 <= colors ->
  exists tasks lists, build_tree (states, colors) halt lim = Some tasks /\ all_some tasks = Some lists
    /\ Forall (produced_ok states colors halt) (concat lists) /\ ForallOrdPairs differ (concat lists).
Proof.
  intros HS HC. unfold build_tree.
  set (rem := states * colors - 1 - (1 + (if halt then 1 else 0))).
  assert (HR : 1 <= rem) by (unfold rem; destruct halt; nia).
  destruct (Z.ltb_spec rem 0); [lia|].
  destruct (children_ok (1, 0)
    (fun i => branch (Z.to_nat rem) i (root i) 1 init_stepped lim (Z.min 3 states, Z.min 3 colors) (states, colors))
    (fun i p => out_ok states colors (root i) (Z.to_nat rem) p)
    (make_instrs (Z.min 3 states) (Z.min 3 colors)) (make_instrs_nodup _ _)) as (out & E & F & D).
  - intros i Hi. apply (branch_ok states colors lim HS HC (Z.to_nat rem) i (root i) 1 init_stepped _ 1%nat root_cfg).
    + lia.
    + apply root_ok; auto.
    + apply root_at.
  - intros i p (X & _). apply X. reflexivity.
  - destruct (seq_all_some _ _ E) as (lists & El). exists (map (fun i => branch (Z.to_nat rem) i (root i) 1 init_stepped lim
      (Z.min 3 states, Z.min 3 colors) (states, colors)) (make_instrs (Z.min 3 states) (Z.min 3 colors))), lists.
    split; auto. split; auto. rewrite (all_some_seq _ _ El) in E. inv E. split; auto.
    rewrite Forall_forall in *. intros p Hp. destruct (F p Hp) as (i & Hi & O1 & O2 & O3 & O4 & O5).
    split; [apply O1; reflexivity|]. split; [|split; [auto|split; auto]].
    + intros s j X. apply comp_get_in in X. auto.
    + cbn [root length] in O4. unfold rem in *. destruct halt; lia.
Qed.

Lemma harvested_ok states colors halt lim : 2 <= states -> 2 <= colors ->
  (exists tasks lists, build_tree (states, colors) halt lim = Some tasks /\ all_some tasks = Some lists)
  /\ forall out, harvested (states, colors) halt lim out ->
       Forall (produced_ok states colors halt) out /\ ForallOrdPairs differ out.
Proof.
  intros HS HC. destruct (build_tree_ok states colors halt lim HS HC) as (tasks & lists & E1 & E2 & F & D).
  split; [eauto|]. intros out (t' & l' & E1' & E2' & SH). rewrite E1 in E1'. inv E1'. rewrite E2 in E2'. inv E2'.
  pose proof (shuffle_perm _ _ SH) as PM. split.
  - rewrite Forall_forall in *. intros p Hp. apply F. eapply Permutation_in; [symmetry|]; eauto.
  - eapply fop_perm; eauto. apply differ_sym.
Qed.

Lemma fop_map_nodup {A B} (R : A -> A -> Prop) (f : A -> B) l :
  (forall x y, In x l -> In y l -> R x y -> f x <> f y) -> ForallOrdPairs R l -> NoDup (map f l).
Proof.
  intros H F. induction F as [|x l FA F IH]; cbn; constructor.
  - intros X. apply in_map_iff in X. destruct X as (y & E & Hy). rewrite Forall_forall in FA.
    apply (H x y); cbn; auto.
  - apply IH. intros a b Ha Hb. apply H; cbn; auto.
Qed.

Lemma shuffle_map {A B} (f : A -> B) : forall (ls : list (list A)) r, shuffle (map (map f) ls) r ->
  Permutation (map f (concat ls)) r.
Proof. intros ls r H. rewrite (concat_map f ls). apply shuffle_perm. auto. Qed.

Lemma tree_progs_nodup states colors halt lim res : 2 <= states <= 26 -> 2 <= colors <= 10 ->
  tree_progs (states, colors) halt lim res -> NoDup res.
Proof.
  intros HS HC (tasks & lists & E1 & E2 & SH).
  destruct (build_tree_ok states colors halt lim ltac:(lia) ltac:(lia)) as (t' & l' & E1' & E2' & F & D).
  rewrite E1 in E1'. inv E1'. rewrite E2 in E2'. inv E2'.
  eapply Permutation_NoDup; [exact (shuffle_map _ _ _ SH)|].
  apply (fop_map_nodup differ); auto. intros p q Hp Hq (s & N) X. apply N. rewrite Forall_forall in F.
  assert (G : forall p, In p (concat l') -> exists q, from_str (show_comp p (Some (states, colors))) = Some q
      /\ forall sl, comp_get q sl = comp_get p sl).
  { intros r Hr. destruct (F r Hr) as (_ & RG & _). apply parse_show; try lia.
    - intros a b pr sh tr Y. destruct (RG _ _ Y) as (_ & Z). cbn in Z. lia.
    - intros a b i Y. destruct (RG _ _ Y) as (Z & _). exact Z. }
  destruct (G p Hp) as (p' & Ep & Gp). destruct (G q Hq) as (q' & Eq & Gq).
  rewrite X in Ep. rewrite Ep in Eq. inv Eq. rewrite <- Gp, <- Gq. auto.
Qed.

Lemma harvested_complete states colors halt lim M out : 2 <= states -> 2 <= colors ->
  harvested (states, colors) halt lim out ->
  M 0 0 = Some (1, true, 1) ->
  (forall s c i, M s c = Some i -> slot_in states colors (s, c) /\ instr_in states colors i) ->
  in_order M -> uses_all states colors halt M ->
  exists p, part_of p M /\ settled states colors halt lim p /\ (In p out \/ misses_last states colors p).
Proof.
  intros HS HC (tasks & lists & E1 & E2 & SH) M0 MR MO MU.
  assert (R1 : steps M 1 init = Some root_cfg).
  { cbn [steps]. unfold step. cbn [c_state c_tape c_pos init]. change (blank_tape 0) with 0. rewrite M0. reflexivity. }
  destruct (M 1 0) as [[[pr sh] tr]|] eqn:EM.
  2:{ exfalso. destruct (MU 1%nat (1, 0)) as (_ & ALL).
      { exists root_cfg. split; auto. }
      destruct (ALL (0, 1)) as (m & c & L & EC & X).
      - unfold slot_in. cbn. lia.
      - congruence.
      - replace m with 0%nat in EC by lia. cbn in EC. inv EC. discriminate. }
  assert (HI : In (pr, sh, tr) (make_instrs (Z.min 3 states) (Z.min 3 colors))).
  { apply make_instrs_in. destruct (MR _ _ _ EM) as (_ & RG). cbn in RG.
    destruct (MO 1%nat root_cfg pr sh tr R1 EM) as (O1 & O2). split; split; try lia.
    - destruct O2 as [O2|(m & c & sh' & tr' & L & EC & X)]; [lia|]. replace m with 0%nat in EC by lia.
      cbn in EC. inv EC. cbn in X. change (blank_tape 0) with 0 in X. rewrite M0 in X. inv X. lia.
    - destruct O1 as [O1|(m & c & L & EC & X)]; [lia|].
      assert (m = 0 \/ m = 1)%nat as [->| ->] by lia.
      + cbn in EC. inv EC. cbn in X. lia.
      + rewrite R1 in EC. inv EC. cbn in X. lia. }
  unfold build_tree in E1. set (rem := states * colors - 1 - (1 + (if halt then 1 else 0))) in *.
  assert (HR : 1 <= rem) by (unfold rem; destruct halt; nia).
  destruct (Z.ltb_spec rem 0); [lia|]. inv E1.
  set (i := (pr, sh, tr)) in *.
  destruct (branch_ok states colors lim HS HC (Z.to_nat rem) i (root i) 1 init_stepped (Z.min 3 states, Z.min 3 colors) 1%nat root_cfg
    ltac:(lia) (root_ok states colors i HS HC HI) (root_at i)) as (o & Eo & _).
  destruct (branch_complete states colors lim HS HC halt M MR MO MU (Z.to_nat rem) i (root i) 1 init_stepped
    (Z.min 3 states, Z.min 3 colors) 1%nat root_cfg o ltac:(lia) (root_ok states colors i HS HC HI) (root_at i)) as (p & P1 & P2 & P3); auto.
  - intros s c j. cbn. destruct (slot_eqb (1, 0) (s, c)) eqn:X1.
    + apply slot_eqb_eq in X1. inv X1. intros X. inv X. exact EM.
    + destruct (slot_eqb (0, 0) (s, c)) eqn:X2; [|discriminate]. apply slot_eqb_eq in X2. inv X2. intros X. inv X. exact M0.
  - cbn [root length]. unfold rem. destruct halt; lia.
  - exists p. split; auto. split; auto. destruct P3 as [P3|P3]; auto. left.
    eapply Permutation_in; [apply shuffle_perm; exact SH|].
    apply (all_some_perm_in _ _ o E2); auto. apply in_map_iff. exists i. split; auto.
Qed.

(** The order of a run without parallelism is one of the possible ones. *)
Lemma shuffle_seq {A} (ls : list (list A)) : shuffle ls (concat ls).
Proof.
  assert (G : forall ls pre, Forall (fun l : list A => l = []) pre -> shuffle (pre ++ ls) (concat ls)).
  { clear. induction ls as [|l ls IH]; intros pre H.
    - rewrite app_nil_r. constructor. auto.
    - induction l as [|x l IHl].
      + replace (pre ++ [] :: ls) with ((pre ++ [[]]) ++ ls) by (rewrite <- app_assoc; auto).
        apply IH. apply Forall_app. auto.
      + cbn. constructor. exact IHl. }
  apply (G ls []). constructor.
Qed.
