(** Proofs for reduce_graph. *)
From Coq Require Import Permutation.
From Verif Require Import Base TM ProgModel NormModel ParseSpec NormSpec NormProofs NormFull GraphModel GraphSpec GraphProofs.

Notation graph := (list (Z * list Z)).

Definition gok (g : graph) : Prop :=
  NoDup (map fst g) /\ forall s xs x, dget g s = Some xs -> In x xs -> In x (map fst g).

(** Nothing left to inline or cut. *)
Definition gstable (g : graph) : Prop :=
  gok g /\ (forall s xs, dget g s = Some xs -> ~ In s xs /\ (2 <= length xs)%nat) /\
  (forall d, In d (map fst g) -> length (entries_of g d) <> 1%nat).

(** ** Dict facts *)
Lemma vmap_get {V} (f : V -> V) (d : list (Z * V)) k : dget (vmap f d) k = option_map f (dget d k).
Proof. apply dget_map. Qed.
Lemma vmap_keys {V} (f : V -> V) (d : list (Z * V)) : map fst (vmap f d) = map fst d.
Proof. unfold vmap. rewrite map_map. reflexivity. Qed.

Lemma ddel_ok {V} (d : list (Z * V)) k : NoDup (map fst d) -> In k (map fst d) ->
  exists d', ddel d k = Some d' /\ NoDup (map fst d') /\ S (length d') = length d /\
    (forall x, In x (map fst d') <-> x <> k /\ In x (map fst d)) /\
    (forall x, dget d' x = if x =? k then None else dget d x).
Proof.
  induction d as [|[k1 v1] d IH]; cbn; intros ND I; [contradiction|]. inv ND.
  destruct (Z.eqb_spec k1 k) as [->|N].
  - exists d. split; [auto|]. split; [auto|]. split; [auto|]. split.
    + intros x. split; [intros H; split; auto; intros ->; auto|intros [A [B|B]]; auto; congruence].
    + intros x. destruct (Z.eqb_spec x k) as [->|N].
      * destruct (dget d k) eqn:E; auto. exfalso. apply H1. apply dget_in. eauto.
      * destruct (Z.eqb_spec k x); congruence.
  - destruct I as [I|I]; [congruence|]. destruct (IH H2 I) as (d' & E & ND' & L & K & G). rewrite E.
    exists ((k1, v1) :: d'). split; [auto|]. split; [|split; [|split]].
    + cbn. constructor; auto. rewrite K. tauto.
    + cbn. lia.
    + intros x. cbn. rewrite K. split; [intros [<-|[A B]]; auto|intros [A [B|B]]; auto].
    + intros x. cbn. destruct (Z.eqb_spec k1 x) as [->|N2]; [destruct (Z.eqb_spec x k); congruence|apply G].
Qed.

(** ** purge_dead_ends *)
Lemma cut_all_ok : forall l g, gok g -> NoDup l -> (forall x, In x l -> In x (map fst g)) ->
  exists g', cut_all l g = Some g' /\ gok g' /\ (length g' + length l = length g)%nat.
Proof.
  induction l as [|s l IH]; intros g HG ND HI; cbn [cut_all].
  - exists g. split; [auto|]. split; [auto|]. cbn. lia.
  - inv ND. destruct HG as [NK HC].
    destruct (ddel_ok (vmap (sdiscard s) g) s) as (g1 & E & ND1 & L & K & G).
    { rewrite vmap_keys; auto. } { rewrite vmap_keys. apply HI. left; auto. }
    rewrite E. rewrite vmap_keys in K.
    destruct (IH g1) as (g' & E' & HG' & L').
    { split; [auto|]. intros t xs x D I. rewrite G, vmap_get in D. destruct (t =? s); [discriminate|].
      destruct (dget g t) as [ys|] eqn:Et; [|discriminate]. cbn in D. inv D. apply sdiscard_in in I as [A B].
      apply K. split; [auto|]. eapply HC; eauto. }
    { auto. }
    { intros x Hx. apply K. split; [intros ->; auto|apply HI; right; auto]. }
    exists g'. split; [auto|]. split; [auto|]. unfold vmap in L. rewrite map_length in L. cbn. lia.
Qed.

Definition is_empty (e : Z * list Z) : bool := match snd e with [] => true | _ => false end.
Lemma NoDup_map_filter (g : graph) f : NoDup (map fst g) -> NoDup (map fst (filter f g)).
Proof.
  induction g as [|e g IH]; cbn; auto. intros ND. inv ND. destruct (f e); cbn; auto. constructor; auto.
  intros I. apply H1. apply in_map_iff in I as (y & A & B). apply filter_In in B as [B _]. apply in_map_iff. eauto.
Qed.

Lemma purge_ok ord g : (forall l, Permutation (ord l) l) -> gok g ->
  exists g', purge_dead_ends ord g = Some g' /\ gok g' /\
    ((exists s, dget g s = Some []) /\ (length g' < length g)%nat \/ ((forall s, dget g s <> Some []) /\ g' = g)).
Proof.
  intros HO HG. unfold purge_dead_ends. fold is_empty. set (l := map fst (filter is_empty g)).
  destruct (cut_all_ok (ord l) g HG) as (g' & E & HG' & L).
  - apply (Permutation_NoDup (Permutation_sym (HO l))). apply NoDup_map_filter. apply HG.
  - intros x Hx. apply (Permutation_in _ (HO l)) in Hx. apply in_map_iff in Hx as (y & A & B). apply filter_In in B as [B _]. apply in_map_iff. eauto.
  - exists g'. split; [auto|]. split; [auto|]. rewrite (Permutation_length (HO l)) in L.
    destruct l as [|x l'] eqn:EL.
    + right. split.
      * intros s D. apply dget_pair in D. assert (I : In s (map fst (filter is_empty g))).
        { apply in_map_iff. exists (s, []). split; [auto|]. apply filter_In. auto. }
        fold l in I. rewrite EL in I. contradiction.
      * assert (X : ord [] = []) by (apply Permutation_nil; apply Permutation_sym; apply HO).
        rewrite X in E. cbn in E. inv E. auto.
    + left. split; [|cbn in L; lia].
      assert (I : In x (map fst (filter is_empty g))) by (fold l; rewrite EL; left; auto).
      apply in_map_iff in I as ([s xs] & A & B). apply filter_In in B as [B C]. cbn in *. subst.
      unfold is_empty in C. cbn in C. destruct xs; [|discriminate]. exists x. apply pair_dget; auto. apply HG.
Qed.

(** ** inline_single_exit *)
Lemma dset_get_keys (g : graph) s xs : dget g s <> None -> map fst (dset g s xs) = map fst g.
Proof. intros H. apply dset_keys. apply dget_in. destruct (dget g s); [eauto|congruence]. Qed.

Lemma redirect_gok g s e : gok g -> dget g s = Some [e] -> gok (vmap (redirect s e) (dset g s [])).
Proof.
  intros [ND HC] D. assert (K : map fst (dset g s []) = map fst g) by (apply dset_get_keys; congruence).
  split; [rewrite vmap_keys, K; auto|]. rewrite vmap_keys, K. intros t xs x D' I.
  rewrite vmap_get, dget_dset in D'. destruct (Z.eqb_spec s t) as [->|N].
  - cbn in D'. inv D'. cbn in I. contradiction.
  - destruct (dget g t) as [ys|] eqn:Et; [|discriminate]. cbn in D'. inv D'. unfold redirect in I.
    destruct (mem s ys); [|eapply HC; eauto]. apply sadd_in in I as [->|I]; [apply (HC s [e]); auto; left; auto|].
    apply sdiscard_in in I as [_ I]. eapply HC; eauto.
Qed.

Lemma single_exit_ok : forall states g, gok g -> (forall s, In s states -> In s (map fst g)) ->
  exists g', single_exit_loop states g = Some g' /\ gok g' /\ map fst g' = map fst g /\
    (forall s, dget g s = Some [] -> dget g' s = Some []) /\
    ((forall s xs, dget g s = Some xs -> ~ In s xs) ->
       (exists s, dget g' s = Some []) \/ (g' = g /\ forall s e, In s states -> dget g s <> Some [e])).
Proof.
  induction states as [|s states IH]; intros g HG HI; cbn [single_exit_loop].
  - exists g. split; [auto|]. split; [auto|]. split; [auto|]. split; [auto|]. intros _. right. split; auto.
  - destruct (proj1 (dget_in g s) (HI s (or_introl eq_refl))) as [conns D]. rewrite D.
    assert (HI' : forall x, In x states -> In x (map fst g)) by (intros; apply HI; right; auto).
    destruct (mem s conns) eqn:EM.
    + apply mem_in in EM. assert (K : map fst (dset g s (sdiscard s conns)) = map fst g) by (apply dset_get_keys; congruence).
      exists (dset g s (sdiscard s conns)). split; [auto|]. split; [|split; [auto|split]].
      * destruct HG as [ND HC]. split; [rewrite K; auto|]. rewrite K. intros t xs x D' I. rewrite dget_dset in D'.
        destruct (Z.eqb_spec s t) as [->|N]; [|eapply HC; eauto]. inv D'. apply sdiscard_in in I as [_ I]. eapply HC; eauto.
      * intros t E. rewrite dget_dset. destruct (Z.eqb_spec s t) as [->|N]; auto. rewrite D in E. inv E. contradiction.
      * intros HN. exfalso. eapply HN; eauto.
    + assert (OTH : (forall e, conns <> [e]) -> exists g', single_exit_loop states g = Some g' /\ gok g' /\ map fst g' = map fst g /\
        (forall s, dget g s = Some [] -> dget g' s = Some []) /\
        ((forall s xs, dget g s = Some xs -> ~ In s xs) ->
          (exists s, dget g' s = Some []) \/ (g' = g /\ forall s0 e, In s0 (s :: states) -> dget g s0 <> Some [e]))).
      { intros NE. destruct (IH g HG HI') as (g' & A & B & C & E & F). exists g'. split; [auto|]. split; [auto|]. split; [auto|]. split; auto.
        intros HN. destruct (F HN) as [G|[G1 G2]]; auto. right. split; [auto|]. intros s0 e [<-|I]; [rewrite D; intros X; inv X; eapply NE; eauto|auto]. }
      destruct conns as [|e [|e2 conns]].
      * apply OTH. intros; discriminate.
      * clear OTH. pose proof (redirect_gok g s e HG D) as HG2.
        assert (K : map fst (vmap (redirect s e) (dset g s [])) = map fst g) by (rewrite vmap_keys; apply dset_get_keys; congruence).
        destruct (IH _ HG2) as (g' & A & B & C & E & F); [intros; rewrite K; auto|].
        exists g'. split; [auto|]. split; [auto|]. split; [congruence|].
        assert (R : dget g' s = Some []).
        { apply E. rewrite vmap_get, dget_dset, Z.eqb_refl. reflexivity. }
        split; [|intros _; left; eauto].
        intros t Et. apply E. rewrite vmap_get, dget_dset. destruct (s =? t); [reflexivity|]. rewrite Et. reflexivity.
      * apply OTH. intros; discriminate.
Qed.

(** ** inline_single_entry *)
Lemma entries_in g d s : NoDup (map fst g) -> (In s (entries_of g d) <-> exists xs, dget g s = Some xs /\ In d xs).
Proof.
  intros ND. unfold entries_of. rewrite in_map_iff. split.
  - intros ([k xs] & A & B). cbn in A. subst. apply filter_In in B as [B C]. cbn in C. apply mem_in in C.
    exists xs. split; [|auto]. apply pair_dget; auto.
  - intros (xs & A & B). exists (s, xs). split; [auto|]. apply filter_In. split; [apply dget_pair; auto|]. apply mem_in. auto.
Qed.

Lemma add_outs_diff : forall outs target, exists t, add_outs false outs target = Some t /\ forall x, In x t <-> In x outs \/ In x target.
Proof.
  induction outs as [|y outs IH]; intros target; cbn [add_outs andb].
  - exists target. split; [auto|]. cbn. tauto.
  - destruct (IH (sadd y target)) as (t & E & H). exists t. split; [auto|]. intros x. rewrite H, sadd_in. cbn. intuition congruence.
Qed.
Lemma add_outs_same : forall outs target, (forall x, In x outs -> In x target) -> add_outs true outs target = Some target.
Proof.
  induction outs as [|y outs IH]; intros target HI; cbn [add_outs]; auto.
  assert (M : mem y target = true) by (apply mem_in; apply HI; left; auto). rewrite M. cbn [negb andb].
  unfold sadd. rewrite M. apply IH. intros; apply HI; right; auto.
Qed.

Lemma dset_len (g : graph) s xs : dget g s <> None -> length (dset g s xs) = length g.
Proof. intros H. rewrite <- (map_length fst), (dset_get_keys g s xs H), map_length. auto. Qed.

Lemma find_single_ok : forall dsts g, gok g -> (forall d, In d dsts -> In d (map fst g)) ->
  match find_single_entry dsts g with
  | LFound g' => gok g' /\ S (length g') = length g
  | LNone => forall d, In d dsts -> length (entries_of g d) <> 1%nat
  | LErr => False
  end.
Proof.
  induction dsts as [|d dsts IH]; intros g HG HI; cbn [find_single_entry].
  - intros d [].
  - assert (HI' : forall x, In x dsts -> In x (map fst g)) by (intros; apply HI; right; auto).
    assert (OTH : length (entries_of g d) <> 1%nat -> match find_single_entry dsts g with
      | LFound g' => gok g' /\ S (length g') = length g
      | LNone => forall d0, In d0 (d :: dsts) -> length (entries_of g d0) <> 1%nat | LErr => False end).
    { intros NE. specialize (IH g HG HI'). destruct (find_single_entry dsts g); auto. intros d0 [<-|H]; auto. }
    destruct (entries_of g d) as [|e [|e2 es]] eqn:EE; [apply OTH; cbn; lia| |apply OTH; cbn; lia]. clear OTH IH.
    pose proof HG as [ND HC].
    assert (IE : In e (entries_of g d)) by (rewrite EE; left; auto).
    apply (entries_in g d e ND) in IE as (target & DT & ID).
    assert (ONLY : forall s xs, dget g s = Some xs -> In d xs -> s = e).
    { intros s xs A B. assert (I : In s (entries_of g d)) by (apply entries_in; eauto). rewrite EE in I. destruct I as [<-|[]]; auto. }
    destruct (proj1 (dget_in g d) (HI d (or_introl eq_refl))) as [outs DO]. rewrite DO, DT.
    assert (T : exists t, add_outs (e =? d) outs target = Some t /\ In d t /\ (forall x, In x t -> In x (map fst g))).
    { destruct (Z.eqb_spec e d) as [->|N].
      - rewrite DT in DO. inv DO. rewrite add_outs_same by auto. exists outs. split; [auto|]. split; [auto|]. intros x Hx. eapply HC; eauto.
      - destruct (add_outs_diff outs target) as (t & E & H). exists t. split; [auto|]. split; [apply H; auto|].
        intros x Hx. apply H in Hx as [Hx|Hx]; [apply (HC d outs)|apply (HC e target)]; auto. }
    destruct T as (t & E & IT & CT). rewrite E. unfold sremove. rewrite (proj2 (mem_in d t) IT).
    destruct (ddel_ok (dset g e (sdiscard d t)) d) as (g' & E' & ND' & L & K & G).
    { rewrite dset_get_keys by congruence. auto. } { rewrite dset_get_keys by congruence. apply HI. left; auto. }
    rewrite E'. rewrite dset_get_keys in K by congruence. rewrite dset_len in L by congruence. split; [|lia].
    split; [auto|]. intros s xs x D I. apply K. rewrite G, dget_dset in D. destruct (Z.eqb_spec s d); [discriminate|].
    destruct (Z.eqb_spec e s) as [->|NE].
    + inv D. apply sdiscard_in in I as [A B]. split; auto.
    + split; [|eapply HC; eauto]. intros ->. apply NE. symmetry. eapply ONLY; eauto.
Qed.

Lemma single_entry_ok ord : (forall k l, Permutation (ord k l) l) -> forall fuel g, gok g -> (length g <= fuel)%nat ->
  exists g', single_entry_loop ord fuel g = Some g' /\ gok g' /\ (length g' <= length g)%nat /\
    (length g' = length g -> g' = g /\ forall d, In d (map fst g) -> length (entries_of g d) <> 1%nat).
Proof.
  intros HO. induction fuel as [|fuel IH]; intros g HG HL; cbn [single_entry_loop].
  - exists g. split; [auto|]. split; [auto|]. split; [auto|]. intros _. split; [auto|]. destruct g; [|cbn in HL; lia]. intros d [].
  - pose proof (find_single_ok (ord fuel (map fst g)) g HG) as F.
    assert (I : forall d, In d (ord fuel (map fst g)) -> In d (map fst g)) by (intros d H; exact (Permutation_in _ (HO _ _) H)).
    specialize (F I). destruct (find_single_entry (ord fuel (map fst g)) g) as [g1| |]; [| |contradiction].
    + destruct F as [HG1 L]. destruct (IH g1 HG1) as (g' & E & HG' & L' & _); [lia|]. exists g'. split; [auto|]. split; [auto|]. split; lia.
    + exists g. split; [auto|]. split; [auto|]. split; [auto|]. intros _. split; [auto|]. intros d H. apply F.
      exact (Permutation_in _ (Permutation_sym (HO _ _)) H).
Qed.

Lemma inline_entry_ok ord g : (forall k l, Permutation (ord k l) l) -> gok g ->
  exists g', inline_single_entry ord g = Some g' /\ gok g' /\ (length g' <= length g)%nat /\
    (length g' = length g -> g' = g /\ (forall s, dget g s <> Some []) /\ forall d, In d (map fst g) -> length (entries_of g d) <> 1%nat).
Proof.
  intros HO HG. unfold inline_single_entry.
  destruct (single_entry_ok (fun k => ord (S k)) (fun k => HO (S k)) (length g) g HG (le_n _)) as (g1 & E1 & HG1 & L1 & X1). rewrite E1.
  destruct (purge_ok (ord 0%nat) g1 (HO 0%nat) HG1) as (g2 & E2 & HG2 & X2). exists g2. split; [auto|]. split; auto.
  destruct X2 as [[A B]|[A ->]]; [split; lia|]. split; [auto|]. intros L. destruct (X1 L) as [-> X]. auto.
Qed.

Lemma inline_exit_ok ord g : (forall l, Permutation (ord l) l) -> gok g -> (forall s xs, dget g s = Some xs -> ~ In s xs) ->
  exists g', inline_single_exit ord g = Some g' /\ gok g' /\ (length g' <= length g)%nat /\
    (length g' = length g -> g' = g /\ forall s xs, dget g s = Some xs -> (2 <= length xs)%nat).
Proof.
  intros HO HG HN. unfold inline_single_exit.
  destruct (single_exit_ok (map fst g) g HG ltac:(auto)) as (g1 & E1 & HG1 & K & _ & X1). rewrite E1.
  assert (L : length g1 = length g) by (rewrite <- (map_length fst g1), K, map_length; auto).
  destruct (purge_ok ord g1 HO HG1) as (g2 & E2 & HG2 & X2). exists g2. split; [auto|]. split; auto.
  destruct X2 as [[A B]|[A ->]]; [split; lia|]. split; [lia|]. intros _.
  destruct (X1 HN) as [[s H]|[-> X]]; [destruct (A s H)|]. split; [auto|]. intros s xs D.
  assert (I : In s (map fst g)) by (apply dget_in; eauto).
  destruct xs as [|x [|y xs]]; cbn; [destruct (A s D)|destruct (X s x I D)|lia].
Qed.

Lemma cut_reflexive_get g s : dget (cut_reflexive g) s = option_map (sdiscard s) (dget g s).
Proof. unfold cut_reflexive. induction g as [|[k xs] g IH]; cbn; auto. destruct (Z.eqb_spec k s) as [->|]; auto. Qed.
Lemma cut_reflexive_keys g : map fst (cut_reflexive g) = map fst g.
Proof. unfold cut_reflexive. rewrite map_map. reflexivity. Qed.

Lemma pass_ok (ord : order) p g : (forall i j l, Permutation (ord i j l) l) -> gok g ->
  exists g1 g2, inline_single_exit (ord p 0%nat) (cut_reflexive g) = Some g1 /\
    inline_single_entry (fun k => ord p (S k)) g1 = Some g2 /\ gok g2 /\
    ((length g2 < length g)%nat \/ gstable g2) /\ (length g2 <= length g)%nat.
Proof.
  intros HO HG.
  assert (HG0 : gok (cut_reflexive g)).
  { destruct HG as [ND HC]. split; rewrite cut_reflexive_keys; auto. intros s xs x D I. rewrite cut_reflexive_get in D.
    destruct (dget g s) as [ys|] eqn:E; [|discriminate]. cbn in D. inv D. apply sdiscard_in in I as [_ I]. eapply HC; eauto. }
  assert (HN : forall s xs, dget (cut_reflexive g) s = Some xs -> ~ In s xs).
  { intros s xs D I. rewrite cut_reflexive_get in D. destruct (dget g s); [|discriminate]. cbn in D. inv D. apply sdiscard_in in I. tauto. }
  assert (L0 : length (cut_reflexive g) = length g) by (unfold cut_reflexive; apply map_length).
  destruct (inline_exit_ok (ord p 0%nat) _ (HO p 0%nat) HG0 HN) as (g1 & E1 & HG1 & L1 & X1).
  destruct (inline_entry_ok (fun k => ord p (S k)) g1 (fun k => HO p (S k)) HG1) as (g2 & E2 & HG2 & L2 & X2).
  exists g1, g2. split; [auto|]. split; [auto|]. split; [auto|]. split; [|lia].
  destruct (Nat.eq_dec (length g2) (length g1)) as [A|A]; [|left; lia].
  destruct (Nat.eq_dec (length g1) (length g)) as [B|B]; [|left; lia].
  right. destruct (X2 A) as (-> & X3 & X4). destruct (X1 ltac:(lia)) as (-> & X5). split; [auto|]. split; [intros s xs D; split; eauto|auto].
Qed.

(** A stable graph stays as it is. *)
Lemma stable_pass (ord : order) p g g1 g2 : (forall i j l, Permutation (ord i j l) l) -> gstable g ->
  inline_single_exit (ord p 0%nat) (cut_reflexive g) = Some g1 -> inline_single_entry (fun k => ord p (S k)) g1 = Some g2 -> g2 = g.
Proof.
  intros HO (HG & H1 & H2) E1 E2.
  assert (C : cut_reflexive g = g).
  { unfold cut_reflexive. rewrite <- (map_id g) at 2. apply map_ext_in. intros [s xs] I. cbn. f_equal.
    apply (pair_dget _ _ _ (proj1 HG)) in I. destruct (H1 _ _ I) as [N _]. unfold sdiscard.
    clear - N. induction xs as [|x xs IH]; cbn; auto. destruct (Z.eqb_spec s x) as [->|]; cbn; [destruct N; left; auto|].
    rewrite IH; auto. intros X. apply N. right; auto. }
  rewrite C in E1. unfold inline_single_exit in E1.
  assert (S1 : forall l, (forall s, In s l -> In s (map fst g)) -> single_exit_loop l g = Some g).
  { induction l as [|s l IH]; intros HI; cbn [single_exit_loop]; auto.
    destruct (proj1 (dget_in g s) (HI s (or_introl eq_refl))) as [xs D]. rewrite D. destruct (H1 _ _ D) as [N L].
    rewrite (proj2 (mem_out s xs) N). destruct xs as [|x [|y xs]]; cbn in L; try lia. apply IH. intros; apply HI; right; auto. }
  rewrite S1 in E1 by auto.
  assert (NE : forall s, dget g s <> Some []) by (intros s D; destruct (H1 _ _ D) as [_ L]; cbn in L; lia).
  destruct (purge_ok (ord p 0%nat) g (HO p 0%nat) HG) as (g' & E & _ & X). rewrite E in E1. inv E1.
  destruct X as [[[s A] _]|[_ ->]]; [destruct (NE s A)|].
  unfold inline_single_entry in E2.
  destruct (single_entry_ok (fun k => ord p (S (S k))) (fun k => HO p (S (S k))) (length g) g HG (le_n _)) as (g3 & E3 & HG3 & L3 & X3). rewrite E3 in E2.
  assert (G3 : g3 = g).
  { destruct (length g) as [|n] eqn:EL; [apply X3; lia|]. cbn [single_entry_loop] in E3.
    pose proof (find_single_ok (ord p (S (S n)) (map fst g)) g HG) as F.
    assert (I : forall d, In d (ord p (S (S n)) (map fst g)) -> In d (map fst g)) by (intros d H; exact (Permutation_in _ (HO _ _ _) H)).
    destruct (find_single_entry (ord p (S (S n)) (map fst g)) g) as [g4| |] eqn:EF; [|inv E3; auto|discriminate].
    exfalso. clear - EF H2 I. induction (ord p (S (S n)) (map fst g)) as [|d ds IH]; cbn in EF; [discriminate|].
    specialize (H2 d (I d (or_introl eq_refl))). destruct (entries_of g d) as [|e [|? ?]]; cbn in H2; try lia; apply IH; auto; intros; apply I; right; auto. }
  subst g3. destruct (purge_ok (ord p 1%nat) g (HO p 1%nat) HG) as (g' & E' & _ & X). rewrite E' in E2. inv E2.
  destruct X as [[[s A] _]|[_ ->]]; [destruct (NE s A)|auto].
Qed.

Lemma passes_ok (ord : order) : (forall i j l, Permutation (ord i j l) l) -> forall p g, gok g ->
  exists g', reduce_passes ord p g = Some g' /\ gok g' /\ (((length g <= p)%nat \/ gstable g) -> gstable g').
Proof.
  intros HO. induction p as [|p IH]; intros g HG; cbn [reduce_passes].
  - exists g. split; [auto|]. split; [auto|]. intros [H|H]; auto. destruct g; [|cbn in H; lia].
    split; [auto|]. split; [cbn; discriminate|intros d []].
  - destruct g as [|e g0] eqn:EG; [exists []; split; auto; split; auto; intros _; split; auto; split; [cbn; discriminate|intros d []]|].
    rewrite <- EG in *. clear EG e g0.
    destruct (pass_ok ord p g HO HG) as (g1 & g2 & E1 & E2 & HG2 & X & L). rewrite E1, E2.
    destruct (IH g2 HG2) as (g' & E & HG' & Y). exists g'. split; [auto|]. split; [auto|]. intros H. apply Y.
    destruct H as [H|H]; [destruct X as [X|X]; [left; lia|right; auto]|]. right. rewrite (stable_pass ord p g g1 g2 HO H E1 E2). auto.
Qed.

Lemma reduce_ok ord g p : (forall i j l, Permutation (ord i j l) l) -> gok g ->
  exists g', reduce_graph ord g p = Some g' /\ ((length g <= p)%nat -> gstable g').
Proof.
  intros HO HG. unfold reduce_graph. destruct (passes_ok ord HO p g HG) as (g' & E & HG' & X). rewrite E.
  eexists. split; [reflexivity|]. intros L. specialize (X (or_introl L)).
  assert (F : filter (fun e : Z * list Z => match snd e with [] => false | _ => true end) g' = g').
  { destruct X as (_ & H & _). destruct HG' as [ND _].
    assert (A : forall e, In e g' -> snd e <> []).
    { intros [s xs] I. apply (pair_dget _ _ _ ND) in I. apply H in I as [_ I]. cbn. destruct xs; [cbn in I; lia|discriminate]. }
    clear - A. induction g' as [|[s xs] g IH]; cbn; auto. pose proof (A _ (or_introl eq_refl)) as B. cbn in B. destruct xs; [congruence|].
    rewrite IH; auto. intros e I. apply A. right; auto. }
  rewrite F. auto.
Qed.

Lemma exit_points_gok g : closed (table_machine g) (Z.of_nat (length g)) -> gok (exit_points (arrows_of g)).
Proof.
  intros HC. split; rewrite exit_points_keys; [apply seqZ_nodup|]. intros s xs x D I. apply seqZ_in.
  assert (Hs : 0 <= s < Z.of_nat (length g)) by (apply seqZ_in; rewrite <- exit_points_keys; apply dget_in; eauto).
  destruct (exit_points_edge g s Hs) as (xs' & D' & _ & X). rewrite D in D'. inv D'. apply X in I. apply HC in I. tauto.
Qed.

Lemma dset_in_nd {V} (P : V -> Prop) (d : list (Z * V)) k v : Forall (fun e => P (snd e)) d -> P v -> Forall (fun e => P (snd e)) (dset d k v).
Proof.
  intros F H. induction d as [|[k' v'] d IH]; cbn; [repeat constructor; auto|]. inversion F; subst.
  destruct (k' =? k); constructor; auto.
Qed.

(** Sets stay sets. *)
Definition sets (g : graph) : Prop := Forall (fun e => NoDup (snd e)) g.
Lemma sets_get g s xs : sets g -> dget g s = Some xs -> NoDup xs.
Proof. intros F D. apply dget_pair in D. unfold sets in F. rewrite Forall_forall in F. exact (F _ D). Qed.
Lemma sets_vmap f g : (forall l, NoDup l -> NoDup (f l)) -> sets g -> sets (vmap f g).
Proof. intros H F. unfold sets, vmap in *. rewrite Forall_map. eapply Forall_impl; [|exact F]. cbn. auto. Qed.
Lemma sets_dset g s xs : sets g -> NoDup xs -> sets (dset g s xs).
Proof. intros F H. apply (dset_in_nd (@NoDup Z)); auto. Qed.
Lemma sets_ddel : forall (g : graph) s g', sets g -> ddel g s = Some g' -> sets g'.
Proof.
  induction g as [|[k v] g IH]; cbn; intros s g' F E; [discriminate|]. inversion F; subst. destruct (k =? s); [inv E; assumption|].
  destruct (ddel g s) as [d|] eqn:D; [|discriminate]. inv E. constructor; auto. eapply IH; eauto.
Qed.
Lemma sets_cut_all : forall l g g', sets g -> cut_all l g = Some g' -> sets g'.
Proof.
  induction l as [|s l IH]; cbn; intros g g' F E; [congruence|]. destruct (ddel _ s) as [d|] eqn:D; [|discriminate].
  eapply IH; [|exact E]. eapply sets_ddel; [|exact D]. apply sets_vmap; auto. intros; apply sdiscard_nodup; auto.
Qed.
Lemma sets_exit : forall l g g', sets g -> single_exit_loop l g = Some g' -> sets g'.
Proof.
  induction l as [|s l IH]; cbn; intros g g' F E; [congruence|]. destruct (dget g s) as [conns|] eqn:D; [|discriminate].
  destruct (mem s conns).
  - inv E. apply sets_dset; auto. apply sdiscard_nodup. eapply sets_get; eauto.
  - destruct conns as [|e [|? ?]]; try (eapply IH; eassumption).
    eapply IH; [|exact E]. apply sets_vmap; [|apply sets_dset; auto; constructor].
    intros x Hx. unfold redirect. destruct (mem s x); auto. apply sadd_nodup, sdiscard_nodup. exact Hx.
Qed.
Lemma sets_outs b : forall outs target t, NoDup target -> add_outs b outs target = Some t -> NoDup t.
Proof.
  induction outs as [|x outs IH]; cbn; intros target t H E; [congruence|]. destruct (b && negb (mem x target)); [discriminate|].
  eapply IH; [|exact E]. apply sadd_nodup. exact H.
Qed.
Lemma sets_find : forall dsts g g', sets g -> find_single_entry dsts g = LFound g' -> sets g'.
Proof.
  induction dsts as [|d dsts IH]; cbn; intros g g' F E; [discriminate|].
  destruct (entries_of g d) as [|e [|? ?]]; try (eapply IH; eassumption).
  destruct (dget g d) as [outs|]; [|discriminate]. destruct (dget g e) as [target|] eqn:D; [|discriminate].
  destruct (add_outs (e =? d) outs target) as [t|] eqn:A; [|discriminate]. unfold sremove in E.
  destruct (mem d t); [|discriminate]. destruct (ddel _ d) as [g0|] eqn:Q; [|discriminate]. inv E.
  eapply sets_ddel; [|exact Q]. apply sets_dset; auto. apply sdiscard_nodup. eapply sets_outs; [|exact A]. eapply sets_get; eauto.
Qed.
Lemma sets_entry ord : forall fuel g g', sets g -> single_entry_loop ord fuel g = Some g' -> sets g'.
Proof.
  induction fuel as [|fuel IH]; cbn; intros g g' F E; [congruence|].
  destruct (find_single_entry _ g) as [g0| |] eqn:Q; [|congruence|discriminate]. eapply IH; [|exact E]. eapply sets_find; eauto.
Qed.
Lemma sets_reflexive g : sets g -> sets (cut_reflexive g).
Proof. intros F. unfold sets, cut_reflexive in *. rewrite Forall_map. eapply Forall_impl; [|exact F]. cbn. intros; apply sdiscard_nodup; auto. Qed.
Lemma sets_passes ord : forall p g g', sets g -> reduce_passes ord p g = Some g' -> sets g'.
Proof.
  induction p as [|p IH]; cbn [reduce_passes]; intros g g' F E; [congruence|].
  destruct g as [|e g0] eqn:EG; [congruence|]. rewrite <- EG in *. clear EG e g0.
  destruct (inline_single_exit _ _) as [g1|] eqn:E1; [|discriminate]. destruct (inline_single_entry _ _) as [g2|] eqn:E2; [|discriminate].
  eapply IH; [|exact E]. unfold inline_single_exit in E1. destruct (single_exit_loop _ _) as [h|] eqn:H1; [|discriminate].
  unfold inline_single_entry in E2. destruct (single_entry_loop _ _ g1) as [k|] eqn:H2; [|discriminate].
  unfold purge_dead_ends in *. eapply sets_cut_all; [|exact E2]. eapply sets_entry; [|exact H2]. eapply sets_cut_all; [|exact E1].
  eapply sets_exit; [|exact H1]. apply sets_reflexive. exact F.
Qed.
Lemma sets_reduce ord g p g' : sets g -> reduce_graph ord g p = Some g' -> sets g'.
Proof.
  unfold reduce_graph. intros F E. destruct (reduce_passes ord p g) as [h|] eqn:H; [|discriminate]. inv E.
  apply sets_passes in H; auto. unfold sets in *. rewrite Forall_forall in *. intros e I. apply filter_In in I. apply H. tauto.
Qed.
Lemma sets_exits g : sets (exit_points (arrows_of g)).
Proof. unfold sets, exit_points. rewrite Forall_map, Forall_forall. intros e _. cbn. apply set_of_nodup. Qed.

Lemma reduced_ok ord g : (forall i j l, Permutation (ord i j l) l) -> closed (table_machine g) (Z.of_nat (length g)) -> nth 0 g [] <> [] ->
  exists g', reduced ord (arrows_of g) = Some g' /\ gstable g'.
Proof.
  intros HO HC HN. unfold reduced. destruct g as [|r g]; [cbn in HN; congruence|]. cbn in HN.
  rewrite arrows_get. change (0 <=? 0) with true. cbv iota. change (Z.to_nat 0) with 0%nat. cbn [nth_error option_map].
  destruct (reduce_ok ord (exit_points (arrows_of (r :: g))) (length (arrows_of (r :: g)) * length (map (option_map (fun i : instr => snd i)) r)) HO (exit_points_gok _ HC)) as (g' & E & X).
  exists g'. split; [auto|]. apply X. unfold exit_points. rewrite !map_length. destruct r; [congruence|]. cbn [length]. nia.
Qed.

Lemma gstable_irreducible g : gstable g -> sets g -> irreducible_graph g.
Proof.
  intros ((ND & HC) & H1 & H2) SE. split; [auto|].
  assert (A : forall s t, arrow g s t -> exists xs, dget g s = Some xs /\ In t xs).
  { intros s t (xs & I & J). exists xs. split; auto. apply pair_dget; auto. }
  split; [|split].
  - intros s t H. apply A in H as (xs & D & I). split; [eapply HC; eauto|]. intros ->. destruct (H1 _ _ D). auto.
  - intros s xs I. apply (pair_dget _ _ _ ND) in I. split; [eapply sets_get; eauto|]. apply H1 in I. tauto.
  - intros s t H. apply A in H as (xs & D & I).
    assert (K : In t (map fst g)) by (eapply HC; eauto). specialize (H2 t K).
    assert (E : In s (entries_of g t)) by (apply entries_in; eauto).
    assert (NE : NoDup (entries_of g t)) by (apply NoDup_map_filter; auto).
    assert (X : exists s', s' <> s /\ In s' (entries_of g t)).
    { destruct (entries_of g t) as [|a [|b l]]; [contradiction|cbn in H2; lia|]. inv NE.
      destruct (Z.eq_dec a s) as [->|N]; [exists b; split; [intros ->; apply H3; left; auto|right; left; auto]|exists a; split; auto; left; auto]. }
    destruct X as (s' & N & E'). exists s'. split; auto. apply (entries_in g t s' ND) in E' as (ys & D' & I'). exists ys. split; auto. apply dget_pair; auto.
Qed.

Lemma reduced_irreducible ord g : (forall i j l, Permutation (ord i j l) l) -> closed (table_machine g) (Z.of_nat (length g)) -> nth 0 g [] <> [] ->
  exists g', reduced ord (arrows_of g) = Some g' /\ irreducible_graph g'.
Proof. intros H1 H2 H3. destruct (reduced_ok ord g H1 H2 H3) as (g' & E & H). exists g'. split; auto. apply gstable_irreducible; auto.
  unfold reduced in E. destruct (dget (arrows_of g) 0); [|discriminate]. eapply sets_reduce; [apply sets_exits|exact E].
Qed.

Lemma reduce_never_raises ord g p : (forall i j l, Permutation (ord i j l) l) -> NoDup (map fst g) ->
  (forall s xs, In (s, xs) g -> NoDup xs /\ forall x, In x xs -> In x (map fst g)) ->
  exists g', reduce_graph ord g p = Some g' /\ ((length g <= p)%nat -> irreducible_graph g').
Proof.
  intros HO ND HC. destruct (reduce_ok ord g p HO) as (g' & E & X).
  { split; auto. intros s xs x D I. apply dget_pair in D. apply (HC _ _ D). exact I. }
  exists g'. split; auto. intros L. apply gstable_irreducible; auto. eapply sets_reduce; [|exact E].
  unfold sets. rewrite Forall_forall. intros [s xs] I. apply (HC _ _ I).
Qed.
