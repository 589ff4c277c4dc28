(** * Proofs about Block objects *)
From Verif Require Import Base TapeModel TapeProofs HeapModel HeapSpec.
From Coq Require Import Permutation.

Lemma NoDup_app_remove_r {A} (l l' : list A) : NoDup (l ++ l') -> NoDup l.
Proof.
  induction l as [|x l IH]; cbn; intros H; [constructor|]. inversion H; subst. constructor; auto.
  intros X. apply H2. apply in_or_app; auto.
Qed.

Lemma NoDup_app_remove_l {A} (l l' : list A) : NoDup (l ++ l') -> NoDup l'.
Proof. induction l as [|x l IH]; cbn; intros H; auto. inversion H; auto. Qed.

Lemma upd_same h r b : upd h r b r = b.
Proof. unfold upd. rewrite Nat.eqb_refl. reflexivity. Qed.

Lemma upd_other h r b r' : r' <> r -> upd h r b r' = h r'.
Proof. unfold upd. intros N. destruct (Nat.eqb_spec r' r); congruence. Qed.

Lemma map_upd h r b s : ~ In r s -> map (upd h r b) s = map h s.
Proof.
  intros N. apply map_ext_in. intros x H. apply upd_other. intros ->. contradiction.
Qed.

(** The core of a step, on the two spans. *)
Definition hcore (fresh : ref) (h : heap) (pull push : list ref) (scan color : Z) (skip : bool)
  : heap * Z * list ref * list ref * Z :=
  let '(push_block, pull) :=
    match pull with
    | r :: pull' => if skip && (b_color (h r) =? scan) then (Some r, pull') else (None, pull)
    | [] => (None, pull)
    end in
  let stepped := match push_block with None => 1 | Some r => 1 + b_count (h r) end in
  let '(h, next_scan, pull, push_block) :=
    match pull with
    | [] => (h, 0, pull, push_block)
    | next_pull :: pull' =>
        let next_scan := b_color (h next_pull) in
        if negb (b_count (h next_pull) =? 1)
        then (upd h next_pull (Blk (b_color (h next_pull)) (b_count (h next_pull) - 1)), next_scan, pull, push_block)
        else match push_block with
             | None => (upd h next_pull (Blk (b_color (h next_pull)) 0), next_scan, pull', Some next_pull)
             | Some r => (h, next_scan, pull', Some r)
             end
    end in
  let '(h, push) :=
    match push with
    | top_block :: _ =>
        if b_color (h top_block) =? color
        then (upd h top_block (Blk (b_color (h top_block)) (b_count (h top_block) + stepped)), push)
        else match push_block with
             | None => (upd h fresh (Blk color 1), fresh :: push)
             | Some r => (upd h r (Blk color (b_count (h r) + 1)), r :: push)
             end
    | [] =>
        if negb (color =? 0)
        then match push_block with
             | None => (upd h fresh (Blk color 1), fresh :: push)
             | Some r => (upd h r (Blk color (b_count (h r) + 1)), r :: push)
             end
        else (h, push)
    end in
  (h, next_scan, pull, push, stepped).

Lemma heap_step_core fresh h t shift color skip :
  heap_step fresh h t shift color skip =
  let '(h', sc, pull, push, n) :=
    hcore fresh h (if shift then p_r t else p_l t) (if shift then p_l t else p_r t) (p_scan t) color skip in
  (h', if shift then PT push sc pull else PT pull sc push, n).
Proof.
  unfold heap_step, hcore. destruct shift.
  - repeat (match goal with |- context [match ?x with _ => _ end] => destruct x end; try reflexivity).
  - repeat (match goal with |- context [match ?x with _ => _ end] => destruct x end; try reflexivity).
Qed.

(** The part of the core that takes from [pull]. *)
Lemma hpull_ok h pull scan skip :
  NoDup pull ->
  exists h1 sc pull1 pb n,
    (forall fresh push color, hcore fresh h pull push scan color skip =
      let '(h, push) :=
        match push with
        | top_block :: _ =>
            if b_color (h1 top_block) =? color
            then (upd h1 top_block (Blk (b_color (h1 top_block)) (b_count (h1 top_block) + n)), push)
            else match pb with
                 | None => (upd h1 fresh (Blk color 1), fresh :: push)
                 | Some r => (upd h1 r (Blk color (b_count (h1 r) + 1)), r :: push)
                 end
        | [] =>
            if negb (color =? 0)
            then match pb with
                 | None => (upd h1 fresh (Blk color 1), fresh :: push)
                 | Some r => (upd h1 r (Blk color (b_count (h1 r) + 1)), r :: push)
                 end
            else (h1, push)
        end in
      (h, sc, pull1, push, n))
    /\ (let '(b, p) := py_skip_block (map h pull) scan skip in
        let '(s, p, b') := py_pull_one p b in
        (s, p, option_map b_count b', py_stepped b)) = (sc, map h1 pull1, option_map (fun r => b_count (h1 r)) pb, n)
    /\ (forall r, ~ In r pull -> h1 r = h r)
    /\ NoDup (match pb with None => pull1 | Some r => r :: pull1 end)
    /\ incl (match pb with None => pull1 | Some r => r :: pull1 end) pull.
Proof.
  intros ND. unfold hcore, py_skip_block, py_pull_one, py_stepped.
  destruct pull as [|r pull]; cbn [map].
  { exists h, 0, [], None, 1. split; [reflexivity|]. split; [reflexivity|]. split; [reflexivity|]. split; [constructor|intros x []]. }
  inversion ND as [|? ? NR ND']; subst.
  destruct (skip && (b_color (h r) =? scan)).
  - destruct pull as [|q pull]; cbn [map].
    { exists h, 0, [], (Some r), (1 + b_count (h r)). split; [reflexivity|]. split; [reflexivity|].
      split; [reflexivity|]. split; [auto|apply incl_refl]. }
    inversion ND' as [|? ? NQ ND2]; subst.
    destruct (negb (b_count (h q) =? 1)) eqn:E.
    + exists (upd h q (Blk (b_color (h q)) (b_count (h q) - 1))), (b_color (h q)), (q :: pull), (Some r), (1 + b_count (h r)).
      split; [reflexivity|]. split.
      { cbn [map option_map]. rewrite upd_same, map_upd by auto.
        rewrite (upd_other h q) by (intros ->; apply NR; left; auto). reflexivity. }
      split; [intros x Hx; apply upd_other; intros ->; apply Hx; right; left; auto|].
      split; [auto|apply incl_refl].
    + exists h, (b_color (h q)), pull, (Some r), (1 + b_count (h r)). split; [reflexivity|]. split; [reflexivity|].
      split; [reflexivity|]. split.
      * constructor; [intros X; apply NR; right; auto|auto].
      * intros x [->|X]; [left; auto|right; right; auto].
  - destruct (negb (b_count (h r) =? 1)) eqn:E.
    + exists (upd h r (Blk (b_color (h r)) (b_count (h r) - 1))), (b_color (h r)), (r :: pull), None, 1.
      split; [reflexivity|]. split.
      { cbn [map option_map]. rewrite upd_same, map_upd by auto. reflexivity. }
      split; [intros x Hx; apply upd_other; intros ->; apply Hx; left; auto|].
      split; [auto|apply incl_refl].
    + exists (upd h r (Blk (b_color (h r)) 0)), (b_color (h r)), pull, (Some r), 1.
      split; [reflexivity|]. split.
      { cbn [map option_map]. rewrite upd_same, map_upd by auto. reflexivity. }
      split; [intros x Hx; apply upd_other; intros ->; apply Hx; left; auto|].
      split; [auto|apply incl_refl].
Qed.

Lemma hcore_ok fresh h pull push scan color skip h' sc pull' push' n :
  NoDup (pull ++ push) -> ~ In fresh (pull ++ push) ->
  hcore fresh h pull push scan color skip = (h', sc, pull', push', n) ->
  (let '(b, p) := py_skip_block (map h pull) scan skip in
   let '(s, p, b') := py_pull_one p b in
   (s, p, py_push (map h push) b' color (py_stepped b), py_stepped b)) = (sc, map h' pull', map h' push', n)
  /\ (forall r, r <> fresh -> ~ In r (pull ++ push) -> h' r = h r)
  /\ NoDup (pull' ++ push')
  /\ incl (pull' ++ push') (fresh :: pull ++ push).
Proof.
  intros ND NF E.
  assert (NP : NoDup pull) by (apply NoDup_app_remove_r in ND; auto).
  assert (NQ : NoDup push) by (apply NoDup_app_remove_l in ND; auto).
  assert (DJ : forall x, In x pull -> ~ In x push).
  { clear -ND. induction pull as [|y pull IH]; [intros x []|]. cbn in ND. inversion ND as [|? ? A B]; subst.
    intros x [->|X] Y; [apply A; apply in_or_app; auto|]. exact (IH B x X Y). }
  destruct (hpull_ok h pull scan skip NP) as (h1 & sc1 & pull1 & pb & n1 & EQ & PY & FR & ND1 & IN1).
  rewrite EQ in E. clear EQ.
  assert (HP : map h push = map h1 push).
  { apply map_ext_in. intros x X. symmetry. apply FR. intros Y. exact (DJ x Y X). }
  destruct (py_skip_block (map h pull) scan skip) as [b p].
  destruct (py_pull_one p b) as [[s p2] b'].
  injection PY as -> -> PB ->. rewrite HP.
  assert (INP : incl pull1 pull) by (destruct pb; intros x X; apply IN1; [right|]; auto).
  assert (NP1 : NoDup pull1) by (destruct pb; [inversion ND1; auto|auto]).
  assert (NPQ : NoDup (pull1 ++ push)).
  { apply NoDup_app; auto. }
  assert (NFP : ~ In fresh pull1 /\ ~ In fresh push).
  { split; intros X; apply NF; apply in_or_app; auto. }
  assert (INS : forall hh pp,
    match pb with
    | None => (upd h1 fresh (Blk color 1), fresh :: push)
    | Some r => (upd h1 r (Blk color (b_count (h1 r) + 1)), r :: push)
    end = (hh, pp) ->
    map hh pull1 = map h1 pull1 /\ map hh pp = py_insert (map h1 push) b' color
    /\ (forall r, r <> fresh -> ~ In r (pull ++ push) -> hh r = h r)
    /\ NoDup (pull1 ++ pp) /\ incl (pull1 ++ pp) (fresh :: pull ++ push)).
  { intros hh pp X. destruct pb as [r|].
    - injection X as <- <-. destruct b' as [b'|]; [|discriminate]. cbn in PB. injection PB as PB.
      assert (RP : In r pull) by (apply IN1; left; auto).
      inversion ND1 as [|? ? R1 _]; subst.
      assert (RQ : ~ In r push) by (apply DJ; auto).
      split; [apply map_upd; auto|]. split; [cbn [map py_insert]; rewrite upd_same, map_upd by auto; rewrite <- PB; reflexivity|].
      split.
      + intros x _ Y. rewrite upd_other; [apply FR|]; intros Z; apply Y; apply in_or_app; [auto|left; subst; auto].
      + split.
        * apply NoDup_app; auto; [constructor; auto|]. intros x Y [->|Z]; [auto|]. exact (DJ x (INP _ Y) Z).
        * intros x Y. apply in_app_or in Y. right. apply in_or_app. destruct Y as [Y|[->|Y]]; auto.
    - injection X as <- <-. destruct b' as [b'|]; [discriminate|].
      split; [apply map_upd; apply NFP|]. split; [cbn [map py_insert]; rewrite upd_same, map_upd by apply NFP; reflexivity|].
      split.
      + intros x N Y. rewrite upd_other by auto. apply FR. intros Z. apply Y. apply in_or_app; auto.
      + split.
        * apply NoDup_app; auto; [constructor; [apply NFP|auto]|]. intros x Y [->|Z]; [exact (proj1 NFP Y)|]. exact (DJ x (INP _ Y) Z).
        * intros x Y. apply in_app_or in Y. destruct Y as [Y|[->|Y]]; [right; apply in_or_app; auto|left; auto|right; apply in_or_app; auto]. }
  destruct push as [|top push]; cbn [map] in *.
  - unfold py_push. destruct (negb (color =? 0)).
    + match type of E with (let '(_, _) := ?m in _) = _ => destruct m as [hh pp] eqn:X end.
      injection E as <- <- <- <- <-.
      destruct (INS hh pp eq_refl) as (A & B & C & D & F). rewrite A, B. auto.
    + injection E as <- <- <- <- <-. split; [reflexivity|]. split.
      * intros r _ Y. apply FR. intros Z. apply Y, in_or_app; auto.
      * split; [auto|]. intros x Y. right. apply in_app_or in Y. apply in_or_app. destruct Y; auto.
  - unfold py_push. destruct (b_color (h1 top) =? color) eqn:C.
    + injection E as <- <- <- <- <-.
      assert (TP : ~ In top pull) by (intros X; apply (DJ top X); left; auto).
      inversion NQ as [|? ? TQ _]; subst.
      split.
      { cbn [map]. rewrite upd_same, !map_upd by auto. reflexivity. }
      split.
      * intros r _ Y. rewrite upd_other; [apply FR|]; intros Z; apply Y; apply in_or_app; [auto|right; left; auto].
      * split; [auto|]. intros x Y. right. apply in_app_or in Y. apply in_or_app. destruct Y; auto.
    + match type of E with (let '(_, _) := ?m in _) = _ => destruct m as [hh pp] eqn:X end.
      injection E as <- <- <- <- <-.
      destruct (INS hh pp eq_refl) as (A & B & D & F & G). rewrite A, B. auto.
Qed.

Lemma heap_step_ok fresh h t shift color skip h' t' n :
  NoDup (refs t) -> ~ In fresh (refs t) ->
  heap_step fresh h t shift color skip = (h', t', n) ->
  (denote h' t', n) = py_step (denote h t) shift color skip
  /\ (forall r, r <> fresh -> ~ In r (refs t) -> h' r = h r)
  /\ NoDup (refs t') /\ incl (refs t') (fresh :: refs t).
Proof.
  unfold refs. rewrite heap_step_core. intros ND NF E.
  destruct shift.
  - destruct (hcore _ _ _ _ _ _ _) as [[[[h1 sc] pull] push] n1] eqn:HC. injection E as <- <- <-.
    apply hcore_ok in HC.
    + destruct HC as (A & B & C & D). cbn [p_l p_r]. split; [|split; [|split]].
      * unfold py_step, denote. cbn [t_lspan t_rspan t_scan p_l p_r p_scan].
        destruct (py_skip_block _ _ _) as [b p]. destruct (py_pull_one p b) as [[s p2] b'].
        injection A as -> -> -> ->. reflexivity.
      * intros r N Y. apply B; auto. intros X. apply Y. apply in_app_or in X. apply in_or_app. tauto.
      * apply (Permutation_NoDup (l := pull ++ push)); [apply Permutation_app_comm|auto].
      * intros x X. apply in_app_or in X. destruct (D x) as [Y|Y]; [apply in_or_app; tauto|left; auto|].
        right. apply in_app_or in Y. apply in_or_app. tauto.
    + apply (Permutation_NoDup (l := p_l t ++ p_r t)); [apply Permutation_app_comm|auto].
    + intros X. apply NF. apply in_app_or in X. apply in_or_app. tauto.
  - destruct (hcore _ _ _ _ _ _ _) as [[[[h1 sc] pull] push] n1] eqn:HC. injection E as <- <- <-.
    apply hcore_ok in HC; auto.
    destruct HC as (A & B & C & D). cbn [p_l p_r]. split; [|split; [|split]]; auto.
    unfold py_step, denote. cbn [t_lspan t_rspan t_scan p_l p_r p_scan].
    destruct (py_skip_block _ _ _) as [b p]. destruct (py_pull_one p b) as [[s p2] b'].
    injection A as -> -> -> ->. reflexivity.
Qed.

Lemma clone_span_ok s : forall ids h,
  length ids = length s -> NoDup ids -> (forall r, In r ids -> ~ In r s) ->
  map (clone_span h s ids) ids = map h s
  /\ forall r, ~ In r ids -> clone_span h s ids r = h r.
Proof.
  induction s as [|r s IH]; intros [|i ids] h L ND D; try discriminate; [split; reflexivity|].
  cbn in L. inversion ND as [|? ? NI ND']; subst.
  destruct (IH ids (upd h i (Blk (b_color (h r)) (b_count (h r)))) ltac:(lia) ND') as (A & B).
  { intros x X Y. apply (D x); right; auto. }
  cbn [clone_span map]. split.
  - rewrite A, B by auto. rewrite upd_same. rewrite map_upd by (intros X; apply (D i); [left|right]; auto).
    destruct (h r); reflexivity.
  - intros x X. rewrite B by (intros Y; apply X; right; auto). apply upd_other. intros ->. apply X. left; auto.
Qed.

(** ** Worlds *)
Lemma denote_ext h h' t : (forall r, In r (refs t) -> h' r = h r) -> denote h' t = denote h t.
Proof.
  intros H. unfold denote, refs in *. f_equal; apply map_ext_in; intros; apply H; apply in_or_app; auto.
Qed.

Definition nodup_w (ts : list ptape) := NoDup (flat_map refs ts).

Lemma nth_split_refs (ts : list ptape) i t : nth_error ts i = Some t ->
  exists a b, ts = a ++ t :: b /\ length a = i
  /\ (forall A (f : ptape -> A) x, set_nth (map f ts) i x = map f a ++ x :: map f b)
  /\ (forall x, set_nth ts i x = a ++ x :: b) /\ del_nth ts i = a ++ b
  /\ (forall A (f : ptape -> A), del_nth (map f ts) i = map f a ++ map f b).
Proof.
  revert i. induction ts as [|y ts IH]; intros [|i] E; try discriminate.
  - inv E. exists [], ts. repeat split.
  - destruct (IH i E) as (a & b & -> & L & P & Q & R & S). exists (y :: a), b. cbn. repeat split; auto.
    + intros. f_equal. apply P.
    + intros. f_equal. apply Q.
    + f_equal. auto.
    + intros. f_equal. apply S.
Qed.

Lemma nodup_parts a t b : nodup_w (a ++ t :: b) ->
  NoDup (refs t) /\ nodup_w (a ++ b)
  /\ forall r, In r (refs t) -> ~ In r (flat_map refs (a ++ b)).
Proof.
  unfold nodup_w. rewrite !flat_map_app. cbn [flat_map]. intros H.
  assert (P : Permutation (flat_map refs a ++ refs t ++ flat_map refs b) (refs t ++ flat_map refs a ++ flat_map refs b)).
  { apply Permutation_app_swap_app. }
  apply (Permutation_NoDup P) in H.
  split; [apply NoDup_app_remove_r in H; auto|]. split; [apply NoDup_app_remove_l in H; auto|].
  intros r X Y. clear P. revert H X. generalize (refs t). induction l as [|z l IH]; [intros _ []|].
  cbn. intros H [->|X]; inversion H; subst; auto. apply H2. apply in_or_app; auto.
Qed.

Lemma nodup_join a t b : NoDup (refs t) -> nodup_w (a ++ b) ->
  (forall r, In r (refs t) -> ~ In r (flat_map refs (a ++ b))) -> nodup_w (a ++ t :: b).
Proof.
  unfold nodup_w. rewrite !flat_map_app. cbn [flat_map]. intros A B C.
  apply (Permutation_NoDup (l := refs t ++ flat_map refs a ++ flat_map refs b)).
  - apply Permutation_app_swap_app.
  - apply NoDup_app; auto.
Qed.

Lemma in_flat (a b : list ptape) t r : In r (flat_map refs (a ++ t :: b)) <-> In r (refs t) \/ In r (flat_map refs (a ++ b)).
Proof. rewrite !flat_map_app. cbn [flat_map]. rewrite !in_app_iff. tauto. Qed.

Lemma map_denote_ext h h' ts : (forall r, In r (flat_map refs ts) -> h' r = h r) ->
  map (denote h') ts = map (denote h) ts.
Proof.
  intros H. apply map_ext_in. intros t T. apply denote_ext. intros r R. apply H. apply in_flat_map. eauto.
Qed.

Lemma set_nth_count_map h pos : forall s r v, nth_error s pos = Some r -> NoDup s ->
  set_nth_count (map h s) pos v = Some (map (upd h r (Blk (b_color (h r)) v)) s).
Proof.
  induction pos as [|pos IH]; intros [|x s] r v E ND; try discriminate; inversion ND; subst; cbn in E |- *.
  - inv E. rewrite upd_same, map_upd by auto. reflexivity.
  - rewrite (IH s r v E H2). cbn. rewrite upd_other; [reflexivity|].
    intros ->. apply nth_error_In in E. contradiction.
Qed.

Lemma wop_ok w o n w' : wop w o n w' -> nodup_w (w_tapes w) ->
  nodup_w (w_tapes w')
  /\ vop (map (denote (w_heap w)) (w_tapes w)) o = Some (n, map (denote (w_heap w')) (w_tapes w')).
Proof.
  intros W ND. destruct W as [h ts | h ts i t shift color skip fresh h' t' n E NF HS
    | h ts i t lids rids h' t' E LL LR NI DI HC | h ts i t side pos v h' E HS | h ts i t E]; cbn [w_heap w_tapes vop] in *.
  - split; [|rewrite map_app; reflexivity]. unfold nodup_w in *. rewrite flat_map_app. cbn. rewrite !app_nil_r. auto.
  - destruct (nth_split_refs _ _ _ E) as (a & b & TS & L & SM & S & _).
    rewrite nth_error_map, E. cbn [option_map]. rewrite S.
    pose proof ND as ND'. rewrite TS in ND'. apply nodup_parts in ND' as (N1 & N2 & N3).
    assert (NF1 : ~ In fresh (refs t)).
    { intros X. apply NF. unfold live. cbn [w_tapes]. rewrite TS. apply in_flat. auto. }
    assert (NF2 : ~ In fresh (flat_map refs (a ++ b))).
    { intros X. apply NF. unfold live. cbn [w_tapes]. rewrite TS. apply in_flat. auto. }
    destruct (heap_step_ok _ _ _ _ _ _ _ _ _ N1 NF1 HS) as (D & FR & N4 & IN).
    split.
    + apply nodup_join; auto. intros r R X. destruct (IN r R) as [<-|Y]; [auto|]. exact (N3 r Y X).
    + rewrite <- D. rewrite SM. rewrite map_app. cbn [map].
      assert (G : forall r, In r (flat_map refs (a ++ b)) -> h' r = h r).
      { intros r R. apply FR; [intros ->; auto|]. intros X. exact (N3 r X R). }
      rewrite (map_denote_ext h h' a), (map_denote_ext h h' b); [reflexivity| |];
        intros r R; apply G; rewrite flat_map_app; apply in_or_app; auto.
  - rewrite nth_error_map, E. cbn [option_map]. unfold heap_clone in HC. injection HC as <- <-.
    assert (IT : forall r, In r (refs t) -> In r (flat_map refs ts)).
    { intros r R. apply in_flat_map. exists t. split; [eapply nth_error_In; eauto|auto]. }
    assert (NL : NoDup lids) by (apply NoDup_app_remove_r in NI; auto).
    assert (NR : NoDup rids) by (apply NoDup_app_remove_l in NI; auto).
    assert (DJ : forall x, In x lids -> ~ In x rids).
    { clear -NI. induction lids as [|y lids IH]; [intros x []|]. cbn in NI. inversion NI as [|? ? A B]; subst.
      intros x [->|X] Y; [apply A; apply in_or_app; auto|]. exact (IH B x X Y). }
    destruct (clone_span_ok (p_l t) lids h LL NL) as (A1 & B1).
    { intros r R X. apply (DI r); [apply in_or_app; auto|]. apply IT. apply in_or_app; auto. }
    destruct (clone_span_ok (p_r t) rids (clone_span h (p_l t) lids) LR NR) as (A2 & B2).
    { intros r R X. apply (DI r); [apply in_or_app; auto|]. apply IT. apply in_or_app; auto. }
    set (h1 := clone_span h (p_l t) lids) in *. set (h2 := clone_span h1 (p_r t) rids) in *.
    assert (G : forall r, In r (flat_map refs ts) -> h2 r = h r).
    { intros r R. rewrite B2, B1; auto; intros X; apply (DI r); auto; apply in_or_app; auto. }
    split.
    + unfold nodup_w. rewrite flat_map_app. cbn [flat_map]. rewrite app_nil_r.
      apply NoDup_app; auto. intros r R X. apply (DI r); auto.
    + rewrite map_app. cbn [map]. rewrite (map_denote_ext h h2 ts G). f_equal. f_equal. f_equal. f_equal.
      unfold denote. cbn [p_l p_r p_scan]. f_equal.
      * rewrite <- A1. apply map_ext_in. intros r R. symmetry. apply B2. apply DJ; auto.
      * rewrite A2. apply map_ext_in. intros r R. symmetry. apply B1.
        intros X. apply (DI r); [apply in_or_app; auto|]. apply IT. apply in_or_app; auto.
  - split; [auto|]. unfold heap_set_count in HS.
    destruct (nth_split_refs _ _ _ E) as (a & b & TS & L & SM & S & _).
    rewrite nth_error_map, E. cbn [option_map].
    pose proof ND as ND'. rewrite TS in ND'. apply nodup_parts in ND' as (N1 & N2 & N3).
    destruct (nth_error (if side then p_r t else p_l t) pos) as [r|] eqn:NE; [|discriminate]. injection HS as <-.
    set (h' := upd h r (Blk (b_color (h r)) v)).
    assert (RT : In r (refs t)).
    { apply nth_error_In in NE. apply in_or_app. destruct side; auto. }
    assert (G : t_set_count (denote h t) side pos v = Some (denote h' t)).
    { unfold t_set_count, denote. cbn [t_lspan t_rspan t_scan].
      assert (NLL : NoDup (p_l t)) by (unfold refs in N1; apply NoDup_app_remove_r in N1; auto).
      assert (NRR : NoDup (p_r t)) by (unfold refs in N1; apply NoDup_app_remove_l in N1; auto).
      assert (DJ : forall x, In x (p_l t) -> ~ In x (p_r t)).
      { clear -N1. unfold refs in N1. induction (p_l t) as [|y l IH]; [intros x []|]. cbn in N1.
        inversion N1 as [|? ? A B]; subst.
        intros x [->|X] Y; [apply A; apply in_or_app; auto|]. exact (IH B x X Y). }
      pose proof (nth_error_In _ _ NE) as RI.
      destruct side; rewrite (set_nth_count_map h pos _ _ v NE) by auto; cbn [option_map]; unfold h'.
      - f_equal. f_equal. symmetry. apply map_upd. intros X. exact (DJ r X RI).
      - f_equal. f_equal. symmetry. apply map_upd. apply DJ; auto. }
    rewrite G. rewrite SM. f_equal. f_equal. rewrite TS, map_app. cbn [map].
    assert (FR : forall x, In x (flat_map refs (a ++ b)) -> h' x = h x).
    { intros x X. apply upd_other. intros ->. exact (N3 r RT X). }
    rewrite (map_denote_ext h h' a), (map_denote_ext h h' b); [reflexivity| |];
      intros x X; apply FR; rewrite flat_map_app; apply in_or_app; auto.
  - destruct (nth_split_refs _ _ _ E) as (a & b & TS & L & _ & _ & DN & DM).
    rewrite nth_error_map, E. cbn [option_map]. rewrite DN, DM, map_app. split; [|reflexivity].
    rewrite TS in ND. apply nodup_parts in ND. tauto.
Qed.

Lemma wops_ok w os ns w' : wops w os ns w' -> nodup_w (w_tapes w) ->
  nodup_w (w_tapes w')
  /\ vops (map (denote (w_heap w)) (w_tapes w)) os = Some (ns, map (denote (w_heap w')) (w_tapes w')).
Proof.
  induction 1 as [w|w o n w' os ns w'' W WS IH]; intros ND; [split; [auto|reflexivity]|].
  destruct (wop_ok _ _ _ _ W ND) as (N1 & V). destruct (IH N1) as (N2 & V2). split; [auto|].
  cbn. rewrite V, V2. reflexivity.
Qed.

Lemma wops_start h os ns w' : wops (World h []) os ns w' ->
  NoDup (live w')
  /\ vops [] os = Some (ns, map (denote (w_heap w')) (w_tapes w')).
Proof. intros W. apply (wops_ok _ _ _ _ W). constructor. Qed.

(** ** Every sequence of operations that makes sense on values can happen on objects *)
Lemma above l : exists m : nat, forall r, In r l -> (r < m)%nat.
Proof.
  induction l as [|x l (m & IH)]; [exists 0%nat; intros r []|]. exists (S (Nat.max x m)).
  intros r [->|X]; [lia|]. specialize (IH r X). lia.
Qed.

Lemma wop_progress w o n ts' : nodup_w (w_tapes w) ->
  vop (map (denote (w_heap w)) (w_tapes w)) o = Some (n, ts') -> exists w', wop w o n w'.
Proof.
  destruct w as [h ts]. cbn [w_heap w_tapes]. intros ND E.
  assert (G : exists n' w', wop (World h ts) o n' w').
  { destruct (above (live (World h ts))) as (m & FR).
    destruct o as [|i shift color skip|i|i side pos v|i]; cbn [vop] in E.
    - eauto using WNew.
    - rewrite nth_error_map in E. destruct (nth_error ts i) as [t|] eqn:NE; [|discriminate].
      destruct (heap_step m h t shift color skip) as [[h' t'] k] eqn:HS.
      exists k. eexists. eapply WStep; [exact NE| |exact HS]. intros X. apply FR in X. lia.
    - rewrite nth_error_map in E. destruct (nth_error ts i) as [t|] eqn:NE; [|discriminate].
      pose (lids := seq m (length (p_l t)) : list ref). pose (rids := seq (m + length (p_l t)) (length (p_r t)) : list ref).
      assert (AP : @app ref lids rids = seq m (length (p_l t) + length (p_r t))) by (unfold lids, rids; rewrite seq_app; reflexivity).
      exists 0. eexists. eapply (WClone h ts i t lids rids); [exact NE| | | | |reflexivity].
      + apply seq_length.
      + apply seq_length.
      + rewrite AP. apply seq_NoDup.
      + intros r. rewrite AP, in_seq. intros R X. apply FR in X. lia.
    - rewrite nth_error_map in E. destruct (nth_error ts i) as [t|] eqn:NE; [|discriminate]. cbn [option_map] in E.
      destruct (heap_set_count h t side pos v) as [h'|] eqn:HS.
      + exists 0. eexists. eapply WSetCount; eauto.
      + exfalso. unfold heap_set_count in HS. destruct (nth_error _ pos) eqn:NP; [discriminate|].
        unfold t_set_count, denote in E. cbn [t_lspan t_rspan] in E.
        assert (K : forall s pos v, nth_error s pos = None -> set_nth_count (map h s) pos v = None).
        { clear. induction s as [|x s IH]; intros [|pos] v X; try discriminate; auto. cbn. rewrite IH; auto. }
        destruct side; rewrite (K _ _ v NP) in E; discriminate.
    - rewrite nth_error_map in E. destruct (nth_error ts i) as [t|] eqn:NE; [|discriminate].
      exists 0. eexists. eapply WDrop; eauto. }
  destruct G as (n' & w' & W). pose proof (wop_ok _ _ _ _ W ND) as (_ & V). cbn [w_heap w_tapes] in V.
  rewrite E in V. injection V as -> _. eauto.
Qed.

Lemma wops_progress os : forall w ns ts', nodup_w (w_tapes w) ->
  vops (map (denote (w_heap w)) (w_tapes w)) os = Some (ns, ts') -> exists w', wops w os ns w'.
Proof.
  induction os as [|o os IH]; intros w ns ts' ND E; cbn in E.
  - inv E. exists w. constructor.
  - destruct (vop _ o) as [[n ts1]|] eqn:V; [|discriminate].
    destruct (vops ts1 os) as [[ns1 ts2]|] eqn:VS; [|discriminate]. inv E.
    destruct (wop_progress _ _ _ _ ND V) as (w1 & W). destruct (wop_ok _ _ _ _ W ND) as (N1 & V1).
    rewrite V in V1. injection V1 as ->.
    destruct (IH _ _ _ N1 VS) as (w2 & W2). exists w2. econstructor; eauto.
Qed.

Lemma wops_start_progress h os ns ts : vops [] os = Some (ns, ts) ->
  exists w, wops (World h []) os ns w.
Proof. intros E. eapply (wops_progress os (World h [])); [constructor|exact E]. Qed.
