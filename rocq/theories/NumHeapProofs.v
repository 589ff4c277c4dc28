(** * Proofs about objects and tables *)
From Verif Require Import Base NumModel NumHeapModel NumHeapSpec.

Lemma same_key_spec a b : same_key a b = true <-> a = b.
Proof.
  destruct a as [x|i], b as [y|j]; simpl; try (split; intros Q; discriminate Q).
  - rewrite Z.eqb_eq. split; [now intros ->|now intros [= ->]].
  - rewrite Nat.eqb_eq. split; [now intros ->|now intros [= ->]].
Qed.

Definition find (s : store) (sh : shape) : option nat :=
  match sh with
  | SAdd l r => get (fun k => same_key (fst k) l && Nat.eqb (snd k) r) (ADDS s)
  | SMul l r => get (fun k => same_key (fst k) l && Nat.eqb (snd k) r) (MULS s)
  | SDiv n d => get (fun k => Nat.eqb (fst k) n && (snd k =? d)) (DIVS s)
  | SExp b x => get (fun k => (fst k =? b) && same_key (snd k) x) (EXPS s)
  | STet _ _ => None
  end.
Definition below (n : nat) (x : item) : Prop := match x with Int _ => True | Obj i => (i < n)%nat end.
Definition parts_below (n : nat) (sh : shape) : Prop :=
  match sh with
  | SAdd l r | SMul l r => below n l /\ (r < n)%nat
  | SDiv m _ => (m < n)%nat
  | SExp _ x => below n x
  | STet _ _ => True
  end.
Definition not_tet (sh : shape) : Prop := match sh with STet _ _ => False | _ => True end.
Definition depth_for (s : store) (sh : shape) : Z :=
  match sh with
  | SAdd _ r | SMul _ r => 1 + depth_of s r
  | SDiv n _ => 1 + depth_of s n
  | SExp _ (Int _) => 1
  | SExp _ (Obj e) => 1 + depth_of s e
  | STet _ _ => 1
  end.
Definition push (s : store) (sh : shape) : store :=
  let o := objects s ++ [Object sh (depth_for s sh)] in
  let i := fresh s in
  match sh with
  | SAdd l r => Store o ((l, r, i) :: ADDS s) (MULS s) (DIVS s) (EXPS s)
  | SMul l r => Store o (ADDS s) ((l, r, i) :: MULS s) (DIVS s) (EXPS s)
  | SDiv n d => Store o (ADDS s) (MULS s) ((n, d, i) :: DIVS s) (EXPS s)
  | SExp b x => Store o (ADDS s) (MULS s) (DIVS s) ((b, x, i) :: EXPS s)
  | STet _ _ => Store o (ADDS s) (MULS s) (DIVS s) (EXPS s)
  end.

Lemma push_objects s sh : objects (push s sh) = objects s ++ [Object sh (depth_for s sh)].
Proof. now destruct sh. Qed.

Lemma find_push s sh sh' i : not_tet sh' ->
  find (push s sh) sh' = Some i <-> (sh' = sh /\ i = fresh s) \/ (sh' <> sh /\ find s sh' = Some i).
Proof.
  intros NT. destruct sh as [l r|l r|n d|b x|b h], sh' as [l' r'|l' r'|n' d'|b' x'|b' h'];
    try contradiction NT; simpl;
    try (split; [intros F; right; split; [discriminate|exact F]|intros [[E _]|[_ F]]; [discriminate E|exact F]]).
  - destruct (same_key l l' && (r =? r')%nat) eqn:E.
    + apply andb_true_iff in E. destruct E as [E1 E2]. apply same_key_spec in E1. apply Nat.eqb_eq in E2. subst.
      split; [intros [= <-]; now left|intros [[_ ->]|[N _]]; [reflexivity|now elim N]].
    + assert (SAdd l' r' <> SAdd l r).
      { intros [= -> ->]. rewrite (proj2 (same_key_spec l l) eq_refl), Nat.eqb_refl in E. discriminate E. }
      split; [intros F; right; now split|intros [[E' _]|[_ F]]; [contradiction|exact F]].
  - destruct (same_key l l' && (r =? r')%nat) eqn:E.
    + apply andb_true_iff in E. destruct E as [E1 E2]. apply same_key_spec in E1. apply Nat.eqb_eq in E2. subst.
      split; [intros [= <-]; now left|intros [[_ ->]|[N _]]; [reflexivity|now elim N]].
    + assert (SMul l' r' <> SMul l r).
      { intros [= -> ->]. rewrite (proj2 (same_key_spec l l) eq_refl), Nat.eqb_refl in E. discriminate E. }
      split; [intros F; right; now split|intros [[E' _]|[_ F]]; [contradiction|exact F]].
  - destruct ((n =? n')%nat && (d =? d')) eqn:E.
    + apply andb_true_iff in E. destruct E as [E1 E2]. apply Nat.eqb_eq in E1. apply Z.eqb_eq in E2. subst.
      split; [intros [= <-]; now left|intros [[_ ->]|[N _]]; [reflexivity|now elim N]].
    + assert (SDiv n' d' <> SDiv n d).
      { intros [= -> ->]. rewrite Nat.eqb_refl, Z.eqb_refl in E. discriminate E. }
      split; [intros F; right; now split|intros [[E' _]|[_ F]]; [contradiction|exact F]].
  - destruct ((b =? b') && same_key x x') eqn:E.
    + apply andb_true_iff in E. destruct E as [E1 E2]. apply Z.eqb_eq in E1. apply same_key_spec in E2. subst.
      split; [intros [= <-]; now left|intros [[_ ->]|[N _]]; [reflexivity|now elim N]].
    + assert (SExp b' x' <> SExp b x).
      { intros [= -> ->]. rewrite (proj2 (same_key_spec x x) eq_refl), Z.eqb_refl in E. discriminate E. }
      split; [intros F; right; now split|intros [[E' _]|[_ F]]; [contradiction|exact F]].
Qed.

(** ** What stays true *)

Definition good (s : store) : Prop :=
  (forall sh i, not_tet sh -> find s sh = Some i <-> exists d, nth_error (objects s) i = Some (Object sh d)) /\
  (forall i sh d, nth_error (objects s) i = Some (Object sh d) -> parts_below i sh /\ d = depth_for s sh).

Lemma nth_app_some {A} (l m : list A) i x : nth_error l i = Some x -> nth_error (l ++ m) i = Some x.
Proof. intros E. rewrite nth_error_app1; [exact E|]. apply nth_error_Some. congruence. Qed.

Lemma depth_of_push s sh i : (i < length (objects s))%nat -> depth_of (push s sh) i = depth_of s i.
Proof. intros L. unfold depth_of. now rewrite push_objects, nth_error_app1. Qed.

Lemma depth_for_push s sh sh' : parts_below (length (objects s)) sh' -> depth_for (push s sh) sh' = depth_for s sh'.
Proof.
  destruct sh' as [l r|l r|n d|b [z|e]|b h]; simpl; intros P; try reflexivity;
    rewrite depth_of_push; try reflexivity; tauto.
Qed.

Lemma below_le n m x : (n <= m)%nat -> below n x -> below m x.
Proof. destruct x; simpl; [trivial|lia]. Qed.
Lemma parts_below_le n m sh : (n <= m)%nat -> parts_below n sh -> parts_below m sh.
Proof.
  intros L. destruct sh; simpl; try (intros [B C]; split; [now apply (below_le n)|lia]); try lia; try tauto.
  now apply below_le.
Qed.

Lemma good_empty : good empty.
Proof.
  split.
  - intros sh i NT. split.
    + destruct sh; intros F; discriminate F.
    + intros [d F]. simpl in F. destruct i; discriminate F.
  - intros i sh d F. simpl in F. destruct i; discriminate F.
Qed.

Lemma good_push s sh : good s -> parts_below (length (objects s)) sh -> find s sh = None -> good (push s sh).
Proof.
  intros [G1 G2] P F. split.
  - intros sh' i NT. rewrite find_push by exact NT. rewrite push_objects. split.
    + intros [[-> ->]|[N E]].
      * exists (depth_for s sh). unfold fresh. now rewrite nth_error_app2, Nat.sub_diag by lia.
      * apply G1 in E; [|exact NT]. destruct E as [d E]. exists d. now apply nth_app_some.
    + intros [d E]. destruct (Nat.lt_ge_cases i (length (objects s))) as [L|L].
      * rewrite nth_error_app1 in E by exact L. right.
        assert (E' : find s sh' = Some i) by (apply G1; [exact NT|now exists d]).
        split; [|exact E']. intros ->. rewrite F in E'. discriminate E'.
      * rewrite nth_error_app2 in E by exact L. left.
        destruct (i - length (objects s))%nat as [|k] eqn:K; simpl in E; [|destruct k; discriminate E].
        injection E as <- _. split; [reflexivity|unfold fresh; lia].
  - intros i sh' d E. rewrite push_objects in E.
    destruct (Nat.lt_ge_cases i (length (objects s))) as [L|L].
    + rewrite nth_error_app1 in E by exact L. destruct (G2 _ _ _ E) as [B D]. split; [exact B|].
      rewrite depth_for_push; [exact D|]. apply (parts_below_le i); [lia|exact B].
    + rewrite nth_error_app2 in E by exact L.
      destruct (i - length (objects s))%nat as [|k] eqn:K; simpl in E; [|destruct k; discriminate E].
      injection E as <- <-. assert (i = length (objects s)) as -> by lia.
      split; [exact P|]. now rewrite depth_for_push.
Qed.

(** ** Requests *)

Definition asked (s : store) (sh : shape) (t : store) (o : option nat) : Prop :=
  (exists i, find s sh = Some i /\ t = s /\ o = Some i) \/
  (find s sh = None /\ t = push s sh /\ o = Some (fresh s)) \/ (t = s /\ o = None).

Lemma in_order_cases s l r l' r' : in_order s l r = (l', r') ->
  (l' = l /\ r' = r) \/ (exists i, l = Obj i /\ l' = Obj r /\ r' = i).
Proof.
  unfold in_order. destruct l as [z|i]; [intros [= <- <-]; now left|].
  destruct (_ <? _); intros [= <- <-]; [right; now exists i|now left].
Qed.

Lemma add_asked s l r l' r' t o : in_order s l r = (l', r') -> make_add s l r = (t, o) ->
  asked s (SAdd l' r') t o /\ o <> None.
Proof.
  unfold make_add, asked. intros ->. simpl. destruct (get _ _) as [i|]; intros [= <- <-].
  - split; [left; now exists i|discriminate].
  - split; [right; left; now repeat split|discriminate].
Qed.
Lemma mul_asked ok s l r l' r' t o : in_order s l r = (l', r') -> make_mul ok s l r = (t, o) ->
  asked s (SMul l' r') t o.
Proof.
  unfold make_mul, asked. intros ->. simpl. destruct (get _ _) as [i|].
  - intros [= <- <-]. left. now exists i.
  - destruct (ok _ _); intros [= <- <-]; right; [left|right]; now repeat split.
Qed.
Lemma div_asked s n d t o : make_div s n d = (t, o) -> asked s (SDiv n d) t o.
Proof.
  unfold make_div, asked. simpl. destruct (get _ _) as [i|].
  - intros [= <- <-]. left. now exists i.
  - destruct (0 <? d); intros [= <- <-]; right; [left|right]; now repeat split.
Qed.
Lemma exp_asked s b x t o : make_exp s b x = (t, o) -> asked s (SExp b x) t o.
Proof.
  unfold make_exp, asked. simpl. destruct (get _ _) as [i|].
  - intros [= <- <-]. left. now exists i.
  - destruct x as [e|e]; [destruct (0 <? e)|]; intros [= <- <-]; right; [left|right|left]; now repeat split.
Qed.
Lemma tet_asked s b h t o : make_tet s b h = (t, o) -> asked s (STet b h) t o.
Proof. unfold make_tet, asked. simpl. intros [= <- <-]. right. left. now repeat split. Qed.

Lemma made_below s x : made s x <-> below (length (objects s)) x.
Proof. now destruct x. Qed.

Lemma request_asked s t o : request s t o -> exists sh, asked s sh t o /\ parts_below (length (objects s)) sh.
Proof.
  intros R. destruct R as [l r t o M1 M2 E|ok l r t o M1 M2 E|n d t o M E|b x t o M E|b h t o E].
  - destruct (in_order s l r) as [l' r'] eqn:IO. exists (SAdd l' r'). split; [now apply (add_asked s l r)|].
    simpl. destruct (in_order_cases _ _ _ _ _ IO) as [[-> ->]|(i & -> & -> & ->)]; simpl in *; split; try assumption.
    all: now apply made_below.
  - destruct (in_order s l r) as [l' r'] eqn:IO. exists (SMul l' r'). split; [now apply (mul_asked ok s l r)|].
    simpl. destruct (in_order_cases _ _ _ _ _ IO) as [[-> ->]|(i & -> & -> & ->)]; simpl in *; split; try assumption.
    all: now apply made_below.
  - exists (SDiv n d). split; [now apply div_asked|exact M].
  - exists (SExp b x). split; [now apply exp_asked|now apply made_below].
  - exists (STet b h). split; [now apply tet_asked|exact Logic.I].
Qed.

Lemma asked_good s sh t o : good s -> parts_below (length (objects s)) sh -> asked s sh t o -> good t.
Proof.
  intros G P [(i & F & -> & _)|[(F & -> & _)|[-> _]]]; [exact G|now apply good_push|exact G].
Qed.

Lemma later_good s t : later s t -> good s -> good t.
Proof.
  intros L G. induction L as [|t u o L IH R]; [exact G|].
  destruct (request_asked _ _ _ R) as (sh & A & P). now apply (asked_good t sh u o).
Qed.
Lemma possible_good s : possible s -> good s.
Proof. intros P. exact (later_good _ _ P good_empty). Qed.

(** ** Objects keep what they stand for *)

Lemma stands_mono s t a e :
  (forall i o, nth_error (objects s) i = Some o -> nth_error (objects t) i = Some o) ->
  stands s a e -> stands t a e.
Proof.
  intros M S. induction S as [z|i l r d a b N S1 IH1 S2 IH2|i l r d a b N S1 IH1 S2 IH2|i n q d a N S1 IH1|i b x d a N S1 IH1].
  - constructor.
  - exact (stands_add t i l r d a b (M _ _ N) IH1 IH2).
  - exact (stands_mul t i l r d a b (M _ _ N) IH1 IH2).
  - exact (stands_div t i n q d a (M _ _ N) IH1).
  - exact (stands_exp t i b x d a (M _ _ N) IH1).
Qed.

Lemma asked_mono s sh t o i x : asked s sh t o ->
  nth_error (objects s) i = Some x -> nth_error (objects t) i = Some x.
Proof.
  intros [(j & F & -> & _)|[(F & -> & _)|[-> _]]] N; try exact N.
  rewrite push_objects. now apply nth_app_some.
Qed.

Lemma kept s t a e : later s t -> stands s a e -> stands t a e.
Proof.
  intros L S. induction L as [|t u o L IH R]; [exact S|].
  destruct (request_asked _ _ _ R) as (sh & A & P).
  apply (stands_mono t u); [|exact IH]. intros i x. exact (asked_mono t sh u o i x A).
Qed.

(** ** One object for one expression *)

Lemma stands_fun s a e : stands s a e -> forall e', stands s a e' -> e' = e.
Proof.
  intros S. induction S as [z|i l r d a b N S1 IH1 S2 IH2|i l r d a b N S1 IH1 S2 IH2|i n q d a N S1 IH1|i b x d a N S1 IH1];
    intros e' S'; inversion S'; subst; try congruence.
  - match goal with N' : nth_error _ _ = _ |- _ => rewrite N in N'; injection N' as <- <- <- end.
    now rewrite (IH1 _ ltac:(eassumption)), (IH2 _ ltac:(eassumption)).
  - match goal with N' : nth_error _ _ = _ |- _ => rewrite N in N'; injection N' as <- <- <- end.
    now rewrite (IH1 _ ltac:(eassumption)), (IH2 _ ltac:(eassumption)).
  - match goal with N' : nth_error _ _ = _ |- _ => rewrite N in N'; injection N' as <- <- <- end.
    now rewrite (IH1 _ ltac:(eassumption)).
  - match goal with N' : nth_error _ _ = _ |- _ => rewrite N in N'; injection N' as <- <- <- end.
    now rewrite (IH1 _ ltac:(eassumption)).
Qed.

Lemma same_shape s sh i j d e : good s -> not_tet sh ->
  nth_error (objects s) i = Some (Object sh d) -> nth_error (objects s) j = Some (Object sh e) -> i = j.
Proof.
  intros [G _] NT N M.
  assert (A : find s sh = Some i) by (apply G; [exact NT|now exists d]).
  assert (B : find s sh = Some j) by (apply G; [exact NT|now exists e]). congruence.
Qed.

Lemma stands_inj s a e : good s -> stands s a e -> forall b, stands s b e -> b = a.
Proof.
  intros G S. induction S as [z|i l r d a b N S1 IH1 S2 IH2|i l r d a b N S1 IH1 S2 IH2|i n q d a N S1 IH1|i b x d a N S1 IH1];
    intros y S'; inversion S' as [z'|i' l' r' d' a' b' N' T1 T2|i' l' r' d' a' b' N' T1 T2|i' n' q' d' a' N' T1|i' b' x' d' a' N' T1];
    subst; try reflexivity.
  - rewrite (IH1 _ T1) in N'. pose proof (IH2 _ T2) as E. injection E as ->. f_equal. exact (same_shape s (SAdd l r) _ _ _ _ G Logic.I N' N).
  - rewrite (IH1 _ T1) in N'. pose proof (IH2 _ T2) as E. injection E as ->. f_equal. exact (same_shape s (SMul l r) _ _ _ _ G Logic.I N' N).
  - pose proof (IH1 _ T1) as E. injection E as ->. f_equal. exact (same_shape s (SDiv n q) _ _ _ _ G Logic.I N' N).
  - rewrite (IH1 _ T1) in N'. f_equal. exact (same_shape s (SExp b x) _ _ _ _ G Logic.I N' N).
Qed.

Lemma stands_not_tet s i e b h d : stands s (Obj i) e -> nth_error (objects s) i = Some (Object (STet b h) d) -> False.
Proof. intros S N. inversion S; congruence. Qed.

Lemma equal_right s a b e f : possible s -> stands s a e -> stands s b f -> (equal s a b = true <-> e = f).
Proof.
  intros P S1 S2. pose proof (possible_good s P) as G. split.
  - intros E. destruct a as [x|i], b as [y|j]; simpl in E; try discriminate E.
    + apply Z.eqb_eq in E. subst. exact (stands_fun _ _ _ S2 _ S1).
    + assert (E' : Nat.eqb i j = true).
      { destruct (nth_error (objects s) i) as [[[] ?]|] eqn:N; try exact E.
        elim (stands_not_tet _ _ _ _ _ _ S1 N). }
      apply Nat.eqb_eq in E'. subst. exact (stands_fun _ _ _ S2 _ S1).
  - intros <-. rewrite (stands_inj _ _ _ G S1 _ S2). destruct a as [x|i]; simpl; [apply Z.eqb_refl|].
    destruct (nth_error (objects s) i) as [[[] ?]|] eqn:N; try apply Nat.eqb_refl.
    elim (stands_not_tet _ _ _ _ _ _ S1 N).
Qed.

(** ** What is made *)

Lemma depth_right s a e : good s -> stands s a e -> forall i, a = Obj i -> depth_of s i = depth e.
Proof.
  intros G S. induction S as [z|i l r d a b N S1 IH1 S2 IH2|i l r d a b N S1 IH1 S2 IH2|i n q d a N S1 IH1|i b x d a N S1 IH1];
    intros k E; try discriminate E; injection E as <-; unfold depth_of at 1; rewrite N; simpl;
    destruct (proj2 G _ _ _ N) as [_ ->]; simpl.
  - now rewrite (IH2 r eq_refl).
  - now rewrite (IH2 r eq_refl).
  - now rewrite (IH1 n eq_refl).
  - destruct x as [z|j]; [inversion S1; subst; reflexivity|].
    rewrite (IH1 j eq_refl). inversion S1; subst; reflexivity.
Qed.

Lemma asked_there s sh t i : good s -> not_tet sh -> asked s sh t (Some i) ->
  exists d, nth_error (objects t) i = Some (Object sh d).
Proof.
  intros G NT [(j & F & -> & [= ->])|[(F & -> & [= ->])|[_ E]]]; [| |discriminate E].
  - now apply (proj1 G).
  - exists (depth_for s sh). rewrite push_objects. unfold fresh. now rewrite nth_error_app2, Nat.sub_diag by lia.
Qed.

Lemma asked_stands s sh t o a e : asked s sh t o -> stands s a e -> stands t a e.
Proof. intros A. apply stands_mono. intros i x. exact (asked_mono s sh t o i x A). Qed.

Lemma stands_obj s r e : stands s (Obj r) e -> is_int e = false.
Proof. intros S. now inversion S. Qed.
Lemma in_order_right s l r a b l' r' : good s -> stands s l a -> stands s (Obj r) b -> in_order s l r = (l', r') ->
  if negb (is_int a) && (depth b <? depth a) then stands s l' b /\ stands s (Obj r') a
  else stands s l' a /\ stands s (Obj r') b.
Proof.
  intros G S1 S2. unfold in_order. destruct l as [z|i].
  - intros [= <- <-]. inversion S1; subst. simpl. now split.
  - rewrite (depth_right s _ a G S1 i eq_refl), (depth_right s _ b G S2 r eq_refl), (stands_obj _ _ _ S1). simpl.
    destruct (_ <? _); intros [= <- <-]; now split.
Qed.

Lemma add_right s l r a b : possible s -> stands s l a -> stands s (Obj r) b ->
  exists t i, make_add s l r = (t, Some i) /\ stands t (Obj i) (NumModel.make_add a b).
Proof.
  intros P S1 S2. pose proof (possible_good s P) as G.
  destruct (in_order s l r) as [l' r'] eqn:IO. destruct (make_add s l r) as [t o] eqn:E.
  destruct (add_asked _ _ _ _ _ _ _ IO E) as [A NN]. destruct o as [i|]; [|contradiction].
  exists t, i. split; [reflexivity|].
  destruct (asked_there s _ t i G (Logic.I : not_tet (SAdd l' r')) A) as [d N].
  pose proof (in_order_right _ _ _ _ _ _ _ G S1 S2 IO) as Q. unfold NumModel.make_add.
  destruct (_ && _); destruct Q as [Q1 Q2]; apply (stands_add t i l' r' d); try exact N;
    now apply (asked_stands s (SAdd l' r') t (Some i)).
Qed.

Lemma mul_right ok s l r a b t i : possible s -> stands s l a -> stands s (Obj r) b ->
  make_mul ok s l r = (t, Some i) ->
  stands t (Obj i) (if negb (is_int a) && (depth b <? depth a) then Mul b a else Mul a b).
Proof.
  intros P S1 S2 E. pose proof (possible_good s P) as G.
  destruct (in_order s l r) as [l' r'] eqn:IO.
  pose proof (mul_asked _ _ _ _ _ _ _ _ IO E) as A.
  destruct (asked_there s _ t i G (Logic.I : not_tet (SMul l' r')) A) as [d N].
  pose proof (in_order_right _ _ _ _ _ _ _ G S1 S2 IO) as Q.
  destruct (_ && _); destruct Q as [Q1 Q2]; apply (stands_mul t i l' r' d); try exact N;
    now apply (asked_stands s (SMul l' r') t (Some i)).
Qed.

Lemma div_right s n d a t i : possible s -> stands s (Obj n) a -> make_div s n d = (t, Some i) ->
  stands t (Obj i) (Div a d).
Proof.
  intros P S1 E. pose proof (possible_good s P) as G. pose proof (div_asked _ _ _ _ _ E) as A.
  destruct (asked_there s _ t i G (Logic.I : not_tet (SDiv n d)) A) as [e N].
  apply (stands_div t i n d e); [exact N|]. now apply (asked_stands s (SDiv n d) t (Some i)).
Qed.

Lemma exp_right s b x a t i : possible s -> stands s x a -> make_exp s b x = (t, Some i) ->
  stands t (Obj i) (Exp b a).
Proof.
  intros P S1 E. pose proof (possible_good s P) as G. pose proof (exp_asked _ _ _ _ _ E) as A.
  destruct (asked_there s _ t i G (Logic.I : not_tet (SExp b x)) A) as [e N].
  apply (stands_exp t i b x e); [exact N|]. now apply (asked_stands s (SExp b x) t (Some i)).
Qed.

Lemma reuse s t i j e : possible s -> request s t (Some j) -> stands t (Obj j) e -> stands s (Obj i) e -> t = s /\ j = i.
Proof.
  intros P R S1 S2. pose proof (possible_good s P) as G.
  assert (GT : good t) by exact (possible_good t (later_then _ _ _ _ P R)).
  assert (S3 : stands t (Obj i) e) by exact (kept s t _ _ (later_then s s t _ (later_now s) R) S2).
  pose proof (stands_inj t _ _ GT S3 _ S1) as E. injection E as ->. split; [|reflexivity].
  destruct (request_asked _ _ _ R) as (sh & A & Pb).
  destruct A as [(k & F & -> & _)|[(F & -> & [= ->])|[-> _]]]; try reflexivity.
  inversion S2; match goal with N : nth_error (objects s) (fresh s) = Some _ |- _ =>
    assert (L : (fresh s < length (objects s))%nat) by (apply nth_error_Some; congruence); unfold fresh in L; lia end.
Qed.

Lemma mul_given ok s l r : (forall x y, ok x y = true) -> exists t i, make_mul ok s l r = (t, Some i).
Proof.
  intros K. unfold make_mul. destruct (in_order s l r) as [x y]. destruct (get _ _) as [i|]; [now exists s, i|].
  rewrite K. eexists _, _. reflexivity.
Qed.
Lemma div_given s n d : 0 < d -> exists t i, make_div s n d = (t, Some i).
Proof.
  intros K. unfold make_div. destruct (get _ _) as [i|]; [now exists s, i|].
  rewrite (proj2 (Z.ltb_lt 0 d) K). eexists _, _. reflexivity.
Qed.
Lemma exp_given s b x : (forall z, x = Int z -> 0 < z) -> exists t i, make_exp s b x = (t, Some i).
Proof.
  intros K. unfold make_exp. destruct (get _ _) as [i|]; [now exists s, i|].
  destruct x as [z|j]; [rewrite (proj2 (Z.ltb_lt 0 z) (K z eq_refl))|]; eexists _, _; reflexivity.
Qed.
