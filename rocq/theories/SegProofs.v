(** * Facts about the segment decider: windows onto the tape *)
From Verif Require Import Base TM TMFacts ProgModel ParseModel ParseProofs NormModel NormProofs GraphModel GraphProofs ReasonKinds SegModel.

(** ** Windows *)

(** The cell at position [i] of the window; blank outside. *)
Definition look (t : stape) (i : Z) : Z :=
  let p := s_pos t in
  if i =? p then match s_scan t with Some c => c | None => 0 end
  else if i <? p then nth (Z.to_nat (p - 1 - i)) (s_l t) 0
  else nth (Z.to_nat (i - p - 1)) (s_r t) 0.

(** Tapes of a window with [n] cells. *)
Definition wft (n : Z) (t : stape) : Prop :=
  let l := Z.of_nat (length (s_l t)) in let r := Z.of_nat (length (s_r t)) in
  match s_scan t with
  | Some _ => l + r + 1 = n
  | None => (l = 0 /\ r = n) \/ (l = n /\ r = 0)
  end.

Lemma s_pos_spec n t : 0 < n -> wft n t ->
  match s_scan t with
  | Some _ => s_pos t = Z.of_nat (length (s_l t)) + 1 /\ 1 <= s_pos t <= n
  | None => (s_l t = [] /\ s_pos t = 0) \/ (s_r t = [] /\ s_l t <> [] /\ s_pos t = n + 1)
  end.
Proof.
  intros Hn W. unfold wft, s_pos in *. destruct (s_scan t) as [c|]; cbn [orb].
  - lia.
  - destruct W as [[A B]|[A B]].
    + left. destruct (s_l t); [|cbn in A; lia]. split; auto.
    + right. destruct (s_r t); [|cbn in B; lia]. split; auto. split; [intro E; rewrite E in A; cbn in A; lia|].
      rewrite A. destruct (Z.ltb_spec 0 n); lia.
Qed.
Lemma s_pos_bounds n t : 0 < n -> wft n t -> 0 <= s_pos t <= n + 1.
Proof. intros Hn W. pose proof (s_pos_spec n t Hn W) as H. destruct (s_scan t); [lia|]. destruct H as [[_ H]|[_ [_ H]]]; lia. Qed.
Lemma s_scan_inside n t : 0 < n -> wft n t -> (s_scan t <> None <-> 1 <= s_pos t <= n).
Proof.
  intros Hn W. pose proof (s_pos_spec n t Hn W) as H. destruct (s_scan t).
  - split; [intros _; lia|discriminate].
  - split; [congruence|]. destruct H as [[_ H]|[_ [_ H]]]; lia.
Qed.

Lemma nth_nil (k : nat) : nth k (@nil Z) 0 = 0.
Proof. destruct k; auto. Qed.
Lemma nth_cons_Z (x : Z) l k : 0 < k -> nth (Z.to_nat k) (x :: l) 0 = nth (Z.to_nat (k - 1)) l 0.
Proof. intro H. replace (Z.to_nat k) with (S (Z.to_nat (k - 1))) by lia. auto. Qed.

Ltac look_case :=
  rewrite ?nth_nil;
  first [lia | reflexivity
    | rewrite nth_cons_Z by lia; first [reflexivity | f_equal; lia]
    | symmetry; rewrite nth_cons_Z by lia; first [reflexivity | f_equal; lia]
    | match goal with |- context [nth (Z.to_nat ?k) (_ :: _) 0] => replace (Z.to_nat k) with O by lia; reflexivity end
    | f_equal; lia].

(** Stepping inside. *)
Lemma step_wft n t c sh pr : wft n t -> s_scan t = Some c -> wft n (s_step t sh pr).
Proof.
  unfold wft, s_step. intros W E. rewrite E in W. destruct sh.
  - destruct (s_r t) as [|x r]; cbn [s_pull s_scan s_l s_r length] in *; lia.
  - destruct (s_l t) as [|x r]; cbn [s_pull s_scan s_l s_r length] in *; lia.
Qed.
Lemma step_pos t c sh pr : s_scan t = Some c -> s_pos (s_step t sh pr) = move sh (s_pos t).
Proof.
  intros E. unfold s_pos, s_step. rewrite E. destruct sh; cbn [move].
  - destruct (s_r t) as [|x r]; cbn [s_pull s_scan s_l s_r length orb]; bdestr; lia.
  - destruct (s_l t) as [|x r]; cbn [s_pull s_scan s_l s_r length orb]; bdestr; lia.
Qed.
Lemma step_look t c sh pr i : s_scan t = Some c -> look (s_step t sh pr) i = if i =? s_pos t then pr else look t i.
Proof.
  intros E. unfold look. rewrite (step_pos t c sh pr E). rewrite E.
  assert (P : s_pos t = Z.of_nat (length (s_l t)) + 1) by (unfold s_pos; rewrite E; auto).
  unfold s_step. destruct sh; cbn [move].
  - destruct (s_r t) as [|x r] eqn:R; cbn [s_pull s_scan s_l s_r]; bdestr; look_case.
  - destruct (s_l t) as [|x l] eqn:L; cbn [s_pull s_scan s_l s_r]; bdestr; look_case.
Qed.

(** Stepping in from outside. *)
Lemma step_in_spec n t sh : 0 < n -> wft n t -> s_scan t = None -> 1 <= move sh (s_pos t) <= n ->
  exists t', s_step_in t sh = Some t' /\ wft n t' /\ s_pos t' = move sh (s_pos t) /\ forall i, 1 <= i <= n -> look t' i = look t i.
Proof.
  intros Hn W E I. pose proof (s_pos_spec n t Hn W) as P. rewrite E in P. unfold wft in W. rewrite E in W.
  unfold s_step_in, s_side. rewrite E.
  destruct P as [[L P]|[R [NL P]]].
  - rewrite P in I. destruct sh; cbn [move] in I; [|lia]. destruct W as [[_ W]|[W _]]; [|rewrite L in W; cbn in W; lia].
    destruct (s_r t) as [|x r] eqn:R; [cbn in W; lia|]. cbn [Bool.eqb negb].
    eexists. split; [reflexivity|]. rewrite P. cbn [move].
    assert (P' : s_pos (ST (Some x) (s_l t) r) = 0 + 1) by (unfold s_pos; cbn [s_scan s_l]; rewrite L; cbn; lia).
    split; [unfold wft; cbn [s_scan s_l s_r]; cbn [length] in W; rewrite L; cbn [length]; lia|].
    split; [exact P'|].
    intros i Hi. unfold look. rewrite P, P'. cbn [s_scan s_l s_r]. rewrite R. bdestr; try lia.
    + replace (Z.to_nat (i - 0 - 1)) with O by lia. auto.
    + rewrite nth_cons_Z by lia. f_equal; lia.
  - rewrite P in I. destruct sh; cbn [move] in I; [lia|]. rewrite R. cbn [Bool.eqb negb].
    destruct W as [[W _]|[W _]]; [destruct (s_l t); [congruence|cbn in W; lia]|].
    destruct (s_l t) as [|x l] eqn:L; [congruence|]. eexists. split; [reflexivity|]. rewrite P. cbn [length] in W. cbn [move].
    assert (P' : s_pos (ST (Some x) l []) = n + 1 - 1) by (unfold s_pos; cbn [s_scan s_l orb]; lia).
    split; [unfold wft; cbn [s_scan s_l s_r length]; lia|]. split; [exact P'|].
    intros i Hi. unfold look. rewrite P, P'. cbn [s_scan s_l s_r]. rewrite L. bdestr; try lia.
    + replace (Z.to_nat (n + 1 - 1 - i)) with O by lia. auto.
    + rewrite nth_cons_Z by lia. f_equal; lia.
Qed.
Lemma step_in_wft n t sh t' : wft n t -> s_step_in t sh = Some t' -> wft n t'.
Proof.
  unfold wft, s_step_in, s_side. intros W H. destruct (s_scan t); [discriminate|].
  destruct (Bool.eqb _ _); [|discriminate].
  destruct sh; [destruct (s_r t) as [|x r] eqn:R|destruct (s_l t) as [|x l] eqn:L]; try discriminate; inv H; cbn [s_scan s_l s_r length] in *; lia.
Qed.

(** Blank tapes. *)
Lemma blank_span l : sspan_blank l = true <-> l = repeat 0 (length l).
Proof.
  unfold sspan_blank. induction l as [|x l IH]; cbn; [tauto|]. rewrite andb_true_iff, IH. split.
  - intros [A B]. zb. subst. congruence.
  - intro H. inv H. rewrite repeat_length in *. split; [apply Z.eqb_refl|congruence].
Qed.
Lemma blank_span_nth l k : sspan_blank l = true -> nth k l 0 = 0.
Proof. intro H. apply blank_span in H. rewrite H. apply nth_repeat. Qed.
Lemma repeat_blank n : sspan_blank (repeat 0 n) = true.
Proof. unfold sspan_blank. induction n; cbn; auto. Qed.
Lemma blank_is_init n t : 0 < n -> wft n t -> stape_blank t = true -> t = stape_init (n + 2) (s_pos t).
Proof.
  intros Hn W B. pose proof (s_pos_spec n t Hn W) as P. unfold wft in W. unfold stape_blank in B. zb.
  apply blank_span in H0. apply blank_span in H1. destruct t as [sc l r]. cbn [s_scan s_l s_r] in *.
  unfold stape_init, zeros. set (p := s_pos _) in *. destruct sc as [c|].
  - apply Z.eqb_eq in H. subst c. destruct (Z.eqb_spec p 0); [lia|]. destruct (Z.eqb_spec p (n + 2 - 1)); [lia|].
    rewrite H0, H1 at 1. do 2 f_equal; lia.
  - destruct P as [[L P]|[R [NL P]]].
    + rewrite P, Z.eqb_refl. subst l. destruct W as [[_ W]|[W _]]; [|cbn in W; lia]. rewrite H0 at 1. do 2 f_equal. lia.
    + destruct (Z.eqb_spec p 0); [lia|]. destruct (Z.eqb_spec p (n + 2 - 1)); [|lia]. subst r.
      destruct W as [[W _]|[W _]]; [destruct l; [congruence|cbn in W; lia]|]. rewrite H1 at 1. do 2 f_equal. lia.
Qed.
Lemma init_wft n p : 0 < n -> 0 <= p <= n + 1 -> wft n (stape_init (n + 2) p) /\ s_pos (stape_init (n + 2) p) = p /\ stape_blank (stape_init (n + 2) p) = true.
Proof.
  intros Hn Hp. unfold stape_init, zeros. destruct (Z.eqb_spec p 0); [|destruct (Z.eqb_spec p (n + 2 - 1))].
  - unfold wft, s_pos, stape_blank. cbn [s_scan s_l s_r]. rewrite !repeat_length, repeat_blank. cbn [length orb andb sspan_blank forallb].
    destruct (Z.ltb_spec 0 (Z.of_nat 0)); [lia|]. split; [lia|]. split; [lia|auto].
  - unfold wft, s_pos, stape_blank. cbn [s_scan s_l s_r]. rewrite !repeat_length, repeat_blank. cbn [length orb andb sspan_blank forallb].
    destruct (Z.ltb_spec 0 (Z.of_nat (Z.to_nat (n + 2 - 2)))); [|lia]. split; [lia|]. split; [lia|auto].
  - unfold wft, s_pos, stape_blank. cbn [s_scan s_l s_r]. rewrite !repeat_length, !repeat_blank. cbn [orb andb]. split; [lia|]. split; [lia|auto].
Qed.
Lemma blank_look t i : stape_blank t = true -> look t i = 0.
Proof.
  unfold stape_blank, look. intro H. zb. bdestr; [|apply blank_span_nth; auto..].
  destruct (s_scan t); zb; auto.
Qed.

(** Equality. *)
Lemma zlist_eqb_eq a b : zlist_eqb a b = true <-> a = b.
Proof.
  revert b; induction a as [|x a IH]; intros [|y b]; cbn; try (split; congruence).
  rewrite andb_true_iff, IH, Z.eqb_eq. split; [intros [-> ->]; auto|intro H; inv H; auto].
Qed.
Lemma stape_eqb_eq a b : stape_eqb a b = true <-> a = b.
Proof.
  unfold stape_eqb. rewrite !andb_true_iff, !zlist_eqb_eq. destruct a as [sa la ra], b as [sb lb rb]; cbn [s_scan s_l s_r]. split.
  - intros [[A ->] ->]. f_equal. destruct sa, sb; cbn in A; zb; congruence.
  - intro H; inv H. split; [split|]; auto. destruct sb; cbn; auto using Z.eqb_refl.
Qed.

(** ** Running *)
Section Seg.
Variable prog : comp_prog.
Let M := machine_of prog.
Variable S0 C0 n : Z.
Hypothesis Hn : 0 < n.
Hypothesis HS : 0 < S0.
Hypothesis HC : 0 < C0.
Hypothesis cov : forall s c pr sh t, 0 <= s < S0 -> 0 <= c < C0 -> M s c = Some (pr, sh, t) -> 0 <= pr < C0 /\ 0 <= t < S0.

(** A state and a window. *)
Definition st := (Z * stape)%type.

(** The moves of the machine as seen through the window. *)
Definition inner (x y : st) : Prop := exists c pr sh,
  s_scan (snd x) = Some c /\ M (fst x) c = Some (pr, sh, fst y) /\ snd y = s_step (snd x) sh pr.
Inductive astep (x y : st) : Prop :=
| as_in : inner x y -> astep x y
| as_out c pr sh : s_scan (snd x) = None -> 0 <= c < C0 -> M (fst x) c = Some (pr, sh, fst y) -> snd y = snd x -> astep x y
| as_enter c pr sh : s_scan (snd x) = None -> 0 <= c < C0 -> M (fst x) c = Some (pr, sh, fst y) -> s_step_in (snd x) sh = Some (snd y) -> astep x y.

Lemma inner_fun x y y' : inner x y -> inner x y' -> y = y'.
Proof.
  intros (c & pr & sh & A & B & D) (c' & pr' & sh' & A' & B' & D'). destruct y as [s t], y' as [s' t']; cbn in *.
  rewrite A in A'. inv A'. rewrite B in B'. inv B'. auto.
Qed.

(** [t] is what is seen of [c] through the window after position [w]. *)
Definition clamp (k : Z) : Z := Z.max 0 (Z.min (n + 1) k).
Definition sees (w : Z) (c : config) (t : stape) : Prop :=
  wft n t /\ s_pos t = clamp (c_pos c - w) /\ forall i, 1 <= i <= n -> look t i = c_tape c (w + i).
Definition inrange (c : config) : Prop := 0 <= c_state c < S0 /\ forall p, 0 <= c_tape c p < C0.

Lemma sees_step w c t c' : sees w c t -> inrange c -> step M c = Some c' ->
  inrange c' /\ exists t', astep (c_state c, t) (c_state c', t') /\ sees w c' t'.
Proof.
  intros (W & P & L) [R1 R2] E. unfold step in E. destruct (M (c_state c) (c_tape c (c_pos c))) as [[[pr sh] s']|] eqn:Ei; [|discriminate].
  inv E. cbn [c_state c_pos c_tape]. split.
  { destruct (cov _ _ _ _ _ R1 (R2 _) Ei) as [A B]. split; auto. cbn. intro p. unfold write. bdestr; auto. }
  pose proof (s_scan_inside n t Hn W) as In. destruct (s_scan t) as [v|] eqn:Sc.
  - assert (I : 1 <= s_pos t <= n) by (apply In; congruence).
    assert (Ep : c_pos c - w = s_pos t) by (unfold clamp in P; lia).
    assert (Ev : c_tape c (c_pos c) = v).
    { replace (c_pos c) with (w + s_pos t) by lia. rewrite <- L by auto. unfold look. rewrite Z.eqb_refl, Sc. auto. }
    exists (s_step t sh pr). split; [apply as_in; exists v, pr, sh; cbn; rewrite <- Ev at 2; auto|].
    split; [eapply step_wft; eauto|]. split.
    + rewrite (step_pos t v sh pr Sc). cbn. unfold clamp. destruct sh; cbn [move] in *; lia.
    + intros i Hi. rewrite (step_look t v sh pr i Sc). cbn. unfold write.
      destruct (Z.eqb_spec i (s_pos t)), (Z.eqb_spec (w + i) (c_pos c)); try lia; auto.
  - assert (I : ~ (1 <= s_pos t <= n)) by (intro H; apply In in H; congruence).
    assert (O : c_pos c - w <= 0 \/ n + 1 <= c_pos c - w) by (unfold clamp in P; lia).
    assert (LW : forall i, 1 <= i <= n -> look t i = write (c_tape c) (c_pos c) pr (w + i)).
    { intros i Hi. rewrite L by auto. unfold write. bdestr; [lia|auto]. }
    destruct (Z.eq_dec (clamp (move sh (c_pos c) - w)) (s_pos t)) as [Eq|Ne].
    + exists t. split; [eapply as_out; cbn; eauto|]. split; [auto|]. split; [symmetry; exact Eq|exact LW].
    + assert (M1 : move sh (s_pos t) = move sh (c_pos c) - w /\ 1 <= move sh (s_pos t) <= n).
      { unfold clamp in *. destruct sh; cbn [move] in *; lia. }
      destruct M1 as [M1 M2]. destruct (step_in_spec n t sh Hn W Sc M2) as (t' & E1 & W' & P' & L').
      exists t'. split; [eapply as_enter; cbn; eauto|]. split; [auto|]. split; [rewrite P', M1; cbn; unfold clamp; lia|].
      intros i Hi. rewrite L' by auto. apply LW; auto.
Qed.

Lemma sees_run (D : st -> Prop) w k : (forall x y, D x -> astep x y -> D y) -> (forall p, 0 <= p <= n + 1 -> D (0, stape_init (n + 2) p)) ->
  forall c, steps M k init = Some c -> inrange c /\ exists t, D (c_state c, t) /\ sees w c t.
Proof.
  intros Cl D0. induction k; intros c E.
  - cbn in E. inv E. split; [split; cbn; unfold blank_tape; [lia|intro; lia]|].
    exists (stape_init (n + 2) (clamp (0 - w))). assert (H : 0 <= clamp (0 - w) <= n + 1) by (unfold clamp; lia).
    split; [apply D0; auto|]. destruct (init_wft n _ Hn H) as (A & B & F). split; [auto|]. split; [auto|].
    intros i _. rewrite blank_look; auto.
  - rewrite steps_S_r in E. destruct (steps M k init) as [d|]; [|discriminate]. destruct (IHk d eq_refl) as (R & t & Dt & St).
    destruct (sees_step w d t c St R E) as (R' & t' & A & St'). split; auto. exists t'. split; eauto.
Qed.

(** ** The machine standing in the window with blanks around *)
Definition emb (x : st) : config := Cfg (fst x) (s_pos (snd x)) (look (snd x)).
Lemma emb_step x y : inner x y -> exists c, step M (emb x) = Some c /\ ceq c (emb y).
Proof.
  intros (v & pr & sh & Sc & E & T). unfold step. cbn [emb c_state c_pos c_tape].
  assert (Lv : look (snd x) (s_pos (snd x)) = v) by (unfold look; rewrite Z.eqb_refl, Sc; auto).
  rewrite Lv, E. eexists. split; [reflexivity|]. split; [auto|]. cbn. rewrite T. split; [symmetry; eapply step_pos; eauto|].
  intro i. rewrite (step_look _ v sh pr i Sc). unfold write. auto.
Qed.
Inductive inners : nat -> st -> st -> Prop :=
| inn_0 x : inners 0 x x
| inn_S k x y z : inners k x y -> inner y z -> inners (S k) x z.
Lemma inners_emb k x y : inners k x y -> exists c, steps M k (emb x) = Some c /\ ceq c (emb y).
Proof.
  induction 1.
  - exists (emb x). split; auto. apply ceq_refl.
  - destruct IHinners as (c & E & Q). destruct (emb_step _ _ H0) as (d & F & G).
    rewrite steps_S_r, E. apply ceq_sym in Q. destruct (step_ceq M _ _ _ Q F) as (d' & F' & G'). exists d'. split; auto.
    eapply ceq_trans; [apply ceq_sym; exact G'|exact G].
Qed.
Lemma inners_det k : forall x y z, inners k x y -> inners k x z -> y = z.
Proof.
  induction k; intros x y z A B; inv A; inv B; auto. assert (y0 = y1) by (eapply IHk; eauto). subst. eapply inner_fun; eauto.
Qed.
Lemma inners_add j k x y z : inners j x y -> inners k y z -> inners (j + k) x z.
Proof.
  intros A B. induction B; [rewrite Nat.add_0_r; auto|]. replace (j + S k)%nat with (S (j + k)) by lia. econstructor; eauto.
Qed.
Lemma inners_split j k x z : inners (j + k) x z -> exists y, inners j x y /\ inners k y z.
Proof.
  revert z. induction k; intros z H.
  - rewrite Nat.add_0_r in H. exists z. split; [auto|constructor].
  - replace (j + S k)%nat with (S (j + k)) in H by lia. inv H. destruct (IHk _ H1) as (w & A & B). exists w. split; auto. econstructor; eauto.
Qed.

(** From a blank window in the start state. *)
Definition blank_start (x : st) : Prop := fst x = 0 /\ stape_blank (snd x) = true.
Lemma blank_start_init x : blank_start x -> shifted (s_pos (snd x)) init (emb x).
Proof.
  intros [A B]. split; [cbn; auto|]. split; [cbn; lia|]. intro i. cbn. rewrite blank_look; auto.
Qed.
Lemma start_never x : blank_start x -> (forall k, exists c, steps M k (emb x) = Some c) -> never_halts M.
Proof.
  intros B H k. destruct (H k) as (c & E). pose proof (steps_shifted M k _ _ _ (blank_start_init x B)) as Sh.
  rewrite E in Sh. destruct (steps M k init); [eauto|contradiction].
Qed.

(** Back at a blank window in the start state. *)
Lemma again_never j x y : blank_start x -> (0 < j)%nat -> inners j x y -> blank_start y -> never_halts M.
Proof.
  intros B L H B'. apply (start_never x B). destruct (inners_emb _ _ _ H) as (c & E & Q).
  eapply (shifted_loop_forever M (emb x) c j (s_pos (snd y) - s_pos (snd x))); eauto.
  destruct B as [B1 B2], B' as [B1' B2']. destruct Q as (Q1 & Q2 & Q3). cbn in *. split; [cbn; congruence|]. split; [cbn; lia|].
  intro i. rewrite Q3. cbn. rewrite !blank_look; auto.
Qed.
(** A cycle inside. *)
Lemma cycle_never i j x y : blank_start x -> (0 < j)%nat -> inners i x y -> inners j y y -> never_halts M.
Proof.
  intros B L H H'. apply (start_never x B). intro k. destruct (inners_emb _ _ _ H) as (c & E & Q).
  destruct (inners_emb _ _ _ H') as (d & F & G).
  assert (Z0 : forall m, exists e, steps M m (emb y) = Some e).
  { eapply (shifted_loop_forever M (emb y) d j 0); eauto. apply shifted_0. apply ceq_sym; auto. }
  destruct (Z0 k) as (e & Ee). apply ceq_sym in Q. destruct (steps_ceq M k _ _ _ Q Ee) as (f & Ef & _).
  assert (steps M (i + k) (emb x) = Some f) by (rewrite (steps_add_some _ _ _ _ _ E); auto).
  apply (steps_le M (i + k) k (emb x) f); [lia|auto].
Qed.
(** A spin out at the edge of the blank. *)
Lemma spin_never i x y pr sh : blank_start x -> inners i x y -> M (fst y) 0 = Some (pr, sh, fst y) -> s_at_edge (snd y) sh = true -> never_halts M.
Proof.
  intros B H E A. apply (start_never x B). destruct (inners_emb _ _ _ H) as (c & Ec & Q). unfold s_at_edge in A. zb.
  assert (Sp : spins_out_from M c).
  { destruct Q as (Q1 & Q2 & Q3). cbn in Q1, Q2, Q3.
    refine (spin_out_lemma M c sh pr _ _).
    - rewrite Q1. exact E.
    - intros k Hk. rewrite Q2, Q3. unfold look. destruct sh.
      + destruct (Z.eqb_spec (s_pos (snd y) + k) (s_pos (snd y))).
        * destruct (s_scan (snd y)); [zb; auto|discriminate].
        * destruct (Z.ltb_spec (s_pos (snd y) + k) (s_pos (snd y))); [lia|]. apply blank_span_nth; auto.
      + destruct (Z.eqb_spec (s_pos (snd y) - k) (s_pos (snd y))).
        * destruct (s_scan (snd y)); [zb; auto|discriminate].
        * destruct (Z.ltb_spec (s_pos (snd y) - k) (s_pos (snd y))); [|lia]. apply blank_span_nth; auto. }
  intro k. destruct Sp as (dir & Sp). destruct (Sp k) as (d & Ed & _).
  assert (steps M (i + k) (emb x) = Some d) by (rewrite (steps_add_some _ _ _ _ _ Ec); auto).
  apply (steps_le M (i + k) k (emb x) d); [lia|auto].
Qed.
End Seg.
