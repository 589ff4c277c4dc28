(** * The search of the segment decider *)
From Verif Require Import Base TM TMFacts ProgModel ParseModel ParseProofs NormModel NormProofs GraphModel GraphProofs ReasonSpec ReasonKinds SegModel SegSpec SegProofs.

Lemma range_nodup n : NoDup (range n).
Proof. unfold range. apply FinFun.Injective_map_NoDup; [intros x y; lia|apply seq_NoDup]. Qed.

(** ** Counting and repetition *)
Definition count {A} (f : A -> bool) (l : list A) : nat := length (filter f l).
Lemma count_le {A} (f g : A -> bool) l : (forall x, In x l -> g x = true -> f x = true) -> (count g l <= count f l)%nat.
Proof.
  unfold count. induction l as [|a l IH]; intro H; cbn; [lia|].
  assert (IH' := IH (fun x I => H x (or_intror I))).
  destruct (g a) eqn:G; [rewrite (H a (or_introl eq_refl) G); cbn; lia|]. destruct (f a); cbn; lia.
Qed.
Lemma count_lt {A} (f g : A -> bool) l a : (forall x, In x l -> g x = true -> f x = true) -> In a l -> f a = true -> g a = false ->
  (count g l < count f l)%nat.
Proof.
  induction l as [|b l IH]; intros H I Fa Ga; [contradiction|]. unfold count in *. cbn.
  pose proof (count_le f g l (fun x X => H x (or_intror X))) as Le. unfold count in Le.
  destruct I as [->|I].
  - rewrite Fa, Ga. cbn. lia.
  - specialize (IH (fun x X => H x (or_intror X)) I Fa Ga).
    destruct (g b) eqn:G; [rewrite (H b (or_introl eq_refl) G); cbn; lia|]. destruct (f b); cbn; lia.
Qed.

Lemma dup_nth {A} (dec : forall a b : A, {a = b} + {a <> b}) (l : list A) : ~ NoDup l ->
  exists i j x, (i < j)%nat /\ nth_error l i = Some x /\ nth_error l j = Some x.
Proof.
  induction l as [|a l IH]; intro H; [destruct H; constructor|]. destruct (in_dec dec a l) as [I|I].
  - apply In_nth_error in I. destruct I as (j & E). exists 0%nat, (S j), a. split; [lia|auto].
  - destruct IH as (i & j & x & L & E1 & E2); [intro N; apply H; constructor; auto|]. exists (S i), (S j), x. split; [lia|auto].
Qed.
Lemma repeats {A} (dec : forall a b : A, {a = b} + {a <> b}) (U : list A) (f : nat -> A) :
  (forall i, (i <= length U)%nat -> In (f i) U) -> exists i j, (i < j <= length U)%nat /\ f i = f j.
Proof.
  intro H. set (l := map f (seq 0 (S (length U)))).
  assert (Nt : forall i x, nth_error l i = Some x -> (i <= length U)%nat /\ x = f i).
  { intros i x E. assert (L : (i < length l)%nat) by (apply nth_error_Some; congruence). unfold l in L. rewrite map_length, seq_length in L.
    split; [lia|]. unfold l in E. rewrite nth_error_map in E. destruct (nth_error (seq 0 (S (length U))) i) as [k|] eqn:Ek; [|discriminate].
    apply (nth_error_nth _ _ 0%nat) in Ek. rewrite seq_nth in Ek by lia. cbn in E. inv E. auto. }
  destruct (dup_nth dec l) as (i & j & x & L & E1 & E2).
  - intro N. assert (Q : (length l <= length U)%nat).
    { apply NoDup_incl_length; auto. intros y I. unfold l in I. apply in_map_iff in I. destruct I as (k & <- & I). apply in_seq in I. apply H. lia. }
    unfold l in Q. rewrite map_length, seq_length in Q. lia.
  - apply Nt in E1. apply Nt in E2. exists i, j. split; [lia|]. destruct E1, E2. congruence.
Qed.

(** All lists over [0 .. c-1] of length at most [k]. *)
Fixpoint lists (c : Z) (k : nat) : list (list Z) :=
  match k with
  | O => [[]]
  | S k => [] :: flat_map (fun l => map (fun x => x :: l) (range c)) (lists c k)
  end.
Lemma lists_in c k : forall l, (length l <= k)%nat -> (forall x, In x l -> 0 <= x < c) -> In l (lists c k).
Proof.
  induction k; intros l L H.
  - destruct l; [left; auto|cbn in L; lia].
  - destruct l as [|x l]; [left; auto|]. right. apply in_flat_map. exists l. split.
    + apply IHk; [cbn in L; lia|intros; apply H; right; auto].
    + apply in_map_iff. exists x. split; [auto|]. apply range_in. apply H. left; auto.
Qed.
Lemma st_dec : forall a b : st, {a = b} + {a <> b}.
Proof. intros. repeat decide equality. Qed.

Section Seg.
Variable prog : comp_prog.
Notation M := (machine_of prog).
Variable S0 C0 n : Z.
Hypothesis Hn : 0 < n.
Hypothesis HS : 0 < S0.
Hypothesis HC : 0 < C0.
Hypothesis cov : forall s c pr sh t, 0 <= s < S0 -> 0 <= c < C0 -> M s c = Some (pr, sh, t) -> 0 <= pr < C0 /\ 0 <= t < S0.
Notation inner := (inner prog).
Notation inners := (inners prog).
Notation astep := (astep prog C0).

Definition conf_of (c : sconf) : st := (sc_state c, sc_tape c).
Definition colours_ok (t : stape) : Prop := forall i, 0 <= look t i < C0.
Definition okst (x : st) : Prop := wft n (snd x) /\ 0 <= fst x < S0 /\ colours_ok (snd x).

Lemma look_scan t c : s_scan t = Some c -> look t (s_pos t) = c.
Proof. intro E. unfold look. rewrite Z.eqb_refl, E. auto. Qed.
Lemma inner_ok x y : okst x -> inner x y -> okst y.
Proof.
  intros (W & R & K) (c & pr & sh & A & B & E).
  assert (Rc : 0 <= c < C0) by (rewrite <- (look_scan _ _ A); apply K).
  destruct (cov _ _ _ _ _ R Rc B) as [P Q]. split; [rewrite E; eapply step_wft; eauto|]. split; [auto|].
  intro i. rewrite E, (step_look _ c sh pr i A). bdestr; auto.
Qed.
Lemma inners_ok k x y : okst x -> inners k x y -> okst y.
Proof. intros O H. induction H; auto. eapply inner_ok; [apply IHinners; exact O|eauto]. Qed.

Lemma inners_1 x y : inners 1 x y -> inner x y.
Proof. intro H. inversion H as [|? ? y0 ? H1 H2]; subst. inversion H1; subst. auto. Qed.

(** ** run_to_edge *)
Definition orbit (x : st) (i : nat) (y : st) : Prop := exists j, (j <= i)%nat /\ inners j x y.
Definition blanks_from (x : st) (i : nat) (old new : list (Z * Z)) : Prop :=
  forall e, In e new -> In e old \/ exists y, orbit x i y /\ fst e = fst y /\ stape_blank (snd y) = true /\ snd e = s_pos (snd y).
Definition same_but_blanks (a b : sconfigs) : Prop :=
  cs_seg a = cs_seg b /\ cs_todo a = cs_todo b /\ cs_seen a = cs_seen b /\ cs_reached a = cs_reached b.

Lemma orbit_mono x i i' y : (i <= i')%nat -> orbit x i y -> orbit x i' y.
Proof. intros L (j & A & B). exists j. split; [lia|auto]. Qed.
Lemma blanks_mono x i i' old new : (i <= i')%nat -> blanks_from x i old new -> blanks_from x i' old new.
Proof. intros L H e I. destruct (H e I) as [|(y & O & R)]; auto. right. exists y. split; [eapply orbit_mono; eauto|auto]. Qed.

Definition run_ok (x : st) (old : sconfigs) (r : run_res * sconf * sconfigs) : Prop :=
  let '(res, self, cs) := r in
  res = RFuel \/
  exists i, inners i x (conf_of self) /\ same_but_blanks old cs /\ blanks_from x i (cs_blanks old) (cs_blanks cs) /\
    match res with
    | REdge => s_scan (sc_tape self) = None
    | RRes SHalted => exists c, s_scan (sc_tape self) = Some c /\ M (sc_state self) c = None
    | RRes SSpinout => never_halts M
    | RRes SRepeat => (sc_init self = true -> never_halts M) /\ (sc_init self = false -> exists j, (j < i)%nat /\ inners j x (conf_of self))
    | _ => False
    end.

Lemma run_loop_ok x old : forall fuel self step copy cs i k,
  inners i x (conf_of self) -> i = (2 * k + if step : bool then 1 else 0)%nat -> inners k x copy ->
  (sc_init self = true -> exists j y, (j <= i)%nat /\ inners j x y /\ blank_start y) ->
  same_but_blanks old cs -> blanks_from x i (cs_blanks old) (cs_blanks cs) ->
  run_ok x old (run_loop prog fuel self step copy cs).
Proof.
  induction fuel as [|fuel IH]; intros self step copy cs i k I Ei Ic Hi Sm Bl; cbn [run_loop]; [left; auto|].
  destruct (s_scan (sc_tape self)) as [scan|] eqn:Sc; [|right; exists i; auto].
  destruct (comp_get prog (sc_state self, scan)) as [[[pr sh] state]|] eqn:Eg.
  2:{ right. exists i. split; [auto|]. split; [auto|]. split; [auto|]. exists scan. auto. }
  destruct (sc_init self && (sc_state self =? state) && s_at_edge (sc_tape self) sh) eqn:Sp.
  { right. exists i. split; [auto|]. split; [auto|]. split; [auto|].
    apply andb_prop in Sp. destruct Sp as [Sp Ed]. apply andb_prop in Sp. destruct Sp as [In Es]. apply Z.eqb_eq in Es. subst state.
    destruct (Hi In) as (j & y & L & Iy & By).
    replace i with (j + (i - j))%nat in I by lia. destruct (inners_split _ _ _ _ _ I) as (y' & A & B).
    assert (y' = y) by (eapply inners_det; eauto). subst y'.
    assert (scan = 0). { unfold s_at_edge in Ed. rewrite Sc in Ed. zb. auto. } subst scan.
    eapply (spin_never prog (i - j) y (conf_of self) pr sh); eauto. }
  set (tape := s_step (sc_tape self) sh pr).
  assert (I' : inners (S i) x (state, tape)).
  { econstructor; [exact I|]. exists scan, pr, sh. cbn. auto. }
  destruct ((pr =? 0) && stape_blank tape && (state =? 0) && sc_init self) eqn:Rp.
  { right. exists (S i). apply andb_prop in Rp. destruct Rp as [Rp In]. apply andb_prop in Rp. destruct Rp as [Rp Es].
    apply andb_prop in Rp. destruct Rp as [_ Bt]. apply Z.eqb_eq in Es. subst state.
    split; [exact I'|]. split; [auto|]. split; [eapply blanks_mono; [|eauto]; lia|]. cbn [sc_init]. split; [|discriminate]. intros _.
    destruct (Hi In) as (j & y & L & Iy & By).
    replace (S i) with (j + (S i - j))%nat in I' by lia. destruct (inners_split _ _ _ _ _ I') as (y' & A & B).
    assert (y' = y) by (eapply inners_det; eauto). subst y'.
    refine (again_never prog (S i - j) y (0, tape) By _ B _); [lia|]. split; auto. }
  set (blank := (pr =? 0) && stape_blank tape) in *.
  set (self' := SC state tape (sc_init self || (blank && (state =? 0)))).
  set (cs' := if blank then add_blank cs state (s_pos tape) else cs).
  assert (Hi' : sc_init self' = true -> exists j y, (j <= S i)%nat /\ inners j x y /\ blank_start y).
  { cbn [self' sc_init]. intro H. apply orb_prop in H. destruct H as [H|H].
    - destruct (Hi H) as (j & y & L & Q). exists j, y. split; [lia|auto].
    - apply andb_prop in H. destruct H as [H Es]. apply andb_prop in H. destruct H as [_ Bt]. apply Z.eqb_eq in Es.
      exists (S i), (state, tape). split; [lia|]. split; [auto|]. split; auto. }
  assert (Sm' : same_but_blanks old cs').
  { unfold cs'. destruct blank; auto. }
  assert (Bl' : blanks_from x (S i) (cs_blanks old) (cs_blanks cs')).
  { unfold cs'. destruct blank eqn:Bk; [|eapply blanks_mono; [|eauto]; lia].
    intros e [<-|Ie]; [|destruct (Bl e Ie) as [|(y & O & Q)]; [auto|right; exists y; split; [eapply orbit_mono; [|eauto]; lia|auto]]].
    right. exists (state, tape). split; [exists (S i); split; [lia|auto]|]. cbn. apply andb_prop in Bk. destruct Bk. auto. }
  destruct step; cbn [negb].
  - (* the copy steps *)
    assert (Lk : (k + 1 <= S i)%nat) by lia.
    replace (S i) with (k + (1 + (i - k)))%nat in I' by lia. destruct (inners_split _ _ _ _ _ I') as (y & A & B).
    assert (y = copy) by (eapply inners_det; eauto). subst y.
    destruct (inners_split _ _ _ _ _ B) as (z & B1 & B2). apply inners_1 in B1.
    destruct B1 as (c & cp & csh & Csc & Cg & Ct). unfold machine_of in Cg. destruct copy as [cst ctp]. cbn [fst snd] in *.
    rewrite Csc, Cg. destruct z as [zs zt]. cbn [fst snd] in *. subst zt.
    assert (Iz : inners (S k) x (zs, s_step ctp csh cp)).
    { econstructor; [exact Ic|]. exists c, cp, csh. cbn. auto. }
    destruct ((zs =? state) && stape_eqb (s_step ctp csh cp) tape) eqn:Eq.
    + apply andb_prop in Eq. destruct Eq as [E1 E2]. apply Z.eqb_eq in E1. apply stape_eqb_eq in E2.
      assert (Iself : inners (S k) x (conf_of self')) by (unfold conf_of; cbn [self' sc_state sc_tape]; rewrite <- E1, <- E2; exact Iz).
      assert (I2 : inners (S i) x (conf_of self')). { replace (S i) with (k + (1 + (i - k)))%nat by lia. exact I'. }
      right. exists (S i). split; [exact I2|]. split; [auto|]. split; [auto|]. split.
      * intro Hin. destruct (Hi' Hin) as (j & y & L & Iy & By).
        (* the loop from self' to self' has length i - k; go round it once more *)
        assert (Lp : inners (i - k) (conf_of self') (conf_of self')).
        { replace (S i) with (S k + (i - k))%nat in I2 by lia. destruct (inners_split _ _ _ _ _ I2) as (u & U1 & U2).
          assert (u = conf_of self') by (eapply inners_det; eauto). subst u. exact U2. }
        replace (S i) with (j + (S i - j))%nat in I2 by lia. destruct (inners_split _ _ _ _ _ I2) as (u & U1 & U2).
        assert (u = y) by (eapply inners_det; eauto). subst u.
        refine (cycle_never prog (S i - j) (i - k) y (conf_of self') By _ U2 Lp). lia.
      * intros _. exists (S k). split; [lia|auto].
    + eapply (IH self' false (zs, s_step ctp csh cp) cs' (S i) (S k)); auto; try lia.
      replace (S i) with (k + (1 + (i - k)))%nat by lia. exact I'.
  - eapply (IH self' true copy cs' (S i) k); auto. lia.
Qed.

Lemma run_to_edge_ok fuel self cs : (sc_init self = true -> blank_start (conf_of self)) -> run_ok (conf_of self) cs (run_to_edge prog fuel self cs).
Proof.
  intro H. assert (SB : same_but_blanks cs cs) by (repeat split; auto).
  assert (BF : forall i, blanks_from (conf_of self) i (cs_blanks cs) (cs_blanks cs)) by (intros i e I; auto).
  unfold run_to_edge. destruct (s_scan (sc_tape self)) eqn:Sc.
  - apply (run_loop_ok (conf_of self) cs fuel self false (sc_state self, sc_tape self) cs 0 0); auto; try constructor.
    intro Hi. exists 0%nat, (conf_of self). split; [lia|]. split; [constructor|auto].
  - right. exists 0%nat. split; [constructor|]. auto.
Qed.

(** ** All windows *)
Definition scans : list (option Z) := None :: map Some (range C0).
Definition universe : list st :=
  flat_map (fun s => flat_map (fun c => flat_map (fun l => map (fun r => (s, ST c l r)) (lists C0 (Z.to_nat n))) (lists C0 (Z.to_nat n))) scans) (range S0).
Lemma look_l t i : (i < length (s_l t))%nat -> wft n t -> nth i (s_l t) 0 = look t (s_pos t - 1 - Z.of_nat i).
Proof. intros L W. unfold look. bdestr; try lia. f_equal. lia. Qed.
Lemma look_r t i : nth i (s_r t) 0 = look t (s_pos t + 1 + Z.of_nat i).
Proof. unfold look. bdestr; try lia. f_equal. lia. Qed.
Lemma universe_in x : okst x -> In x universe.
Proof.
  destruct x as [s [c l r]]. intros (W & R & K). cbn [fst snd] in *. unfold universe.
  apply in_flat_map. exists s. split; [apply range_in; auto|]. apply in_flat_map. exists c. split.
  { destruct c as [c|]; [right; apply in_map; apply range_in; rewrite <- (look_scan (ST (Some c) l r) c eq_refl); apply K|left; auto]. }
  assert (Le : (length l <= Z.to_nat n)%nat /\ (length r <= Z.to_nat n)%nat).
  { unfold wft in W. cbn [s_scan s_l s_r] in W. destruct c; lia. }
  apply in_flat_map. exists l. split.
  { apply lists_in; [lia|]. intros x I. apply (In_nth _ _ 0) in I. destruct I as (i & L & <-).
    pose proof (look_l (ST c l r) i L W) as E. cbn [s_l] in E. rewrite E. apply K. }
  apply in_map_iff. exists r. split; auto. apply lists_in; [lia|]. intros x I. apply (In_nth _ _ 0) in I. destruct I as (i & L & <-).
  pose proof (look_r (ST c l r) i) as E. cbn [s_r] in E. rewrite E. apply K.
Qed.

(** ** Runs end *)
Definition nxt (x : st) : st :=
  match s_scan (snd x) with
  | None => x
  | Some c => match M (fst x) c with None => x | Some (pr, sh, s) => (s, s_step (snd x) sh pr) end
  end.
Lemma inner_nxt x y : inner x y -> y = nxt x.
Proof. intros (c & pr & sh & A & B & C). unfold nxt. rewrite A, B, <- C. destruct y; auto. Qed.
Fixpoint itn (k : nat) (x : st) : st := match k with O => x | S k => nxt (itn k x) end.
Lemma inners_nxt k x y : inners k x y -> y = itn k x.
Proof. induction 1; auto. cbn. rewrite (inner_nxt _ _ H0). congruence. Qed.
Lemma iter_plus (x : st) a b : itn (a + b) x = itn a (itn b x).
Proof. induction a; cbn; auto. rewrite IHa. auto. Qed.
Lemma iter_cycle (x : st) i d : itn i x = itn (i + d) x -> forall t q, itn (i + t) x = itn (i + t + q * d) x.
Proof.
  intros H t. assert (G : forall t, itn (i + t) x = itn (i + t + d) x).
  { intro u. rewrite (Nat.add_comm i u), <- Nat.add_assoc, (iter_plus x u i), (iter_plus x u (i + d)), H. auto. }
  induction q; [rewrite Nat.add_0_r; auto|]. rewrite IHq. replace (i + t + S q * d)%nat with (i + (t + q * d) + d)%nat by lia.
  rewrite <- G. f_equal. lia.
Qed.

Lemma run_loop_fuel x : forall fuel self step copy cs i k self' cs',
  inners i x (conf_of self) -> i = (2 * k + if step : bool then 1 else 0)%nat -> inners k x copy ->
  run_loop prog fuel self step copy cs = (RFuel, self', cs') ->
  exists y, inners (i + fuel) x y /\ forall k', (k < k')%nat -> (2 * k' <= i + fuel)%nat -> itn k' x <> itn (2 * k') x.
Proof.
  induction fuel as [|fuel IH]; intros self step copy cs i k self' cs' I Ei Ic H; cbn [run_loop] in H.
  - exists (conf_of self). rewrite Nat.add_0_r. split; auto. intros k' L1 L2. destruct step; lia.
  - destruct (s_scan (sc_tape self)) as [scan|] eqn:Sc; [|discriminate].
    destruct (comp_get prog (sc_state self, scan)) as [[[pr sh] state]|] eqn:Eg; [|discriminate].
    destruct (sc_init self && _ && _) in H; [discriminate|].
    set (tape := s_step (sc_tape self) sh pr) in *.
    assert (I' : inners (S i) x (state, tape)) by (econstructor; [exact I|]; exists scan, pr, sh; cbn; auto).
    destruct ((pr =? 0) && _ && _ && _) in H; [discriminate|].
    replace (i + S fuel)%nat with (S i + fuel)%nat by lia.
    destruct step; cbn [negb] in H.
    + destruct (s_scan (snd copy)) as [c|] eqn:Csc; [|discriminate].
      destruct (comp_get prog (fst copy, c)) as [[[cp csh] cst]|] eqn:Cg; [|discriminate].
      assert (Iz : inners (S k) x (cst, s_step (snd copy) csh cp)) by (econstructor; [exact Ic|]; exists c, cp, csh; cbn; auto).
      destruct ((cst =? state) && stape_eqb (s_step (snd copy) csh cp) tape) eqn:Eq; [discriminate|].
      eapply (IH _ _ _ _ (S i) (S k)) in H; [|exact I'|lia|exact Iz]. destruct H as (y & Y1 & Y2). exists y. split; auto.
      intros k' L1 L2. destruct (Nat.eq_dec k' (S k)) as [->|]; [|apply Y2; lia].
      rewrite <- (inners_nxt _ _ _ Iz). replace (2 * S k)%nat with (S i) by lia. rewrite <- (inners_nxt _ _ _ I').
      intro E. injection E as E1 E2. rewrite E1, Z.eqb_refl in Eq. cbn [andb] in Eq. rewrite (proj2 (stape_eqb_eq _ _) E2) in Eq. discriminate.
    + eapply (IH _ _ _ _ (S i) k) in H; [|exact I'|lia|exact Ic]. destruct H as (y & Y1 & Y2). exists y. split; auto.
Qed.
Lemma run_to_edge_fuel self cs fuel self' cs' : okst (conf_of self) -> (2 * length universe <= fuel)%nat ->
  run_to_edge prog fuel self cs <> (RFuel, self', cs').
Proof.
  intros O L H. unfold run_to_edge in H. destruct (s_scan _) as [v|]; [|discriminate].
  destruct (run_loop_fuel (conf_of self) fuel self false (sc_state self, sc_tape self) cs 0 0 self' cs' (inn_0 _ _) eq_refl (inn_0 _ _) H) as (y & Y1 & Y2).
  cbn [Nat.add] in Y1, Y2.
  destruct (repeats st_dec universe (fun i => itn i (conf_of self))) as (i & j & Lj & E).
  - intros i Li. replace fuel with (i + (fuel - i))%nat in Y1 by lia. destruct (inners_split _ _ _ _ _ Y1) as (z & A & _).
    rewrite <- (inners_nxt _ _ _ A). apply universe_in. eapply inners_ok; eauto.
  - set (d := (j - i)%nat). set (k := (d * (i / d + 1))%nat).
    assert (Dd : d <> 0%nat) by (unfold d; lia).
    assert (B1 : (i < k)%nat). { unfold k. pose proof (Nat.div_mod i d Dd). pose proof (Nat.mod_upper_bound i d Dd). nia. }
    assert (B2 : (k <= j)%nat). { unfold k. pose proof (Nat.div_mod i d Dd). unfold d in *. nia. }
    apply (Y2 k); [lia|lia|]. replace j with (i + d)%nat in E by (unfold d; lia).
    pose proof (iter_cycle (conf_of self) i d E (k - i) (i / d + 1)) as Q.
    replace (i + (k - i))%nat with k in Q by lia. rewrite Q. f_equal. unfold k. lia.
Qed.

(** ** The measure of the search *)
Definition ublanks : list (Z * Z) := flat_map (fun s => map (fun p => (s, p)) (range (n + 2))) (range S0).
Lemma ublanks_in s p : 0 <= s < S0 -> 0 <= p < n + 2 -> In (s, p) ublanks.
Proof. intros A B. apply in_flat_map. exists s. split; [apply range_in; auto|]. apply in_map. apply range_in; auto. Qed.
Definition unew (cs : sconfigs) : nat :=
  (count (fun e => negb (sblanks_has (cs_blanks cs) (fst e) (snd e))) ublanks + count (fun e => negb (seen_has (cs_seen cs) (fst e) (snd e))) universe)%nat.
Definition meas (cs : sconfigs) : nat := (2 * unew cs + length (cs_todo cs))%nat.
Lemma add_blank_unew cs s p : (unew (add_blank cs s p) <= unew cs)%nat /\
  (0 <= s < S0 -> 0 <= p < n + 2 -> sblanks_has (cs_blanks cs) s p = false -> (unew (add_blank cs s p) < unew cs)%nat).
Proof.
  unfold unew. cbn [add_blank cs_blanks cs_seen]. 
  assert (Mo : forall e : Z * Z, In e ublanks -> negb (sblanks_has ((s, p) :: cs_blanks cs) (fst e) (snd e)) = true ->
    negb (sblanks_has (cs_blanks cs) (fst e) (snd e)) = true).
  { intros e _ H. unfold sblanks_has in *. cbn [existsb] in H. apply negb_true_iff in H. apply orb_false_elim in H. rewrite (proj2 H). auto. }
  split.
  - pose proof (count_le _ _ ublanks Mo). lia.
  - intros Rs Rp H.
    assert (count (fun e => negb (sblanks_has ((s, p) :: cs_blanks cs) (fst e) (snd e))) ublanks
      < count (fun e => negb (sblanks_has (cs_blanks cs) (fst e) (snd e))) ublanks)%nat.
    { apply (count_lt _ _ ublanks (s, p) Mo); [apply ublanks_in; auto|cbn; rewrite H; auto|].
      unfold sblanks_has. cbn [existsb fst snd]. rewrite !Z.eqb_refl. auto. }
    lia.
Qed.
Lemma add_seen_unew cs s t : okst (s, t) -> seen_has (cs_seen cs) s t = false -> (unew (add_seen cs s t) < unew cs)%nat.
Proof.
  intros O H. unfold unew. cbn [add_seen cs_blanks cs_seen].
  assert (count (fun e => negb (seen_has ((s, t) :: cs_seen cs) (fst e) (snd e))) universe
      < count (fun e => negb (seen_has (cs_seen cs) (fst e) (snd e))) universe)%nat; [|lia].
  apply (count_lt _ _ universe (s, t)).
  - intros e _ K. unfold seen_has in *. cbn [existsb] in K. apply negb_true_iff in K. apply orb_false_elim in K. rewrite (proj2 K). auto.
  - apply universe_in; auto.
  - cbn. rewrite H. auto.
  - unfold seen_has. cbn [existsb fst snd]. rewrite Z.eqb_refl, (proj2 (stape_eqb_eq t t) eq_refl). auto.
Qed.
Lemma enter_meas cs s t : okst (s, t) -> (meas (enter cs s t) <= meas cs)%nat.
Proof.
  intro O. unfold enter, check_seen. destruct (stape_blank t).
  - destruct (sblanks_has (cs_blanks cs) s (s_pos t)) eqn:H; [lia|].
    destruct (add_blank_unew cs s (s_pos t)) as [_ Q]. destruct O as (W & R & _). pose proof (s_pos_bounds n t Hn W). cbn [fst] in R.
    specialize (Q R ltac:(lia) H). unfold meas. unfold unew in *. cbn [push_todo add_blank cs_todo cs_blanks cs_seen length] in *. lia.
  - destruct (seen_has (cs_seen cs) s t) eqn:H; [lia|]. pose proof (add_seen_unew cs s t O H) as Q.
    unfold meas. unfold unew in *. cbn [push_todo add_seen cs_todo cs_blanks cs_seen length] in *. lia.
Qed.
Lemma branch_out_meas t ss : forall cs, (forall s, In s ss -> okst (s, t)) -> (meas (branch_out cs t ss) <= meas cs)%nat.
Proof.
  unfold branch_out. induction ss as [|s ss IH]; intros cs H; cbn [fold_left]; [lia|].
  pose proof (enter_meas cs s t (H s (or_introl eq_refl))). specialize (IH (enter cs s t) (fun s' X => H s' (or_intror X))). lia.
Qed.
Lemma branch_in_meas t sh t' ss : s_step_in t sh = Some t' -> forall cs cs', (forall s, In s ss -> okst (s, t')) ->
  branch_in_loop cs t sh ss = Some cs' -> (meas cs' <= meas cs)%nat.
Proof.
  intro E. induction ss as [|s ss IH]; intros cs cs' H B; cbn [branch_in_loop] in B; [inv B; lia|]. rewrite E in B.
  pose proof (enter_meas cs s t' (H s (or_introl eq_refl))). specialize (IH (enter cs s t') cs' (fun s' X => H s' (or_intror X)) B). lia.
Qed.
Lemma run_meas fuel : forall self step copy cs res self' cs', run_loop prog fuel self step copy cs = (res, self', cs') -> (meas cs' <= meas cs)%nat.
Proof.
  induction fuel as [|fuel IH]; intros self step copy cs res self' cs' H; cbn [run_loop] in H; [inv H; lia|].
  destruct (s_scan (sc_tape self)) as [scan|]; [|inv H; lia].
  destruct (comp_get prog (sc_state self, scan)) as [[[pr sh] state]|]; [|inv H; lia].
  destruct (sc_init self && _ && _) in H; [inv H; lia|].
  destruct ((pr =? 0) && _ && _ && _) in H; [inv H; lia|].
  set (b := (pr =? 0) && _) in H. set (p := s_pos _) in H.
  assert (Q : (meas (if b then add_blank cs state p else cs) <= meas cs)%nat).
  { destruct b; [|lia]. unfold meas. destruct (add_blank_unew cs state p) as [Q _]. cbn [add_blank cs_todo]. lia. }
  destruct step; cbn [negb] in H; [|apply IH in H; lia].
  destruct (s_scan (snd copy)); [|inv H; lia]. destruct (comp_get prog _) as [[[cp csh] cst]|] in H; [|inv H; lia].
  destruct ((cst =? state) && _) in H; [inv H; lia|apply IH in H; lia].
Qed.
Lemma run_to_edge_meas fuel self cs res self' cs' : run_to_edge prog fuel self cs = (res, self', cs') -> (meas cs' <= meas cs)%nat.
Proof. unfold run_to_edge. destruct (s_scan _); intro H; [eapply run_meas; eauto|inv H; lia]. Qed.
Lemma next_meas cs cs' c : cs_seg cs = n + 2 -> next_config cs = Some (cs', c) -> (meas cs' < meas cs)%nat.
Proof.
  intros E H. unfold next_config, next_init in H. destruct (find _ _) as [p|] eqn:F.
  - inv H. apply find_some in F. destruct F as [Rp F]. apply range_in in Rp. rewrite E in Rp. apply negb_true_iff in F.
    destruct (add_blank_unew cs 0 p) as [_ Q]. specialize (Q ltac:(lia) ltac:(lia) F). unfold meas. cbn [add_blank cs_todo]. lia.
  - destruct (cs_todo cs) eqn:T; [discriminate|]. inv H. unfold meas, unew. rewrite T. cbn [cs_todo cs_blanks cs_seen length]. lia.
Qed.
Lemma check_reached_meas cs c cs' b : check_reached cs c = (cs', b) -> meas cs' = meas cs.
Proof. unfold check_reached. destruct (dget _ _); intro H; inv H; auto. Qed.

(** ** The invariant of the search *)
Definition cover (D : st -> Prop) (cs : sconfigs) (x : st) : Prop := D x \/ In x (map conf_of (cs_todo cs)).
Record Inv0 (D : st -> Prop) (cs : sconfigs) : Prop := {
  i_seg : cs_seg cs = n + 2;
  i_ok : forall x, cover D cs x -> okst x;
  i_blanks : forall s p, In (s, p) (cs_blanks cs) -> cover D cs (s, stape_init (n + 2) p);
  i_seen : forall s t, In (s, t) (cs_seen cs) -> cover D cs (s, t);
  i_init : forall c, In c (cs_todo cs) -> sc_init c = true -> blank_start (conf_of c)
}.
Definition closed (D : st -> Prop) (cs : sconfigs) : Prop := forall x y, D x -> astep x y -> cover D cs y.
Definition stuck (x : st) : Prop := match s_scan (snd x) with None => True | Some c => M (fst x) c = None end.
Definition reached_ok (D : st -> Prop) (cs : sconfigs) : Prop :=
  forall x, D x -> stuck x -> forall l, dget (cs_reached cs) (fst x) = Some l -> In (s_pos (snd x)) l.
Definition reached_wf (cs : sconfigs) : Prop :=
  (forall s, In s (seg_halts prog (S0, C0)) -> dget (cs_reached cs) s <> None) /\
  forall s l, dget (cs_reached cs) s = Some l -> NoDup l /\ (forall p, In p l -> 0 <= p < n + 2) /\ Z.of_nat (length l) <> n + 2.

(** Going on with one more config. *)
Definition grows (D : st -> Prop) (cs cs' : sconfigs) : Prop :=
  Inv0 D cs' /\ (forall x, cover D cs x -> cover D cs' x) /\ cs_reached cs' = cs_reached cs.

Lemma existsb_false_in {A} (f : A -> bool) l : existsb f l = false -> forall x, In x l -> f x = false.
Proof. intros H x I. destruct (f x) eqn:E; auto. rewrite <- H. symmetry. apply existsb_exists. eauto. Qed.

Lemma enter_ok D cs s t : Inv0 D cs -> okst (s, t) -> grows D cs (enter cs s t) /\ cover D (enter cs s t) (s, t).
Proof.
  intros I O. unfold enter, check_seen. destruct (stape_blank t) eqn:B.
  - pose proof (blank_is_init n t Hn (proj1 O) B) as Et.
    destruct (sblanks_has (cs_blanks cs) s (s_pos t)) eqn:H.
    + split; [split; [auto|]; split; auto|]. apply existsb_exists in H. destruct H as ([s' p'] & Ib & E). cbn in E. zb. subst.
      apply (i_blanks _ _ I) in Ib. rewrite <- Et in Ib. auto.
    + split.
      * split; [|split; [|auto]].
        -- destruct I as [I1 I2 I3 I4 I5]. split; cbn; auto.
           ++ intros x [Dx|[<-|Ix]]; [apply I2; left; auto|exact O|apply I2; right; auto].
           ++ intros s' p' [E|Ib].
              ** inv E. right. cbn. left. unfold conf_of. cbn. rewrite <- Et. auto.
              ** destruct (I3 _ _ Ib); [left; auto|right; cbn; auto].
           ++ intros s' t' Ib. destruct (I4 _ _ Ib); [left; auto|right; cbn; auto].
           ++ intros c [<-|Ic] Hc; [|auto]. cbn in Hc. zb. split; auto.
        -- intros x [Dx|Ix]; [left; auto|right; cbn; auto].
      * right. cbn. auto.
  - destruct (seen_has (cs_seen cs) s t) eqn:H.
    + split; [split; [auto|]; split; auto|]. apply existsb_exists in H. destruct H as ([s' t'] & Ib & E). cbn in E.
      apply andb_prop in E. destruct E as [E1 E2]. apply Z.eqb_eq in E1. apply stape_eqb_eq in E2. subst. apply (i_seen _ _ I); auto.
    + split.
      * split; [|split; [|auto]].
        -- destruct I as [I1 I2 I3 I4 I5]. split; cbn; auto.
           ++ intros x [Dx|[<-|Ix]]; [apply I2; left; auto|exact O|apply I2; right; auto].
           ++ intros s' p' Ib. destruct (I3 _ _ Ib); [left; auto|right; cbn; auto].
           ++ intros s' t' [E|Ib].
              ** inv E. right. cbn. auto.
              ** destruct (I4 _ _ Ib); [left; auto|right; cbn; auto].
           ++ intros c [<-|Ic] Hc; [discriminate|auto].
        -- intros x [Dx|Ix]; [left; auto|right; cbn; auto].
      * right. cbn. auto.
Qed.
Lemma grows_trans D a b c : grows D a b -> grows D b c -> grows D a c.
Proof. intros (A1 & A2 & A3) (B1 & B2 & B3). split; [auto|]. split; [auto|congruence]. Qed.
Lemma branch_out_ok D t ss : forall cs, Inv0 D cs -> (forall s, In s ss -> okst (s, t)) ->
  grows D cs (branch_out cs t ss) /\ forall s, In s ss -> cover D (branch_out cs t ss) (s, t).
Proof.
  unfold branch_out. induction ss as [|s ss IH]; intros cs I O; cbn [fold_left].
  - split; [split; [auto|]; split; auto|intros ? []].
  - destruct (enter_ok D cs s t I (O s (or_introl eq_refl))) as [G K].
    destruct (IH (enter cs s t) (proj1 G) (fun s' H => O s' (or_intror H))) as [G' K'].
    split; [eapply grows_trans; eauto|]. intros s' [<-|H]; [|auto]. apply (proj1 (proj2 G')). exact K.
Qed.
Lemma branch_in_ok D t t' sh ss : s_step_in t sh = Some t' -> forall cs, Inv0 D cs -> (forall s, In s ss -> okst (s, t')) ->
  exists cs', branch_in_loop cs t sh ss = Some cs' /\ grows D cs cs' /\ forall s, In s ss -> cover D cs' (s, t').
Proof.
  intros E. induction ss as [|s ss IH]; intros cs I O; cbn [branch_in_loop].
  - exists cs. split; [auto|]. split; [split; [auto|]; split; auto|intros ? []].
  - rewrite E. destruct (enter_ok D cs s t' I (O s (or_introl eq_refl))) as [G K].
    destruct (IH (enter cs s t') (proj1 G) (fun s' H => O s' (or_intror H))) as (cs' & E' & G' & K').
    exists cs'. split; [auto|]. split; [eapply grows_trans; eauto|]. intros s' [<-|H]; [|auto]. apply (proj1 (proj2 G')). exact K.
Qed.

(** The sets of next states. *)
Lemma sorted_set_in x l : In x (sorted_set l) <-> In x l.
Proof.
  unfold sorted_set. assert (G : forall acc, In x (fold_left (fun acc y => sinsert y acc) l acc) <-> In x l \/ In x acc).
  { induction l as [|y l IH]; intro acc; cbn; [tauto|]. rewrite IH, sinsert_in. intuition. }
  rewrite G. cbn. tauto.
Qed.
Lemma instrs_in s o : In o (instrs_of prog C0 s) <-> exists c, 0 <= c < C0 /\ M s c = o.
Proof.
  unfold instrs_of. rewrite in_map_iff. split.
  - intros (c & E & I). apply range_in in I. exists c. auto.
  - intros (c & I & E). exists c. split; auto. apply range_in; auto.
Qed.
Lemma diffs_in s s' : In s' (seg_diffs prog C0 s) <-> s' <> s /\ exists c pr sh, 0 <= c < C0 /\ M s c = Some (pr, sh, s').
Proof.
  unfold seg_diffs. rewrite sorted_set_in, in_flat_map. split.
  - intros (o & I & H). destruct o as [[[pr sh] nx]|]; [|contradiction]. apply instrs_in in I. destruct I as (c & R & E).
    destruct (Z.eqb_spec nx s); cbn in H; [contradiction|]. destruct H as [<-|[]]. split; [auto|]. exists c, pr, sh. auto.
  - intros (Ne & c & pr & sh & R & E). exists (Some (pr, sh, s')). split; [apply instrs_in; eauto|].
    destruct (Z.eqb_spec s' s); [congruence|]. cbn; auto.
Qed.
Lemma dirs_in s dir s' : In s' (seg_dirs prog C0 s dir) <-> exists c pr, 0 <= c < C0 /\ M s c = Some (pr, dir, s').
Proof.
  unfold seg_dirs. rewrite sorted_set_in, in_flat_map. split.
  - intros (o & I & H). destruct o as [[[pr sh] nx]|]; [|contradiction]. apply instrs_in in I. destruct I as (c & R & E).
    destruct (Bool.eqb sh dir) eqn:Ed; cbn in H; [|contradiction]. apply Bool.eqb_prop in Ed. subst. destruct H as [<-|[]]. exists c, pr. auto.
  - intros (c & pr & R & E). exists (Some (pr, dir, s')). split; [apply instrs_in; eauto|]. rewrite Bool.eqb_reflx. cbn; auto.
Qed.
Lemma halts_in s : In s (seg_halts prog (S0, C0)) <-> 0 <= s < S0 /\ exists c, 0 <= c < C0 /\ M s c = None.
Proof.
  unfold seg_halts. rewrite filter_In, range_in, existsb_exists. cbn [fst snd]. split.
  - intros (R & o & I & H). split; auto. destruct o; [discriminate|]. apply instrs_in in I. destruct I as (c & Rc & E). exists c. auto.
  - intros (R & c & Rc & E). split; auto. exists None. split; auto. apply instrs_in. eauto.
Qed.

Lemma edge_ok D cs s t : Inv0 D cs -> okst (s, t) -> s_scan t = None ->
  exists cs1, branch_in cs t (seg_dirs prog C0 s false, seg_dirs prog C0 s true) = Some cs1 /\
  grows D cs (branch_out cs1 t (seg_diffs prog C0 s)) /\ (meas (branch_out cs1 t (seg_diffs prog C0 s)) <= meas cs)%nat /\
  forall y, astep (s, t) y -> y = (s, t) \/ cover D (branch_out cs1 t (seg_diffs prog C0 s)) y.
Proof.
  intros I O Sc. destruct O as (W & R & K). cbn [fst snd] in *. unfold branch_in, s_side. rewrite Sc.
  set (shift := negb match s_r t with [] => true | _ => false end).
  pose proof (s_pos_spec n t Hn W) as P. rewrite Sc in P.
  assert (Mv : 1 <= move shift (s_pos t) <= n /\ forall sh, s_step_in t sh <> None -> sh = shift).
  { split.
    - destruct P as [[L P]|[Rr [NL P]]]; unfold shift.
      + rewrite P. unfold wft in W. rewrite Sc, L in W. destruct (s_r t); cbn in *; lia.
      + rewrite P, Rr. cbn. lia.
    - intros sh H. unfold s_step_in, s_side in H. rewrite Sc in H. unfold shift.
      destruct (Bool.eqb _ _) eqn:Ee in H; [|congruence]. apply Bool.eqb_prop in Ee. rewrite Ee. rewrite negb_involutive. auto. }
  destruct Mv as [Mv Mu].
  destruct (step_in_spec n t shift Hn W Sc Mv) as (t' & E & W' & P' & L').
  assert (K' : colours_ok t').
  { assert (Wt := W'). intro i. destruct (Z_le_dec 1 i); [destruct (Z_le_dec i n)|].
    - rewrite L' by lia. apply K.
    - unfold look. rewrite P'. bdestr; try lia. unfold wft in W'. pose proof (s_pos_spec n t' Hn Wt) as Q.
      destruct (s_scan t') eqn:Sc'; [|destruct Q as [[_ Q]|[_ [_ Q]]]; lia].
      rewrite nth_overflow; [lia|]. lia.
    - unfold look. rewrite P'. bdestr; try lia. unfold wft in W'. pose proof (s_pos_spec n t' Hn Wt) as Q.
      destruct (s_scan t') eqn:Sc'; [|destruct Q as [[_ Q]|[_ [_ Q]]]; lia].
      rewrite nth_overflow; [lia|]. lia. }
  set (ss := if shift then seg_dirs prog C0 s true else seg_dirs prog C0 s false).
  assert (Ess : ss = seg_dirs prog C0 s shift) by (unfold ss; destruct shift; auto).
  assert (O1 : forall s', In s' ss -> okst (s', t')).
  { intros s' H. rewrite Ess in H. apply dirs_in in H. destruct H as (c & pr & Rc & Em). destruct (cov _ _ _ _ _ R Rc Em).
    split; [auto|]. split; auto. }
  assert (O2 : forall s', In s' (seg_diffs prog C0 s) -> okst (s', t)).
  { intros s' H. apply diffs_in in H. destruct H as (_ & c & pr & sh & Rc & Em). destruct (cov _ _ _ _ _ R Rc Em).
    split; [auto|]. split; auto. }
  destruct (branch_in_ok D t t' shift ss E cs I O1) as (cs1 & E1 & G1 & C1).
  destruct (branch_out_ok D t (seg_diffs prog C0 s) cs1 (proj1 G1) O2) as [G2 C2].
  exists cs1. split; [exact E1|]. split; [eapply grows_trans; eauto|].
  split; [pose proof (branch_in_meas t shift t' ss E cs cs1 O1 E1); pose proof (branch_out_meas t _ cs1 O2); lia|].
  intros [s' t1] A. inv A; cbn [fst snd] in *.
  - destruct H as (c & pr & sh & Q & _). cbn in Q. congruence.
  - subst t1. destruct (Z.eq_dec s' s) as [->|Ne]; [auto|]. right. apply C2. apply diffs_in. split; auto. exists c, pr, sh. auto.
  - right. assert (sh = shift) by (apply Mu; congruence). subst sh. assert (t1 = t') by congruence. subst t1.
    apply (proj1 (proj2 G2)). apply C1. rewrite Ess. apply dirs_in. exists c, pr. auto.
Qed.

(** check_reached. *)
Lemma check_reached_ok cs c cs' b : check_reached cs c = (cs', b) -> wft n (sc_tape c) -> cs_seg cs = n + 2 -> reached_wf cs ->
  cs_seg cs' = cs_seg cs /\ cs_todo cs' = cs_todo cs /\ cs_seen cs' = cs_seen cs /\ cs_blanks cs' = cs_blanks cs /\
  (forall s l, dget (cs_reached cs) s = Some l -> exists l', dget (cs_reached cs') s = Some l' /\ incl l l') /\
  (forall s l', dget (cs_reached cs') s = Some l' -> exists l, dget (cs_reached cs) s = Some l /\ incl l l') /\
  (forall l, dget (cs_reached cs') (sc_state c) = Some l -> In (s_pos (sc_tape c)) l) /\
  (b = false -> reached_wf cs').
Proof.
  intros H W Eseg [R1 R2]. unfold check_reached in H. destruct (dget (cs_reached cs) (sc_state c)) as [l|] eqn:G; inv H.
  - cbn. split; [auto|]. split; [auto|]. split; [auto|]. split; [auto|]. split; [|split; [|split]].
    + intros s l0 E. rewrite dget_dset. destruct (Z.eqb_spec (sc_state c) s).
      * subst. eexists. split; [reflexivity|]. rewrite G in E. inv E. intros z I. apply sadd_in; auto.
      * exists l0. split; [auto|apply incl_refl].
    + intros s l' E. rewrite dget_dset in E. destruct (Z.eqb_spec (sc_state c) s).
      * subst. inv E. exists l. split; auto. intros z I. apply sadd_in; auto.
      * exists l'. split; [auto|apply incl_refl].
    + intros l0 E. rewrite dget_dset, Z.eqb_refl in E. inv E. apply sadd_in. auto.
    + intro Hb. zb. split.
      * cbn. intros s I. rewrite dget_dset. destruct (sc_state c =? s); [discriminate|auto].
      * cbn. intros s l0 E. rewrite dget_dset in E. destruct (Z.eqb_spec (sc_state c) s); [|eapply R2; eauto]. subst. inv E.
        destruct (R2 _ _ G) as (A & B & _). split; [apply sadd_nodup; auto|]. split; [|lia].
        intros p I. apply sadd_in in I. destruct I as [->|I]; [|auto]. pose proof (s_pos_bounds n _ Hn W). lia.
  - split; [auto|]. split; [auto|]. split; [auto|]. split; [auto|]. split; [|split; [|split]].
    + intros s l E. exists l. split; [auto|apply incl_refl].
    + intros s l E. exists l. split; [auto|apply incl_refl].
    + intros l E. congruence.
    + intros _. split; auto.
Qed.

Lemma reached_grow (D : st -> Prop) cs cs' :
  (forall s l', dget (cs_reached cs') s = Some l' -> exists l, dget (cs_reached cs) s = Some l /\ incl l l') ->
  reached_ok D cs -> reached_ok D cs'.
Proof. intros H R x Dx Sx l' E. destruct (H _ _ E) as (l & El & Inc). apply Inc. eapply R; eauto. Qed.

(** ** The search *)
Lemma next_ok D cs cs' c : Inv0 D cs -> next_config cs = Some (cs', c) ->
  okst (conf_of c) /\ (sc_init c = true -> blank_start (conf_of c)) /\ cs_reached cs' = cs_reached cs /\
  (forall D' : st -> Prop, (forall x, D x -> D' x) -> D' (conf_of c) -> (forall x, D' x -> okst x) ->
     Inv0 D' cs' /\ forall y, cover D cs y -> cover D' cs' y).
Proof.
  intros I H. destruct I as [I1 I2 I3 I4 I5]. unfold next_config, next_init in H.
  destruct (find _ _) as [p|] eqn:F.
  - inv H. apply find_some in F. destruct F as [Rp _]. apply range_in in Rp. rewrite I1 in Rp.
    destruct (init_wft n p Hn) as (A & B & C); [lia|]. rewrite I1. unfold conf_of. cbn.
    split; [|split; [|split; [auto|]]].
    + split; [auto|]. split; [cbn; lia|]. intro i. cbn [snd]. rewrite blank_look; auto. lia.
    + intros _. split; auto.
    + intros D' S' Dc K. assert (Cv : forall y, cover D cs y -> cover D' (add_blank cs 0 p) y).
      { intros y [Y|Y]; [left; auto|right; auto]. }
      split; [|exact Cv]. split; cbn; auto.
      * intros x [X|X]; [auto|apply I2; right; auto].
      * intros s q [E|E]; [inv E; left; auto|]. apply Cv; auto.
  - destruct (cs_todo cs) as [|c' todo] eqn:T; [discriminate|]. inv H. cbn.
    assert (Ic : cover D cs (conf_of c)) by (right; rewrite T; cbn; auto).
    split; [auto|]. split; [apply I5; cbn; auto|]. split; [auto|].
    intros D' S' Dc K.
    assert (Cv : forall y, cover D cs y -> cover D' (SCS (cs_seg cs) todo (cs_seen cs) (cs_blanks cs) (cs_reached cs)) y).
    { intros y [Y|Y]; [left; auto|]. rewrite T in Y. cbn in Y. destruct Y as [<-|Y]; [left; auto|right; auto]. }
    split; [|exact Cv]. split; cbn; auto.
    + intros x [X|X]; [auto|]. cbn in X. apply I2. right. rewrite T. cbn. auto.
    + intros c0 Ic0. apply I5. cbn; auto.
Qed.

Lemma blanks_inv D cs cs' x i : Inv0 D cs -> same_but_blanks cs cs' -> blanks_from x i (cs_blanks cs) (cs_blanks cs') ->
  (forall y, orbit x i y -> D y) -> Inv0 D cs'.
Proof.
  intros [I1 I2 I3 I4 I5] (S1 & S2 & S3 & S4) B O. split; try congruence.
  - intros y Y. apply I2. unfold cover in *. rewrite S2. auto.
  - intros s p I. unfold cover. rewrite <- S2. destruct (B _ I) as [J|(y & Oy & E1 & E2 & E3)]; [apply I3; auto|].
    cbn in E1, E3. left. assert (Dy := O y Oy). assert (Ok : okst y) by (apply I2; left; auto).
    destruct y as [ys yt]. cbn in *. subst. rewrite <- (blank_is_init n yt Hn (proj1 Ok) E2). auto.
  - intros s t I. rewrite <- S3 in I. unfold cover. rewrite <- S2. apply I4; auto.
  - intros c I. rewrite <- S2 in I. auto.
Qed.

(** Every halting run is seen through all windows. *)
Lemma closed_never D cs : Inv0 D cs -> closed D cs -> reached_ok D cs -> reached_wf cs -> next_config cs = None -> never_halts M.
Proof.
  intros I C R W H. unfold next_config, next_init in H. destruct (find _ _) eqn:F; [discriminate|].
  destruct (cs_todo cs) eqn:T; [|discriminate].
  assert (Cd : forall x, cover D cs x -> D x). { intros x [X|X]; [auto|rewrite T in X; contradiction]. }
  assert (St : forall p, 0 <= p <= n + 1 -> D (0, stape_init (n + 2) p)).
  { intros p Hp. apply Cd. apply (i_blanks _ _ I). assert (Rp : In p (range (cs_seg cs))) by (apply range_in; rewrite (i_seg _ _ I); lia).
    pose proof (find_none _ _ F p Rp) as Q. cbn in Q. apply negb_false_iff in Q. apply existsb_exists in Q.
    destruct Q as ([s q] & Iq & E). cbn in E. zb. subst. auto. }
  apply never_halts_iff. intros (k & slot & c & E & A & B & N).
  pose proof (fun w => sees_run prog S0 C0 n Hn HS HC cov D w k (fun x y X Y => Cd y (C x y X Y)) St c E) as Se.
  destruct (Se 0) as [[R1 R2] _].
  assert (Hh : In (c_state c) (seg_halts prog (S0, C0))).
  { apply halts_in. split; auto. exists (c_tape c (c_pos c)). split; auto. rewrite A, B. auto. }
  destruct W as [W1 W2]. specialize (W1 _ Hh). destruct (dget (cs_reached cs) (c_state c)) as [l|] eqn:G; [|congruence].
  destruct (W2 _ _ G) as (ND & Rg & Ne). apply Ne.
  assert (All : forall p, 0 <= p < n + 2 -> In p l).
  { intros p Hp. destruct (Se (c_pos c - p)) as (_ & t & Dt & Wt & Pt & Lt).
    assert (Ep : s_pos t = p). { rewrite Pt. unfold clamp. lia. }
    rewrite <- Ep. refine (R (c_state c, t) Dt _ l G). unfold stuck. cbn [fst snd]. destruct (s_scan t) as [v|] eqn:Sc; auto.
    assert (1 <= s_pos t <= n) by (apply (s_scan_inside n t Hn Wt); congruence).
    assert (Ev : v = c_tape c (c_pos c)).
    { rewrite <- (look_scan t v Sc). rewrite Lt by auto. f_equal. lia. }
    rewrite Ev, A, B. exact N. }
  assert (L1 : (length l <= length (range (n + 2)))%nat).
  { apply NoDup_incl_length; auto. intros p Ip. apply range_in. auto. }
  assert (L2 : (length (range (n + 2)) <= length l)%nat).
  { apply NoDup_incl_length; [apply range_nodup|]. intros p Ip. apply range_in in Ip. auto. }
  rewrite range_length in *. lia.
Qed.

Lemma seg_loop_sound rfuel : forall fuel D cs, Inv0 D cs -> closed D cs -> reached_ok D cs -> reached_wf cs ->
  match seg_loop prog (S0, C0) rfuel fuel cs with
  | AllNone | ARes SSpinout | ARes SRepeat => never_halts M
  | APanic => False
  | AFuel => (2 * length universe <= rfuel)%nat -> (meas cs < fuel)%nat -> False
  | _ => True
  end.
Proof.
  induction fuel as [|fuel IH0]; intros D cs I C R W; cbn [seg_loop]; [lia|].
  assert (IH : forall D' cs', (meas cs' < meas cs)%nat -> Inv0 D' cs' -> closed D' cs' -> reached_ok D' cs' -> reached_wf cs' ->
    match seg_loop prog (S0, C0) rfuel fuel cs' with
    | AllNone | ARes SSpinout | ARes SRepeat => never_halts M
    | APanic => False
    | AFuel => (2 * length universe <= rfuel)%nat -> (meas cs < S fuel)%nat -> False
    | _ => True
    end).
  { intros D' cs' L J1 J2 J3 J4. specialize (IH0 D' cs' J1 J2 J3 J4). destruct (seg_loop _ _ _ _ _) as [[]| | |]; auto. intros; apply IH0; auto; lia. }
  clear IH0.
  destruct (next_config cs) as [[cs1 c]|] eqn:Nx; [|eapply closed_never; eauto].
  destruct (next_ok D cs cs1 c I Nx) as (Okc & Inc & Rc & Go).
  pose proof (run_to_edge_ok rfuel c cs1 Inc) as Run. unfold run_ok in Run.
  destruct (run_to_edge prog rfuel c cs1) as [[res self] cs2] eqn:Er.
  pose proof (next_meas cs cs1 c (i_seg _ _ I) Nx) as Ms1. pose proof (run_to_edge_meas _ _ _ _ _ _ Er) as Ms2.
  destruct Run as [->|(i & Orb & Sm & Bl & Res)]; [intros Lf _; exact (run_to_edge_fuel c cs1 rfuel self cs2 Okc Lf Er)|].
  set (D' := fun y => D y \/ orbit (conf_of c) i y).
  assert (Ok' : forall y, D' y -> okst y).
  { intros y [Y|(j & _ & Y)]; [apply (i_ok _ _ I); left; auto|eapply inners_ok; eauto]. }
  destruct (Go D' (fun x X => or_introl X)) as [I1 Cv1]; [right; exists 0%nat; split; [lia|constructor]|exact Ok'|].
  assert (I2 : Inv0 D' cs2).
  { apply (blanks_inv D' cs1 cs2 (conf_of c) i I1 Sm Bl). intros y Y. right. auto. }
  destruct Sm as (Sm1 & Sm2 & Sm3 & Sm4).
  assert (Cv2 : forall y, cover D cs y -> cover D' cs2 y).
  { intros y Y. apply Cv1 in Y. unfold cover in *. rewrite <- Sm2. auto. }
  assert (W2 : reached_wf cs2) by (unfold reached_wf in *; rewrite <- Sm4, Rc; auto).
  assert (R2 : forall y, D y -> stuck y -> forall l, dget (cs_reached cs2) (fst y) = Some l -> In (s_pos (snd y)) l).
  { intros y Y1 Y2 l. rewrite <- Sm4, Rc. apply R; auto. }
  assert (Oself : okst (conf_of self)) by (eapply inners_ok; eauto).
  (* the members of the orbit before the last have gone on inside *)
  assert (Mid : forall j y, (j < i)%nat -> inners j (conf_of c) y -> exists z, inner y z /\ inners (S j) (conf_of c) z).
  { intros j y L Y. replace i with (j + (1 + (i - j - 1)))%nat in Orb by lia. destruct (inners_split _ _ _ _ _ Orb) as (y' & A & B).
    assert (y' = y) by (eapply inners_det; eauto). subst y'. destruct (inners_split _ _ _ _ _ B) as (z & B1 & _).
    apply inners_1 in B1. exists z. split; auto. econstructor; eauto. }
  assert (MidC : forall j y z, (j < i)%nat -> inners j (conf_of c) y -> astep y z -> D' z).
  { intros j y z L Y A. destruct (Mid j y L Y) as (z' & Z1 & Z2). right. exists (S j). split; [lia|].
    inv A; [rewrite (inner_fun _ _ _ _ H Z1); auto| |]; destruct Z1 as (? & ? & ? & Q & _); congruence. }
  assert (MidS : forall j y, (j < i)%nat -> inners j (conf_of c) y -> ~ stuck y).
  { intros j y L Y. destruct (Mid j y L Y) as (z' & (v & pr & sh & Q1 & Q2 & _) & _). unfold stuck. rewrite Q1. congruence. }
  assert (Last : forall y, orbit (conf_of c) i y -> y = conf_of self \/ exists j, (j < i)%nat /\ inners j (conf_of c) y).
  { intros y (j & L & Y). destruct (Nat.eq_dec j i) as [->|]; [left; eapply inners_det; eauto|right; exists j; split; [lia|auto]]. }
  (* going on after noting the position *)
  assert (After : forall cs3 b, check_reached cs2 self = (cs3, b) -> b = false -> 
    Inv0 D' cs3 /\ reached_ok D' cs3 /\ reached_wf cs3 /\ (forall y, cover D' cs2 y -> cover D' cs3 y)).
  { intros cs3 b E Eb. destruct (check_reached_ok _ _ _ _ E (proj1 Oself) (i_seg _ _ I2) W2) as (X1 & X2 & X3 & X4 & X5 & X6 & X7 & X8).
    split; [|split; [|split; [auto|]]].
    - destruct I2 as [J1 J2 J3 J4 J5]. unfold cover in *. split; unfold cover; rewrite ?X1, ?X2, ?X3, ?X4; auto.
    - intros y Y Sy l El. destruct Y as [Y|Y].
      + destruct (X6 _ _ El) as (l0 & El0 & Inl). apply Inl. eapply R2; eauto.
      + destruct (Last y Y) as [->|(j & L & Yj)]; [apply X7; auto|]. destruct (MidS j y L Yj Sy).
    - intros y. unfold cover. rewrite X2. auto. }
  destruct res as [rr| | |]; [| |contradiction|contradiction].
  - destruct rr; try contradiction.
    + (* halted *)
      destruct Res as (v & Sv & Mv). destruct (sc_init self); [auto|].
      destruct (check_reached cs2 self) as [cs3 b] eqn:Ek. destruct b; [auto|].
      destruct (After cs3 false eq_refl eq_refl) as (J1 & J2 & J3 & J4).
      pose proof (check_reached_meas _ _ _ _ Ek) as Ms3. apply (IH D' cs3); auto; [lia|]. intros y z Y A. destruct Y as [Y|Y].
      * apply J4, Cv2. eapply C; eauto.
      * destruct (Last y Y) as [->|(j & L & Yj)]; [|left; eapply MidC; eauto].
        exfalso. inv A; [destruct H as (v' & ? & ? & Q1 & Q2 & _); unfold conf_of in *; cbn in *; congruence|unfold conf_of in *; cbn in *; congruence..].
    + (* repeat *)
      destruct Res as [Rp1 Rp2]. destruct (sc_init self); [apply Rp1; auto|]. destruct (Rp2 eq_refl) as (j0 & L0 & Y0).
      apply (IH D' cs2); auto; [lia| |].
      * intros y z Y A. destruct Y as [Y|Y]; [apply Cv2; eapply C; eauto|]. left.
        destruct (Last y Y) as [->|(j & L & Yj)]; eapply MidC; eauto.
      * intros y Y Sy. destruct Y as [Y|Y]; [apply R2; auto|].
        destruct (Last y Y) as [->|(j & L & Yj)]; [destruct (MidS j0 _ L0 Y0 Sy)|destruct (MidS j y L Yj Sy)].
    + exact Res.
  - (* the edge *)
    destruct (check_reached cs2 self) as [cs3 b] eqn:Ek. destruct b; [auto|].
    destruct (After cs3 false eq_refl eq_refl) as (J1 & J2 & J3 & J4).
    unfold seg_branches. cbn [fst snd].
    assert (Ms : mem (sc_state self) (range S0) = true).
    { apply existsb_exists. exists (sc_state self). split; [apply range_in; apply (proj1 (proj2 Oself))|apply Z.eqb_refl]. }
    rewrite Ms. destruct (edge_ok D' cs3 (sc_state self) (sc_tape self) J1 Oself Res) as (cs4 & E4 & (G1 & G2 & G3) & Ms4 & G4).
    rewrite E4. destruct (check_depth _); [auto|].
    pose proof (check_reached_meas _ _ _ _ Ek) as Ms3. apply (IH D'); auto; [lia| | |].
    + intros y z Y A. destruct Y as [Y|Y].
      * apply G2, J4, Cv2. eapply C; eauto.
      * destruct (Last y Y) as [->|(j & L & Yj)]; [|left; eapply MidC; eauto].
        destruct (G4 z A) as [->|Q]; [|auto]. left. right. exists i. split; [lia|auto].
    + unfold reached_ok. rewrite G3. auto.
    + unfold reached_wf. rewrite G3. auto.
Qed.

Lemma dget_map_nil l s : dget (map (fun k => (k, @nil Z)) l) s = if mem s l then Some [] else None.
Proof.
  induction l as [|k l IH]; cbn; auto. rewrite IH. rewrite (Z.eqb_sym s k). destruct (k =? s); auto.
Qed.
Lemma all_segments_sound rfuel fuel :
  match all_segments_reached prog (S0, C0) rfuel fuel (2 + n) with
  | AllNone | ARes SSpinout | ARes SRepeat => never_halts M
  | APanic => False
  | AFuel => (2 * length universe <= rfuel)%nat -> (meas (configs_new (2 + n) (seg_halts prog (S0, C0))) < fuel)%nat -> False
  | _ => True
  end.
Proof.
  unfold all_segments_reached. apply (seg_loop_sound rfuel fuel (fun _ => False)).
  - split; cbn; try tauto; try lia. intros x [[]|[]].
  - intros x y [].
  - intros x [].
  - split; cbn.
    + intros s I. rewrite dget_map_nil. destruct (mem s _) eqn:E; [discriminate|]. apply existsb_false_in with (x := s) in E; auto.
      rewrite Z.eqb_refl in E. discriminate.
    + intros s l E. rewrite dget_map_nil in E. destruct (mem s _); inv E. split; [constructor|]. split; [intros ? []|]. cbn. lia.
Qed.
End Seg.

Lemma segs_loop_sound prog params rfuel fuel : fits (machine_of prog) params -> forall segs, (forall x, In x segs -> 0 < x) ->
  match segs_loop prog params rfuel fuel segs with
  | SegSome _ => never_halts (machine_of prog)
  | SegPanic => False
  | _ => True
  end.
Proof.
  intros (F1 & F2 & F3). destruct params as [S0 C0]. cbn [fst snd] in *. induction segs as [|x segs IH]; intro P; cbn [segs_loop]; [auto|].
  pose proof (all_segments_sound prog S0 C0 x (P x (or_introl eq_refl)) F1 F2 F3 rfuel fuel) as H.
  destruct (all_segments_reached _ _ _ _ _) as [[]| | |]; auto; try contradiction. apply IH. intros y Y. apply P. right; auto.
Qed.
Lemma segment_sound prog params segs rfuel fuel : fits (machine_of prog) params ->
  match segment_cant_halt prog params segs rfuel fuel with
  | SegSome _ => never_halts (machine_of prog)
  | SegPanic => segs < 2
  | _ => True
  end.
Proof.
  intro F. unfold segment_cant_halt. destruct (Z.ltb_spec segs 2); [auto|].
  assert (P : forall x, In x (map (fun k => 2 + k) (range (segs - 1))) -> 0 < x).
  { intros x I. apply in_map_iff in I. destruct I as (k & <- & I). apply range_in in I. lia. }
  pose proof (segs_loop_sound prog params rfuel fuel F _ P) as Q. destruct (segs_loop _ _ _ _ _); auto. contradiction.
Qed.

(** With enough fuel there is an answer. *)
Lemma segs_loop_total prog params : fits (machine_of prog) params -> forall segs, (forall x, In x segs -> 0 < x) ->
  exists f0, forall rfuel fuel, (f0 <= rfuel)%nat -> (f0 <= fuel)%nat -> segs_loop prog params rfuel fuel segs <> SegFuel.
Proof.
  intros (F1 & F2 & F3). destruct params as [S0 C0]. cbn [fst snd] in *. induction segs as [|x segs IH]; intro P.
  - exists 0%nat. discriminate.
  - destruct IH as (f1 & IH); [intros y Y; apply P; right; auto|].
    exists (f1 + (2 * length (universe S0 C0 x) + S (meas S0 C0 x (configs_new (2 + x) (seg_halts prog (S0, C0))))))%nat.
    intros rfuel fuel L1 L2. cbn [segs_loop].
    pose proof (all_segments_sound prog S0 C0 x (P x (or_introl eq_refl)) F1 F2 F3 rfuel fuel) as H.
    destruct (all_segments_reached _ _ _ _ _) as [[]| | |]; try discriminate; [apply IH; lia|].
    exfalso. apply H; lia.
Qed.
Lemma segment_total prog params segs : fits (machine_of prog) params ->
  exists f0, forall rfuel fuel, (f0 <= rfuel)%nat -> (f0 <= fuel)%nat -> segment_cant_halt prog params segs rfuel fuel <> SegFuel.
Proof.
  intro F. unfold segment_cant_halt. destruct (Z.ltb_spec segs 2); [exists 0%nat; discriminate|].
  apply segs_loop_total; auto. intros x I. apply in_map_iff in I. destruct I as (k & <- & I). apply range_in in I. lia.
Qed.

(** ** The parameters computed from the keys *)
Lemma named_fits prog : NoDup (map fst prog) -> named (machine_of prog) -> fits (machine_of prog) (key_params prog).
Proof.
  intros ND [_ Hn]. unfold key_params.
  pose proof (max_key_ge prog 0 0) as G. cbv zeta in G. destruct (fold_left _ prog (0, 0)) as [ms mc] eqn:E. cbn [fst snd] in G.
  destruct G as (A & B & C).
  assert (Key : forall s x, machine_of prog s x <> None -> s <= ms /\ x <= mc).
  { intros s x H. unfold machine_of in H. destruct (comp_get prog (s, x)) as [i|] eqn:Ei; [|congruence].
    apply (proj2 (comp_get_in prog (s, x) i ND)) in Ei. apply C in Ei. auto. }
  split; [cbn; lia|]. split; [cbn; lia|]. intros s c pr sh t _ _ Em. cbn [fst snd].
  destruct (Hn _ _ _ _ _ Em) as (T0 & P0 & (s1 & c1 & L1 & K1) & (s2 & c2 & L2 & K2)).
  destruct (Key _ _ K1). destruct (Key _ _ K2). lia.
Qed.
Lemma py_segment_sound prog segs rfuel fuel r : NoDup (map fst prog) -> named (machine_of prog) ->
  py_segment_cant_halt prog segs rfuel fuel = SegSome r -> never_halts (machine_of prog).
Proof.
  intros ND Nm H. pose proof (segment_sound prog (key_params prog) segs rfuel fuel (named_fits prog ND Nm)) as Q.
  unfold py_segment_cant_halt in H. rewrite H in Q. exact Q.
Qed.
Lemma segment_says prog params segs rfuel fuel r : fits (machine_of prog) params ->
  segment_cant_halt prog params segs rfuel fuel = SegSome r -> never_halts (machine_of prog).
Proof. intros F H. pose proof (segment_sound prog params segs rfuel fuel F) as Q. rewrite H in Q. exact Q. Qed.
Lemma segment_answers prog params segs : fits (machine_of prog) params -> 2 <= segs ->
  exists f0, forall rfuel fuel, (f0 <= rfuel)%nat -> (f0 <= fuel)%nat ->
    segment_cant_halt prog params segs rfuel fuel = SegNone \/ exists r, segment_cant_halt prog params segs rfuel fuel = SegSome r.
Proof.
  intros F L. destruct (segment_total prog params segs F) as (f0 & H). exists f0. intros rfuel fuel L1 L2. specialize (H rfuel fuel L1 L2).
  pose proof (segment_sound prog params segs rfuel fuel F) as Q. destruct (segment_cant_halt _ _ _ _ _); eauto; [lia|congruence].
Qed.

(** "0RB ...  0RC ...  1LD ...  0RC ...": halts on reading a 1, which no instruction is listed for. *)
Definition seg_bad : comp_prog := [((0,0),(0,true,1)); ((1,0),(0,true,2)); ((2,0),(1,false,3)); ((3,0),(0,true,2))].
Lemma seg_bad_wrong : NoDup (map fst seg_bad) /\ py_segment_cant_halt seg_bad 2 100 100 = SegSome 2 /\ halts (machine_of seg_bad).
Proof.
  split; [repeat constructor; cbn; intuition congruence|]. split; [vm_compute; reflexivity|].
  exists 4%nat, (2, 1). eexists. split; [vm_compute; reflexivity|]. repeat split; vm_compute; reflexivity.
Qed.
