(** How long a machine can work inside a window before leaving it.

    Join the two ends of the window by one extra cell, seen from the head: the machine becomes
    a deterministic automaton whose output is the scanned cell.  Runs which differ only in the
    extra cell are told apart exactly when the head leaves the window; Moore's partition
    argument then bounds the time. *)
From Verif Require Import Base TM TMFacts ProgModel MacroModel MacroSpec TermRecProofs MacroProofs.

Fixpoint iterf {X : Type} (f : X -> X) (n : nat) (x : X) : X := match n with O => x | S n => iterf f n (f x) end.

Lemma iterf_add {X} (f : X -> X) n m x : iterf f (n + m) x = iterf f m (iterf f n x).
Proof. revert x. induction n; intros; cbn; auto. Qed.

(** ** Moore's argument *)
Section Moore.
Variables (X : Type) (f : X -> X) (out : X -> Z) (x : Z -> nat -> X) (L : nat) (C : Z).
Hypothesis Horbit : forall g i, x g (S i) = f (x g i).
Hypothesis Hsame : forall g h i, (i < L)%nat -> out (x g i) = out (x h i).
Hypothesis Hend : forall g, 0 <= g < C -> out (x g L) = g.
Hypothesis HC : 1 <= C.

Definition eqk (k : nat) (a b : X) : bool :=
  forallb (fun i => out (iterf f i a) =? out (iterf f i b)) (seq 0 (S k)).

Lemma eqk_spec k a b : eqk k a b = true <-> forall i, (i <= k)%nat -> out (iterf f i a) = out (iterf f i b).
Proof.
  unfold eqk. rewrite forallb_forall. split.
  - intros H i Hi. apply Z.eqb_eq. apply H. apply in_seq. lia.
  - intros H i Hi. apply in_seq in Hi. apply Z.eqb_eq. apply H. lia.
Qed.

Lemma eqk_sym k a b : eqk k a b = true -> eqk k b a = true.
Proof. rewrite !eqk_spec. intros H i Hi. symmetry. auto. Qed.
Lemma eqk_trans k a b c : eqk k a b = true -> eqk k b c = true -> eqk k a c = true.
Proof. rewrite !eqk_spec. intros H1 H2 i Hi. rewrite H1; auto. Qed.
Lemma eqk_le k k' a b : (k <= k')%nat -> eqk k a b = false -> eqk k' a b = false.
Proof.
  intros Hk H. destruct (eqk k' a b) eqn:E; auto. rewrite <- H. symmetry.
  apply eqk_spec. rewrite eqk_spec in E. intros i Hi. apply E. lia.
Qed.
Lemma eqk_refl k a : eqk k a a = true.
Proof. apply eqk_spec. auto. Qed.

Definition apart (k : nat) (l : list X) : Prop := ForallOrdPairs (fun a b => eqk k a b = false) l.

Lemma apart_le k k' l : (k <= k')%nat -> apart k l -> apart k' l.
Proof.
  intros Hk H. induction H; constructor; auto.
  eapply Forall_impl; [|exact H]. intros b Hb. eapply eqk_le; eauto.
Qed.

Lemma apart_app k l l' : apart k l -> apart k l' ->
  (forall a b, In a l -> In b l' -> eqk k a b = false) -> apart k (l ++ l').
Proof.
  intros H H' HX. induction H; cbn; auto. constructor.
  - apply Forall_app. split; auto. apply Forall_forall. intros b Hb. apply HX; cbn; auto.
  - apply IHForallOrdPairs. intros. apply HX; cbn; auto.
Qed.

Lemma apart_filter k l p : apart k l -> apart k (filter p l).
Proof.
  intros H. induction H; cbn; [constructor|]. destruct (p a); auto. constructor; auto.
  apply Forall_forall. intros b Hb. apply filter_In in Hb as [Hb _]. rewrite Forall_forall in H. auto.
Qed.

Lemma apart_NoDup k l : apart k l -> NoDup l.
Proof.
  intros H. induction H; constructor; auto. intros HI. rewrite Forall_forall in H.
  specialize (H a HI). rewrite eqk_refl in H. discriminate.
Qed.

Lemma filter_length_apart k z l : apart k l ->
  (length l <= S (length (filter (fun a => negb (eqk k a z)) l)))%nat.
Proof.
  intros H. induction H as [|a l H1 H2 IH]; [cbn; lia|]. cbn [filter].
  destruct (eqk k a z) eqn:E; cbn [negb length]; [|lia].
  assert (HF : filter (fun a => negb (eqk k a z)) l = l).
  { clear IH H2. induction l as [|b l IHl]; auto. inv H1. cbn [filter].
    destruct (eqk k b z) eqn:E2; cbn [negb].
    - rewrite (eqk_trans k a z b) in H2; [discriminate|auto|apply eqk_sym; auto].
    - rewrite IHl; auto. }
  rewrite HF. lia.
Qed.

Lemma x_iter g i j : iterf f j (x g i) = x g (i + j).
Proof.
  revert i. induction j as [|j IH]; intro i; cbn; [f_equal; lia|].
  rewrite <- Horbit, IH. f_equal. lia.
Qed.

Definition colors : list Z := map Z.of_nat (seq 0 (Z.to_nat C)).
Lemma colors_In g : In g colors <-> 0 <= g < C.
Proof.
  unfold colors. rewrite in_map_iff. split.
  - intros (i & <- & Hi). apply in_seq in Hi. lia.
  - intros H. exists (Z.to_nat g). split; [lia|]. apply in_seq. lia.
Qed.

(** The runs at [L - k] are told apart at [k] and not before. *)
Lemma fan_apart k g h : (k <= L)%nat -> 0 <= g < C -> 0 <= h < C -> g <> h ->
  eqk k (x g (L - k)) (x h (L - k)) = false.
Proof.
  intros Hk Hg Hh N. destruct (eqk k _ _) eqn:E; auto. rewrite eqk_spec in E.
  specialize (E k ltac:(lia)). rewrite !x_iter in E. replace (L - k + k)%nat with L in E by lia.
  rewrite !Hend in E; auto. congruence.
Qed.
Lemma fan_together k g h : (S k <= L)%nat -> eqk k (x g (L - S k)) (x h (L - S k)) = true.
Proof. intros Hk. apply eqk_spec. intros i Hi. rewrite !x_iter. apply Hsame. lia. Qed.

Definition fan (k : nat) : list X := map (fun g => x g (L - k)) colors.

Lemma fan_apart_list k : (k <= L)%nat -> apart k (fan k).
Proof.
  intros Hk. unfold fan, colors. rewrite map_map.
  assert (H : forall s m, (s + m <= Z.to_nat C)%nat ->
    apart k (map (fun i => x (Z.of_nat i) (L - k)) (seq s m))).
  { intros s m. revert s. induction m as [|m IH]; intros s Hs; cbn; constructor.
    - apply Forall_forall. intros b Hb. apply in_map_iff in Hb as (i & <- & Hi). apply in_seq in Hi.
      apply fan_apart; auto; lia.
    - apply IH. lia. }
  apply H. lia.
Qed.

Lemma moore_list k : (k <= L)%nat -> exists l, apart k l /\
  Z.of_nat (length l) >= (Z.of_nat k + 1) * (C - 1) + 1 /\
  forall a, In a l -> exists g i, 0 <= g < C /\ (i <= L)%nat /\ a = x g i.
Proof.
  assert (HFI : forall k a, In a (fan k) -> exists g i, 0 <= g < C /\ (i <= L)%nat /\ a = x g i).
  { intros j a Ha. apply in_map_iff in Ha as (g & <- & Hg). apply colors_In in Hg.
    exists g, (L - j)%nat. repeat split; try lia. }
  assert (HFL : forall k, Z.of_nat (length (fan k)) = C).
  { intros j. unfold fan, colors. rewrite !map_length, seq_length. lia. }
  induction k as [|k IH]; intros Hk.
  - exists (fan 0). split; [apply fan_apart_list; lia|]. rewrite HFL. repeat split; try lia. apply HFI.
  - destruct (IH ltac:(lia)) as (l & H1 & H2 & H3).
    set (z := x 0 (L - S k)).
    exists (filter (fun a => negb (eqk k a z)) l ++ fan (S k)). split; [|split].
    + apply apart_app.
      * apply apart_filter. eapply apart_le; [|exact H1]. lia.
      * apply fan_apart_list. lia.
      * intros a b Ha Hb. apply filter_In in Ha as [Ha Ea]. apply in_map_iff in Hb as (g & <- & Hg).
        apply (eqk_le k); [lia|]. destruct (eqk k a (x g (L - S k))) eqn:E; auto.
        cbn beta in Ea. rewrite (eqk_trans k a (x g (L - S k)) z E) in Ea; [discriminate|]. apply fan_together. lia.
    + rewrite app_length, Nat2Z.inj_add, HFL. pose proof (filter_length_apart k z l H1). lia.
    + intros a Ha. apply in_app_iff in Ha as [Ha|Ha]; [|eapply HFI; eauto].
      apply filter_In in Ha as [Ha _]. auto.
Qed.

Lemma moore (K : Z) (code : X -> Z) :
  (forall g i, 0 <= g < C -> (i <= L)%nat -> 0 <= code (x g i) < K) ->
  (forall g i h j, 0 <= g < C -> 0 <= h < C -> (i <= L)%nat -> (j <= L)%nat ->
     code (x g i) = code (x h j) -> x g i = x h j) ->
  (Z.of_nat L + 1) * (C - 1) + 1 <= K.
Proof.
  intros Hb Hi. destruct (moore_list L ltac:(lia)) as (l & H1 & H2 & H3).
  apply apart_NoDup in H1.
  assert (HN : NoDup (map code l)).
  { clear H2. induction l as [|a l IH]; cbn; constructor.
    - intros HI. apply in_map_iff in HI as (b & E & Hb2). inversion H1 as [|? ? HNI HND]; subst. apply HNI.
      destruct (H3 a ltac:(cbn; auto)) as (g & i & Hg & Hi1 & ->).
      destruct (H3 b ltac:(cbn; auto)) as (h & j & Hh & Hj1 & ->).
      rewrite <- (Hi h j g i); auto.
    - inversion H1 as [|? ? HNI HND]; subst. apply IH; auto. intros b Hb2. apply H3. cbn; auto. }
  assert (I : incl (map code l) (map Z.of_nat (seq 0 (Z.to_nat K)))).
  { intros v Hv. apply in_map_iff in Hv as (a & <- & Ha). destruct (H3 a Ha) as (g & i & Hg & Hi1 & ->).
    apply in_map_iff. specialize (Hb g i Hg Hi1). exists (Z.to_nat (code (x g i))). split; [lia|].
    apply in_seq. lia. }
  pose proof (NoDup_incl_length HN I) as HL. rewrite !map_length, seq_length in HL.
  assert (0 < K). { specialize (Hb 0 0%nat ltac:(lia) ltac:(lia)). lia. }
  lia.
Qed.
End Moore.

(** ** The window closed to a ring *)
Section Ring.
Variables (look : lookup) (n : nat) (Sn C : Z).
Hypothesis HP : params_ok look Sn C.
Hypothesis HC : 2 <= C.

Let M := prog_of look.
Let inside (p : Z) : Prop := 0 <= p < Z.of_nat n.

Definition ring_step (r : Z * list Z) : Z * list Z :=
  let '(s, v) := r in
  match v with
  | [] => r
  | x :: rest =>
      match look s x with
      | LOk (pr, sh, tr) => (tr, if sh then rest ++ [pr] else last (pr :: rest) 0 :: removelast (pr :: rest))
      | _ => r
      end
  end.

(** The ring of [len] cells seen from the head, from the cells [0 .. len-1] of a tape. *)
Definition cells_of (len : nat) (tp : Z -> Z) : list Z := map (fun j => tp (Z.of_nat j)) (seq 0 len).
Definition ring_of (len : nat) (c : config) : Z * list Z :=
  let u := cells_of len (c_tape c) in
  let p := Z.to_nat (c_pos c mod Z.of_nat len) in
  (c_state c, skipn p u ++ firstn p u).

Lemma cells_of_length len tp : length (cells_of len tp) = len.
Proof. unfold cells_of. rewrite map_length, seq_length. reflexivity. Qed.

Lemma cells_of_nth len tp i : (i < len)%nat -> nth i (cells_of len tp) 0 = tp (Z.of_nat i).
Proof.
  intros H. unfold cells_of. set (F := fun j => tp (Z.of_nat j)).
  rewrite (nth_indep _ 0 (F 0%nat)) by (rewrite map_length, seq_length; auto).
  rewrite map_nth, seq_nth by lia. reflexivity.
Qed.

Lemma cells_of_write len tp p v : (p < len)%nat ->
  cells_of len (write tp (Z.of_nat p) v) = set_cell (cells_of len tp) p v.
Proof.
  intros H. apply (nth_ext _ _ 0 0).
  - rewrite set_cell_length, !cells_of_length. reflexivity.
  - intros i Hi. rewrite cells_of_length in Hi. rewrite set_cell_nth by (rewrite cells_of_length; auto).
    rewrite !cells_of_nth by auto. unfold write.
    destruct (Nat.eqb_spec i p), (Z.eqb_spec (Z.of_nat i) (Z.of_nat p)); auto; lia.
Qed.

Lemma split_at (u : list Z) p : (p < length u)%nat -> exists A x B, u = A ++ x :: B /\ length A = p.
Proof.
  intros H. exists (firstn p u), (nth p u 0), (skipn (S p) u). split.
  - rewrite <- (firstn_skipn p u) at 1. f_equal. revert p H. induction u as [|a u IH]; intros [|p] H; cbn in *; try lia; auto.
    apply IH. lia.
  - rewrite firstn_length. lia.
Qed.

Lemma set_cell_app A x B v : set_cell (A ++ x :: B) (length A) v = A ++ v :: B.
Proof. induction A; cbn; congruence. Qed.

Lemma rot_app {X} (A B : list X) : skipn (length A) (A ++ B) ++ firstn (length A) (A ++ B) = B ++ A.
Proof. rewrite skipn_app, firstn_app, skipn_all, firstn_all, Nat.sub_diag. cbn. rewrite app_nil_r. reflexivity. Qed.

Lemma ring_of_step len c d : (0 < len)%nat -> 0 <= c_pos c < Z.of_nat len -> step M c = Some d ->
  ring_step (ring_of len c) = ring_of len d.
Proof.
  intros Hl Hp Hs. unfold step, M, prog_of in Hs.
  destruct (look (c_state c) (c_tape c (c_pos c))) as [[[pr sh] tr]| | |] eqn:E; try discriminate. inv Hs.
  unfold ring_of. cbn [c_state c_tape c_pos].
  rewrite (Z.mod_small (c_pos c)) by lia.
  set (p := Z.to_nat (c_pos c)). assert (Ep : c_pos c = Z.of_nat p) by (unfold p; lia).
  rewrite Ep in *. clearbody p. clear Ep.
  rewrite cells_of_write by lia.
  pose proof (cells_of_nth len (c_tape c) p ltac:(lia)) as HN.
  pose proof (cells_of_length len (c_tape c)) as HL.
  destruct (split_at (cells_of len (c_tape c)) p ltac:(lia)) as (A & x & B & EU & EA).
  rewrite EU in *. subst p. rewrite app_nth2, Nat.sub_diag in HN by lia. cbn [nth] in HN.
  rewrite set_cell_app, rot_app. cbn [app ring_step]. rewrite HN, E.
  rewrite app_length in HL. cbn [length] in HL. f_equal.
  destruct sh; cbn [move].
  - destruct (Nat.eq_dec (length B) 0) as [Z0|Z0].
    + destruct B; [|discriminate]. replace (Z.of_nat (length A) + 1) with (Z.of_nat len) by (cbn in HL; lia).
      rewrite Z.mod_same by lia. cbn. rewrite app_nil_r. reflexivity.
    + rewrite Z.mod_small by lia. replace (Z.to_nat (Z.of_nat (length A) + 1)) with (length (A ++ [pr])) by (rewrite app_length; cbn; lia).
      replace (A ++ pr :: B) with ((A ++ [pr]) ++ B) by (rewrite <- app_assoc; auto).
      rewrite rot_app, app_assoc. reflexivity.
  - destruct A as [|y A _] using rev_ind.
    + replace (Z.of_nat (length (@nil Z)) - 1) with (-1) by (cbn; lia).
      rewrite app_nil_r. cbn [app].
      replace (Z.to_nat (-1 mod Z.of_nat len)) with (len - 1)%nat.
      2:{ rewrite <- (Z.mod_unique (-1) (Z.of_nat len) (-1) (Z.of_nat len - 1)); lia. }
      cbn in HL. destruct B as [|y B _] using rev_ind.
      * cbn in HL. subst len. cbn. reflexivity.
      * rewrite app_length in HL. cbn in HL. change (pr :: B ++ [y]) with ((pr :: B) ++ [y]).
        replace (len - 1)%nat with (length (pr :: B)) by (cbn; lia).
        rewrite rot_app, last_last, removelast_last. reflexivity.
    + rewrite !app_length in *. cbn [length] in *. rewrite Z.mod_small by lia.
      replace (Z.to_nat (Z.of_nat (length A + 1) - 1)) with (length A) by lia.
      rewrite <- app_assoc. cbn [app]. rewrite rot_app.
      replace (pr :: B ++ A ++ [y]) with ((pr :: B ++ A) ++ [y]) by (cbn; rewrite <- app_assoc; auto).
      rewrite last_last, removelast_last. reflexivity.
Qed.

Lemma ring_of_steps len k : forall c d, (0 < len)%nat -> stays M (fun p => 0 <= p < Z.of_nat len) k c ->
  steps M k c = Some d -> iterf ring_step k (ring_of len c) = ring_of len d.
Proof.
  induction k as [|k IH]; intros c d Hl HS H; cbn [iterf steps] in *; [inv H; reflexivity|].
  destruct (step M c) as [c1|] eqn:E; [|discriminate].
  destruct (HS 0%nat ltac:(lia)) as (e & E0 & R0). cbn in E0. inv E0.
  rewrite (ring_of_step len e c1); auto. apply IH; auto.
  intros j Hj. destruct (HS (S j) ltac:(lia)) as (e' & Ee & Re). cbn in Ee. rewrite E in Ee. eauto.
Qed.

Lemma ring_scan len c : (0 < len)%nat -> hd 0 (snd (ring_of len c)) = c_tape c (c_pos c mod Z.of_nat len).
Proof.
  intros Hl. unfold ring_of. cbn [snd].
  pose proof (Z.mod_pos_bound (c_pos c) (Z.of_nat len) ltac:(lia)) as B.
  set (p := Z.to_nat (c_pos c mod Z.of_nat len)).
  destruct (split_at (cells_of len (c_tape c)) p) as (A & x & B' & EU & EA).
  { rewrite cells_of_length. unfold p. lia. }
  pose proof (cells_of_nth len (c_tape c) p ltac:(unfold p; lia)) as HN.
  rewrite EU in *. rewrite <- EA in HN at 1. rewrite app_nth2, Nat.sub_diag in HN by lia. cbn in HN.
  rewrite <- EA, rot_app. cbn. rewrite HN. f_equal. unfold p. lia.
Qed.

(** Validity of everything that happens. *)
Definition cvalid (c : config) : Prop := 0 <= c_state c < Sn /\ forall p, 0 <= c_tape c p < C.

Lemma cvalid_step c d : cvalid c -> step M c = Some d -> cvalid d.
Proof.
  intros [H1 H2] H. unfold step, M, prog_of in H.
  destruct (look _ _) as [[[pr sh] tr]| | |] eqn:E; try discriminate. inv H.
  destruct (HP _ _ _ _ _ H1 (H2 _) E) as [A B]. split; cbn; auto.
  intros p. unfold write. destruct (p =? c_pos c); auto.
Qed.

Lemma cvalid_steps k : forall c d, cvalid c -> steps M k c = Some d -> cvalid d.
Proof.
  induction k; intros c d V H; cbn in H; [inv H; auto|].
  destruct (step M c) eqn:E; [|discriminate]. eapply IHk; [|eauto]. eapply cvalid_step; eauto.
Qed.

Lemma ring_valid len c : cvalid c -> tuple_ok C len (snd (ring_of len c)).
Proof.
  intros [_ H]. unfold ring_of. cbn [snd]. split.
  - rewrite app_length, Nat.add_comm, <- app_length, firstn_skipn. apply cells_of_length.
  - assert (F : Forall (fun d => 0 <= d < C) (cells_of len (c_tape c))).
    { apply Forall_forall. intros d Hd. apply in_map_iff in Hd as (j & <- & _). apply H. }
    rewrite <- (firstn_skipn (Z.to_nat (c_pos c mod Z.of_nat len)) (cells_of len (c_tape c))) in F.
    apply Forall_app in F as [F1 F2]. apply Forall_app. auto.
Qed.

Definition ring_code (len : nat) (r : Z * list Z) : Z := fst r * C ^ Z.of_nat len + number C 0 (snd r).

Lemma ring_code_bound len c : cvalid c -> 0 <= ring_code len (ring_of len c) < Sn * C ^ Z.of_nat len.
Proof.
  intros V. destruct (ring_valid len c V) as [H1 H2]. pose proof (number_bound C _ ltac:(lia) H2) as B.
  rewrite H1 in B. destruct V as [V _]. unfold ring_code. cbn [fst]. change (fst (ring_of len c)) with (c_state c). nia.
Qed.

Lemma ring_code_inj len c d : cvalid c -> cvalid d ->
  ring_code len (ring_of len c) = ring_code len (ring_of len d) -> ring_of len c = ring_of len d.
Proof.
  intros Vc Vd E. destruct (ring_valid len c Vc) as [H1 H2]. destruct (ring_valid len d Vd) as [G1 G2].
  pose proof (number_bound C _ ltac:(lia) H2) as B. pose proof (number_bound C _ ltac:(lia) G2) as B'.
  rewrite H1 in B. rewrite G1 in B'. unfold ring_code in E.
  destruct (ring_of len c) as [s v], (ring_of len d) as [s' v']. cbn [fst snd] in *.
  assert (E1 : s = s').
  { revert E B B'. generalize (C ^ Z.of_nat len) (number C 0 v) (number C 0 v'). intros z a b E B B'.
    destruct (Z.lt_trichotomy s s') as [L|[L|L]]; nia. }
  subst s'. f_equal. apply (number_inj C); auto; lia.
Qed.

Lemma outside_kept k : forall c d, stays M inside k c -> steps M k c = Some d ->
  forall p, ~ inside p -> c_tape d p = c_tape c p.
Proof.
  induction k as [|k IH]; intros c d HS H p Hp; cbn in H; [inv H; auto|].
  destruct (step M c) as [c1|] eqn:E; [|discriminate].
  destruct (HS 0%nat ltac:(lia)) as (e & E0 & R0). cbn in E0. inv E0.
  rewrite (IH c1 d); auto.
  - unfold step in E. destruct (M _ _) as [[[pr sh] tr]|]; [|discriminate]. inv E. cbn. unfold write.
    destruct (Z.eqb_spec p (c_pos e)); auto. subst. contradiction.
  - intros j Hj. destruct (HS (S j) ltac:(lia)) as (e' & Ee & Re). cbn in Ee. rewrite E in Ee. eauto.
Qed.

(** Replace everything outside the window by [g]. *)
Definition refill (g : Z) (c : config) : config :=
  Cfg (c_state c) (c_pos c) (fun p => if (0 <=? p) && (p <? Z.of_nat n) then c_tape c p else g).

(** ** A run that leaves the window does so soon. *)
Lemma leave_soon c d L : (0 < n)%nat -> inside (c_pos c) -> 0 <= c_state c < Sn -> (forall p, inside p -> 0 <= c_tape c p < C) ->
  steps M L c = Some d -> stays M inside L c -> ~ inside (c_pos d) ->
  (Z.of_nat L + 1) * (C - 1) + 1 <= Sn * C ^ Z.of_nat (S n).
Proof.
  intros Hn Hpos Hs Ht HR HS HD.
  assert (HL : (0 < L)%nat).
  { destruct L; [|lia]. cbn in HR. inv HR. contradiction. }
  assert (AG : forall g, agree inside 0 c (refill g c)).
  { intros g. split; [reflexivity|]. split; [cbn; lia|]. intros p Hp. cbn. rewrite Z.add_0_r.
    unfold inside in Hp. replace (0 <=? p) with true by lia. replace (p <? Z.of_nat n) with true by lia. reflexivity. }
  assert (RUN : forall g i, (i <= L)%nat -> exists ci di, steps M i c = Some ci /\ steps M i (refill g c) = Some di /\
     agree inside 0 ci di).
  { intros g i Hi. destruct (steps_le M L i c d Hi HR) as (ci & Hci). exists ci.
    destruct (agree_steps M inside 0 i c (refill g c) ci (AG g)) as (di & H1 & H2); auto.
    - eapply stays_le; eauto.
    - eauto. }
  assert (STG : forall g, stays M inside L (refill g c)).
  { intros g i Hi. destruct (RUN g i ltac:(lia)) as (ci & di & H1 & H2 & H3). exists di. split; auto.
    destruct (HS i Hi) as (e & E1 & E2). rewrite E1 in H1. inv H1. destruct H3 as (_ & -> & _). rewrite Z.add_0_r. auto. }
  set (x := fun g i => iterf ring_step i (ring_of (S n) (refill g c))).
  assert (XE : forall g i, (i <= L)%nat -> exists di, steps M i (refill g c) = Some di /\ x g i = ring_of (S n) di).
  { intros g i Hi. destruct (RUN g i Hi) as (ci & di & H1 & H2 & H3). exists di. split; auto.
    unfold x. apply ring_of_steps; [lia| |auto].
    intros j Hj. destruct (STG g j ltac:(lia)) as (e & E1 & E2). exists e. split; auto. unfold inside in E2. lia. }
  assert (VAL : forall g, 0 <= g < C -> cvalid (refill g c)).
  { intros g Hg. split; [exact Hs|]. intros p. cbn. destruct ((0 <=? p) && (p <? Z.of_nat n)) eqn:E; auto.
    apply Ht. unfold inside. lia. }
  apply (moore _ ring_step (fun r => hd 0 (snd r)) x L C) with (code := ring_code (S n)).
  - intros g i. unfold x. replace (S i) with (i + 1)%nat by lia. rewrite iterf_add. reflexivity.
  - intros g h i Hi.
    destruct (RUN g i ltac:(lia)) as (ci & di & H1 & H2 & H3).
    destruct (RUN h i ltac:(lia)) as (ci' & ei & G1 & G2 & G3). rewrite G1 in H1. inv H1.
    destruct (XE g i ltac:(lia)) as (di' & I1 & I2). rewrite I1 in H2. inv H2.
    destruct (XE h i ltac:(lia)) as (ei' & J1 & J2). rewrite J1 in G2. inv G2.
    rewrite I2, J2, !ring_scan by lia.
    destruct (HS i Hi) as (e & E1 & E2). rewrite E1 in G1. inv G1.
    destruct H3 as (_ & P1 & T1). destruct G3 as (_ & P2 & T2). rewrite P1, P2, Z.add_0_r.
    unfold inside in E2. rewrite Z.mod_small by lia.
    rewrite <- (Z.add_0_r (c_pos ci)). rewrite T1, T2; auto.
  - intros g Hg. destruct (XE g L ltac:(lia)) as (dL & I1 & I2). rewrite I2, ring_scan by lia.
    destruct (RUN g L ltac:(lia)) as (cL & dL' & H1 & H2 & H3). rewrite I1 in H2. inv H2.
    rewrite HR in H1. inv H1. destruct H3 as (_ & P1 & _).
    assert (HPOS : c_pos cL = -1 \/ c_pos cL = Z.of_nat n).
    { destruct L as [|L]; [lia|]. destruct (HS L ltac:(lia)) as (e & E1 & E2).
      rewrite steps_S_r, E1 in HR. unfold step in HR. destruct (M _ _) as [[[pr sh] tr]|]; [|discriminate].
      inv HR. unfold inside in *. cbn in *. unfold move in *. destruct sh; lia. }
    replace (c_pos dL' mod Z.of_nat (S n)) with (Z.of_nat n).
    2:{ rewrite P1, Z.add_0_r. destruct HPOS as [-> | ->].
        - apply (Z.mod_unique (-1) (Z.of_nat (S n)) (-1)); lia.
        - rewrite Z.mod_small; lia. }
    rewrite (outside_kept L (refill g c) dL'); auto; [|unfold inside; lia].
    cbn. replace (0 <=? Z.of_nat n) with true by lia. replace (Z.of_nat n <? Z.of_nat n) with false by lia. reflexivity.
  - lia.
  - intros g i Hg Hi. destruct (XE g i Hi) as (di & I1 & ->). apply ring_code_bound.
    exact (cvalid_steps i _ _ (VAL g Hg) I1).
  - intros g i h j Hg Hh Hi Hj. destruct (XE g i Hi) as (di & I1 & ->). destruct (XE h j Hj) as (dj & J1 & ->).
    apply ring_code_inj.
    + exact (cvalid_steps i _ _ (VAL g Hg) I1).
    + exact (cvalid_steps j _ _ (VAL h Hh) J1).
Qed.

(** ** A run that halts inside the window does so soon. *)
Lemma halt_soon c d L : (0 < n)%nat -> inside (c_pos c) -> 0 <= c_state c < Sn ->
  (forall p, inside p -> 0 <= c_tape c p < C) ->
  steps M L c = Some d -> stays M inside (S L) c -> step M d = None ->
  Z.of_nat L + 1 <= Sn * C ^ Z.of_nat n.
Proof.
  intros Hn Hpos Hs Ht HR HS HD.
  set (r := refill 0 c).
  assert (AG : agree inside 0 c r).
  { split; [reflexivity|]. split; [cbn; lia|]. intros p Hp. cbn. rewrite Z.add_0_r.
    unfold inside in Hp. replace (0 <=? p) with true by lia. replace (p <? Z.of_nat n) with true by lia. reflexivity. }
  assert (VAL : cvalid r).
  { split; [exact Hs|]. intros p. cbn. destruct ((0 <=? p) && (p <? Z.of_nat n)) eqn:E; [|lia].
    apply Ht. unfold inside. lia. }
  assert (RUN : forall i, (i <= L)%nat -> exists ci di, steps M i c = Some ci /\ steps M i r = Some di /\
     agree inside 0 ci di /\ inside (c_pos ci)).
  { intros i Hi. destruct (steps_le M L i c d Hi HR) as (ci & Hci). exists ci.
    destruct (agree_steps M inside 0 i c r ci AG) as (di & H1 & H2); auto.
    - eapply stays_le; [|exact HS]. lia.
    - destruct (HS i ltac:(lia)) as (e & E1 & E2). rewrite E1 in Hci. inv Hci. exists di. auto. }
  assert (STR : stays M inside (S L) r).
  { intros i Hi. destruct (RUN i ltac:(lia)) as (ci & di & H1 & H2 & H3 & H4). exists di. split; auto.
    destruct H3 as (_ & -> & _). rewrite Z.add_0_r. auto. }
  assert (XE : forall i, (i <= L)%nat -> exists di, steps M i r = Some di /\ inside (c_pos di) /\
     iterf ring_step i (ring_of n r) = ring_of n di).
  { intros i Hi. destruct (STR i ltac:(lia)) as (di & H1 & H2). exists di. split; auto. split; auto.
    apply ring_of_steps; [lia| |auto]. eapply stays_le; [|exact STR]. lia. }
  destruct (Z.le_gt_cases (Z.of_nat L + 1) (Sn * C ^ Z.of_nat n)) as [H|H]; auto. exfalso.
  assert (HK : 0 <= Sn * C ^ Z.of_nat n) by (pose proof (Z.pow_nonneg C (Z.of_nat n)); nia).
  set (K := Z.to_nat (Sn * C ^ Z.of_nat n)).
  set (x := fun i => iterf ring_step i (ring_of n r)).
  destruct (pigeon K (fun i => ring_code n (x i))) as (i & j & Hij & E).
  { intros i Hi. destruct (XE i ltac:(unfold K in *; lia)) as (di & H1 & H2 & H3). unfold x. rewrite H3.
    replace (Z.of_nat K) with (Sn * C ^ Z.of_nat n) by (unfold K; lia).
    apply ring_code_bound. exact (cvalid_steps i _ _ VAL H1). }
  assert (EX : x i = x j).
  { destruct (XE i ltac:(unfold K in *; lia)) as (di & H1 & H2 & H3).
    destruct (XE j ltac:(unfold K in *; lia)) as (dj & J1 & J2 & J3).
    unfold x in *. cbn beta in E. rewrite H3, J3 in *. apply ring_code_inj; auto.
    - exact (cvalid_steps i _ _ VAL H1).
    - exact (cvalid_steps j _ _ VAL J1). }
  assert (ET : x (L - (j - i))%nat = x L).
  { assert (HKL : (K <= L)%nat) by (unfold K; lia).
    unfold x in *. replace (L - (j - i))%nat with (i + (L - j))%nat by lia.
    replace L with (j + (L - j))%nat at 2 by lia. rewrite !iterf_add, EX. reflexivity. }
  destruct (XE (L - (j - i))%nat ltac:(lia)) as (da & A1 & A2 & A3).
  destruct (XE L ltac:(lia)) as (dl & B1 & B2 & B3).
  unfold x in ET. rewrite A3, B3 in ET.
  assert (DA : step M da <> None).
  { destruct (steps_le M L (S (L - (j - i))) r dl ltac:(lia) B1) as (da' & D1).
    rewrite steps_S_r, A1 in D1. congruence. }
  assert (DL : step M dl = None).
  { destruct (RUN L ltac:(lia)) as (cl & dl' & R1 & R2 & (R3a & R3b & R3c) & R4). rewrite B1 in R2. inv R2.
    rewrite HR in R1. inv R1. unfold step in *. rewrite R3a, R3b.
    rewrite (R3c (c_pos cl) R4). destruct (M _ _) as [[[? ?] ?]|]; [discriminate|auto]. }
  apply DA.
  assert (SC : c_tape da (c_pos da) = c_tape dl (c_pos dl) /\ c_state da = c_state dl).
  { split; [|exact (f_equal fst ET)].
    pose proof (ring_scan n da Hn) as S1. pose proof (ring_scan n dl Hn) as S2. rewrite ET in S1.
    unfold inside in *. rewrite Z.mod_small in S1, S2 by lia. congruence. }
  destruct SC as [SC1 SC2]. unfold step in *. rewrite SC1, SC2.
  destruct (M (c_state dl) (c_tape dl (c_pos dl))) as [[[? ?] ?]|]; [discriminate|auto].
Qed.

End Ring.

(** ** The limit 2 * states * colours^cells is enough. *)
Lemma back_limit look Sn C n s t p lim : params_ok look Sn C -> 2 <= C -> (0 < n)%nat ->
  0 <= s < Sn -> tuple_ok C n t -> (p < n)%nat ->
  Z.of_nat lim = 2 * Sn * C ^ Z.of_nat n ->
  (exists s' t' p', witer look lim (WIn s t p) = WIn s' t' p') ->
  forall m, exists s' t' p', witer look m (WIn s t p) = WIn s' t' p'.
Proof.
  intros HP HC Hn Hs Ht Hp HL (s1 & t1 & p1 & HW) m.
  set (c := Cfg s (Z.of_nat p) (fun q => if (0 <=? q) && (q <? Z.of_nat n) then nth (Z.to_nat q) t 0 else 0)).
  assert (HSH : shows 0 n (fun _ => 0) s t (0 + Z.of_nat p) c).
  { destruct Ht as [Ht1 Ht2]. repeat split; cbn; auto.
    - intros j Hj. rewrite Z.add_0_l. replace (0 <=? Z.of_nat j) with true by lia.
      replace (Z.of_nat j <? Z.of_nat n) with true by lia. cbn. rewrite Nat2Z.id. reflexivity.
    - intros q Hq. replace ((0 <=? q) && (q <? Z.of_nat n)) with false by lia. reflexivity. }
  assert (HV : forall q, 0 <= q < Z.of_nat n -> 0 <= c_tape c q < C).
  { intros q Hq. cbn. replace (0 <=? q) with true by lia. replace (q <? Z.of_nat n) with true by lia. cbn.
    destruct Ht as [Ht1 Ht2]. rewrite Forall_forall in Ht2. apply Ht2. apply nth_In. lia. }
  destruct (witer_goes look 0 n (fun _ => 0) lim s t p s1 t1 p1 c Hp HSH HW) as (m1 & Hm1 & d & G1 & G2 & Hp1 & G3).
  destruct (Nat.le_gt_cases m lim) as [LE|GT]; [eapply witer_in_le; eauto|].
  assert (HM : witer look m (WIn s t p) = witer look (m - lim) (WIn s1 t1 p1)).
  { replace m with (lim + (m - lim))%nat at 1 by lia. rewrite witer_add, HW. reflexivity. }
  rewrite HM. clear HM HW.
  assert (POS : 0 < Sn * C ^ Z.of_nat n) by (pose proof (Z.pow_pos_nonneg C (Z.of_nat n)); nia).
  assert (IND : forall k s1 t1 p1 d m1, (lim <= m1)%nat -> (p1 < n)%nat ->
     steps (prog_of look) m1 c = Some d ->
     stays (prog_of look) (fun q => 0 <= q < 0 + Z.of_nat n) m1 c ->
     shows 0 n (fun _ => 0) s1 t1 (0 + Z.of_nat p1) d ->
     exists s' t' p', witer look k (WIn s1 t1 p1) = WIn s' t' p').
  { clear - HP HC Hn Hs Hp HL HV POS. induction k as [|k IH]; intros s1 t1 p1 d m1 Hm1 Hp1 G1 G2 G3; [cbn; eauto|].
    cbn [witer wstep]. pose proof (sim_step_ok look 0 n (fun _ => 0) s1 t1 p1 d Hp1 G3) as H.
    destruct (sim_step look s1 t1 p1) as [s2 t2 p2|s2 r2 t2|e].
    - destruct H as (m2 & Hm2 & d2 & K1 & K2 & Hp2 & K3).
      apply (IH s2 t2 p2 d2 (m1 + m2)%nat); auto; [lia| |].
      + rewrite (steps_add_some _ _ _ _ _ G1). auto.
      + eapply stays_app; eauto.
    - exfalso. destruct H as (m2 & Hm2 & d2 & K1 & K2 & K3).
      assert (B : (Z.of_nat (m1 + m2) + 1) * (C - 1) + 1 <= Sn * C ^ Z.of_nat (S n)).
      { refine (leave_soon look n Sn C HP HC c d2 _ Hn _ Hs HV _ _ _).
        - cbn. lia.
        - rewrite (steps_add_some _ _ _ _ _ G1). auto.
        - eapply stays_app; eauto.
        - destruct K3 as (_ & _ & -> & _). destruct r2; lia. }
      rewrite Nat2Z.inj_succ, Z.pow_succ_r in B by lia. nia.
    - exfalso. destruct H as [H1 H2]. destruct G3 as (F1 & F2 & F3 & F4 & F5).
      assert (B : Z.of_nat m1 + 1 <= Sn * C ^ Z.of_nat n).
      { refine (halt_soon look n Sn C HP HC c d m1 Hn _ Hs HV G1 _ _).
        - cbn. lia.
        - intros j Hj. destruct (Nat.eq_dec j m1) as [->|N].
          + exists d. split; auto. lia.
          + apply G2. lia.
        - unfold step, prog_of. rewrite F2, F3, (F4 p1) by lia. unfold cell_at in H1. rewrite H1.
          destruct e as [i| | |]; auto. exfalso. exact (H2 i eq_refl). }
      lia. }
  eapply IND; eauto.
Qed.
