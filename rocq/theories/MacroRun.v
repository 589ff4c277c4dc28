(** * Macro instructions and runs against the base machine *)
From Verif Require Import Base TM TMFacts ProgModel MacroModel MacroSpec MacroProofs BackLimit MacroLogic.

Lemma pure_out look l ms mc i : logic_ok l -> params_ok look (lg_states l) (lg_colors l) -> slot_ok l ms mc ->
  pure_get look l ms mc = LOk i ->
  exists s e t s' r t', deconstruct l (dec_pure l) ms mc = Some (s, (e, t)) /\
    tuple_ok (lg_colors l) (win_cells l) t /\
    run_simulator look (Z.to_nat (lg_sim_lim l)) s e t = WOut s' r t' /\
    0 <= s' < lg_states l /\ tuple_ok (lg_colors l) (win_cells l) t' /\
    i = snd (reconstruct l s' r t') (number (lg_colors l) 0 (fst (reconstruct l s' r t'))).
Proof.
  intros HL HP HS H. unfold pure_get in H.
  destruct (deconstruct l (dec_pure l) ms mc) as [[s [e t]]|] eqn:ED; [|discriminate].
  destruct (deconstruct_ok l ms mc s e t HL HS ED) as [D1 D2].
  destruct (run_simulator look (Z.to_nat (lg_sim_lim l)) s e t) as [| s' r t' |e'] eqn:ER; try discriminate.
  - exists s, e, t, s', r, t'. split; auto. split; auto. split; auto.
    unfold run_simulator in ER. pose proof D2 as [D3 D4]. pose proof (win_pos l HL) as HW.
    assert (HV : wvalid (lg_states l) (lg_colors l) (win_cells l) (WIn s t (if e then length t - 1 else 0))).
    { cbn. split; auto. split; auto. destruct e; lia. }
    pose proof (sim_loop_valid look (lg_states l) (lg_colors l) (win_cells l) (Z.to_nat (lg_sim_lim l)) s t _ HP HV) as V.
    rewrite ER in V. destruct V as [V1 V2]. split; auto. split; auto.
    destruct (reconstruct l s' r t') as [u mk]. cbn. congruence.
  - subst e'. exfalso.
    revert ER. unfold run_simulator. generalize (if e then length t - 1 else 0)%nat as p.
    generalize (Z.to_nat (lg_sim_lim l)) as fuel. clear. intros fuel. revert s t.
    induction fuel as [|fuel IH]; intros s t p; cbn; [discriminate|].
    destruct (sim_step look s t p) as [s1 t1 p1| |e1] eqn:E; intros H; try discriminate; [eauto|].
    inv H. unfold sim_step in E. destruct (look s (cell_at t p)) as [[[c sh] nx]| | |]; try discriminate.
    assert (HR : forall fuel t p, sweep_right fuel s (cell_at t p) c t p <> WErr (LOk i)).
    { intros. generalize (cell_at t0 p0) at 1. revert t0 p0. induction fuel0 as [|f IHf]; intros; cbn; [discriminate|].
      destruct (cell_at t0 p0 =? z); [|discriminate].
      destruct (Nat.leb (length (set_cell t0 p0 c)) (S p0)); [discriminate|]. apply IHf. }
    assert (HLe : forall fuel t p, sweep_left fuel s (cell_at t p) c t p <> WErr (LOk i)).
    { intros. generalize (cell_at t0 p0) at 1. revert t0 p0. induction fuel0 as [|f IHf]; intros; cbn; [discriminate|].
      destruct (cell_at t0 p0 =? z); [|discriminate].
      destruct p0; [discriminate|]. apply IHf. }
    destruct (negb (nx =? s)).
    + destruct sh; [destruct (Nat.leb (length (set_cell t p c)) (S p))|destruct p]; discriminate.
    + destruct sh; [exact (HR _ _ _ E)|exact (HLe _ _ _ E)].
Qed.

Lemma pure_err look l ms mc e : logic_ok l -> slot_ok l ms mc ->
  pure_get look l ms mc = e -> (forall i, e <> LOk i) ->
  exists s ed t, deconstruct l (dec_pure l) ms mc = Some (s, (ed, t)) /\
    0 <= s < lg_states l /\ tuple_ok (lg_colors l) (win_cells l) t /\
    run_simulator look (Z.to_nat (lg_sim_lim l)) s ed t = WErr e.
Proof.
  intros HL HS H HN. unfold pure_get in H.
  destruct (deconstruct l (dec_pure l) ms mc) as [[s [ed t]]|] eqn:ED.
  2:{ exfalso. unfold deconstruct, dec_pure in ED. destruct (lg_kind l); discriminate. }
  destruct (deconstruct_ok l ms mc s ed t HL HS ED) as [D1 D2].
  exists s, ed, t. split; auto. split; auto. split; auto.
  destruct (run_simulator look (Z.to_nat (lg_sim_lim l)) s ed t) as [s' t' p' | s' r t' |e'] eqn:ER.
  - exfalso. eapply sim_loop_not_in. exact ER.
  - destruct (reconstruct l s' r t') as [u mk]. exfalso. eapply HN. eauto.
  - congruence.
Qed.

(** ** The slot decoded *)
Lemma block_slot l ms mc s e t : logic_ok l -> lg_kind l = Block -> slot_ok l ms mc ->
  deconstruct l (dec_pure l) ms mc = Some (s, (e, t)) ->
  s = ms / 2 /\ e = (ms mod 2 =? 1) /\ tuple_ok (lg_colors l) (lg_cells l) t /\ number (lg_colors l) 0 t = mc.
Proof.
  intros (HS & HC & HB) HK [H1 H2] H. unfold deconstruct, dec_pure, lg_macro_colors in *. rewrite HK in *. inv H.
  split; auto. split; auto. split; [apply digits_ok; auto|]. apply number_digits; auto.
Qed.

Lemma back_slot l ms mc s e t : logic_ok l -> lg_kind l = Backsymbol -> slot_ok l ms mc ->
  deconstruct l (dec_pure l) ms mc = Some (s, (e, t)) ->
  s = ms / 2 / lg_colors l ^ Z.of_nat (lg_cells l) /\ e = negb (ms mod 2 =? 1) /\
  exists B, tuple_ok (lg_colors l) (lg_cells l) B /\
    number (lg_colors l) 0 B = (ms / 2) mod lg_colors l ^ Z.of_nat (lg_cells l) /\
    t = (if ms mod 2 =? 1 then mc :: B else B ++ [mc]).
Proof.
  intros (HS & HC & HB) HK [H1 H2] H. unfold deconstruct, dec_pure, lg_backsymbols in *. rewrite HK in *.
  assert (HP : 0 < lg_colors l ^ Z.of_nat (lg_cells l)) by (apply Z.pow_pos_nonneg; lia).
  pose proof (Z.mod_pos_bound ms 2 ltac:(lia)) as HM.
  assert (E : negb (ms mod 2 =? 0) = (ms mod 2 =? 1)) by lia. rewrite E in H.
  set (B := digits (lg_colors l) (lg_cells l) ((ms / 2) mod lg_colors l ^ Z.of_nat (lg_cells l))) in *.
  assert (HT : tuple_ok (lg_colors l) (lg_cells l) B) by (apply digits_ok; auto).
  assert (HN : number (lg_colors l) 0 B = (ms / 2) mod lg_colors l ^ Z.of_nat (lg_cells l)).
  { apply number_digits; auto. apply Z.mod_pos_bound. auto. }
  destruct (ms mod 2 =? 1); inv H; (split; [auto|]); (split; [auto|]); exists B; auto.
Qed.

Lemma parity2 x b : (2 * x + (if b : bool then 1 else 0)) / 2 = x /\ (2 * x + (if b then 1 else 0)) mod 2 = if b then 1 else 0.
Proof.
  split; [symmetry; apply (Z.div_unique _ 2 _ (if b then 1 else 0))|symmetry; apply (Z.mod_unique _ 2 x)]; destruct b; lia.
Qed.

(** ** C18: block macro instructions *)
Lemma block_instr look l h ms mc pr sh tr : lg_kind l = Block -> logic_ok l ->
  params_ok look (lg_states l) (lg_colors l) -> Forall (op_ok l) h -> slot_ok l ms mc ->
  result look l h ms mc = LOk (pr, sh, tr) ->
  slot_ok l tr pr /\ tr mod 2 = (if sh then 0 else 1) /\
  exists t t', tuple_ok (lg_colors l) (lg_cells l) t /\ number (lg_colors l) 0 t = mc /\
    tuple_ok (lg_colors l) (lg_cells l) t' /\ number (lg_colors l) 0 t' = pr /\
    forall off c, base_at (ms / 2) (ms mod 2 =? 1) off t c ->
      exists n d, crosses (prog_of look) off (Z.of_nat (lg_cells l)) n c d sh /\
        c_state d = tr / 2 /\ holds off t' (c_tape d).
Proof.
  intros HK HL HP HF HS HR.
  destruct (result_cases look l h ms mc HL HP HF HS) as [E|[E _]]; rewrite HR in E; [|discriminate].
  symmetry in E. destruct (pure_out look l ms mc _ HL HP HS E) as (s & e & t & s' & r & t' & D & Ht & R & Hs' & Ht' & EI).
  destruct (block_slot l ms mc s e t HL HK HS D) as (-> & -> & G3 & G4).
  pose proof (reconstruct_ok l s' r t' HL Hs' Ht') as HO.
  unfold reconstruct in *. unfold win_cells in *. rewrite HK in *. cbn in EI, HO. inv EI.
  split; [apply HO|].
  destruct (parity2 s' (negb r)) as [P1 P2].
  assert (EP : (if negb r then 1 else 0) = (if r then 0 else 1)) by (destruct r; auto).
  rewrite EP in P1, P2. split; [rewrite P2; destruct r; auto|].
  exists t, t'. split; auto. split; auto. split; auto. split; auto.
  intros off c HB. destruct Ht as [Ht1 Ht2]. pose proof (win_pos l HL) as HW. unfold win_cells in HW. rewrite HK in HW.
  destruct (run_out look _ _ _ t s' r t' off c ltac:(lia) HB R) as (n & d & C1 & C2 & C3 & C4).
  rewrite Ht1 in C1. exists n, d. rewrite P1. auto.
Qed.

Lemma block_instr_err look l h ms mc e : lg_kind l = Block -> logic_ok l ->
  params_ok look (lg_states l) (lg_colors l) -> Forall (op_ok l) h -> slot_ok l ms mc ->
  result look l h ms mc = e -> (forall i, e <> LOk i) -> e <> LAssert ->
  exists t, tuple_ok (lg_colors l) (lg_cells l) t /\ number (lg_colors l) 0 t = mc /\
    forall off c, base_at (ms / 2) (ms mod 2 =? 1) off t c ->
      fails_inside look off (Z.of_nat (lg_cells l)) c e \/
      (e = LInf /\ trapped (prog_of look) off (Z.of_nat (lg_cells l)) c).
Proof.
  intros HK HL HP HF HS HR HN HA.
  destruct (result_cases look l h ms mc HL HP HF HS) as [E|[E _]]; rewrite HR in E; [|contradiction].
  symmetry in E. destruct (pure_err look l ms mc e HL HS E HN) as (s & ed & t & D & Hs & Ht & R).
  destruct (block_slot l ms mc s ed t HL HK HS D) as (-> & -> & G3 & G4).
  exists t. split; auto. split; auto. intros off c HB.
  assert (H2 : lg_kind l = Backsymbol -> 2 <= lg_colors l) by congruence.
  destruct G3 as [G31 G32]. rewrite <- G31. apply (run_err look l (ms / 2) (ms mod 2 =? 1) t off c e); auto.
Qed.

(** ** C20: backsymbol macro instructions *)
Lemma back_instr look l h ms mc pr sh tr : lg_kind l = Backsymbol -> logic_ok l ->
  params_ok look (lg_states l) (lg_colors l) -> Forall (op_ok l) h -> slot_ok l ms mc ->
  result look l h ms mc = LOk (pr, sh, tr) ->
  slot_ok l tr pr /\ tr mod 2 = (if sh then 1 else 0) /\
  exists B B', tuple_ok (lg_colors l) (lg_cells l) B /\
    number (lg_colors l) 0 B = (ms / 2) mod lg_colors l ^ Z.of_nat (lg_cells l) /\
    tuple_ok (lg_colors l) (lg_cells l) B' /\
    number (lg_colors l) 0 B' = (tr / 2) mod lg_colors l ^ Z.of_nat (lg_cells l) /\
    forall off c,
      base_at (ms / 2 / lg_colors l ^ Z.of_nat (lg_cells l)) (negb (ms mod 2 =? 1)) off
        (if ms mod 2 =? 1 then mc :: B else B ++ [mc]) c ->
      exists n d, crosses (prog_of look) off (Z.of_nat (lg_cells l) + 1) n c d (negb sh) /\
        c_state d = tr / 2 / lg_colors l ^ Z.of_nat (lg_cells l) /\
        holds off (if sh then B' ++ [pr] else pr :: B') (c_tape d).
Proof.
  intros HK HL HP HF HS HR.
  destruct (result_cases look l h ms mc HL HP HF HS) as [E|[E _]]; rewrite HR in E; [|discriminate].
  symmetry in E. destruct (pure_out look l ms mc _ HL HP HS E) as (s & e & t & s' & r & t' & D & Ht & R & Hs' & Ht' & EI).
  destruct (back_slot l ms mc s e t HL HK HS D) as (-> & -> & B & G3 & G4 & ->).
  pose proof (reconstruct_ok l s' r t' HL Hs' Ht') as HO.
  unfold win_cells in *. rewrite HK in *.
  set (W := lg_colors l ^ Z.of_nat (lg_cells l)) in *.
  assert (HC : 1 <= lg_colors l) by apply HL.
  assert (HW : 0 < W) by (apply Z.pow_pos_nonneg; lia).
  assert (KEY : exists B', tuple_ok (lg_colors l) (lg_cells l) B' /\ r = negb sh /\
            t' = (if sh then B' ++ [pr] else pr :: B') /\
            tr = 2 * (number (lg_colors l) 0 B' + s' * W) + (if sh then 1 else 0) /\ slot_ok l tr pr).
  { unfold reconstruct in *. rewrite HK in *. change (lg_backsymbols l) with W in *.
    destruct Ht' as [T1 T2]. destruct r; cbn [negb fst snd] in *.
    - inv EI. destruct t' as [|x t']; [discriminate|]. cbn [hd tl] in *. destruct HO as [O1 O2].
      exists t'. split; auto. split; auto. split; auto. split; [lia|]. apply O2.
    - inv EI. destruct HO as [O1 O2]. exists (removelast t'). split; auto. split; auto.
      split; [apply app_removelast_last; intros ->; discriminate|]. split; [lia|]. apply O2. }
  clear EI HO. destruct KEY as (B' & K1 & -> & -> & -> & K5).
  set (v := number (lg_colors l) 0 B') in *.
  destruct K1 as [K1 K2]. pose proof (number_bound (lg_colors l) B' ltac:(lia) K2) as HV. rewrite K1 in HV. fold v W in HV.
  destruct (parity2 (v + s' * W) sh) as [P1 P2]. rewrite P1, P2.
  split; auto. split; auto. exists B, B'. split; auto. split; auto. split; [split; auto|].
  split; [fold v; apply (Z.mod_unique _ W s'); lia|].
  intros off c HB.
  assert (HLn : length (if ms mod 2 =? 1 then mc :: B else B ++ [mc]) = S (lg_cells l)) by apply Ht.
  destruct (run_out look _ _ _ _ s' (negb sh) _ off c ltac:(rewrite HLn; lia) HB R) as (n & d & C1 & C2 & C3 & C4).
  rewrite HLn, Nat2Z.inj_succ in C1. exists n, d. split; [exact C1|]. split; [|exact C4].
  rewrite C2. apply (Z.div_unique _ W _ v); lia.
Qed.

Lemma back_instr_err look l h ms mc e : lg_kind l = Backsymbol -> logic_ok l -> 2 <= lg_colors l ->
  params_ok look (lg_states l) (lg_colors l) -> Forall (op_ok l) h -> slot_ok l ms mc ->
  result look l h ms mc = e -> (forall i, e <> LOk i) -> e <> LAssert ->
  exists B, tuple_ok (lg_colors l) (lg_cells l) B /\
    number (lg_colors l) 0 B = (ms / 2) mod lg_colors l ^ Z.of_nat (lg_cells l) /\
    forall off c,
      base_at (ms / 2 / lg_colors l ^ Z.of_nat (lg_cells l)) (negb (ms mod 2 =? 1)) off
        (if ms mod 2 =? 1 then mc :: B else B ++ [mc]) c ->
      fails_inside look off (Z.of_nat (lg_cells l) + 1) c e \/
      (e = LInf /\ trapped (prog_of look) off (Z.of_nat (lg_cells l) + 1) c).
Proof.
  intros HK HL H2 HP HF HS HR HN HA.
  destruct (result_cases look l h ms mc HL HP HF HS) as [E|[E _]]; rewrite HR in E; [|contradiction].
  symmetry in E. destruct (pure_err look l ms mc e HL HS E HN) as (s & ed & t & D & Hs & Ht & R).
  destruct (back_slot l ms mc s ed t HL HK HS D) as (-> & -> & B & G3 & G4 & ->).
  exists B. split; auto. split; auto. intros off c HB.
  pose proof (run_err look l _ _ _ off c e HL HP (fun _ => H2) Hs Ht HB R) as HH.
  destruct Ht as [Ht _]. rewrite Ht in HH. unfold win_cells in HH. rewrite HK in HH.
  rewrite Nat2Z.inj_succ in HH. exact HH.
Qed.

(** ** C21: whole runs *)

(** The macro machine's own invariant. *)
Definition RInv (look : lookup) (l : logic) (m : macro_state_t) (c : config) : Prop :=
  (exists h, m = after look l h /\ Forall (op_ok l) h) /\
  forall q, slot_ok l (c_state c) (c_tape c q) /\ known l m (c_state c) (c_tape c q).

Lemma rinv_step look l m c : logic_ok l -> params_ok look (lg_states l) (lg_colors l) -> RInv look l m c ->
  exists h, m = after look l h /\ Forall (op_ok l) h /\
    snd (macro_get look l m (c_state c) (c_tape c (c_pos c))) = result look l h (c_state c) (c_tape c (c_pos c)) /\
    result look l h (c_state c) (c_tape c (c_pos c)) = pure_get look l (c_state c) (c_tape c (c_pos c)) /\
    forall pr sh tr, result look l h (c_state c) (c_tape c (c_pos c)) = LOk (pr, sh, tr) ->
      RInv look l (fst (macro_get look l m (c_state c) (c_tape c (c_pos c))))
        (Cfg tr (move sh (c_pos c)) (write (c_tape c) (c_pos c) pr)).
Proof.
  intros HL HP [(h & -> & HF) HQ]. exists h. split; auto. split; auto. split; [reflexivity|].
  destruct (HQ (c_pos c)) as [HS HK].
  split. { destruct (result_cases look l h _ _ HL HP HF HS) as [E|[_ E]]; [auto|contradiction]. }
  intros pr sh tr HR.
  assert (HF' : Forall (op_ok l) (h ++ [OpLook (c_state c) (c_tape c (c_pos c))])).
  { apply Forall_app. split; auto. }
  pose proof (result_known look l h _ _ [] _ _ _ HL HP HF' HR) as K.
  unfold after in K. rewrite fold_left_app in K. cbn [fold_left run_op] in K. fold (after look l h) in K.
  pose proof (after_inv look l h HL HP HF) as HI.
  destruct (run_op_ok look l (after look l h) (OpLook (c_state c) (c_tape c (c_pos c))) HL HP HI HS) as [_ MON].
  cbn [run_op] in MON.
  split.
  - exists (h ++ [OpLook (c_state c) (c_tape c (c_pos c))]). split; auto.
    unfold after. rewrite fold_left_app. reflexivity.
  - assert (HSn : slot_ok l tr pr).
    { destruct (result_cases look l h _ _ HL HP HF HS) as [E|[E _]]; rewrite HR in E; [|discriminate].
      symmetry in E. destruct (pure_out look l _ _ _ HL HP HS E) as (s & e & t & s' & r & t' & D & Ht & R & Hs' & Ht' & EI).
      pose proof (reconstruct_ok l s' r t' HL Hs' Ht') as HO.
      destruct (reconstruct l s' r t') as [u mk]. cbn [fst snd] in EI. rewrite <- EI in HO. apply HO. }
    intros q. cbn [c_state c_tape]. unfold write. destruct (q =? c_pos c) eqn:EQ; [auto|].
    destruct (HQ q) as [Q1 Q2]. split; [split; [apply HSn|apply Q1]|].
    specialize (MON _ _ Q2). unfold known, code_of in *. destruct (lg_kind l); auto.
Qed.

Lemma rinv_init look l h : logic_ok l -> params_ok look (lg_states l) (lg_colors l) -> Forall (op_ok l) h ->
  RInv look l (after look l h) init.
Proof.
  intros HL HP HF. split; [eauto|]. intros q. change (c_state init) with 0; change (c_tape init q) with 0. pose proof HL as (HS & HC & HB).
  assert (HW : 0 < lg_colors l ^ Z.of_nat (lg_cells l)) by (apply Z.pow_pos_nonneg; lia).
  split.
  - unfold slot_ok, lg_macro_states, lg_macro_colors, lg_backsymbols. destruct (lg_kind l); nia.
  - apply (zero_known look); [apply after_inv; auto|]. unfold code_of, lg_backsymbols. destruct (lg_kind l); auto.

Qed.

Lemma holds_ext off t tp tp' : holds off t tp -> (forall j, (j < length t)%nat -> tp' (off + Z.of_nat j) = tp (off + Z.of_nat j)) ->
  holds off t tp'.
Proof. intros H E j Hj. rewrite E; auto. Qed.

Lemma block_sim look l h mc bc pr sh tr : lg_kind l = Block -> logic_ok l ->
  params_ok look (lg_states l) (lg_colors l) -> Forall (op_ok l) h ->
  slot_ok l (c_state mc) (c_tape mc (c_pos mc)) ->
  block_decodes (lg_colors l) (lg_cells l) mc bc ->
  result look l h (c_state mc) (c_tape mc (c_pos mc)) = LOk (pr, sh, tr) ->
  exists n d, (0 < n)%nat /\ steps (prog_of look) n bc = Some d /\
    block_decodes (lg_colors l) (lg_cells l) (Cfg tr (move sh (c_pos mc)) (write (c_tape mc) (c_pos mc) pr)) d.
Proof.
  intros HK HL HP HF HS (D1 & D2 & D3) HR.
  destruct (block_instr look l h _ _ pr sh tr HK HL HP HF HS HR) as (I1 & I2 & t & t' & T1 & T2 & T3 & T4 & G).
  assert (HC : 1 <= lg_colors l) by apply HL.
  assert (HKp : (1 <= lg_cells l)%nat) by (apply HL; auto).
  destruct (D3 (c_pos mc)) as (u & U1 & U2 & U3).
  assert (u = t).
  { apply (number_inj (lg_colors l)); [lia| |apply U1|apply T1|congruence].
    destruct U1, T1; congruence. }
  subst u.
  destruct (G (Z.of_nat (lg_cells l) * c_pos mc) bc) as (n & d & (C1 & C2 & C3 & C4 & C5) & S1 & S2).
  { split; auto. split; [|exact U3]. rewrite D2. destruct T1 as [-> _].
    destruct (c_state mc mod 2 =? 1); lia. }
  exists n, d. split; auto. split; auto. split; [exact S1|]. cbn [c_state c_pos c_tape].
  split.
  - rewrite C4, I2. unfold move. destruct sh; [change (0 =? 1) with false|change (1 =? 1) with true]; cbv iota; lia.
  - intros q. unfold write. destruct (q =? c_pos mc) eqn:EQ.
    + apply Z.eqb_eq in EQ. subst q. exists t'. auto.
    + apply Z.eqb_neq in EQ. destruct (D3 q) as (v & V1 & V2 & V3). exists v. split; auto. split; auto.
      apply (holds_ext _ _ (c_tape bc)); auto. intros j Hj. apply C5. destruct V1 as [V1 _]. rewrite V1 in Hj.
      assert (Z.of_nat j < Z.of_nat (lg_cells l)) by lia. generalize dependent (Z.of_nat (lg_cells l)). intros k **.
      assert (q < c_pos mc \/ q > c_pos mc) as [|] by lia; nia.
Qed.

Lemma holds_cons off x t tp : holds off (x :: t) tp <-> tp off = x /\ holds (off + 1) t tp.
Proof.
  split.
  - intros H. split.
    + specialize (H 0%nat). cbn in H. rewrite Z.add_0_r in H. apply H. lia.
    + intros j Hj. specialize (H (S j)). cbn [nth length] in H. rewrite <- H by lia. f_equal. lia.
  - intros [H1 H2] j Hj. destruct j as [|j]; cbn [nth].
    + cbn. rewrite Z.add_0_r. auto.
    + cbn in Hj. rewrite <- H2 by lia. f_equal. lia.
Qed.

Lemma holds_snoc off x t tp : holds off (t ++ [x]) tp <-> holds off t tp /\ tp (off + Z.of_nat (length t)) = x.
Proof.
  revert off. induction t as [|y t IH]; intros off.
  - cbn [app length]. rewrite holds_cons. rewrite Z.add_0_r. split; [intros [H1 _]; split; auto; intros j Hj; cbn in Hj; lia|].
    intros [_ H]. split; auto. intros j Hj. cbn in Hj; lia.
  - cbn [app]. rewrite !holds_cons, IH. cbn [length].
    replace (off + 1 + Z.of_nat (length t)) with (off + Z.of_nat (S (length t))) by lia. tauto.
Qed.

Lemma back_base C k mc bc B : tuple_ok C k B -> 1 <= C ->
  number C 0 B = (c_state mc / 2) mod C ^ Z.of_nat k ->
  back_decodes C k mc bc ->
  base_at (c_state mc / 2 / C ^ Z.of_nat k) (negb (c_state mc mod 2 =? 1))
    (if c_state mc mod 2 =? 1 then c_pos bc else c_pos bc - Z.of_nat k)
    (if c_state mc mod 2 =? 1 then c_tape mc (c_pos mc) :: B else B ++ [c_tape mc (c_pos mc)]) bc.
Proof.
  intros HB HC HN (D1 & t & T1 & T2 & D2).
  assert (t = B).
  { apply (number_inj C); [lia| |apply T1|apply HB|congruence]. destruct T1, HB; congruence. }
  subst t. destruct HB as [HB _]. split; [auto|].
  destruct (c_state mc mod 2 =? 1); cbn [negb]; destruct D2 as (E1 & E2 & E3).
  - split; auto. apply holds_cons. split; auto. specialize (E2 0 ltac:(lia)). rewrite Z.sub_0_r, Z.add_0_r in E2. auto.
  - split; [rewrite app_length; cbn; lia|]. apply holds_snoc. split; auto. rewrite HB.
    specialize (E2 0 ltac:(lia)). rewrite Z.sub_0_r, Z.add_0_r in E2. rewrite <- E2. f_equal. lia.
Qed.

Lemma back_sim look l h mc bc pr sh tr : lg_kind l = Backsymbol -> logic_ok l ->
  params_ok look (lg_states l) (lg_colors l) -> Forall (op_ok l) h ->
  slot_ok l (c_state mc) (c_tape mc (c_pos mc)) ->
  back_decodes (lg_colors l) (lg_cells l) mc bc ->
  result look l h (c_state mc) (c_tape mc (c_pos mc)) = LOk (pr, sh, tr) ->
  exists n d, (0 < n)%nat /\ steps (prog_of look) n bc = Some d /\
    back_decodes (lg_colors l) (lg_cells l) (Cfg tr (move sh (c_pos mc)) (write (c_tape mc) (c_pos mc) pr)) d.
Proof.
  intros HK HL HP HF HS HD HR.
  destruct (back_instr look l h _ _ pr sh tr HK HL HP HF HS HR) as (I1 & I2 & B & B' & T1 & T2 & T3 & T4 & G).
  assert (HC : 1 <= lg_colors l) by apply HL.
  pose proof (back_base (lg_colors l) (lg_cells l) mc bc B T1 HC T2 HD) as HBA.
  destruct (G _ _ HBA) as (n & d & (C1 & C2 & C3 & C4 & C5) & S1 & S2).
  exists n, d. split; auto. split; auto.
  destruct HD as (D1 & t & U1 & U2 & D2).
  unfold back_decodes. cbn [c_state c_pos c_tape]. split; [exact S1|]. exists B'. split; auto. split; auto.
  rewrite I2. clear G HBA. destruct T3 as [T3 _].
  set (k := lg_cells l) in *.
  destruct sh; cbn [negb move] in *.
  - change (1 =? 1) with true; cbv iota. apply holds_snoc in S2. destruct S2 as [S2 S3]. rewrite T3 in S3.
    rewrite C4. split; [|split].
    + match type of S2 with holds ?o _ _ => match goal with |- holds ?o' _ _ => replace o' with o by lia end end. exact S2.
    + intros i Hi. rewrite C5 by (destruct (c_state mc mod 2 =? 1); lia).
      unfold write. replace (c_pos mc + 1 + i =? c_pos mc) with false by lia.
      destruct (c_state mc mod 2 =? 1); destruct D2 as (E1 & E2 & E3).
      * replace (c_pos bc - 1 - i) with (c_pos bc - (1 + i)) by lia. rewrite E2 by lia. f_equal. lia.
      * replace (c_pos bc - Z.of_nat k - 1 - i) with (c_pos bc - Z.of_nat k - (1 + i)) by lia. rewrite E3 by lia. f_equal. lia.
    + intros i Hi. unfold write. destruct (Z.eq_dec i 1) as [->|Hn].
      * replace (c_pos mc + 1 - 1 =? c_pos mc) with true by lia. rewrite <- S3. f_equal. lia.
      * replace (c_pos mc + 1 - i =? c_pos mc) with false by lia.
        destruct (c_state mc mod 2 =? 1); destruct D2 as (E1 & E2 & E3).
        -- rewrite C5 by lia. replace (c_pos bc - 1 + Z.of_nat k + i) with (c_pos bc + Z.of_nat k + (i - 1)) by lia.
           rewrite E3 by lia. f_equal. lia.
        -- rewrite C5 by lia. replace (c_pos bc - Z.of_nat k - 1 + Z.of_nat k + i) with (c_pos bc + (i - 1)) by lia.
           rewrite E2 by lia. f_equal. lia.
  - change (0 =? 1) with false; cbv iota. apply holds_cons in S2. destruct S2 as [S3 S2].
    rewrite C4. split; [|split].
    + match type of S2 with holds ?o _ _ => match goal with |- holds ?o' _ _ => replace o' with o by lia end end. exact S2.
    + intros i Hi. rewrite C5 by (destruct (c_state mc mod 2 =? 1); lia).
      unfold write. replace (c_pos mc - 1 - i =? c_pos mc) with false by lia.
      destruct (c_state mc mod 2 =? 1); destruct D2 as (E1 & E2 & E3).
      * replace (c_pos bc + (Z.of_nat k + 1) + i) with (c_pos bc + Z.of_nat k + (1 + i)) by lia. rewrite E3 by lia. f_equal. lia.
      * replace (c_pos bc - Z.of_nat k + (Z.of_nat k + 1) + i) with (c_pos bc + (1 + i)) by lia. rewrite E2 by lia. f_equal. lia.
    + intros i Hi. unfold write. destruct (Z.eq_dec i 1) as [->|Hn].
      * replace (c_pos mc - 1 + 1 =? c_pos mc) with true by lia. rewrite <- S3. f_equal. lia.
      * replace (c_pos mc - 1 + i =? c_pos mc) with false by lia.
        destruct (c_state mc mod 2 =? 1); destruct D2 as (E1 & E2 & E3).
        -- rewrite C5 by lia. replace (c_pos bc + (Z.of_nat k + 1) - Z.of_nat k - i) with (c_pos bc - (i - 1)) by lia.
           rewrite E2 by lia. f_equal. lia.
        -- rewrite C5 by lia. replace (c_pos bc - Z.of_nat k + (Z.of_nat k + 1) - Z.of_nat k - i) with (c_pos bc - Z.of_nat k - (i - 1)) by lia.
           rewrite E3 by lia. f_equal. lia.
Qed.

Lemma decodes_init l : logic_ok l -> decodes l init init.
Proof.
  intros (HS & HC & HB). unfold decodes.
  assert (HW : 0 < lg_colors l ^ Z.of_nat (lg_cells l)) by (apply Z.pow_pos_nonneg; lia).
  assert (HT : tuple_ok (lg_colors l) (lg_cells l) (repeat 0 (lg_cells l))).
  { split; [apply repeat_length|]. apply Forall_forall. intros x Hx. apply repeat_spec in Hx. lia. }
  assert (HH : forall off, holds off (repeat 0 (lg_cells l)) (fun _ => 0)).
  { intros off j Hj. symmetry. apply nth_repeat. }
  destruct (lg_kind l).
  - split; [reflexivity|]. split; [change (c_pos init) with 0; change (c_state init mod 2 =? 1) with false; cbv iota; lia|]. intros q. exists (repeat 0 (lg_cells l)).
    split; auto. split; [apply number_blank|apply HH].
  - split; [change (c_state init) with 0; rewrite !Z.div_0_l by lia; reflexivity|]. exists (repeat 0 (lg_cells l)).
    split; auto. split; [change (c_state init) with 0; rewrite Z.div_0_l, Z.mod_0_l by lia; apply number_blank|].
    change (c_state init mod 2 =? 1) with false; cbv iota. split; [apply HH|]. auto.
Qed.

(** How a macro run that stopped with [e] is explained by the base machine: it reaches a slot whose
    lookup fails with [e], or runs for ever. *)
Definition ends (look : lookup) (e : lres) (bc : config) : Prop :=
  (exists N d, steps (prog_of look) N bc = Some d /\ look (c_state d) (c_tape d (c_pos d)) = e /\ forall i, e <> LOk i) \/
  (e = LInf /\ forall N, exists d, steps (prog_of look) N bc = Some d).

Lemma sim_stop look l h mc bc e : logic_ok l -> (lg_kind l = Backsymbol -> 2 <= lg_colors l) ->
  params_ok look (lg_states l) (lg_colors l) -> Forall (op_ok l) h ->
  slot_ok l (c_state mc) (c_tape mc (c_pos mc)) -> decodes l mc bc ->
  result look l h (c_state mc) (c_tape mc (c_pos mc)) = e -> (forall i, e <> LOk i) ->
  result look l h (c_state mc) (c_tape mc (c_pos mc)) = pure_get look l (c_state mc) (c_tape mc (c_pos mc)) ->
  ends look e bc.
Proof.
  intros HL H2 HP HF HS HD HR HN HPu. rewrite HR in HPu. symmetry in HPu.
  destruct (pure_err look l _ _ e HL HS HPu HN) as (s & ed & t & D & Hs & Ht & R).
  assert (HC : 1 <= lg_colors l) by apply HL.
  assert (HB : exists off, base_at s ed off t bc).
  { unfold decodes in HD. destruct (lg_kind l) eqn:HK.
    - destruct (block_slot l _ _ s ed t HL HK HS D) as (-> & -> & G3 & G4).
      destruct HD as (D1 & D2 & D3). destruct (D3 (c_pos mc)) as (u & U1 & U2 & U3).
      assert (u = t).
      { apply (number_inj (lg_colors l)); [lia| |apply U1|apply G3|congruence]. destruct U1, G3; congruence. }
      subst u. exists (Z.of_nat (lg_cells l) * c_pos mc). split; auto. split; [|auto].
      rewrite D2. destruct G3 as [-> _]. destruct (c_state mc mod 2 =? 1); lia.
    - destruct (back_slot l _ _ s ed t HL HK HS D) as (-> & -> & B & G3 & G4 & ->).
      eexists. eapply (back_base (lg_colors l) (lg_cells l) mc bc B); auto. }
  destruct HB as [off HB].
  destruct (run_err look l s ed t off bc e HL HP H2 Hs Ht HB R) as [(n & d & F1 & F2 & F3 & F4)|[-> T]].
  - left. exists n, d. auto.
  - right. split; auto. intros N. destruct (T N) as (d & Hd & _). eauto.
Qed.

Lemma macro_run look l h n : logic_ok l -> (lg_kind l = Backsymbol -> 2 <= lg_colors l) ->
  params_ok look (lg_states l) (lg_colors l) -> Forall (op_ok l) h ->
  match msteps look l n (MGo (after look l h) init) with
  | MGo m mc => exists N bc, (n <= N)%nat /\ steps (prog_of look) N init = Some bc /\ decodes l mc bc
  | MStop e => ends look e init
  end.
Proof.
  intros HL H2 HP HF.
  assert (GEN : forall n m mc bc, RInv look l m mc -> decodes l mc bc ->
    match msteps look l n (MGo m mc) with
    | MGo m mc => exists N d, (n <= N)%nat /\ steps (prog_of look) N bc = Some d /\ decodes l mc d
    | MStop e => ends look e bc
    end).
  2:{ apply GEN; [apply rinv_init; auto|apply decodes_init; auto]. }
  clear h HF n. induction n as [|n IH]; intros m mc bc HI HD.
  - cbn. exists 0%nat, bc. auto.
  - cbn [msteps mstep].
    destruct (rinv_step look l m mc HL HP HI) as (h & Em & HF & E1 & E2 & E3).
    destruct HI as [_ HQ]. destruct (HQ (c_pos mc)) as [HS HK].
    destruct (macro_get look l m (c_state mc) (c_tape mc (c_pos mc))) as [m' r]. cbn [fst snd] in *. rewrite <- E1 in *.
    assert (STOP : forall e, r = e -> (forall i, e <> LOk i) -> ends look e bc).
    { intros e -> HN. apply (sim_stop look l h mc bc e); auto. congruence. }
    assert (MS : forall e n, msteps look l n (MStop e) = MStop e) by (intros e; induction n0; auto).
    destruct r as [[[pr sh] tr]| | |].
    + specialize (E3 _ _ _ eq_refl).
      assert (SIM : exists n d, (0 < n)%nat /\ steps (prog_of look) n bc = Some d /\ decodes l (Cfg tr (move sh (c_pos mc)) (write (c_tape mc) (c_pos mc) pr)) d).
      { unfold decodes in *. destruct (lg_kind l) eqn:EK.
        - apply (block_sim look l h); auto.
        - apply (back_sim look l h); auto. }
      destruct SIM as (j & d & Hj & Hd & HD').
      specialize (IH _ _ _ E3 HD').
      destruct (msteps look l n (MGo m' (Cfg tr (move sh (c_pos mc)) (write (c_tape mc) (c_pos mc) pr)))).
      * destruct IH as (N & x & L & X1 & X2). exists (j + N)%nat, x. split; [lia|]. split; auto.
        rewrite (steps_add_some _ _ _ _ _ Hd). auto.
      * destruct IH as [(N & x & X1 & X2 & X3)|[-> X]].
        -- left. exists (j + N)%nat, x. rewrite (steps_add_some _ _ _ _ _ Hd). auto.
        -- right. split; auto. intros N. destruct (X N) as [x Hx].
           apply (steps_le _ (j + N) N _ x); [lia|]. rewrite (steps_add_some _ _ _ _ _ Hd). auto.
    + rewrite MS. apply STOP; auto; discriminate.
    + rewrite MS. apply STOP; auto; discriminate.
    + rewrite MS. apply STOP; auto; discriminate.
Qed.

(** Over a plain program. *)
Lemma dict_cases p s c : dict_lookup p s c = LKey (s, c) \/ exists i, dict_lookup p s c = LOk i.
Proof. unfold dict_lookup. destruct (comp_get p (s, c)); eauto. Qed.

Lemma dict_prog p s c : prog_of (dict_lookup p) s c = machine_of p s c.
Proof. unfold prog_of, dict_lookup, machine_of. destruct (comp_get p (s, c)); auto. Qed.

Lemma dict_steps p n : forall c, steps (prog_of (dict_lookup p)) n c = steps (machine_of p) n c.
Proof.
  induction n as [|n IH]; intros c; cbn; auto. unfold step. rewrite dict_prog.
  destruct (machine_of p (c_state c) (c_tape c (c_pos c))) as [[[pr sh] tr]|]; auto.
Qed.

Lemma macro_run_dict p l h n : logic_ok l -> (lg_kind l = Backsymbol -> 2 <= lg_colors l) ->
  params_ok (dict_lookup p) (lg_states l) (lg_colors l) -> Forall (op_ok l) h ->
  match msteps (dict_lookup p) l n (MGo (after (dict_lookup p) l h) init) with
  | MGo m mc => exists N bc, (n <= N)%nat /\ steps (machine_of p) N init = Some bc /\ decodes l mc bc
  | MStop (LKey s) => exists N, halts_at (machine_of p) N s
  | MStop LInf => never_halts (machine_of p)
  | MStop _ => False
  end.
Proof.
  intros HL H2 HP HF. pose proof (macro_run (dict_lookup p) l h n HL H2 HP HF) as H.
  destruct (msteps (dict_lookup p) l n (MGo (after (dict_lookup p) l h) init)) as [m mc|e].
  - destruct H as (N & bc & L & S1 & S2). rewrite dict_steps in S1. eauto.
  - destruct H as [(N & d & S1 & S2 & S3)|[-> S]].
    + rewrite dict_steps in S1.
      destruct (dict_cases p (c_state d) (c_tape d (c_pos d))) as [E|[i E]]; rewrite E in S2; subst e; [|exfalso; eapply S3; eauto].
      exists N, d. split; auto. split; auto.
      rewrite <- dict_prog. unfold prog_of; cbn [fst snd]. rewrite E. auto.
    + intros N. destruct (S N) as [d Hd]. rewrite dict_steps in Hd. eauto.
Qed.

Lemma macro_halts_iff p l h : logic_ok l -> (lg_kind l = Backsymbol -> 2 <= lg_colors l) ->
  params_ok (dict_lookup p) (lg_states l) (lg_colors l) -> Forall (op_ok l) h ->
  (exists n s, msteps (dict_lookup p) l n (MGo (after (dict_lookup p) l h) init) = MStop (LKey s)) <-> halts (machine_of p).
Proof.
  intros HL H2 HP HF. split.
  - intros (n & s & E). pose proof (macro_run_dict p l h n HL H2 HP HF) as H. rewrite E in H. destruct H as [N H]. exists N, s. exact H.
  - intros HH. pose proof HH as (N & slot & HA). exists (S N).
    pose proof (macro_run_dict p l h (S N) HL H2 HP HF) as H.
    destruct (msteps (dict_lookup p) l (S N) (MGo (after (dict_lookup p) l h) init)) as [m mc|e].
    + destruct H as (K & bc & L & S1 & _). exfalso.
      rewrite (halts_at_stops _ _ _ HA) in S1; [discriminate|lia].
    + destruct e as [|s| |]; try contradiction; [exists s; auto|]. exfalso. exact (halts_not_never _ HH H).
Qed.

Lemma dict_not_inf p off k c : ~ fails_inside (dict_lookup p) off k c LInf.
Proof.
  intros (n & d & _ & _ & H & _). destruct (dict_cases p (c_state d) (c_tape d (c_pos d))) as [E|[i E]]; congruence.
Qed.

Lemma dict_trapped p off k c : trapped (prog_of (dict_lookup p)) off k c -> trapped (machine_of p) off k c.
Proof. intros H n. destruct (H n) as (d & H1 & H2). rewrite dict_steps in H1. eauto. Qed.

Lemma block_infloop p l h ms mc : lg_kind l = Block -> logic_ok l ->
  params_ok (dict_lookup p) (lg_states l) (lg_colors l) -> Forall (op_ok l) h -> slot_ok l ms mc ->
  result (dict_lookup p) l h ms mc = LInf ->
  exists t, tuple_ok (lg_colors l) (lg_cells l) t /\ number (lg_colors l) 0 t = mc /\
    forall off c, base_at (ms / 2) (ms mod 2 =? 1) off t c ->
      trapped (machine_of p) off (Z.of_nat (lg_cells l)) c.
Proof.
  intros HK HL HP HF HS HR.
  destruct (block_instr_err (dict_lookup p) l h ms mc LInf HK HL HP HF HS HR) as (t & T1 & T2 & G); [discriminate|discriminate|].
  exists t. split; auto. split; auto. intros off c HB.
  destruct (G off c HB) as [F|[_ T]]; [exfalso; exact (dict_not_inf _ _ _ _ F)|apply dict_trapped; auto].
Qed.

Lemma back_infloop p l h ms mc : lg_kind l = Backsymbol -> logic_ok l -> 2 <= lg_colors l ->
  params_ok (dict_lookup p) (lg_states l) (lg_colors l) -> Forall (op_ok l) h -> slot_ok l ms mc ->
  result (dict_lookup p) l h ms mc = LInf ->
  exists B, tuple_ok (lg_colors l) (lg_cells l) B /\
    number (lg_colors l) 0 B = (ms / 2) mod lg_colors l ^ Z.of_nat (lg_cells l) /\
    forall off c,
      base_at (ms / 2 / lg_colors l ^ Z.of_nat (lg_cells l)) (negb (ms mod 2 =? 1)) off
        (if ms mod 2 =? 1 then mc :: B else B ++ [mc]) c ->
      trapped (machine_of p) off (Z.of_nat (lg_cells l) + 1) c.
Proof.
  intros HK HL H2 HP HF HS HR.
  destruct (back_instr_err (dict_lookup p) l h ms mc LInf HK HL H2 HP HF HS HR) as (B & T1 & T2 & G); [discriminate|discriminate|].
  exists B. split; auto. split; auto. intros off c HB.
  destruct (G off c HB) as [F|[_ T]]; [exfalso; exact (dict_not_inf _ _ _ _ F)|apply dict_trapped; auto].
Qed.
