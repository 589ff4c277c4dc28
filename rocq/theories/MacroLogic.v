(** Lemmas about the converter, the two logics and the macro lookups. *)
From Verif Require Import Base TM TMFacts ProgModel MacroModel MacroSpec TermRecProofs MacroProofs BackLimit.

(** ** The converter *)

Record CInv (b : Z) (k : nat) (cv : converter) : Prop := {
  ci_tape : forall c t, tape_get (cv_to_tape cv) c = Some t -> tuple_ok b k t /\ number b 0 t = c;
  ci_color : forall t c, color_get (cv_to_color cv) t = Some c ->
               number b 0 t = c /\ tape_get (cv_to_tape cv) c = Some t;
  ci_zero : tape_get (cv_to_tape cv) 0 = Some (repeat 0 k)
}.

Lemma tuple_blank b k : 1 <= b -> tuple_ok b k (repeat 0 k).
Proof.
  intros H. split; [apply repeat_length|]. apply Forall_forall. intros d Hd. apply repeat_spec in Hd. lia.
Qed.

Lemma conv_init_inv b k : 1 <= b -> CInv b k (conv_init k).
Proof.
  intros H. constructor; cbn.
  - intros c t. destruct (Z.eqb_spec 0 c); [|discriminate]. intros E. inv E. split; [apply tuple_blank; auto|apply number_blank].
  - discriminate.
  - reflexivity.
Qed.

Lemma tape_to_color_inv b k cv t : 1 <= b -> CInv b k cv -> tuple_ok b k t ->
  let '(cv', c) := tape_to_color b cv t in
  CInv b k cv' /\ c = number b 0 t /\ color_to_tape cv' c = Some t /\
  (forall c', color_to_tape cv c' <> None -> color_to_tape cv' c' = color_to_tape cv c').
Proof.
  intros Hb HI Ht. unfold tape_to_color, color_to_tape.
  destruct (color_get (cv_to_color cv) t) as [c|] eqn:E.
  - destruct (ci_color _ _ _ HI _ _ E) as [H1 H2]. split; [exact HI|]. auto.
  - rewrite color_of_number. set (c := number b 0 t).
    assert (UNIQ : forall c' t', tape_get (cv_to_tape cv) c' = Some t' -> c' = c -> t' = t).
    { intros c' t' H ->. destruct (ci_tape _ _ _ HI _ _ H) as [[H1 H2] H3]. destruct Ht as [H4 H5].
      apply (number_inj b); auto; lia. }
    split; [constructor; cbn|split; [reflexivity|split; cbn]].
    + intros c' t'. destruct (Z.eqb_spec c c') as [<-|N]; [intros H; inv H; auto|apply (ci_tape _ _ _ HI)].
    + intros t' c'. destruct (cells_eqb t t') eqn:ET.
      * apply cells_eqb_eq in ET. subst t'. intros H. inv H. rewrite Z.eqb_refl. auto.
      * intros H. destruct (ci_color _ _ _ HI _ _ H) as [H1 H2]. split; auto.
        destruct (Z.eqb_spec c c') as [EC|N]; auto. rewrite (UNIQ _ _ H2 (eq_sym EC)). reflexivity.
    + destruct (Z.eqb_spec c 0) as [EC|N]; [|apply (ci_zero _ _ _ HI)].
      rewrite (UNIQ _ _ (ci_zero _ _ _ HI) (eq_sym EC)). reflexivity.
    + rewrite Z.eqb_refl. reflexivity.
    + intros c' Hc'. destruct (Z.eqb_spec c c') as [EC|N]; auto.
      destruct (tape_get (cv_to_tape cv) c') eqn:EG; [|contradiction]. rewrite (UNIQ _ _ EG (eq_sym EC)). reflexivity.
Qed.

(** ** Digits: the inverse of [number] *)
Fixpoint digits (b : Z) (k : nat) (c : Z) : list Z :=
  match k with O => [] | S k => digits b k (c / b) ++ [c mod b] end.

Lemma digits_ok b k : 1 <= b -> forall c, tuple_ok b k (digits b k c).
Proof.
  intros Hb. induction k as [|k IH]; intros c; [split; [reflexivity|constructor]|].
  destruct (IH (c / b)) as [H1 H2]. split; cbn [digits].
  - rewrite app_length, H1. cbn. lia.
  - apply Forall_app. split; auto. constructor; auto. apply Z.mod_pos_bound. lia.
Qed.

Lemma number_digits b k : 1 <= b -> forall c, 0 <= c < b ^ Z.of_nat k -> number b 0 (digits b k c) = c.
Proof.
  intros Hb. induction k as [|k IH]; intros c Hc.
  - cbn in *. lia.
  - cbn [digits]. rewrite number_snoc. rewrite Nat2Z.inj_succ, Z.pow_succ_r in Hc by lia.
    rewrite IH.
    + pose proof (Z.div_mod c b). lia.
    + split; [apply Z.div_pos; lia|]. apply Z.div_lt_upper_bound; lia.
Qed.

Lemma digits_number b k t : 1 <= b -> tuple_ok b k t -> digits b k (number b 0 t) = t.
Proof.
  intros Hb [H1 H2]. pose proof (number_bound b t ltac:(lia) H2) as B. rewrite H1 in B.
  destruct (digits_ok b k Hb (number b 0 t)) as [G1 G2].
  apply (number_inj b); auto; [lia|lia|]. apply number_digits; auto.
Qed.

(** ** The lookups without caches *)
Definition dec_pure (l : logic) (c : Z) : option cells_t := Some (digits (lg_colors l) (lg_cells l) c).

Definition pure_get (look : lookup) (l : logic) (ms mc : Z) : lres :=
  match deconstruct l (dec_pure l) ms mc with
  | None => LAssert
  | Some (state, (right_edge, tape)) =>
      match run_simulator look (Z.to_nat (lg_sim_lim l)) state right_edge tape with
      | WIn _ _ _ => LInf
      | WErr e => e
      | WOut state right_ tape =>
          let '(t, mk) := reconstruct l state right_ tape in
          LOk (mk (number (lg_colors l) 0 t))
      end
  end.

(** The window of a slot. *)
Definition win_cells (l : logic) : nat := match lg_kind l with Block => lg_cells l | Backsymbol => S (lg_cells l) end.

Lemma deconstruct_ok l ms mc s e t : logic_ok l -> slot_ok l ms mc ->
  deconstruct l (dec_pure l) ms mc = Some (s, (e, t)) ->
  0 <= s < lg_states l /\ tuple_ok (lg_colors l) (win_cells l) t.
Proof.
  intros (HS & HC & HK) [H1 H2]. unfold deconstruct, dec_pure, slot_ok, lg_macro_states, lg_macro_colors, win_cells in *.
  destruct (lg_kind l).
  - intros E. inv E. split; [|apply digits_ok; auto].
    split; [apply Z.div_pos; lia|apply Z.div_lt_upper_bound; lia].
  - intros E. destruct (digits_ok (lg_colors l) (lg_cells l) HC ((ms / 2) mod lg_backsymbols l)) as [D1 D2].
    assert (HB : 0 < lg_backsymbols l) by (unfold lg_backsymbols; apply Z.pow_pos_nonneg; lia).
    assert (0 <= ms / 2 / lg_backsymbols l < lg_states l).
    { split; [apply Z.div_pos; [apply Z.div_pos; lia|lia]|].
      apply Z.div_lt_upper_bound; [lia|]. apply Z.div_lt_upper_bound; lia. }
    destruct (negb (ms mod 2 =? 0)); inv E; (split; [auto|]); split; cbn; try lia.
    + constructor; auto.
    + rewrite app_length. cbn. lia.
    + apply Forall_app. auto.
Qed.

Lemma sim_loop_valid look S C k fuel : forall s t p, params_ok look S C -> wvalid S C k (WIn s t p) ->
  wvalid S C k (sim_loop look fuel s t p).
Proof.
  induction fuel as [|fuel IH]; intros s t p HP HV; [exact I|].
  pose proof (wstep_valid look S C k (WIn s t p) HP HV) as H. cbn [wstep] in H. cbn [sim_loop].
  destruct (sim_step look s t p); auto.
Qed.

Lemma sim_loop_not_in look fuel : forall s t p s' t' p', sim_loop look fuel s t p <> WIn s' t' p'.
Proof.
  induction fuel as [|fuel IH]; intros s t p s' t' p'; cbn; [discriminate|].
  destruct (sim_step look s t p); auto; discriminate.
Qed.

(** What [reconstruct] yields is well formed. *)
Lemma reconstruct_ok l s right_ t : logic_ok l -> 0 <= s < lg_states l ->
  tuple_ok (lg_colors l) (win_cells l) t ->
  let '(u, mk) := reconstruct l s right_ t in
  tuple_ok (lg_colors l) (lg_cells l) u /\
  let '(pr, sh, tr) := mk (number (lg_colors l) 0 u) in
  slot_ok l tr pr.
Proof.
  intros (HS & HC & HK) Hs [H1 H2]. unfold reconstruct, slot_ok, lg_macro_states, lg_macro_colors, win_cells, lg_backsymbols in *.
  destruct (lg_kind l).
  - split; [split; auto|]. pose proof (number_bound (lg_colors l) t ltac:(lia) H2) as B. rewrite H1 in B.
    destruct right_; lia.
  - destruct right_; cbn [negb].
    + destruct t as [|x t]; [discriminate|]. inv H2. cbn [hd tl]. cbn in H1.
      assert (length t = lg_cells l) as HL by lia.
      split; [split; auto|].
      pose proof (number_bound (lg_colors l) t ltac:(lia) H4) as B. rewrite HL in B. nia.
    + destruct t as [|x t _] using rev_ind; [discriminate|]. rewrite last_last, removelast_last.
      rewrite app_length in H1. cbn in H1. apply Forall_app in H2 as [H2 H3]. inv H3.
      assert (length t = lg_cells l) as HL by lia. split; [split; auto|].
      pose proof (number_bound (lg_colors l) t ltac:(lia) H2) as B. rewrite HL in B. nia.
Qed.

(** The part of a slot which is decoded by the converter. *)
Definition code_of (l : logic) (ms mc : Z) : Z :=
  match lg_kind l with Block => mc | Backsymbol => (ms / 2) mod lg_backsymbols l end.

Definition known (l : logic) (m : macro_state_t) (ms mc : Z) : Prop :=
  color_to_tape (ms_conv m) (code_of l ms mc) <> None.

(** ** The invariant of a macro program's caches *)
Record MInv (look : lookup) (l : logic) (m : macro_state_t) : Prop := {
  mi_conv : CInv (lg_colors l) (lg_cells l) (ms_conv m);
  mi_instrs : forall ms mc pr sh tr, comp_get (ms_instrs m) (ms, mc) = Some (pr, sh, tr) ->
     pure_get look l ms mc = LOk (pr, sh, tr) /\ known l m tr pr
}.

Lemma dec_conv l cv c t : 1 <= lg_colors l -> CInv (lg_colors l) (lg_cells l) cv ->
  color_to_tape cv c = Some t -> dec_pure l c = Some t.
Proof.
  intros HC HI H. destruct (ci_tape _ _ _ HI _ _ H) as [H1 H2]. unfold dec_pure. rewrite <- H2.
  rewrite digits_number; auto.
Qed.

Lemma deconstruct_known l m ms mc look : 1 <= lg_colors l -> MInv look l m ->
  known l m ms mc -> deconstruct l (color_to_tape (ms_conv m)) ms mc = deconstruct l (dec_pure l) ms mc.
Proof.
  intros HC HI HK. unfold known, code_of in HK. unfold deconstruct. destruct (lg_kind l).
  - destruct (color_to_tape (ms_conv m) mc) eqn:E; [|contradiction].
    rewrite (dec_conv l _ _ _ HC (mi_conv _ _ _ HI) E). reflexivity.
  - destruct (color_to_tape (ms_conv m) ((ms / 2) mod lg_backsymbols l)) eqn:E; [|contradiction].
    rewrite (dec_conv l _ _ _ HC (mi_conv _ _ _ HI) E). reflexivity.
Qed.

Lemma deconstruct_unknown l m ms mc : ~ known l m ms mc -> deconstruct l (color_to_tape (ms_conv m)) ms mc = None.
Proof.
  intros HK. unfold known, code_of in HK. unfold deconstruct. destruct (lg_kind l);
  match goal with |- context [color_to_tape ?cv ?c] => destruct (color_to_tape cv c) eqn:E end; auto;
  exfalso; apply HK; discriminate.
Qed.

Lemma comp_get_cons s i p s' : comp_get ((s, i) :: p) s' = if slot_eqb s s' then Some i else comp_get p s'.
Proof. reflexivity. Qed.

(** The next slots are known: the code of the new colour or state. *)
Lemma code_of_next l s r t : logic_ok l -> 0 <= s < lg_states l -> tuple_ok (lg_colors l) (win_cells l) t ->
  let '(u, mk) := reconstruct l s r t in
  let '(pr, sh, tr) := mk (number (lg_colors l) 0 u) in
  code_of l tr pr = number (lg_colors l) 0 u.
Proof.
  intros HL Hs Ht. pose proof (reconstruct_ok l s r t HL Hs Ht) as H.
  destruct (reconstruct l s r t) as [u mk] eqn:E. destruct H as [[H1 H2] H].
  destruct HL as (HS & HC & HK).
  pose proof (number_bound (lg_colors l) u ltac:(lia) H2) as B. rewrite H1 in B.
  unfold reconstruct in E. unfold code_of. destruct (lg_kind l) eqn:EK.
  - inv E. reflexivity.
  - destruct (if negb r then (last t 0, removelast t) else (hd 0 t, tl t)) as [o bs] eqn:E2. inv E.
    unfold lg_backsymbols in *. set (v := number (lg_colors l) 0 u) in *.
    replace (((if negb r then 1 else 0) + 2 * (v + s * lg_colors l ^ Z.of_nat (lg_cells l))) / 2)
      with (v + s * lg_colors l ^ Z.of_nat (lg_cells l)).
    2:{ generalize (v + s * lg_colors l ^ Z.of_nat (lg_cells l)). intros z.
        apply (Z.div_unique _ 2 _ (if negb r then 1 else 0)); destruct r; cbn [negb]; lia. }
    rewrite Z.mod_add by lia. apply Z.mod_small. lia.
Qed.

Lemma pure_calc look l m ms mc : logic_ok l -> params_ok look (lg_states l) (lg_colors l) ->
  MInv look l m -> slot_ok l ms mc -> known l m ms mc ->
  let '(cv, r) := calculate_instr look l (ms_conv m) ms mc in
  r = pure_get look l ms mc /\ CInv (lg_colors l) (lg_cells l) cv /\
  (forall c, color_to_tape (ms_conv m) c <> None -> color_to_tape cv c = color_to_tape (ms_conv m) c) /\
  (forall pr sh tr, r = LOk (pr, sh, tr) -> color_to_tape cv (code_of l tr pr) <> None /\ slot_ok l tr pr).
Proof.
  intros HL HP HI HS HK. unfold calculate_instr, pure_get.
  assert (HC : 1 <= lg_colors l) by apply HL.
  rewrite (deconstruct_known l m ms mc look HC HI HK).
  destruct (deconstruct l (dec_pure l) ms mc) as [[s [e t]]|] eqn:ED.
  2:{ split; auto. split; [apply (mi_conv _ _ _ HI)|]. split; auto. intros pr sh tr E. discriminate E. }
  destruct (deconstruct_ok l ms mc s e t HL HS ED) as [Hs Ht].
  assert (HV : wvalid (lg_states l) (lg_colors l) (win_cells l)
     (run_simulator look (Z.to_nat (lg_sim_lim l)) s e t)).
  { apply sim_loop_valid; auto. split; auto. split; auto. destruct Ht as [Ht1 _]. rewrite Ht1.
    assert (0 < win_cells l)%nat by (unfold win_cells; destruct HL as (_ & _ & HL3); destruct (lg_kind l); [specialize (HL3 eq_refl)|]; lia).
    destruct e; lia. }
  assert (NI : forall e0, (forall i, e0 <> LOk i) -> MInv look l m ->
     e0 = e0 /\ CInv (lg_colors l) (lg_cells l) (ms_conv m) /\
     (forall c, color_to_tape (ms_conv m) c <> None -> color_to_tape (ms_conv m) c = color_to_tape (ms_conv m) c) /\
     (forall pr sh tr, e0 = LOk (pr, sh, tr) -> color_to_tape (ms_conv m) (code_of l tr pr) <> None /\ slot_ok l tr pr)).
  { intros e0 He0 HM. split; auto. split; [apply (mi_conv _ _ _ HM)|]. split; auto. intros pr sh tr Eq. exfalso. exact (He0 _ Eq). }
  destruct (run_simulator look (Z.to_nat (lg_sim_lim l)) s e t) as [s1 t1 p1|s1 r1 t1|e1] eqn:ER.
  - apply NI; auto. discriminate.
  - destruct HV as [V1 V2].
    pose proof (reconstruct_ok l s1 r1 t1 HL V1 V2) as H1.
    pose proof (code_of_next l s1 r1 t1 HL V1 V2) as H2.
    destruct (reconstruct l s1 r1 t1) as [u mk]. destruct H1 as [H1 H3].
    pose proof (tape_to_color_inv (lg_colors l) (lg_cells l) (ms_conv m) u HC (mi_conv _ _ _ HI) H1) as H4.
    destruct (tape_to_color (lg_colors l) (ms_conv m) u) as [cv c]. destruct H4 as (I1 & I2 & I3 & I4).
    subst c. split; [reflexivity|]. split; auto. split; auto.
    intros pr sh tr Eq. injection Eq as Eq. rewrite Eq in H2, H3. rewrite H2. split; [congruence|auto].
  - apply NI; auto. intros i Hi. subst e1. revert ER. unfold run_simulator. clear.
    generalize (if e then (length t - 1)%nat else 0%nat). revert s t.
    induction (Z.to_nat (lg_sim_lim l)) as [|f IH]; intros s t p; cbn; [discriminate|].
    destruct (sim_step look s t p) as [s1 t1 p1|s1 r1 t1|e1] eqn:ES; [apply IH|discriminate|].
    intros H. inv H. revert ES. unfold sim_step.
    destruct (look s (cell_at t p)) as [[[color shift] next]| | |]; try discriminate.
    destruct (negb (next =? s)).
    + destruct shift; [destruct (Nat.leb _ _)|destruct p]; discriminate.
    + destruct shift.
      * generalize (length t) at 1. intros f0. generalize (cell_at t p). intros sc. revert t p.
        induction f0 as [|f0 IH0]; intros t p; cbn; [discriminate|].
        destruct (cell_at t p =? sc); [|discriminate]. destruct (Nat.leb _ _); [discriminate|apply IH0].
      * generalize (length t) at 1. intros f0. generalize (cell_at t p). intros sc. revert t p.
        induction f0 as [|f0 IH0]; intros t p; cbn; [discriminate|].
        destruct (cell_at t p =? sc); [|discriminate]. destruct p; [discriminate|apply IH0].
Qed.

(** One lookup: the cached machine answers like the pure one, and stays in order. *)
Lemma get_ok look l m ms mc : logic_ok l -> params_ok look (lg_states l) (lg_colors l) ->
  MInv look l m -> slot_ok l ms mc -> known l m ms mc ->
  let '(m', r) := macro_get look l m ms mc in
  r = pure_get look l ms mc /\ MInv look l m' /\
  (forall ms mc, known l m ms mc -> known l m' ms mc) /\
  (forall pr sh tr, r = LOk (pr, sh, tr) -> known l m' tr pr).
Proof.
  intros HL HP HI HS HK. unfold macro_get.
  destruct (comp_get (ms_instrs m) (ms, mc)) as [[[pr sh] tr]|] eqn:EC.
  - destruct (mi_instrs _ _ _ HI _ _ _ _ _ EC) as [H1 H2]. split; auto. split; auto. split; auto.
    intros pr0 sh0 tr0 E. inv E. auto.
  - pose proof (pure_calc look l m ms mc HL HP HI HS HK) as H.
    destruct (calculate_instr look l (ms_conv m) ms mc) as [cv r]. destruct H as (H1 & H2 & H3 & H4).
    assert (KM : forall is ms mc, known l m ms mc -> known l (MS is cv) ms mc).
    { intros is ms0 mc0 K. unfold known in *. cbn. rewrite H3; auto. }
    destruct r as [[[pr sh] tr]| | |].
    + split; auto. split; [|split; [apply KM|]].
      * constructor; cbn [ms_conv ms_instrs]; auto. intros ms0 mc0 pr0 sh0 tr0. rewrite comp_get_cons.
        unfold slot_eqb. cbn [fst snd].
        destruct (Z.eqb_spec ms ms0) as [<-|N1], (Z.eqb_spec mc mc0) as [<-|N2]; cbn;
          try (intros E; destruct (mi_instrs _ _ _ HI _ _ _ _ _ E) as [G1 G2]; split; [auto|apply KM; auto]).
        intros E. inv E. split; auto. apply (H4 pr0 sh0 tr0 eq_refl).
      * intros pr0 sh0 tr0 E. inv E. apply (H4 pr0 sh0 tr0 eq_refl).
    + split; auto. split; [|split; [apply KM|discriminate]]. constructor; cbn; auto.
      intros ms0 mc0 pr0 sh0 tr0 E. destruct (mi_instrs _ _ _ HI _ _ _ _ _ E) as [G1 G2]. split; [auto|apply KM; auto].
    + split; auto. split; [|split; [apply KM|discriminate]]. constructor; cbn; auto.
      intros ms0 mc0 pr0 sh0 tr0 E. destruct (mi_instrs _ _ _ HI _ _ _ _ _ E) as [G1 G2]. split; [auto|apply KM; auto].
    + split; auto. split; [|split; [apply KM|discriminate]]. constructor; cbn; auto.
      intros ms0 mc0 pr0 sh0 tr0 E. destruct (mi_instrs _ _ _ HI _ _ _ _ _ E) as [G1 G2]. split; [auto|apply KM; auto].
Qed.

Lemma get_unknown look l m ms mc : MInv look l m -> ~ known l m ms mc ->
  (exists i, comp_get (ms_instrs m) (ms, mc) = Some i) \/ macro_get look l m ms mc = (MS (ms_instrs m) (ms_conv m), LAssert).
Proof.
  intros HI HK. unfold macro_get. destruct (comp_get (ms_instrs m) (ms, mc)) as [i|]; [left; eauto|].
  right. unfold calculate_instr. rewrite deconstruct_unknown; auto.
Qed.

(** ** Histories *)

Lemma known_mono_conv l m is cv ms mc :
  (forall c, color_to_tape (ms_conv m) c <> None -> color_to_tape cv c = color_to_tape (ms_conv m) c) ->
  known l m ms mc -> known l (MS is cv) ms mc.
Proof. intros H K. unfold known in *. cbn. rewrite H; auto. Qed.

Lemma macro_init_inv look l : logic_ok l -> MInv look l (macro_init l).
Proof. intros (HS & HC & HK). constructor; cbn; [apply conv_init_inv; auto|discriminate]. Qed.

Lemma run_op_ok look l m o : logic_ok l -> params_ok look (lg_states l) (lg_colors l) ->
  MInv look l m -> op_ok l o ->
  MInv look l (run_op look l m o) /\ forall ms mc, known l m ms mc -> known l (run_op look l m o) ms mc.
Proof.
  intros HL HP HI HO. destruct o as [ms mc|t]; cbn [run_op op_ok] in *.
  - destruct (color_to_tape (ms_conv m) (code_of l ms mc)) eqn:EK.
    + assert (HK : known l m ms mc) by (unfold known; congruence).
      pose proof (get_ok look l m ms mc HL HP HI HO HK) as H.
      destruct (macro_get look l m ms mc) as [m' r]. cbn. destruct H as (_ & H2 & H3 & _). auto.
    + assert (HK : ~ known l m ms mc) by (unfold known; congruence).
      destruct (get_unknown look l m ms mc HI HK) as [[i E]|E].
      * unfold macro_get. rewrite E. cbn. auto.
      * rewrite E. cbn. split; [destruct m; exact HI|]. destruct m; auto.
  - assert (HC : 1 <= lg_colors l) by apply HL.
    pose proof (tape_to_color_inv _ _ _ _ HC (mi_conv _ _ _ HI) HO) as H.
    destruct (tape_to_color (lg_colors l) (ms_conv m) t) as [cv c]. cbn. destruct H as (H1 & H2 & H3 & H4).
    split.
    + constructor; cbn; auto. intros ms0 mc0 pr0 sh0 tr0 E.
      destruct (mi_instrs _ _ _ HI _ _ _ _ _ E) as [G1 G2]. split; auto. apply (known_mono_conv l m); auto.
    + intros ms mc K. apply (known_mono_conv l m); auto.
Qed.

Lemma run_ops_ok look l h : forall m, logic_ok l -> params_ok look (lg_states l) (lg_colors l) ->
  MInv look l m -> Forall (op_ok l) h ->
  MInv look l (fold_left (run_op look l) h m) /\
  forall ms mc, known l m ms mc -> known l (fold_left (run_op look l) h m) ms mc.
Proof.
  induction h as [|o h IH]; intros m HL HP HI HF; [cbn; auto|].
  inv HF. destruct (run_op_ok look l m o HL HP HI H1) as [G1 G2].
  destruct (IH (run_op look l m o) HL HP G1 H2) as [G3 G4]. cbn. auto.
Qed.

Lemma after_inv look l h : logic_ok l -> params_ok look (lg_states l) (lg_colors l) ->
  Forall (op_ok l) h -> MInv look l (after look l h).
Proof. intros HL HP HF. apply run_ops_ok; auto. apply macro_init_inv; auto. Qed.

(** A lookup gives the pure answer, or AssertionError for a colour not met before. *)
Lemma result_cases look l h ms mc : logic_ok l -> params_ok look (lg_states l) (lg_colors l) ->
  Forall (op_ok l) h -> slot_ok l ms mc ->
  result look l h ms mc = pure_get look l ms mc \/
  (result look l h ms mc = LAssert /\ ~ known l (after look l h) ms mc).
Proof.
  intros HL HP HF HS. pose proof (after_inv look l h HL HP HF) as HI. unfold result.
  destruct (color_to_tape (ms_conv (after look l h)) (code_of l ms mc)) eqn:EK.
  - assert (HK : known l (after look l h) ms mc) by (unfold known; congruence).
    pose proof (get_ok look l _ ms mc HL HP HI HS HK) as H.
    destruct (macro_get look l (after look l h) ms mc) as [m' r]. left. apply H.
  - assert (HK : ~ known l (after look l h) ms mc) by (unfold known; congruence).
    destruct (get_unknown look l _ ms mc HI HK) as [[i E]|E].
    + left. unfold macro_get. rewrite E. cbn. destruct i as [[pr sh] tr].
      destruct (mi_instrs _ _ _ HI _ _ _ _ _ E) as [G1 _]. auto.
    + right. rewrite E. auto.
Qed.

Lemma result_known look l h1 ms1 mc1 h2 pr sh tr : logic_ok l -> params_ok look (lg_states l) (lg_colors l) ->
  Forall (op_ok l) (h1 ++ OpLook ms1 mc1 :: h2) -> result look l h1 ms1 mc1 = LOk (pr, sh, tr) ->
  known l (after look l (h1 ++ OpLook ms1 mc1 :: h2)) tr pr.
Proof.
  intros HL HP HF HR. apply Forall_app in HF as [HF1 HF2]. inv HF2.
  pose proof (after_inv look l h1 HL HP HF1) as HI.
  unfold after. rewrite fold_left_app. cbn [fold_left]. fold (after look l h1).
  destruct (run_op_ok look l _ _ HL HP HI H1) as [G1 G2].
  apply run_ops_ok; auto. cbn [run_op] in *. unfold result in HR.
  destruct (comp_get (ms_instrs (after look l h1)) (ms1, mc1)) as [i|] eqn:EC.
  - unfold macro_get in *. rewrite EC in *. cbn in *. inv HR.
    apply (mi_instrs _ _ _ HI _ _ _ _ _ EC).
  - destruct (color_to_tape (ms_conv (after look l h1)) (code_of l ms1 mc1)) eqn:EK.
    + assert (HK : known l (after look l h1) ms1 mc1) by (unfold known; congruence).
      pose proof (get_ok look l _ ms1 mc1 HL HP HI H1 HK) as H.
      destruct (macro_get look l (after look l h1) ms1 mc1) as [m' r]. cbn in *.
      destruct H as (_ & _ & _ & H). eauto.
    + assert (HK : ~ known l (after look l h1) ms1 mc1) by (unfold known; congruence).
      destruct (get_unknown look l _ ms1 mc1 HI HK) as [[i E]|E]; [congruence|]. rewrite E in HR. discriminate.
Qed.

Lemma zero_known look l m ms mc : MInv look l m -> code_of l ms mc = 0 -> known l m ms mc.
Proof. intros HI E. unfold known. rewrite E. unfold color_to_tape. rewrite (ci_zero _ _ _ (mi_conv _ _ _ HI)). discriminate. Qed.

Lemma seen_known look l h ms mc : logic_ok l -> params_ok look (lg_states l) (lg_colors l) ->
  Forall (op_ok l) h -> seen_state look l h ms -> seen_color look l h mc -> known l (after look l h) ms mc.
Proof.
  intros HL HP HF H1 H2. pose proof (after_inv look l h HL HP HF) as HI.
  destruct (lg_kind l) eqn:EK.
  - destruct H2 as [->|(h1 & ms1 & mc1 & h2 & sh & tr & E & HR)].
    + apply (zero_known look); auto. unfold code_of. rewrite EK. reflexivity.
    + subst h. pose proof (result_known look l h1 ms1 mc1 h2 _ _ _ HL HP HF HR) as K.
      unfold known, code_of in *. rewrite EK in *. auto.
  - destruct H1 as [->|(h1 & ms1 & mc1 & h2 & pr & sh & E & HR)].
    + apply (zero_known look); auto. unfold code_of. rewrite EK. rewrite Z.div_0_l by lia.
      apply Z.mod_0_l. unfold lg_backsymbols. destruct HL as (_ & HC & _).
      pose proof (Z.pow_pos_nonneg (lg_colors l) (Z.of_nat (lg_cells l))). lia.
    + subst h. pose proof (result_known look l h1 ms1 mc1 h2 _ _ _ HL HP HF HR) as K.
      unfold known, code_of in *. rewrite EK in *. auto.
Qed.

(** C22 *)
Lemma lookup_history_independent look l h h' ms mc : logic_ok l -> params_ok look (lg_states l) (lg_colors l) ->
  Forall (op_ok l) h -> Forall (op_ok l) h' -> slot_ok l ms mc ->
  seen_state look l h ms -> seen_color look l h mc -> seen_state look l h' ms -> seen_color look l h' mc ->
  result look l h ms mc = result look l h' ms mc.
Proof.
  intros HL HP HF HF' HS H1 H2 H3 H4.
  destruct (result_cases look l h ms mc HL HP HF HS) as [->|[_ N]];
    [|exfalso; apply N; apply seen_known; auto].
  destruct (result_cases look l h' ms mc HL HP HF' HS) as [->|[_ N]];
    [|exfalso; apply N; apply seen_known; auto]. reflexivity.
Qed.

(** ** What the pure answers mean *)

Lemma win_pos l : logic_ok l -> (0 < win_cells l)%nat.
Proof. intros (_ & _ & H). unfold win_cells. destruct (lg_kind l); [specialize (H eq_refl)|]; lia. Qed.

Lemma base_at_shows s e off t c : base_at s e off t c -> (0 < length t)%nat ->
  shows off (length t) (c_tape c) s t (off + Z.of_nat (if e then length t - 1 else 0)) c.
Proof.
  intros (H1 & H2 & H3) HL. repeat split; auto. rewrite H2. destruct e; lia.
Qed.

Lemma run_out look lim s e t s' r t' off c : (0 < length t)%nat ->
  base_at s e off t c -> run_simulator look lim s e t = WOut s' r t' ->
  exists n d, crosses (prog_of look) off (Z.of_nat (length t)) n c d r /\ c_state d = s' /\
    length t' = length t /\ holds off t' (c_tape d).
Proof.
  intros HL HB HR. unfold run_simulator in HR.
  pose proof (base_at_shows s e off t c HB HL) as HS.
  assert (HPp : ((if e then length t - 1 else 0) < length t)%nat) by (destruct e; lia).
  destruct (sim_loop_out look off (length t) (c_tape c) lim s t _ c s' r t' HPp HS HR)
    as (n & Hn & d & G1 & G2 & G3).
  exists n, d. destruct G3 as (F1 & F2 & F3 & F4 & F5). repeat split; auto.
  - intros. destruct (G2 m H) as (x & E1 & E2). rewrite E1 in H0. inv H0. apply E2.
  - destruct (G2 m H) as (x & E1 & E2). rewrite E1 in H0. inv H0. apply E2.
Qed.

Lemma run_err look l s e t off c err : logic_ok l -> params_ok look (lg_states l) (lg_colors l) ->
  (lg_kind l = Backsymbol -> 2 <= lg_colors l) ->
  0 <= s < lg_states l -> tuple_ok (lg_colors l) (win_cells l) t ->
  base_at s e off t c -> run_simulator look (Z.to_nat (lg_sim_lim l)) s e t = WErr err ->
  fails_inside look off (Z.of_nat (length t)) c err \/
  (err = LInf /\ trapped (prog_of look) off (Z.of_nat (length t)) c).
Proof.
  intros HL HP H2 Hs Ht HB HR. unfold run_simulator in HR.
  pose proof (win_pos l HL) as HW. pose proof Ht as [Ht1 Ht2].
  assert (HLen : (0 < length t)%nat) by lia.
  pose proof (base_at_shows s e off t c HB HLen) as HS.
  assert (HPp : ((if e then length t - 1 else 0) < length t)%nat) by (destruct e; lia).
  destruct (sim_loop_err look off (length t) (c_tape c) _ s t _ c err HPp HS HR) as [F|[-> HN]]; [left; auto|].
  right. split; auto. apply (forever_trapped look off (length t) (c_tape c) s t _ c HPp HS).
  assert (HC1 : 1 <= lg_colors l) by apply HL.
  assert (HS1 : 1 <= lg_states l) by apply HL.
  assert (HPW : 0 < lg_colors l ^ Z.of_nat (win_cells l)) by (apply Z.pow_pos_nonneg; lia).
  unfold win_cells, lg_sim_lim, lg_macro_states, lg_macro_colors, lg_backsymbols in *.
  destruct (lg_kind l) eqn:EK.
  - apply (loop_forever look (lg_states l) (lg_colors l) (lg_cells l)) with (lim := Z.to_nat (lg_states l * Z.of_nat (lg_cells l) * lg_colors l ^ Z.of_nat (lg_cells l))); auto.
    + lia.
    + split; auto. split; auto. rewrite <- Ht1. auto.
    + rewrite Z2Nat.id; [lia|]. nia.
  - rewrite Nat2Z.inj_succ, Z.pow_succ_r in * by lia.
    apply (back_limit look (lg_states l) (lg_colors l) (S (lg_cells l))) with (lim := Z.to_nat (2 * lg_states l * lg_colors l ^ Z.of_nat (lg_cells l) * lg_colors l)); auto.
    + rewrite <- Ht1. auto.
    + rewrite Nat2Z.inj_succ, Z.pow_succ_r by lia. rewrite Z2Nat.id; nia.
Qed.

(** ** C17 *)
Lemma conv_fold b k ts : 1 <= b -> Forall (tuple_ok b k) ts -> forall cv, CInv b k cv ->
  let cv' := fold_left (fun cv t => fst (tape_to_color b cv t)) ts cv in
  CInv b k cv' /\ (forall t, In t ts -> color_to_tape cv' (number b 0 t) = Some t) /\
  (forall c, color_to_tape cv c <> None -> color_to_tape cv' c = color_to_tape cv c).
Proof.
  intros Hb. induction ts as [|t ts IH]; intros HF cv HI; cbn [fold_left]; [cbn; split; [auto|]; split; [intros _ []|auto]|].
  inv HF. pose proof (tape_to_color_inv b k cv t Hb HI H1) as G.
  destruct (tape_to_color b cv t) as [cv1 c]. cbn [fst]. destruct G as (G1 & -> & G3 & G4).
  destruct (IH H2 cv1 G1) as (F1 & F2 & F3). split; [exact F1|]. split.
  - intros u [<-|Hu]; [|auto]. rewrite F3; [auto|congruence].
  - intros c Hc. rewrite F3; [apply G4; auto|]. rewrite G4; auto.
Qed.

Lemma converter_bijection b k ts : 1 <= b -> Forall (tuple_ok b k) ts ->
  let cv := conv_after b k ts in
  (forall t, tuple_ok b k t ->
     let '(cv', c) := tape_to_color b cv t in
     c = number b 0 t /\ 0 <= c < b ^ Z.of_nat k /\ color_to_tape cv' c = Some t) /\
  (forall t, In t ts -> color_to_tape cv (number b 0 t) = Some t) /\
  (forall c t, color_to_tape cv c = Some t -> tuple_ok b k t /\ snd (tape_to_color b cv t) = c) /\
  color_to_tape cv 0 = Some (repeat 0 k) /\
  (forall t t', tuple_ok b k t -> tuple_ok b k t' ->
     snd (tape_to_color b cv t) = snd (tape_to_color b (fst (tape_to_color b cv t)) t') -> t = t').
Proof.
  intros Hb HF. destruct (conv_fold b k ts Hb HF _ (conv_init_inv b k Hb)) as (F1 & F2 & F3).
  fold (conv_after b k ts) in *. cbv zeta in *. set (cv := conv_after b k ts) in *.
  split; [|split; [exact F2|split; [|split; [apply (ci_zero _ _ _ F1)|]]]].
  - intros t Ht. pose proof (tape_to_color_inv b k cv t Hb F1 Ht) as G.
    destruct (tape_to_color b cv t) as [cv1 c]. destruct G as (G1 & -> & G3 & G4). split; auto. split; auto.
    destruct Ht as [<- H2]. apply number_bound; auto. lia.
  - intros c t H. destruct (ci_tape _ _ _ F1 _ _ H) as [G1 G2]. split; auto.
    pose proof (tape_to_color_inv b k cv t Hb F1 G1) as G.
    destruct (tape_to_color b cv t) as [cv1 c1]. cbn. destruct G as (_ & -> & _). auto.
  - intros t t' Ht Ht'. pose proof (tape_to_color_inv b k cv t Hb F1 Ht) as G.
    destruct (tape_to_color b cv t) as [cv1 c]. destruct G as (G1 & -> & G3 & G4). cbn [fst snd].
    pose proof (tape_to_color_inv b k cv1 t' Hb G1 Ht') as G'.
    destruct (tape_to_color b cv1 t') as [cv2 c2]. destruct G' as (_ & -> & _). cbn [snd].
    intros E. destruct Ht as [L1 Q1], Ht' as [L2 Q2]. apply (number_inj b); auto; lia.
Qed.

Lemma lookup_same_or_assertion look l h h' ms mc : logic_ok l -> params_ok look (lg_states l) (lg_colors l) ->
  Forall (op_ok l) h -> Forall (op_ok l) h' -> slot_ok l ms mc ->
  result look l h ms mc = result look l h' ms mc \/
  result look l h ms mc = LAssert \/ result look l h' ms mc = LAssert.
Proof.
  intros HL HP HF HF' HS.
  destruct (result_cases look l h ms mc HL HP HF HS) as [->|[-> _]]; auto.
  destruct (result_cases look l h' ms mc HL HP HF' HS) as [->|[-> _]]; auto.
Qed.
