(** * Macro machines over renamed programs: proofs (C92) *)
From Verif Require Import Base TM ProgModel MacroModel MacroSpec MacroProofs MacroLogic MacroRun RenameSpec RenameProofs RenameMacroSpec.

Lemma no_ok_error look fuel : forall s t p i, sim_loop look fuel s t p <> WErr (LOk i).
Proof.
  assert (A : forall n s scan c t p e, sweep_right n s scan c t p <> WErr e).
  { induction n as [|n IH]; intros s scan c t p e; cbn [sweep_right]; [discriminate|].
    destruct (cell_at t p =? scan); [|discriminate]. destruct (Nat.leb _ _); [discriminate|apply IH]. }
  assert (B : forall n s scan c t p e, sweep_left n s scan c t p <> WErr e).
  { induction n as [|n IH]; intros s scan c t p e; cbn [sweep_left]; [discriminate|].
    destruct (cell_at t p =? scan); [|discriminate]. destruct p; [discriminate|apply IH]. }
  induction fuel as [|fuel IH]; intros s t p i; cbn [sim_loop]; [discriminate|].
  destruct (sim_step look s t p) as [| |e] eqn:E; [apply IH|discriminate|]. intros [= ->]. revert E. unfold sim_step.
  destruct (look s (cell_at t p)) as [[[c sh] n]| | |]; try discriminate.
  destruct (negb (n =? s)); destruct sh; try apply A; try apply B; [destruct (Nat.leb _ _)|destruct p]; discriminate.
Qed.

Section Names.
Variables f g : Z -> Z.
Hypothesis Hf : renaming f.
Hypothesis Hg : renaming g.
Variables look look' : lookup.
Hypothesis Hl : renamed_base f g look look'.

Definition nw (r : wres) : wres :=
  match r with
  | WIn s t p => WIn (f s) (map g t) p
  | WOut s r t => WOut (f s) r (map g t)
  | WErr e => WErr (base_answer f g e)
  end.

Lemma cell_rn t p : cell_at (map g t) p = g (cell_at t p).
Proof. unfold cell_at. rewrite <- (proj1 Hg) at 1. apply map_nth. Qed.
Lemma set_rn t : forall p c, set_cell (map g t) p (g c) = map g (set_cell t p c).
Proof. induction t as [|x t IH]; intros [|p] c; cbn; try reflexivity. rewrite IH. reflexivity. Qed.

Lemma sweep_right_rn fuel : forall s scan c t p, sweep_right fuel (f s) (g scan) (g c) (map g t) p = nw (sweep_right fuel s scan c t p).
Proof.
  induction fuel as [|fuel IH]; intros s scan c t p; cbn [sweep_right]; [reflexivity|].
  rewrite cell_rn, (eqg g Hg), set_rn, map_length. destruct (cell_at t p =? scan); [|reflexivity].
  destruct (Nat.leb (length (set_cell t p c)) (S p)); [reflexivity|apply IH].
Qed.
Lemma sweep_left_rn fuel : forall s scan c t p, sweep_left fuel (f s) (g scan) (g c) (map g t) p = nw (sweep_left fuel s scan c t p).
Proof.
  induction fuel as [|fuel IH]; intros s scan c t p; cbn [sweep_left]; [reflexivity|].
  rewrite cell_rn, (eqg g Hg), set_rn. destruct (cell_at t p =? scan); [|reflexivity].
  destruct p; [reflexivity|apply IH].
Qed.

Lemma sim_step_rn s t p : sim_step look' (f s) (map g t) p = nw (sim_step look s t p).
Proof.
  unfold sim_step. rewrite cell_rn, Hl. destruct (look s (cell_at t p)) as [[[c sh] n]| | |]; cbn [base_answer named_instr]; try reflexivity.
  rewrite (eqf f Hf), set_rn, !map_length. destruct (negb (n =? s)).
  - destruct sh; [destruct (Nat.leb (length (set_cell t p c)) (S p)); reflexivity|destruct p; reflexivity].
  - destruct sh; [apply sweep_right_rn|apply sweep_left_rn].
Qed.

Lemma sim_loop_rn fuel : forall s t p, sim_loop look' fuel (f s) (map g t) p = nw (sim_loop look fuel s t p).
Proof.
  induction fuel as [|fuel IH]; intros s t p; cbn [sim_loop]; [reflexivity|]. rewrite sim_step_rn.
  destruct (sim_step look s t p); cbn [nw]; [apply IH|reflexivity|reflexivity].
Qed.

Lemma run_rn lim s e t : run_simulator look' lim (f s) e (map g t) = nw (run_simulator look lim s e t).
Proof. unfold run_simulator. rewrite map_length. apply sim_loop_rn. Qed.

(** ** The names of macro states and colours *)
Variable l : logic.
Hypothesis HL : logic_ok l.
Hypothesis Wg : within (lg_colors l) g.
Notation C := (lg_colors l).
Notation K := (lg_cells l).

Lemma recode_eq k : forall c, recode g C k c = number C 0 (map g (digits C k c)).
Proof. induction k as [|k IH]; intro c; [reflexivity|]. cbn [recode digits]. rewrite map_app. cbn [map]. rewrite number_snoc, IH. reflexivity. Qed.

Lemma tuple_rn k t : tuple_ok C k t -> tuple_ok C k (map g t).
Proof. intros [H1 H2]. split; [rewrite map_length; exact H1|]. apply Forall_map. eapply Forall_impl; [|exact H2]. exact Wg. Qed.

Lemma digits_rn k c : digits C k (recode g C k c) = map g (digits C k c).
Proof. destruct HL as (_ & HC & _). rewrite recode_eq. apply digits_number; [exact HC|]. apply tuple_rn, digits_ok, HC. Qed.

Lemma recode_number k t : tuple_ok C k t -> recode g C k (number C 0 t) = number C 0 (map g t).
Proof. destruct HL as (_ & HC & _). intro H. rewrite recode_eq, digits_number; auto. Qed.

Lemma recode_bound k c : 0 <= recode g C k c < C ^ Z.of_nat k.
Proof.
  destruct HL as (_ & HC & _). rewrite recode_eq. destruct (tuple_rn k _ (digits_ok C k HC c)) as [L F].
  pose proof (number_bound C _ ltac:(lia) F) as B. rewrite L in B. exact B.
Qed.

Lemma half x b : 0 <= b < 2 -> (2 * x + b) / 2 = x /\ (2 * x + b) mod 2 = b.
Proof. intro H. split; [symmetry; apply (Z.div_unique _ _ _ b); lia|symmetry; apply (Z.mod_unique _ _ x); lia]. Qed.
Lemma high x b B : 0 <= b < B -> (x * B + b) / B = x /\ (x * B + b) mod B = b.
Proof. intro H. split; [symmetry; apply (Z.div_unique _ _ _ b); lia|symmetry; apply (Z.mod_unique _ _ x); lia]. Qed.

Definition nd (r : Z * (bool * cells_t)) : Z * (bool * cells_t) := (f (fst r), (fst (snd r), map g (snd (snd r)))).

Lemma deconstruct_rn ms mc : deconstruct l (dec_pure l) (macro_state_name l f g ms) (macro_color_name l g mc)
  = option_map nd (deconstruct l (dec_pure l) ms mc).
Proof.
  pose proof (Z.mod_pos_bound ms 2 ltac:(lia)) as M2.
  unfold deconstruct, dec_pure, macro_state_name, macro_color_name. destruct (lg_kind l).
  - destruct (half (f (ms / 2)) (ms mod 2) M2) as [-> ->]. rewrite digits_rn. reflexivity.
  - unfold lg_backsymbols.
    match goal with |- context [2 * ?x + ms mod 2] => destruct (half x (ms mod 2) M2) as [-> ->] end.
    destruct (high (f (ms / 2 / C ^ Z.of_nat K)) _ _ (recode_bound K ((ms / 2) mod C ^ Z.of_nat K))) as [-> ->].
    rewrite digits_rn. destruct (negb (ms mod 2 =? 0)); cbn [option_map nd fst snd]; unfold nd; cbn [fst snd].
    + reflexivity.
    + rewrite map_app. reflexivity.
Qed.

Lemma rebuild_rn s r t : tuple_ok C (win_cells l) t ->
  (let '(u, mk) := reconstruct l (f s) r (map g t) in LOk (mk (number C 0 u)))
  = macro_answer l f g (let '(u, mk) := reconstruct l s r t in LOk (mk (number C 0 u))).
Proof.
  intros T. unfold reconstruct, macro_answer, macro_state_name, macro_color_name, win_cells in *. destruct (lg_kind l).
  - rewrite (recode_number _ _ T). destruct (half s (if r then 0 else 1) ltac:(destruct r; lia)) as [-> ->]. reflexivity.
  - unfold lg_backsymbols. set (B := C ^ Z.of_nat K) in *. destruct T as [T1 T2].
    assert (Q : forall x u b, 0 <= b < 2 -> tuple_ok C K u ->
      b + 2 * (number C 0 (map g u) + f x * B) =
      2 * (f ((b + 2 * (number C 0 u + x * B)) / 2 / B) * B + recode g C K (((b + 2 * (number C 0 u + x * B)) / 2) mod B)) + (b + 2 * (number C 0 u + x * B)) mod 2).
    { intros x u b Hb U. replace (b + 2 * (number C 0 u + x * B)) with (2 * (x * B + number C 0 u) + b) by lia.
      destruct (half (x * B + number C 0 u) b Hb) as [-> ->].
      assert (NB : 0 <= number C 0 u < B).
      { destruct U as [U1 U2]. pose proof (number_bound C u ltac:(destruct HL as (_ & ? & _); lia) U2) as NB. rewrite U1 in NB. exact NB. }
      destruct (high x (number C 0 u) B NB) as [-> ->]. rewrite (recode_number _ _ U). lia. }
    destruct r; cbn [negb].
    + destruct t as [|x t]; [discriminate|]. inversion T2; subst. cbn [hd tl map]. rewrite Q; [reflexivity|lia|].
      split; [cbn in T1; lia|auto].
    + destruct t as [|x t _] using rev_ind; [discriminate|]. rewrite map_app. cbn [map]. rewrite !last_last, !removelast_last.
      rewrite app_length in T1. cbn in T1. apply Forall_app in T2 as [T2 T3]. rewrite Q; [reflexivity|lia|]. split; [lia|auto].
Qed.

Hypothesis HP : params_ok look (lg_states l) C.

Lemma pure_rn ms mc : slot_ok l ms mc -> pure_get look' l (macro_state_name l f g ms) (macro_color_name l g mc)
  = macro_answer l f g (pure_get look l ms mc).
Proof.
  intros HS. unfold pure_get. rewrite deconstruct_rn.
  destruct (deconstruct l (dec_pure l) ms mc) as [[s [e t]]|] eqn:D; [|reflexivity]. cbn [option_map]. unfold nd. cbn [fst snd].
  destruct (deconstruct_ok l ms mc s e t HL HS D) as [S1 T1]. rewrite run_rn.
  assert (V : wvalid (lg_states l) C (win_cells l) (run_simulator look (Z.to_nat (lg_sim_lim l)) s e t)).
  { unfold run_simulator. apply sim_loop_valid; [exact HP|]. split; [exact S1|]. split; [exact T1|].
    destruct T1 as [T1 _]. pose proof (win_pos l HL). destruct e; lia. }
  destruct (run_simulator look (Z.to_nat (lg_sim_lim l)) s e t) as [| |er] eqn:R; cbn [nw]; [reflexivity| |destruct er as [[[? ?] ?]| | |]; try reflexivity].
  - apply rebuild_rn, V.
  - destruct (no_ok_error look _ _ _ _ _ R).
Qed.

Hypothesis HP' : params_ok look' (lg_states l) C.

(** Two lookups of the same slot under both names, whatever has been looked up before. *)
Lemma result_rn h h' ms mc : Forall (op_ok l) h -> Forall (op_ok l) h' -> slot_ok l ms mc ->
  slot_ok l (macro_state_name l f g ms) (macro_color_name l g mc) ->
  result look l h ms mc <> LAssert -> result look' l h' (macro_state_name l f g ms) (macro_color_name l g mc) <> LAssert ->
  result look' l h' (macro_state_name l f g ms) (macro_color_name l g mc) = macro_answer l f g (result look l h ms mc).
Proof.
  intros F1 F2 S1 S2 N1 N2. destruct (result_cases look l h ms mc HL HP F1 S1) as [->|[E _]]; [|contradiction].
  destruct (result_cases look' l h' _ _ HL HP' F2 S2) as [->|[E _]]; [|contradiction]. apply pure_rn, S1.
Qed.

Lemma stop_stays lk n e : msteps lk l n (MStop e) = MStop e.
Proof. induction n as [|n IH]; [reflexivity|exact IH]. Qed.

Lemma run_same n : forall m m' c d, RInv look l m c -> RInv look' l m' d ->
  c_state d = macro_state_name l f g (c_state c) -> c_pos d = c_pos c -> (forall q, c_tape d q = macro_color_name l g (c_tape c q)) ->
  same_macro_run l f g (msteps look l n (MGo m c)) (msteps look' l n (MGo m' d)).
Proof.
  induction n as [|n IH]; intros m m' c d R R' Es Ep Et; [cbn; auto|]. cbn [msteps mstep].
  destruct (rinv_step look l m c HL HP R) as (h & E1 & E2 & E3 & E4 & E5).
  destruct (rinv_step look' l m' d HL HP' R') as (h' & F1 & F2 & F3 & F4 & F5).
  assert (A : snd (macro_get look' l m' (c_state d) (c_tape d (c_pos d))) = macro_answer l f g (snd (macro_get look l m (c_state c) (c_tape c (c_pos c))))).
  { rewrite E3, F3, E4, F4, Es, Et, Ep. apply pure_rn. apply R. }
  rewrite <- E3 in E5. rewrite <- F3 in F5. clear E1 E3 E4 F1 F3 F4.
  destruct (macro_get look l m (c_state c) (c_tape c (c_pos c))) as [m1 r1].
  destruct (macro_get look' l m' (c_state d) (c_tape d (c_pos d))) as [m2 r2]. cbn [fst snd] in *.
  destruct r1 as [[[pr sh] tr]|s| |]; cbn [macro_answer] in A; subst r2; rewrite ?stop_stays; try reflexivity.
  apply IH; [exact (E5 _ _ _ eq_refl)|exact (F5 _ _ _ eq_refl)|reflexivity|cbn [c_pos]; rewrite Ep; reflexivity|].
  intro q. cbn [c_tape]. unfold write. rewrite Ep. destruct (q =? c_pos c); [reflexivity|apply Et].
Qed.

Lemma recode_zero k : recode g C k 0 = 0.
Proof.
  destruct HL as (_ & HC & _). induction k as [|k IH]; [reflexivity|]. cbn [recode]. rewrite Z.div_0_l, Z.mod_0_l by lia.
  rewrite IH, (proj1 Hg). lia.
Qed.

Lemma macro_named h h' n : Forall (op_ok l) h -> Forall (op_ok l) h' ->
  same_macro_run l f g (msteps look l n (MGo (after look l h) init)) (msteps look' l n (MGo (after look' l h') init)).
Proof.
  intros F1 F2. assert (B : 0 < C ^ Z.of_nat K) by (destruct HL as (_ & ? & _); apply Z.pow_pos_nonneg; lia).
  apply run_same; [apply rinv_init; auto|apply rinv_init; auto| |reflexivity|].
  - change (c_state init) with 0. unfold macro_state_name. destruct (lg_kind l).
    + change (0 / 2) with 0. rewrite (proj1 Hf). reflexivity.
    + change (0 / 2) with 0. rewrite Z.div_0_l, Z.mod_0_l, recode_zero, (proj1 Hf) by lia. reflexivity.
  - intro q. change (c_tape init q) with 0. unfold macro_color_name. destruct (lg_kind l); [rewrite recode_zero|rewrite (proj1 Hg)]; reflexivity.
Qed.
End Names.

Lemma dict_rn f g p p' : renamed f g (machine_of p) (machine_of p') -> renamed_base f g (dict_lookup p) (dict_lookup p').
Proof.
  intros H s c. specialize (H s c). unfold machine_of in H. unfold dict_lookup. rewrite H.
  destruct (comp_get p (s, c)); reflexivity.
Qed.
