(** * Machine objects over block macros of renamed programs: proofs (C92) *)
From Verif Require Import Base TM ProgModel TapeModel BlocksModel ProverModel MacroModel MacroSpec MacroProofs MacroLogic MakeMacroModel MakeMacroProofs
  RenameSpec RenameProofs RenameBlocks RenameMacroSpec RenameMacro RenameMachineSpec.

Definition below (C : Z) (k : nat) (r : wres) : Prop :=
  match r with WIn _ t _ => tuple_ok C k t | WOut _ _ t => tuple_ok C k t | WErr _ => True end.

Lemma set_ok C k t p c : tuple_ok C k t -> 0 <= c < C -> tuple_ok C k (set_cell t p c).
Proof. intros [H1 H2] Hc. split; [rewrite set_cell_length; auto|apply set_cell_Forall; auto]. Qed.

Lemma sweep_right_below C k fuel : forall s scan c t p, 0 <= c < C -> tuple_ok C k t -> below C k (sweep_right fuel s scan c t p).
Proof.
  induction fuel as [|fuel IH]; intros s scan c t p Hc Ht; cbn [sweep_right]; [exact Ht|].
  destruct (cell_at t p =? scan); [|exact Ht]. pose proof (set_ok C k t p c Ht Hc) as Hs.
  destruct (Nat.leb _ _); [exact Hs|]. apply IH; auto.
Qed.
Lemma sweep_left_below C k fuel : forall s scan c t p, 0 <= c < C -> tuple_ok C k t -> below C k (sweep_left fuel s scan c t p).
Proof.
  induction fuel as [|fuel IH]; intros s scan c t p Hc Ht; cbn [sweep_left]; [exact Ht|].
  destruct (cell_at t p =? scan); [|exact Ht]. pose proof (set_ok C k t p c Ht Hc) as Hs.
  destruct p; [exact Hs|]. apply IH; auto.
Qed.

Lemma sim_below C k p fuel : prints_below C p -> forall s t i, tuple_ok C k t -> below C k (sim_loop (dict_lookup p) fuel s t i).
Proof.
  intro P. induction fuel as [|fuel IH]; intros s t i Ht; cbn [sim_loop]; [exact I|].
  assert (B : below C k (sim_step (dict_lookup p) s t i)).
  { unfold sim_step, dict_lookup. destruct (comp_get p (s, cell_at t i)) as [[[c sh] n]|] eqn:E; [|exact I].
    pose proof (P _ _ _ _ _ E) as Hc. pose proof (set_ok C k t i c Ht Hc) as Hs.
    destruct (negb (n =? s)); destruct sh.
    - destruct (Nat.leb _ _); exact Hs.
    - destruct i; exact Hs.
    - apply sweep_right_below; auto.
    - apply sweep_left_below; auto. }
  destruct (sim_step (dict_lookup p) s t i); [apply IH; exact B|exact B|exact B].
Qed.

Lemma number_mod C k : 1 <= C -> forall c, number C 0 (digits C k c) = c mod C ^ Z.of_nat k.
Proof.
  intro HC. induction k as [|k IH]; intro c.
  - cbn. rewrite Z.mod_1_r. reflexivity.
  - cbn [digits]. rewrite number_snoc, IH. rewrite Nat2Z.inj_succ, Z.pow_succ_r by lia.
    rewrite Z.rem_mul_r by (try lia; apply Z.pow_pos_nonneg; lia). lia.
Qed.

Section Names.
Variables f g : Z -> Z.
Hypothesis Hf : renaming f.
Hypothesis Hg : renaming g.
Variables (C : Z) (k : nat) (S0 : Z).
Hypothesis HC : 1 <= C.
Hypothesis Wg : within C g.
Notation B := (C ^ Z.of_nat k).

Lemma B_pos : 0 < B.
Proof. apply Z.pow_pos_nonneg; lia. Qed.

Lemma recode_as c : recode g C k c = number C 0 (map g (digits C k c)).
Proof. revert c. induction k as [|j IH]; intro c; [reflexivity|]. cbn [recode digits]. rewrite map_app. cbn [map]. rewrite number_snoc, IH. reflexivity. Qed.
Lemma map_ok t : tuple_ok C k t -> tuple_ok C k (map g t).
Proof. intros [H1 H2]. split; [rewrite map_length; exact H1|]. apply Forall_map. eapply Forall_impl; [|exact H2]. exact Wg. Qed.
Lemma recode_below c : 0 <= recode g C k c < B.
Proof.
  rewrite recode_as. destruct (map_ok _ (digits_ok C k HC c)) as [L F].
  pose proof (number_bound C _ ltac:(lia) F) as N. rewrite L in N. exact N.
Qed.
Lemma color_high c : block_color g C k c / B = c / B /\ block_color g C k c mod B = recode g C k c.
Proof.
  pose proof (recode_below c). unfold block_color. replace (recode g C k c + B * (c / B)) with ((c / B) * B + recode g C k c) by lia.
  split; [symmetry; apply (Z.div_unique _ _ _ (recode g C k c)); lia|symmetry; apply (Z.mod_unique _ _ (c / B)); lia].
Qed.

Lemma digits_mod c : digits C k (c mod B) = digits C k c.
Proof. rewrite <- (number_mod C k HC). apply digits_number; [exact HC|]. apply digits_ok, HC. Qed.
Lemma digits_color c : digits C k (block_color g C k c) = map g (digits C k c).
Proof.
  rewrite <- digits_mod, (proj2 (color_high c)), recode_as. apply digits_number; [exact HC|]. apply map_ok, digits_ok, HC.
Qed.

Lemma color_renaming : renaming (block_color g C k).
Proof.
  pose proof B_pos as HB. split.
  - unfold block_color. rewrite Z.div_0_l by lia. rewrite recode_as.
    assert (D : forall j, number C 0 (map g (digits C j 0)) = 0).
    { induction j as [|j IH]; [reflexivity|]. cbn [digits]. rewrite Z.div_0_l, Z.mod_0_l by lia. rewrite map_app. cbn [map].
      rewrite number_snoc, IH, (proj1 Hg). lia. }
    rewrite D. lia.
  - intros a b E. pose proof (digits_color a) as Da. rewrite E, digits_color in Da.
    assert (Q : a / B = b / B) by (rewrite <- (proj1 (color_high a)), <- (proj1 (color_high b)), E; reflexivity).
    assert (M : digits C k a = digits C k b).
    { clear - Da Hg. revert Da. generalize (digits C k a) (digits C k b). intros x. induction x as [|u x IH]; intros [|v y] E; try discriminate; [reflexivity|].
      cbn in E. injection E as E1 E2. f_equal; [symmetry; apply (proj2 Hg); exact E1|apply IH; exact E2]. }
    pose proof (number_mod C k HC a) as Na. pose proof (number_mod C k HC b) as Nb. rewrite M in Na.
    rewrite (Z.div_mod a B), (Z.div_mod b B), Q by lia. lia.
Qed.

Lemma two x b : 0 <= b < 2 -> (2 * x + b) / 2 = x /\ (2 * x + b) mod 2 = b.
Proof. intro H. split; [symmetry; apply (Z.div_unique _ _ _ b); lia|symmetry; apply (Z.mod_unique _ _ x); lia]. Qed.

Lemma state_renaming : renaming (block_state f).
Proof.
  split; [unfold block_state; change (0 / 2) with 0; rewrite (proj1 Hf); reflexivity|]. intros a b E. unfold block_state in E.
  destruct (two (f (a / 2)) (a mod 2) ltac:(apply Z.mod_pos_bound; lia)) as [A1 A2].
  destruct (two (f (b / 2)) (b mod 2) ltac:(apply Z.mod_pos_bound; lia)) as [B1 B2].
  rewrite E in A1, A2. rewrite A1 in B1. rewrite A2 in B2. apply (proj2 Hf) in B1.
  rewrite (Z.div_mod a 2), (Z.div_mod b 2) by lia. lia.
Qed.

Variables p p' : comp_prog.
Hypothesis Hp : renamed f g (machine_of p) (machine_of p').
Hypothesis Hpr : prints_below C p.

Lemma block_named ms mc : let l := Logic Block k S0 C in
  as_comp (macro_fun (dict_lookup p') l) (block_state f ms) (block_color g C k mc)
  = keyed_lookup (block_state f) (block_color g C k) (named_slot f g) (as_comp (macro_fun (dict_lookup p) l) ms mc).
Proof.
  intro l. unfold as_comp. rewrite !macro_fun_pure. unfold pure_get, deconstruct, dec_pure. cbn [l lg_kind lg_colors lg_cells].
  unfold block_state at 1 2. destruct (two (f (ms / 2)) (ms mod 2) ltac:(apply Z.mod_pos_bound; lia)) as [-> ->].
  rewrite digits_color, (run_rn f g Hf Hg _ _ (dict_rn f g p p' Hp)).
  pose proof (sim_below C k p (Z.to_nat (lg_sim_lim l)) Hpr (ms / 2) (digits C k mc)
    (if ms mod 2 =? 1 then (length (digits C k mc) - 1)%nat else 0%nat) (digits_ok C k HC mc)) as V.
  fold (run_simulator (dict_lookup p) (Z.to_nat (lg_sim_lim l)) (ms / 2) (ms mod 2 =? 1) (digits C k mc)) in V.
  destruct (run_simulator (dict_lookup p) (Z.to_nat (lg_sim_lim l)) (ms / 2) (ms mod 2 =? 1) (digits C k mc)) as [|s r t|e] eqn:R; cbn [nw].
  - reflexivity.
  - unfold reconstruct. cbn [l lg_kind lg_colors keyed_lookup named_instr]. unfold block_state.
    destruct (two s (if r then 0 else 1) ltac:(destruct r; lia)) as [-> ->].
    assert (N : block_color g C k (number C 0 t) = number C 0 (map g t)).
    { unfold block_color. rewrite recode_as, digits_number by (try exact HC; exact V). destruct V as [V1 V2].
      pose proof (number_bound C t ltac:(lia) V2) as NB. rewrite V1 in NB. rewrite Z.div_small by exact NB. lia. }
    rewrite N. reflexivity.
  - destruct e as [i| | |]; try reflexivity. destruct (no_ok_error _ _ _ _ _ _ R).
Qed.
End Names.

Lemma machine_named f g p p' blocks opt_macro params lim : renaming f -> renaming g -> renamed f g (machine_of p) (machine_of p') ->
  prog_params p' = prog_params p ->
  let C := snd match params with Some ps => ps | None => prog_params p end in
  1 <= C -> within C g -> prints_below C p ->
  match py_machine p blocks None opt_macro params lim, py_machine p' blocks None opt_macro params lim with
  | Some m, Some m' => exists k, keyed_report (state_names f k) (color_names g C k) (named_slot f g) m m'
  | None, None => True
  | _, _ => False
  end.
Proof.
  intros F G H E C HC W P.
  assert (PL : forall s c, as_comp (dict_lookup p') (f s) (g c) = keyed_lookup f g (named_slot f g) (as_comp (dict_lookup p) s c)).
  { intros s c. unfold as_comp. rewrite (dict_rn f g p p' H). destruct (dict_lookup p s c); reflexivity. }
  unfold py_machine, make_macro. rewrite E.
  assert (Q : forall b, match
     option_map (fun look => py_machine_run (as_comp look) lim)
       (let '(comp, _, _) := match b with
        | Some b => if (1 <? b)%nat
            then let '(s, c) := match params with Some ps => ps | None => prog_params p end in
                 let l := Logic Block b s c in
                 (macro_fun (dict_lookup p) l, Some (s, c), (lg_macro_states l, lg_macro_colors l))
            else (dict_lookup p, params, prog_params p)
        | None => (dict_lookup p, params, prog_params p)
        end in Some comp),
     option_map (fun look => py_machine_run (as_comp look) lim)
       (let '(comp, _, _) := match b with
        | Some b => if (1 <? b)%nat
            then let '(s, c) := match params with Some ps => ps | None => prog_params p end in
                 let l := Logic Block b s c in
                 (macro_fun (dict_lookup p') l, Some (s, c), (lg_macro_states l, lg_macro_colors l))
            else (dict_lookup p', params, prog_params p)
        | None => (dict_lookup p', params, prog_params p)
        end in Some comp)
     with
     | Some m, Some m' => exists k, keyed_report (state_names f k) (color_names g C k) (named_slot f g) m m'
     | None, None => True
     | _, _ => False
     end).
  { intro b. assert (PLAIN : exists k, keyed_report (state_names f k) (color_names g C k) (named_slot f g)
       (py_machine_run (as_comp (dict_lookup p)) lim) (py_machine_run (as_comp (dict_lookup p')) lim)).
    { exists 1%nat. exact (py_keyed f g F G _ _ _ PL lim). }
    destruct b as [b|]; [|exact PLAIN]. destruct (1 <? b)%nat eqn:LB; [|exact PLAIN].
    subst C. destruct (match params with Some ps => ps | None => prog_params p end) as [s c]. cbn [snd] in *. cbv zeta. cbn [option_map].
    exists b. unfold state_names, color_names. rewrite LB.
    apply py_keyed; [apply state_renaming; auto|apply color_renaming; auto|].
    intros ms mc. apply (block_named f g F G c b s HC W p p' H P). }
  destruct opt_macro as [n|]; [|exact (Q blocks)].
  rewrite (opt_named f g F G p p' H n). destruct (opt_block p n) as [b|]; [exact (Q (Some b))|exact I].
Qed.

(** The parameters of the program written with the new names. *)
Lemma count_named (h : Z -> Z) x : (forall a b, h a = h b -> a = b) -> count_distinct (map h x) = count_distinct x.
Proof.
  intro J. induction x as [|a x IH]; [reflexivity|]. cbn [map count_distinct]. rewrite IH.
  assert (X : existsb (Z.eqb (h a)) (map h x) = existsb (Z.eqb a) x).
  { clear IH. induction x as [|b x IH]; [reflexivity|]. cbn [map existsb]. rewrite IH. f_equal.
    destruct (Z.eqb_spec a b) as [->|N]; [apply Z.eqb_refl|]. apply Z.eqb_neq. intro Q. apply N, J, Q. }
  rewrite X. reflexivity.
Qed.
Lemma params_named f g p : renaming f -> renaming g -> prog_params (named_prog f g p) = prog_params p.
Proof.
  intros [_ F] [_ G]. unfold prog_params, named_prog. rewrite !map_map. cbn [fst snd named_slot].
  f_equal.
  - refine (eq_trans _ (count_named f (map (fun e : slot * instr => fst (fst e)) p) F)). rewrite map_map. reflexivity.
  - refine (eq_trans _ (count_named g (map (fun e : slot * instr => snd (fst e)) p) G)). rewrite map_map. reflexivity.
Qed.
