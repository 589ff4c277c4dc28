(** * Machine objects over macros of every kind of renamed programs: proofs (C92) *)
From Verif Require Import Base TM ProgModel TapeModel BlocksModel ProverModel MacroModel MacroSpec MacroProofs MacroLogic MakeMacroModel MakeMacroProofs
  RenameSpec RenameProofs RenameBlocks RenameMacroSpec RenameMacro RenameMachineSpec RenameMachine RenameBackSpec.

Definition answer (f g : Z -> Z) (ks : slot -> slot) (r : lres) : lres :=
  match r with LOk i => LOk (named_instr f g i) | MacroModel.LKey s => MacroModel.LKey (ks s) | r => r end.
Definition prints (C : Z) (look : MacroModel.lookup) : Prop := forall s c pr sh tr, look s c = LOk (pr, sh, tr) -> 0 <= pr < C.

(** All cells but the one under the head are colours below [C]. *)
Definition but (C : Z) (k : nat) (t : cells_t) (i : nat) : Prop := length t = k /\ forall c, 0 <= c < C -> tuple_ok C k (set_cell t i c).

Lemma but_ok C k t i : tuple_ok C k t -> but C k t i.
Proof. intro H. split; [exact (proj1 H)|]. intros c Hc. apply set_ok; auto. Qed.

Lemma sim_but C k look fuel : prints C look -> (0 < k)%nat -> forall s t i, but C k t i ->
  match sim_loop look fuel s t i with WOut _ _ u => tuple_ok C k u | _ => True end.
Proof.
  intros P K. induction fuel as [|fuel IH]; intros s t i [HL Ht]; cbn [sim_loop]; [exact I|].
  assert (B : below C k (sim_step look s t i)).
  { unfold sim_step. destruct (look s (cell_at t i)) as [[[c sh] n]| | |] eqn:E; try exact I.
    pose proof (P _ _ _ _ _ E) as Hc. pose proof (Ht c Hc) as Hs.
    destruct (negb (n =? s)); destruct sh.
    - destruct (Nat.leb _ _); exact Hs.
    - destruct i; exact Hs.
    - destruct (length t) as [|m] eqn:LT; [lia|]. cbn [sweep_right]. rewrite Z.eqb_refl.
      destruct (Nat.leb _ _); [exact Hs|]. apply sweep_right_below; auto.
    - destruct (length t) as [|m] eqn:LT; [lia|]. cbn [sweep_left]. rewrite Z.eqb_refl.
      destruct i; [exact Hs|]. apply sweep_left_below; auto. }
  destruct (sim_step look s t i) as [s' t' i'| |]; [apply IH; apply but_ok; exact B|exact B|exact I].
Qed.

Section Names.
Variables f g : Z -> Z.
Hypothesis Hf : renaming f.
Hypothesis Hg : renaming g.
Variable ks : slot -> slot.
Variables look look' : MacroModel.lookup.
Hypothesis Hl : forall s c, look' (f s) (g c) = answer f g ks (look s c).
Variable C : Z.
Hypothesis HC : 1 <= C.
Hypothesis Wg : within C g.
Hypothesis HP : prints C look.

Definition kw (r : wres) : wres :=
  match r with
  | WIn s t p => WIn (f s) (map g t) p
  | WOut s r t => WOut (f s) r (map g t)
  | WErr e => WErr (answer f g ks e)
  end.

Lemma sweep_right_kn fuel : forall s scan c t p, sweep_right fuel (f s) (g scan) (g c) (map g t) p = kw (sweep_right fuel s scan c t p).
Proof.
  induction fuel as [|fuel IH]; intros s scan c t p; cbn [sweep_right]; [reflexivity|].
  rewrite (cell_rn g Hg), (eqg g Hg), set_rn, map_length. destruct (cell_at t p =? scan); [|reflexivity].
  destruct (Nat.leb (length (set_cell t p c)) (S p)); [reflexivity|apply IH].
Qed.
Lemma sweep_left_kn fuel : forall s scan c t p, sweep_left fuel (f s) (g scan) (g c) (map g t) p = kw (sweep_left fuel s scan c t p).
Proof.
  induction fuel as [|fuel IH]; intros s scan c t p; cbn [sweep_left]; [reflexivity|].
  rewrite (cell_rn g Hg), (eqg g Hg), set_rn. destruct (cell_at t p =? scan); [|reflexivity].
  destruct p; [reflexivity|apply IH].
Qed.
Lemma sim_step_kn s t i : sim_step look' (f s) (map g t) i = kw (sim_step look s t i).
Proof.
  unfold sim_step. rewrite (cell_rn g Hg), Hl. destruct (look s (cell_at t i)) as [[[c sh] n]| | |]; cbn [answer named_instr]; try reflexivity.
  rewrite (eqf f Hf), set_rn, !map_length. destruct (negb (n =? s)).
  - destruct sh; [destruct (Nat.leb (length (set_cell t i c)) (S i)); reflexivity|destruct i; reflexivity].
  - destruct sh; [apply sweep_right_kn|apply sweep_left_kn].
Qed.
Lemma sim_loop_kn fuel : forall s t i, sim_loop look' fuel (f s) (map g t) i = kw (sim_loop look fuel s t i).
Proof.
  induction fuel as [|fuel IH]; intros s t i; cbn [sim_loop]; [reflexivity|]. rewrite sim_step_kn.
  destruct (sim_step look s t i); cbn [kw]; [apply IH|reflexivity|reflexivity].
Qed.
Lemma run_kn lim s e t : run_simulator look' lim (f s) e (map g t) = kw (run_simulator look lim s e t).
Proof. unfold run_simulator. rewrite map_length. apply sim_loop_kn. Qed.

Variables (k : nat) (S0 : Z).
Notation B := (C ^ Z.of_nat k).

Lemma recode_num t : tuple_ok C k t -> recode g C k (number C 0 t) = number C 0 (map g t).
Proof. intro H. rewrite recode_as, digits_number; auto. Qed.
Lemma num_below t : tuple_ok C k t -> 0 <= number C 0 t < B.
Proof. intros [H1 H2]. pose proof (number_bound C t ltac:(lia) H2) as N. rewrite H1 in N. exact N. Qed.

(** ** Blocks *)
Lemma block_kn ms mc : (0 < k)%nat -> let l := Logic Block k S0 C in
  macro_fun look' l (block_state f ms) (block_color g C k mc) = answer (block_state f) (block_color g C k) ks (macro_fun look l ms mc).
Proof.
  intros K l. rewrite !macro_fun_pure. unfold pure_get, deconstruct, dec_pure. cbn [l lg_kind lg_colors lg_cells].
  unfold block_state at 1 2. destruct (two (f (ms / 2)) (ms mod 2) ltac:(apply Z.mod_pos_bound; lia)) as [-> ->].
  rewrite (digits_color g C k HC Wg), run_kn.
  pose proof (sim_but C k look (Z.to_nat (lg_sim_lim l)) HP K (ms / 2) (digits C k mc)
    (if ms mod 2 =? 1 then (length (digits C k mc) - 1)%nat else 0%nat) (but_ok _ _ _ _ (digits_ok C k HC mc))) as V.
  fold (run_simulator look (Z.to_nat (lg_sim_lim l)) (ms / 2) (ms mod 2 =? 1) (digits C k mc)) in V.
  destruct (run_simulator look (Z.to_nat (lg_sim_lim l)) (ms / 2) (ms mod 2 =? 1) (digits C k mc)) as [|s r t|e] eqn:R; cbn [kw].
  - reflexivity.
  - unfold reconstruct. cbn [l lg_kind lg_colors answer named_instr]. unfold block_state.
    destruct (two s (if r then 0 else 1) ltac:(destruct r; lia)) as [-> ->].
    assert (N : block_color g C k (number C 0 t) = number C 0 (map g t)).
    { unfold block_color. rewrite (recode_num _ V), Z.div_small by exact (num_below _ V). lia. }
    rewrite N. reflexivity.
  - destruct e as [i| | |]; try reflexivity. destruct (no_ok_error _ _ _ _ _ _ R).
Qed.

Lemma block_prints : (0 < k)%nat -> prints B (macro_fun look (Logic Block k S0 C)).
Proof.
  intros K ms mc pr sh tr. rewrite macro_fun_pure. unfold pure_get, deconstruct, dec_pure. cbn [lg_kind lg_colors lg_cells].
  set (l := Logic Block k S0 C).
  pose proof (sim_but C k look (Z.to_nat (lg_sim_lim l)) HP K (ms / 2) (digits C k mc)
    (if ms mod 2 =? 1 then (length (digits C k mc) - 1)%nat else 0%nat) (but_ok _ _ _ _ (digits_ok C k HC mc))) as V.
  fold (run_simulator look (Z.to_nat (lg_sim_lim l)) (ms / 2) (ms mod 2 =? 1) (digits C k mc)) in V.
  destruct (run_simulator look (Z.to_nat (lg_sim_lim l)) (ms / 2) (ms mod 2 =? 1) (digits C k mc)) as [|s r t|e] eqn:R; try discriminate.
  - intros [= <- <- <-]. exact (num_below t V).
  - intros ->. destruct (no_ok_error _ _ _ _ _ _ R).
Qed.

Lemma block_within : within B (block_color g C k).
Proof. intros c Hc. unfold block_color. rewrite Z.div_small by exact Hc. pose proof (recode_below g C k HC Wg c). lia. Qed.

(** ** Backsymbols *)
Lemma back_renaming : renaming (back_state f g C k).
Proof.
  assert (HB : 0 < B) by (apply Z.pow_pos_nonneg; lia).
  pose proof (color_renaming g Hg C k HC Wg) as [_ CI].
  split.
  - unfold back_state. change (0 / 2) with 0. rewrite Z.div_0_l, Z.mod_0_l by lia. rewrite (proj1 Hf).
    pose proof (proj1 (color_renaming g Hg C k HC Wg)) as Z0. unfold block_color in Z0. rewrite Z.div_0_l in Z0 by lia.
    change (0 mod 2) with 0. lia.
  - intros a b E. unfold back_state in E.
    destruct (two (f (a / 2 / B) * B + recode g C k ((a / 2) mod B)) (a mod 2) ltac:(apply Z.mod_pos_bound; lia)) as [A1 A2].
    destruct (two (f (b / 2 / B) * B + recode g C k ((b / 2) mod B)) (b mod 2) ltac:(apply Z.mod_pos_bound; lia)) as [B1 B2].
    rewrite E in A1, A2. rewrite A1 in B1. rewrite A2 in B2.
    destruct (high (f (a / 2 / B)) _ _ (recode_below g C k HC Wg ((a / 2) mod B))) as [P1 P2].
    destruct (high (f (b / 2 / B)) _ _ (recode_below g C k HC Wg ((b / 2) mod B))) as [Q1 Q2].
    rewrite B1 in P1, P2. rewrite P1 in Q1. rewrite P2 in Q2. apply (proj2 Hf) in Q1.
    assert (M : (a / 2) mod B = (b / 2) mod B).
    { apply CI. unfold block_color. rewrite (Z.div_small ((a / 2) mod B)), (Z.div_small ((b / 2) mod B)) by (apply Z.mod_pos_bound; exact HB). rewrite Q2. reflexivity. }
    assert (H : a / 2 = b / 2) by (rewrite (Z.div_mod (a / 2) B), (Z.div_mod (b / 2) B), Q1, M by lia; reflexivity).
    rewrite (Z.div_mod a 2), (Z.div_mod b 2) by lia. lia.
Qed.

Lemma digits_recode c : digits C k (recode g C k c) = map g (digits C k c).
Proof. rewrite recode_as. apply digits_number; [exact HC|]. apply map_ok; [exact Wg|]. apply digits_ok, HC. Qed.

Lemma set_last t (x c : Z) : set_cell (t ++ [x]) (length t) c = t ++ [c].
Proof. induction t as [|y t IH]; [reflexivity|]. cbn. rewrite IH. reflexivity. Qed.

Lemma back_kn ms mc : let l := Logic Backsymbol k S0 C in
  macro_fun look' l (back_state f g C k ms) (g mc) = answer (back_state f g C k) g ks (macro_fun look l ms mc).
Proof.
  intros l. rewrite !macro_fun_pure. unfold pure_get, deconstruct, dec_pure. unfold lg_backsymbols. cbn [l lg_kind lg_colors lg_cells].
  cbv zeta. unfold back_state at 1 2 3 4. cbv zeta.
  match goal with |- context [2 * ?x + ms mod 2] => destruct (two x (ms mod 2) ltac:(apply Z.mod_pos_bound; lia)) as [-> ->] end.
  destruct (high (f (ms / 2 / B)) _ _ (recode_below g C k HC Wg ((ms / 2) mod B))) as [-> ->]. rewrite digits_recode.
  set (u := digits C k ((ms / 2) mod B)). assert (U : tuple_ok C k u) by (apply digits_ok, HC). clearbody u.
  set (st := ms / 2 / B). clearbody st.
  assert (GO : forall e t, but C (S k) t (if e : bool then (length t - 1)%nat else 0%nat) ->
    match run_simulator look' (Z.to_nat (lg_sim_lim l)) (f st) e (map g t) with
    | WIn _ _ _ => LInf | WErr e => e
    | WOut state right_ tape => let '(t, mk) := reconstruct l state right_ tape in LOk (mk (number C 0 t)) end
    = answer (back_state f g C k) g ks
    match run_simulator look (Z.to_nat (lg_sim_lim l)) st e t with
    | WIn _ _ _ => LInf | WErr e => e
    | WOut state right_ tape => let '(t, mk) := reconstruct l state right_ tape in LOk (mk (number C 0 t)) end).
  { intros e t Bt. rewrite run_kn.
    pose proof (sim_but C (S k) look (Z.to_nat (lg_sim_lim l)) HP ltac:(lia) st t _ Bt) as V.
    fold (run_simulator look (Z.to_nat (lg_sim_lim l)) st e t) in V.
    destruct (run_simulator look (Z.to_nat (lg_sim_lim l)) st e t) as [|s r v|er] eqn:R; cbn [kw].
    - reflexivity.
    - assert (Q : forall x w b, 0 <= b < 2 -> tuple_ok C k w ->
        back_state f g C k (b + 2 * (number C 0 w + x * B)) = b + 2 * (number C 0 (map g w) + f x * B)).
      { intros x w b Hb W. unfold back_state. replace (b + 2 * (number C 0 w + x * B)) with (2 * (x * B + number C 0 w) + b) by lia.
        destruct (two (x * B + number C 0 w) b Hb) as [-> ->].
        destruct (high x (number C 0 w) B (num_below w W)) as [-> ->]. rewrite (recode_num _ W). lia. }
      unfold reconstruct, lg_backsymbols. cbn [l lg_kind lg_colors lg_cells]. destruct V as [V1 V2].
      destruct r; cbn [negb].
      + destruct v as [|x v]; [discriminate|]. inversion V2; subst. cbn [hd tl map answer named_instr]. rewrite Q; [reflexivity|lia|].
        split; [cbn in V1; lia|auto].
      + destruct v as [|x v _] using rev_ind; [discriminate|]. rewrite map_app. cbn [map]. rewrite !last_last, !removelast_last.
        rewrite app_length in V1. cbn in V1. apply Forall_app in V2 as [V2 V3]. cbn [answer named_instr]. rewrite Q; [reflexivity|lia|]. split; [lia|auto].
    - destruct er as [i| | |]; try reflexivity. destruct (no_ok_error _ _ _ _ _ _ R). }
  destruct U as [U1 U2]. destruct (negb (ms mod 2 =? 0)).
  - apply (GO false (mc :: u)). split; [cbn; lia|]. intros c Hc. split; [cbn; lia|constructor; auto].
  - change [g mc] with (map g [mc]). rewrite <- map_app. apply (GO true (u ++ [mc])). split; [rewrite app_length; cbn; lia|].
    intros c Hc. replace (length (u ++ [mc]) - 1)%nat with (length u) by (rewrite app_length; cbn; lia). rewrite set_last.
    split; [rewrite app_length; cbn; lia|]. apply Forall_app. split; [exact U2|constructor; auto].
Qed.
End Names.

(** ** The machine *)
Lemma key_answer f g ks look look' : (forall s c, look' (f s) (g c) = answer f g ks (look s c)) ->
  forall s c, as_comp look' (f s) (g c) = keyed_lookup f g ks (as_comp look s c).
Proof. intros H s c. unfold as_comp. rewrite H. destruct (look s c); reflexivity. Qed.

Lemma back_machine_named f g p p' blocks backsym opt_macro params lim : renaming f -> renaming g -> renamed f g (machine_of p) (machine_of p') ->
  prog_params p' = prog_params p ->
  (forall ps, ps = prog_params p \/ params = Some ps -> 1 <= snd ps /\ within (snd ps) g /\ prints_below (snd ps) p) ->
  match py_machine p blocks backsym opt_macro params lim, py_machine p' blocks backsym opt_macro params lim with
  | Some m, Some m' => exists k ps, (ps = prog_params p \/ params = Some ps)
      /\ keyed_report (macro_states f g (snd ps) k backsym) (color_names g (snd ps) k) (named_slot f g) m m'
  | None, None => True
  | _, _ => False
  end.
Proof.
  intros F G H E HP.
  assert (PL : forall s c, dict_lookup p' (f s) (g c) = answer f g (named_slot f g) (dict_lookup p s c)).
  { intros s c. rewrite (dict_rn f g p p' H). destruct (dict_lookup p s c); reflexivity. }
  assert (PR : forall C, prints_below C p -> prints C (dict_lookup p)).
  { intros C P s c pr sh tr X. unfold dict_lookup in X. destruct (comp_get p (s, c)) as [i|] eqn:Y; [|discriminate].
    injection X as ->. exact (P _ _ _ _ _ Y). }
  assert (PLAIN : forall s0 c0, (s0, c0) = prog_params p \/ params = Some (s0, c0) ->
    match option_map (fun look => py_machine_run (as_comp look) lim)
            (match backsym with None => Some (dict_lookup p) | Some b => Some (macro_fun (dict_lookup p) (Logic Backsymbol b s0 c0)) end),
          option_map (fun look => py_machine_run (as_comp look) lim)
            (match backsym with None => Some (dict_lookup p') | Some b => Some (macro_fun (dict_lookup p') (Logic Backsymbol b s0 c0)) end) with
    | Some m, Some m' => exists k ps, (ps = prog_params p \/ params = Some ps)
        /\ keyed_report (macro_states f g (snd ps) k backsym) (color_names g (snd ps) k) (named_slot f g) m m'
    | None, None => True
    | _, _ => False
    end).
  { intros s0 c0 X. destruct (HP _ X) as (HC & W & P). cbn [snd] in HC, W, P.
    destruct backsym as [b|]; cbn [option_map]; exists 1%nat, (s0, c0); (split; [exact X|]); cbn [snd].
    - change (color_names g c0 1) with g. change (macro_states f g c0 1 (Some b)) with (back_state f g c0 b).
      apply py_keyed; [apply back_renaming; auto|exact G|]. apply key_answer. intros ms mc.
      exact (back_kn f g F G (named_slot f g) _ _ PL c0 HC W (PR _ P) b s0 ms mc).
    - change (color_names g c0 1) with g. change (macro_states f g c0 1 None) with f.
      apply py_keyed; [exact F|exact G|]. apply key_answer, PL. }
  assert (BLK : forall b0 s0 c0, (1 <? b0)%nat = true -> (s0, c0) = prog_params p \/ params = Some (s0, c0) ->
    let l := Logic Block b0 s0 c0 in
    match option_map (fun look => py_machine_run (as_comp look) lim)
            (match backsym with None => Some (macro_fun (dict_lookup p) l)
             | Some b => Some (macro_fun (macro_fun (dict_lookup p) l) (Logic Backsymbol b (lg_macro_states l) (lg_macro_colors l))) end),
          option_map (fun look => py_machine_run (as_comp look) lim)
            (match backsym with None => Some (macro_fun (dict_lookup p') l)
             | Some b => Some (macro_fun (macro_fun (dict_lookup p') l) (Logic Backsymbol b (lg_macro_states l) (lg_macro_colors l))) end) with
    | Some m, Some m' => exists k ps, (ps = prog_params p \/ params = Some ps)
        /\ keyed_report (macro_states f g (snd ps) k backsym) (color_names g (snd ps) k) (named_slot f g) m m'
    | None, None => True
    | _, _ => False
    end).
  { intros b0 s0 c0 L X l. destruct (HP _ X) as (HC & W & P). cbn [snd] in HC, W, P.
    assert (K : (0 < b0)%nat) by (apply Nat.ltb_lt in L; lia).
    pose proof (fun ms mc => block_kn f g F G (named_slot f g) _ _ PL c0 HC W (PR _ P) b0 s0 ms mc K) as BK. cbv zeta in BK. fold l in BK.
    pose proof (state_renaming f F) as SR. pose proof (color_renaming g G c0 b0 HC W) as CR.
    destruct backsym as [b|]; cbn [option_map]; exists b0, (s0, c0); (split; [exact X|]); cbn [snd];
      unfold macro_states, state_names, color_names; rewrite L.
    - change (lg_macro_colors l) with (c0 ^ Z.of_nat b0).
      assert (HB : 1 <= c0 ^ Z.of_nat b0) by (pose proof (Z.pow_pos_nonneg c0 (Z.of_nat b0)); lia).
      pose proof (block_within g c0 HC W b0) as BW.
      apply py_keyed; [apply back_renaming; auto|exact CR|]. apply key_answer. intros ms mc.
      apply (back_kn (block_state f) (block_color g c0 b0) SR CR (named_slot f g) _ _ BK _ HB BW).
      exact (block_prints _ c0 HC (PR _ P) b0 s0 K).
    - apply py_keyed; [exact SR|exact CR|]. apply key_answer, BK. }
  unfold py_machine, make_macro. rewrite E.
  assert (PP : forall q : Z * Z, (fst q, snd q) = q) by (intros [? ?]; reflexivity).
  destruct opt_macro as [n|].
  - rewrite (opt_named f g F G p p' H n). destruct (opt_block p n) as [b0|]; [|exact I].
    destruct (1 <? b0)%nat eqn:L.
    + destruct params as [[s0 c0]|]; [|destruct (prog_params p) as [s0 c0]].
      * specialize (BLK b0 s0 c0 L (or_intror eq_refl)). destruct backsym; exact BLK.
      * specialize (BLK b0 s0 c0 L (or_introl eq_refl)). destruct backsym; exact BLK.
    + specialize (PLAIN (fst (prog_params p)) (snd (prog_params p)) (or_introl (PP _))).
      destruct params as [[s0 c0]|]; destruct (prog_params p) as [s1 c1]; destruct backsym; exact PLAIN.
  - destruct blocks as [b0|].
    + destruct (1 <? b0)%nat eqn:L.
      * destruct params as [[s0 c0]|]; [|destruct (prog_params p) as [s0 c0]].
        -- specialize (BLK b0 s0 c0 L (or_intror eq_refl)). destruct backsym; exact BLK.
        -- specialize (BLK b0 s0 c0 L (or_introl eq_refl)). destruct backsym; exact BLK.
      * specialize (PLAIN (fst (prog_params p)) (snd (prog_params p)) (or_introl (PP _))).
        destruct params as [[s0 c0]|]; destruct (prog_params p) as [s1 c1]; destruct backsym; exact PLAIN.
    + destruct params as [[s0 c0]|].
      * specialize (PLAIN s0 c0 (or_intror eq_refl)). destruct (prog_params p) as [s1 c1]. destruct backsym; exact PLAIN.
      * specialize (PLAIN (fst (prog_params p)) (snd (prog_params p)) (or_introl (PP _))).
        destruct (prog_params p) as [s1 c1]; destruct backsym; exact PLAIN.
Qed.
