(** Lemmas about the provers that thread the caches through. *)
From Verif Require Import Base TM ProgModel TapeModel EnumModel RulesModel PastModel ProverModel MacroModel RsMacroModel.

(** ** Lookups that agree with a program whatever the caches hold *)
Section pure.
Context {St : Type}.
Variables (look : St -> Z -> Z -> St * rlook) (M : program) (Inv : St -> Prop).
Hypothesis HL : forall m s c, Inv m -> Inv (fst (look m s c)) /\ snd (look m s c) = match M s c with Some i => RlSome i | None => RlNone end.

Lemma sf_simulate_pure pv steps : forall m state t, Inv m ->
  Inv (fst (sf_simulate look pv steps m state t)) /\ snd (sf_simulate look pv steps m state t) = rs_simulate M pv steps state t.
Proof.
  induction steps as [|steps IH]; intros m state t I; [cbn; auto|].
  assert (G : forall t,
    let r := match look m state (t_scan t) with
        | (m, RlPanic) => (m, SimErr)
        | (m, RlNone) => (m, SimKey t)
        | (m, RlSome (color, shift, next_state)) =>
            sf_simulate look pv steps m next_state (fst (rs_step t shift color (state =? next_state)))
        end in Inv (fst r) /\ snd r = match M state (t_scan t) with
        | None => SimKey t
        | Some (color, shift, next_state) =>
            rs_simulate M pv steps next_state (fst (rs_step t shift color (state =? next_state)))
        end).
  { intros t0. cbn zeta. destruct (HL m state (t_scan t0) I) as (A & B). destruct (look m state (t_scan t0)) as [m' r]. cbn in A, B. subst r.
    destruct (M state (t_scan t0)) as [[[co sh] nx]|]; [apply IH; auto|cbn; auto]. }
  cbn [sf_simulate rs_simulate]. destruct (get_rule pv state (t_scan t) (t_signature t)) as [r|]; [|apply G].
  destruct (rs_apply_rule r t) as [[n|] t'|]; [apply IH; auto|apply G|cbn; auto].
Qed.

Lemma sf_esimulate_pure pv steps : forall m state e, Inv m ->
  Inv (fst (sf_esimulate look pv steps m state e)) /\ snd (sf_esimulate look pv steps m state e) = rs_esimulate M pv steps state e.
Proof.
  induction steps as [|steps IH]; intros m state e I; [cbn; auto|].
  assert (G : forall e,
    let r := match look m state (et_scan e) with
        | (m, RlPanic) => (m, SimErr)
        | (m, RlNone) => (m, SimKey e)
        | (m, RlSome (color, shift, next_state)) =>
            sf_esimulate look pv steps m next_state (rs_estep e shift color (state =? next_state))
        end in Inv (fst r) /\ snd r = match M state (et_scan e) with
        | None => SimKey e
        | Some (color, shift, next_state) =>
            rs_esimulate M pv steps next_state (rs_estep e shift color (state =? next_state))
        end).
  { intros t0. cbn zeta. destruct (HL m state (et_scan t0) I) as (A & B). destruct (look m state (et_scan t0)) as [m' r]. cbn in A, B. subst r.
    destruct (M state (et_scan t0)) as [[[co sh] nx]|]; [apply IH; auto|cbn; auto]. }
  cbn [sf_esimulate rs_esimulate]. destruct (get_rule pv state (et_scan e) (t_signature (erase e))) as [r|]; [|apply G].
  destruct (rs_apply_rule r (erase e)) as [[n|] t'|]; [apply IH; auto|apply G|cbn; auto].
Qed.

Lemma sf_min_sig_pure pv steps m state e sig : Inv m ->
  Inv (fst (sf_min_sig look pv steps m state e sig)) /\ snd (sf_min_sig look pv steps m state e sig) = rs_min_sig M pv steps state e sig.
Proof.
  intros I. unfold sf_min_sig, rs_min_sig. destruct (sf_esimulate_pure pv steps m state e I) as (A & B).
  destruct (sf_esimulate look pv steps m state e) as [m' r]. cbn in A, B. subst r. destruct (rs_esimulate M pv steps state e); cbn; auto.
Qed.

Lemma sf_delta_counts_pure pv state sig deltas : forall m tags, Inv m ->
  Inv (fst (sf_delta_counts look pv m state sig deltas tags))
  /\ snd (sf_delta_counts look pv m state sig deltas tags) = rs_delta_counts M pv state sig deltas tags.
Proof.
  induction deltas as [|d deltas IH]; intros m tags I; [cbn; auto|]. cbn [sf_delta_counts rs_delta_counts].
  destruct (sf_simulate_pure pv (Z.to_nat d) m state tags I) as (A & B).
  destruct (sf_simulate look pv (Z.to_nat d) m state tags) as [m' r]. cbn in A, B. subst r.
  destruct (rs_simulate M pv (Z.to_nat d) state tags) as [s t| | |]; cbn; auto.
  destruct (negb (s =? state) || negb (t_sig_compatible t sig)); [cbn; auto|].
  destruct (IH m' t A) as (A' & B'). destruct (sf_delta_counts look pv m' state sig deltas t) as [m2 r2]. cbn in A', B'. subst r2.
  destruct (rs_delta_counts M pv state sig deltas t); cbn; auto.
Qed.

Lemma sf_try_rule_pure pv m cycle state t : Inv m ->
  Inv (snd (fst (sf_try_rule look pv m cycle state t)))
  /\ (fst (fst (sf_try_rule look pv m cycle state t)), snd (sf_try_rule look pv m cycle state t)) = rs_try_rule M pv cycle state t.
Proof.
  intros I. unfold sf_try_rule, rs_try_rule. cbn zeta.
  destruct (get_rule pv state (t_scan t) (t_signature t)); [cbn; auto|].
  destruct (cfg_get (pv_configs pv) (t_signature t)) as [past|]; [|destruct (_ <? _); cbn; auto].
  destruct (pcs_next_deltas past state cycle) as [past' d]. destruct d as [| |d1 d2 d3]; try (cbn; auto; fail).
  destruct ((90000 <? d1) || (90000 <? d2) || (90000 <? d3)); [cbn; auto|].
  set (pv' := PV (pv_rules pv) (cfg_set (pv_configs pv) (t_signature t) past')).
  destruct (sf_delta_counts_pure pv' state (t_signature t) [d1; d2; d3] m t I) as (A & B).
  destruct (sf_delta_counts look pv' m state (t_signature t) [d1; d2; d3] t) as [m' r]. cbn [fst snd] in A, B. subst r.
  destruct (rs_delta_counts M pv' state (t_signature t) [d1; d2; d3] t) as [[|c1 [|c2 [|c3 [|c4 l]]]]|r]; try (cbn; auto; fail).
  destruct (rs_make_rule (t_counts t) c1 c2 c3); try (cbn; auto; fail).
  destruct (forallb nonneg_plus r); [cbn; auto|]. destruct (existsb is_mult r); [cbn; auto|]. destruct (swap_rule r t); [cbn; auto|].
  set (pv2 := PV (pv_rules pv') (cfg_set (pv_configs pv') (t_signature t) (pcs_delete past' state))).
  destruct (sf_min_sig_pure pv2 (Z.to_nat d1) m' state (to_enum t) (t_signature t) A) as (A' & B').
  destruct (sf_min_sig look pv2 (Z.to_nat d1) m' state (to_enum t) (t_signature t)) as [m2 r2]. cbn [fst snd] in A', B'. subst r2.
  destruct (rs_min_sig M pv2 (Z.to_nat d1) state (to_enum t) (t_signature t)); cbn; auto.
Qed.

Lemma sf_infrul_pure fuel : forall cycle pv m t state, Inv m ->
  sf_infrul_loop look fuel cycle pv m t state = rs_infrul_loop M fuel cycle pv t state.
Proof.
  induction fuel as [|fuel IH]; intros cycle pv m t state I; [reflexivity|]. cbn [sf_infrul_loop rs_infrul_loop].
  destruct (sf_try_rule_pure pv m cycle state t I) as (A & B).
  destruct (sf_try_rule look pv m cycle state t) as [[pv' m'] tr]. cbn [fst snd] in A, B. rewrite <- B. clear B. cbn iota.
  assert (G : forall t, match look m' state (t_scan t) with
        | (_, RlPanic) => None
        | (_, RlNone) => Some false
        | (m, RlSome (color, shift, next_state)) =>
            let same := state =? next_state in
            if same && t_at_edge t shift then Some false
            else sf_infrul_loop look fuel (cycle + 1) pv' m (fst (rs_step t shift color same)) next_state
        end = match M state (t_scan t) with
        | None => Some false
        | Some (color, shift, next_state) =>
            let same := state =? next_state in
            if same && t_at_edge t shift then Some false
            else rs_infrul_loop M fuel (cycle + 1) pv' (fst (rs_step t shift color same)) next_state
        end).
  { intros t0. destruct (HL m' state (t_scan t0) A) as (X & Y). destruct (look m' state (t_scan t0)) as [m2 r]. cbn in X, Y. subst r.
    destruct (M state (t_scan t0)) as [[[co sh] nx]|]; auto. cbn zeta. destruct ((state =? nx) && t_at_edge t0 sh); auto. }
  destruct tr; auto.
  destruct (rs_apply_rule r t) as [[n|] t'|]; auto.
Qed.

Lemma sf_run_pure m lim : Inv m -> sf_run_for_infrul look m lim = rs_run_for_infrul M lim.
Proof. apply sf_infrul_pure. Qed.

End pure.

Lemma plain_run comp lim : sf_run_for_infrul (rs_plain_get comp) tt lim = rs_run_for_infrul (machine_of comp) lim.
Proof. apply (sf_run_pure (rs_plain_get comp) (machine_of comp) (fun _ => True)); auto. Qed.
