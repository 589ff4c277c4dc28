(** * Proofs: the instructions that a macro program has met, written out *)
From Verif Require Import Base TM TMFacts ProgModel ParseModel ParseSpec ParseProofs MacroModel MacroSpec MacroProofs MacroLogic MacroRun ApiModel DumpModel.

(** Entries stay. *)
Lemma get_keeps look l m ms mc sl i : comp_get (ms_instrs m) sl = Some i ->
  comp_get (ms_instrs (fst (macro_get look l m ms mc))) sl = Some i.
Proof.
  intros E. unfold macro_get. destruct (comp_get (ms_instrs m) (ms, mc)) eqn:C; [exact E|].
  destruct (calculate_instr look l (ms_conv m) ms mc) as [cv r]. destruct r; cbn [fst ms_instrs]; auto.
  rewrite comp_get_cons. destruct (slot_eqb (ms, mc) sl) eqn:Q; auto.
  unfold slot_eqb in Q. cbn [fst snd] in Q. apply andb_prop in Q. destruct Q as [Q1 Q2].
  apply Z.eqb_eq in Q1, Q2. destruct sl as [s c]. cbn [fst snd] in *. subst. congruence.
Qed.
Lemma op_keeps look l m o sl i : comp_get (ms_instrs m) sl = Some i -> comp_get (ms_instrs (run_op look l m o)) sl = Some i.
Proof. destruct o as [ms mc|t]; cbn [run_op]; [apply get_keeps|auto]. Qed.
Lemma ops_keep look l h : forall m sl i, comp_get (ms_instrs m) sl = Some i -> comp_get (ms_instrs (fold_left (run_op look l) h m)) sl = Some i.
Proof. induction h as [|o h IH]; intros m sl i E; [exact E|]. cbn [fold_left]. apply IH, op_keeps, E. Qed.
Lemma get_has look l m ms mc i : snd (macro_get look l m ms mc) = LOk i -> comp_get (ms_instrs (fst (macro_get look l m ms mc))) (ms, mc) = Some i.
Proof.
  unfold macro_get. destruct (comp_get (ms_instrs m) (ms, mc)) eqn:C; cbn [fst snd]; [congruence|].
  destruct (calculate_instr look l (ms_conv m) ms mc) as [cv r]. destruct r; cbn [fst snd ms_instrs]; try discriminate.
  intros E. inv E. rewrite comp_get_cons. unfold slot_eqb. cbn [fst snd]. rewrite !Z.eqb_refl. reflexivity.
Qed.
Lemma get_fails look l m ms mc : (forall i, snd (macro_get look l m ms mc) <> LOk i) -> comp_get (ms_instrs m) (ms, mc) = None.
Proof. unfold macro_get. destruct (comp_get (ms_instrs m) (ms, mc)) as [i|] eqn:C; auto. intros H. exfalso. apply (H i). reflexivity. Qed.

Lemma msteps_keep look l n : forall m c m' c' sl i, msteps look l n (MGo m c) = MGo m' c' -> comp_get (ms_instrs m) sl = Some i ->
  comp_get (ms_instrs m') sl = Some i.
Proof.
  induction n as [|n IH]; intros m c m' c' sl i R E; cbn [msteps] in R; [inv R; auto|].
  unfold mstep in R. pose proof (get_keeps look l m (c_state c) (c_tape c (c_pos c)) sl i E) as K.
  destruct (macro_get look l m (c_state c) (c_tape c (c_pos c))) as [m1 r]. cbn [fst] in K.
  destruct r as [[[pr sh] tr]| | |]; [eapply IH; eauto|..];
    exfalso; clear - R; induction n; cbn [msteps mstep] in R; try discriminate; auto.
Qed.

(** The entries give the same moves. *)
Lemma replay look l n : forall m c m' c', msteps look l n (MGo m c) = MGo m' c' ->
  forall P, (forall sl i, comp_get (ms_instrs m') sl = Some i -> comp_get P sl = Some i) -> steps (machine_of P) n c = Some c'.
Proof.
  induction n as [|n IH]; intros m c m' c' R P K; cbn [msteps] in R; [inv R; reflexivity|].
  cbn [steps]. unfold step, machine_of. pose proof R as R0. unfold mstep in R.
  pose proof (get_has look l m (c_state c) (c_tape c (c_pos c))) as H.
  destruct (macro_get look l m (c_state c) (c_tape c (c_pos c))) as [m1 r]. cbn [fst snd] in H.
  destruct r as [[[pr sh] tr]| | |];
    [|exfalso; clear - R; induction n; cbn [msteps mstep] in R; try discriminate; auto..].
  rewrite (K _ _ (msteps_keep look l n _ _ _ _ _ _ R (H _ eq_refl))). eapply IH; eauto.
Qed.

(** The keys are slots. *)
Definition keys_ok (l : logic) (m : macro_state_t) : Prop := forall s c i, comp_get (ms_instrs m) (s, c) = Some i -> slot_ok l s c.
Lemma get_keys look l m ms mc : slot_ok l ms mc -> keys_ok l m -> keys_ok l (fst (macro_get look l m ms mc)).
Proof.
  intros S K. unfold macro_get. destruct (comp_get (ms_instrs m) (ms, mc)) eqn:C; [exact K|].
  destruct (calculate_instr look l (ms_conv m) ms mc) as [cv r]. destruct r; cbn [fst]; auto.
  intros s c j. cbn [ms_instrs]. rewrite comp_get_cons. destruct (slot_eqb (ms, mc) (s, c)) eqn:Q; [|apply K].
  unfold slot_eqb in Q. cbn [fst snd] in Q. apply andb_prop in Q. destruct Q as [Q1 Q2]. apply Z.eqb_eq in Q1, Q2. subst. auto.
Qed.
Lemma ops_keys look l h : forall m, Forall (op_ok l) h -> keys_ok l m -> keys_ok l (fold_left (run_op look l) h m).
Proof.
  induction h as [|o h IH]; intros m F K; [exact K|]. inv F. cbn [fold_left]. apply IH; auto.
  destruct o as [ms mc|t]; cbn [run_op op_ok] in *; [now apply get_keys|exact K].
Qed.
Lemma msteps_keys look l n : logic_ok l -> params_ok look (lg_states l) (lg_colors l) -> forall m c m' c', RInv look l m c ->
  msteps look l n (MGo m c) = MGo m' c' -> keys_ok l m -> keys_ok l m' /\ RInv look l m' c'.
Proof.
  intros HL HP. induction n as [|n IH]; intros m c m' c' I R K; cbn [msteps] in R; [inv R; auto|].
  unfold mstep in R. destruct (rinv_step look l m c HL HP I) as (h & E & F & E1 & _ & N).
  rewrite <- E1 in N. pose proof (proj1 (proj2 I (c_pos c))) as S.
  pose proof (get_keys look l m _ _ S K) as K1.
  destruct (macro_get look l m (c_state c) (c_tape c (c_pos c))) as [m1 r]. cbn [fst snd] in *.
  destruct r as [[[pr sh] tr]| | |];
    [|exfalso; clear - R; induction n; cbn [msteps mstep] in R; try discriminate; auto..].
  exact (IH _ _ _ _ (N _ _ _ eq_refl) R K1).
Qed.

Lemma msteps_app look l a : forall b r, msteps look l (a + b) r = msteps look l b (msteps look l a r).
Proof. induction a as [|a IH]; intros b r; [reflexivity|]. cbn [Nat.add msteps]. apply IH. Qed.
Lemma msteps_stop look l n e : msteps look l n (MStop e) = MStop e.
Proof. induction n; cbn [msteps mstep]; auto. Qed.

Lemma shown_replays look l h h2 n m c : logic_ok l -> (lg_kind l = Backsymbol -> 2 <= lg_colors l) ->
  params_ok look (lg_states l) (lg_colors l) -> Forall (op_ok l) h -> Forall (op_ok l) h2 ->
  msteps look l n (MGo (after look l h) init) = MGo m c ->
  let m2 := fold_left (run_op look l) h2 m in shows_ok (ms_instrs m2) ->
  exists q, from_str (shown_macro m2) = Some q /\ steps (machine_of q) n init = Some c
    /\ (forall k, (k <= n)%nat -> exists ck N bc, steps (machine_of q) k init = Some ck /\ (k <= N)%nat
         /\ steps (prog_of look) N init = Some bc /\ decodes l ck bc)
    /\ (h2 = [] -> forall e, msteps look l (S n) (MGo (after look l h) init) = MStop e -> halts_at (machine_of q) n (c_state c, c_tape c (c_pos c))).
Proof.
  intros HL H2 HP HF HF2 R m2 SH.
  assert (K : keys_ok l m2).
  { apply ops_keys; auto. apply (msteps_keys look l n HL HP _ _ _ _ (rinv_init look l h HL HP HF) R).
    apply ops_keys; auto. intros s x i E. discriminate E. }
  destruct (parse_show_inferred (ms_instrs m2) SH) as (q & Q & G).
  { intros s x i E. destruct (K _ _ _ E) as [A B]. lia. }
  exists q. split; [exact Q|].
  assert (P : forall sl i, comp_get (ms_instrs m) sl = Some i -> comp_get q sl = Some i).
  { intros sl i E. rewrite G. apply ops_keep, E. }
  split; [apply (replay look l n _ _ _ _ R); exact P|]. split.
  - intros k Hk. pose proof (macro_run look l h k HL H2 HP HF) as W.
    replace n with (k + (n - k))%nat in R by lia. rewrite msteps_app in R.
    destruct (msteps look l k (MGo (after look l h) init)) as [mk ck|e] eqn:RK; [|rewrite msteps_stop in R; discriminate].
    destruct W as (N & bc & W1 & W2 & W3). exists ck, N, bc. split; [|auto].
    apply (replay look l k _ _ _ _ RK). intros sl i E. apply P. eapply msteps_keep; eauto.
  - intros -> e ST. cbn [fold_left] in m2. subst m2. exists c. split; [apply (replay look l n _ _ _ _ R); exact P|].
    split; [reflexivity|]. split; [reflexivity|]. unfold machine_of. rewrite G. cbn [fst snd].
    apply (get_fails look l). intros i E. replace (S n) with (n + 1)%nat in ST by lia.
    rewrite msteps_app, R in ST. cbn [msteps mstep] in ST.
    destruct (macro_get look l m (c_state c) (c_tape c (c_pos c))) as [m1 r]. cbn [snd] in E. subst r. destruct i as [[? ?] ?]. discriminate.
Qed.

Lemma shown_replays_dict p l h h2 n m c : logic_ok l -> (lg_kind l = Backsymbol -> 2 <= lg_colors l) ->
  params_ok (dict_lookup p) (lg_states l) (lg_colors l) -> Forall (op_ok l) h -> Forall (op_ok l) h2 ->
  msteps (dict_lookup p) l n (MGo (after (dict_lookup p) l h) init) = MGo m c ->
  let m2 := fold_left (run_op (dict_lookup p) l) h2 m in shows_ok (ms_instrs m2) ->
  exists q, from_str (shown_macro m2) = Some q /\ steps (machine_of q) n init = Some c
    /\ (forall k, (k <= n)%nat -> exists ck N bc, steps (machine_of q) k init = Some ck /\ (k <= N)%nat
         /\ steps (machine_of p) N init = Some bc /\ decodes l ck bc)
    /\ (h2 = [] -> forall e, msteps (dict_lookup p) l (S n) (MGo (after (dict_lookup p) l h) init) = MStop e ->
         halts_at (machine_of q) n (c_state c, c_tape c (c_pos c))).
Proof.
  intros HL H2 HP HF HF2 R m2 SH.
  destruct (shown_replays (dict_lookup p) l h h2 n m c HL H2 HP HF HF2 R SH) as (q & A & B & C & D).
  exists q. split; [exact A|]. split; [exact B|]. split; [|exact D].
  intros k Hk. destruct (C k Hk) as (ck & N & bc & C1 & C2 & C3 & C4). rewrite dict_steps in C3. eauto 8.
Qed.

Lemma params_by_look p S C : Forall (fun e : slot * instr => let '((_, _), ((pr, _), tr)) := e in 0 <= pr < C /\ 0 <= tr < S) p ->
  params_ok (dict_lookup p) S C.
Proof.
  intros F s c pr sh tr _ _. unfold dict_lookup. destruct (comp_get p (s, c)) as [i|] eqn:E; [|discriminate]. intros H. inv H.
  induction F as [|[[s0 c0] [[pr0 sh0] tr0]] p X F IH]; cbn [comp_get] in E; [discriminate|].
  destruct (slot_eqb (s0, c0) (s, c)); [inv E; lia|auto].
Qed.
