(** * Proofs about the machines with a prover *)
From Verif Require Import Base TM TMFacts ProgModel TapeModel TapeSpec TapeProofs RulesModel PastModel EnumModel
  QuickModel QuickProofs ProverModel.

(** ** An applied rule was applied at least once *)
Lemma py_count_apps_pos r t : forall apps times pos res,
  (forall t0 p0 r0, apps = ASome t0 p0 r0 -> 1 <= t0) ->
  py_count_apps r t apps = ASome times pos res -> 1 <= times.
Proof.
  induction r as [|[i [d|m a]] r IH]; intros apps times pos res H E; cbn in E.
  - eapply H; eauto.
  - destruct (0 <=? d) eqn:D; [eauto|]. zb.
    destruct (get_count t i) as [count|]; [|discriminate].
    destruct (count <=? Z.abs d) eqn:C; [discriminate|]. zb.
    set (p := if 0 <? count mod Z.abs d then (count / Z.abs d, count mod Z.abs d) else (count / Z.abs d - 1, Z.abs d)) in *.
    assert (P : 1 <= fst p).
    { unfold p. pose proof (Z.div_mod count (Z.abs d) ltac:(lia)). pose proof (Z.mod_pos_bound count (Z.abs d) ltac:(lia)).
      destruct (0 <? count mod Z.abs d) eqn:X; zb; cbn [fst]; nia. }
    destruct p as [tm mr]. cbn [fst] in P.
    eapply IH; [|exact E]. intros t0 p0 r0 X.
    destruct apps as [| |ta pa ra]; [inversion X; subst; auto|inversion X; subst; auto|].
    destruct (tm <? ta); [inversion X; subst; auto|]. eapply H; eauto.
  - eauto.
Qed.

Lemma py_apply_loop_times r : forall t times p res times' t',
  py_apply_loop r t times p res = EvApplied times' t' -> times' = times.
Proof.
  induction r as [|[i o] r IH]; intros t times p res times' t' E; cbn in E; [inversion E; auto|].
  destruct (get_count t i); [|discriminate]. destruct o.
  - destruct (set_count _ _ _); [eauto|discriminate].
  - destruct (mult_int _ _ _); [|discriminate]. destruct (set_count _ _ _); [eauto|discriminate].
Qed.

Lemma py_apply_rule_pos r t times t' : py_apply_rule r t = EvApplied times t' -> 1 <= times.
Proof.
  unfold py_apply_rule. destruct (py_count_apps r t ANone) as [| |tm p rs] eqn:C; try discriminate.
  intros E. apply py_apply_loop_times in E as ->. eapply (py_count_apps_pos r t ANone); [|exact C].
  intros; discriminate.
Qed.

(** ** tm/machine.py *)
Section py.
Variables (comp : Z -> Z -> lookup).

Definition py_go fuel cycle pv t state step blanks rulapp sus : mach :=
  match comp state (t_scan t) with
  | LKey s => MachR (MUndfnd s) step cycle rulapp t blanks sus pv
  | LLoop => MachR MInfrul step cycle rulapp t blanks sus pv
  | LGot (color, shift, next_state) =>
      let same := state =? next_state in
      if same && t_at_edge t shift then MachR MSpnout step cycle rulapp t blanks sus pv
      else
        let '(t, stepped) := py_step t shift color same in
        let step := if step =? -1 then step else step + stepped in
        if (color =? 0) && t_blank t
        then if blanks_has blanks next_state then MachR MInfrul step cycle rulapp t blanks sus pv
             else let blanks := (next_state, step) :: blanks in
                  if next_state =? 0 then MachR MInfrul step cycle rulapp t blanks sus pv
                  else py_machine_loop comp fuel (cycle + 1) pv t next_state step blanks rulapp sus
        else py_machine_loop comp fuel (cycle + 1) pv t next_state step blanks rulapp sus
  end.

Lemma py_machine_loop_S fuel cycle pv t state step blanks rulapp sus :
  py_machine_loop comp (S fuel) cycle pv t state step blanks rulapp sus =
  let '(pv, tr) := py_try_rule comp pv cycle state t in
  match tr with
  | TInfinite => MachR MInfrul step cycle rulapp t blanks sus pv
  | TConfigLimit => MachR MCfglim step cycle rulapp t blanks sus pv
  | TErr | TMult => MachR MErr step cycle rulapp t blanks sus pv
  | TSuspected a b => py_go fuel cycle pv t state step blanks rulapp (Some (a, b))
  | TNone | TLoop => py_go fuel cycle pv t state step blanks rulapp sus
  | TRule r =>
      match py_apply_rule r t with
      | EvApplied times t => py_machine_loop comp fuel (cycle + 1) pv t state (-1) blanks (rulapp + times) sus
      | EvNone => py_go fuel cycle pv t state step blanks rulapp sus
      | EvIndex | EvSymbolic => MachR MErr step cycle rulapp t blanks sus pv
      end
  end.
Proof. reflexivity. Qed.

Lemma py_rulapp_mono fuel : forall cycle pv t state step blanks rulapp sus,
  rulapp <= m_rulapp (py_machine_loop comp fuel cycle pv t state step blanks rulapp sus).
Proof.
  induction fuel as [|fuel IH]; intros; [cbn; lia|]. rewrite py_machine_loop_S.
  assert (G : forall pv sus, rulapp <= m_rulapp (py_go fuel cycle pv t state step blanks rulapp sus)).
  { intros. unfold py_go. destruct (comp _ _) as [[[color shift] next]| |]; try (cbn; lia). cbn zeta.
    destruct (_ && t_at_edge _ _); [cbn; lia|]. destruct (py_step _ _ _ _) as [t' n].
    destruct (_ && t_blank _); [|apply IH]. destruct (blanks_has _ _); [cbn; lia|].
    destruct (next =? 0); [cbn; lia|apply IH]. }
  destruct (py_try_rule comp pv cycle state t) as [pv' [ |r| | | |a b| | ]]; try (cbn; lia); try apply G.
  destruct (py_apply_rule r t) as [| | |times t'] eqn:A; try (cbn; lia); try apply G.
  apply py_apply_rule_pos in A. pose proof (IH (cycle + 1) pv' t' state (-1) blanks (rulapp + times) sus). lia.
Qed.
End py.

(** The machine that a lookup stands for. *)
Definition prog_by (comp : Z -> Z -> lookup) : program :=
  fun s c => match comp s c with LGot i => Some i | _ => None end.

(** What a run that applied no rule stands for. *)
Definition mach_ok (comp : Z -> Z -> lookup) (m : mach) : Prop :=
  let M := prog_by comp in
  0 <= m_steps m
  /\ (forall s j, In (s, j) (m_blanks m) -> blank_at M s j /\ j <= m_steps m)
  /\ exists c, steps M (Z.to_nat (m_steps m)) init = Some c /\ represents (m_tape m) c /\ canon (m_tape m)
     /\ match m_end m with
        | MUndfnd s => comp (c_state c) (c_tape c (c_pos c)) = LKey s
        | MSpnout => spins_out_from M c
        | _ => True
        end.

Lemma py_loop_ok comp fuel : forall cycle pv t state step blanks sus c,
  inv (prog_by comp) t blanks state step c ->
  let m := py_machine_loop comp fuel cycle pv t state step blanks 0 sus in
  m_rulapp m = 0 ->
  mach_ok comp m /\ (m_end m = MXlimit -> step + Z.of_nat fuel <= m_steps m).
Proof.
  induction fuel as [|fuel IH]; intros cycle pv t state step blanks sus c I.
  - destruct I as [Hk Hr Hrep Hc Hst Hb]. cbn. intros _. split; [|lia].
    split; cbn; auto. split; auto. exists c. cbn. auto.
  - cbn zeta. rewrite py_machine_loop_S.
    pose proof I as [Hk Hr Hrep Hc Hst Hb].
    assert (HS : c_tape c (c_pos c) = t_scan t) by (apply represents_iff; auto).
    assert (FIN : forall e cyc su pvx, (forall s, e = MUndfnd s -> comp (c_state c) (c_tape c (c_pos c)) = LKey s) ->
      (e = MSpnout -> spins_out_from (prog_by comp) c) -> mach_ok comp (MachR e step cyc 0 t blanks su pvx)).
    { intros e cyc su pvx A B. split; cbn; auto. split; auto. exists c. split; auto. split; auto. split; auto.
      destruct e; auto. }
    assert (G : forall pv sus, m_rulapp (py_go comp fuel cycle pv t state step blanks 0 sus) = 0 ->
      mach_ok comp (py_go comp fuel cycle pv t state step blanks 0 sus)
      /\ (m_end (py_go comp fuel cycle pv t state step blanks 0 sus) = MXlimit ->
          step + Z.of_nat (S fuel) <= m_steps (py_go comp fuel cycle pv t state step blanks 0 sus))).
    { clear pv sus. intros pv sus. unfold py_go. cbn zeta.
      destruct (comp state (t_scan t)) as [[[color shift] next]|s0|] eqn:EG0.
      2:{ intros _. split; [|discriminate]. apply FIN; [|discriminate]. intros s X. inversion X; subst. rewrite HS. auto. }
      2:{ intros _. split; [|discriminate]. apply FIN; discriminate. }
      assert (EG : prog_by comp state (t_scan t) = Some (color, shift, next)) by (unfold prog_by; rewrite EG0; auto).
      destruct ((state =? next) && t_at_edge t shift) eqn:ES.
      { intros _. split; [|discriminate]. apply FIN; [discriminate|]. intros _. zb. subst next.
        apply (spin_out_lemma _ c shift color).
        - unfold t_at_edge in H0. zb. rewrite H in EG. rewrite Hst. exact EG.
        - intros i Hi. eapply represents_edge; eauto. }
      destruct (py_step t shift color (state =? next)) as [tp' n] eqn:ESTEP.
      rewrite py_rs_step in ESTEP by (apply canon_wf; auto).
      destruct (inv_step (prog_by comp) t blanks state step c color shift next tp' n I EG ESTEP) as (N & c' & I').
      replace (step =? -1) with false by (symmetry; apply Z.eqb_neq; lia).
      pose proof I' as [Hk' Hr' Hrep' Hc' Hst' Hb'].
      assert (FIN2 : forall cyc su b pvx, (forall s j, In (s, j) b -> blank_at (prog_by comp) s j /\ j <= step + n) ->
        mach_ok comp (MachR MInfrul (step + n) cyc 0 tp' b su pvx)).
      { intros cyc su b pvx A. split; cbn; auto. split; auto. exists c'. split; auto. }
      destruct ((color =? 0) && t_blank tp') eqn:EB.
      - zb. assert (BA : blank_at (prog_by comp) next (step + n)).
        { split; [lia|]. exists c'. repeat split; auto. eapply represents_blank; eauto. }
        assert (B2 : forall s j, In (s, j) ((next, step + n) :: blanks) -> blank_at (prog_by comp) s j /\ j <= step + n).
        { intros s j [X|X]; [inversion X; subst; split; auto; lia|auto]. }
        destruct (blanks_has blanks next) eqn:EH.
        + intros _. split; [|discriminate]. apply FIN2; auto.
        + destruct (next =? 0) eqn:EZ.
          * intros _. split; [|discriminate]. apply FIN2; auto.
          * intros R. destruct (IH (cycle + 1) pv tp' next (step + n) ((next, step + n) :: blanks) sus c') as (A & B); auto.
            { constructor; auto. }
            split; auto. intros X. specialize (B X). lia.
      - intros R. destruct (IH (cycle + 1) pv tp' next (step + n) blanks sus c' I' R) as (A & B).
        split; auto. intros X. specialize (B X). lia. }
    destruct (py_try_rule comp pv cycle state t) as [pv' [ |r| | | |a b| | ]];
      try (intros _; split; [apply FIN; discriminate|discriminate]); try apply G.
    destruct (py_apply_rule r t) as [| | |times t'] eqn:A;
      try (intros _; split; [apply FIN; discriminate|discriminate]); try apply G.
    intros R. exfalso. apply py_apply_rule_pos in A.
    pose proof (py_rulapp_mono comp fuel (cycle + 1) pv' t' state (-1) blanks (0 + times) sus). lia.
Qed.

Lemma py_run_ok comp lim : let m := py_machine_run comp lim in
  m_rulapp m = 0 ->
  mach_ok comp m /\ (m_end m = MXlimit -> Z.of_nat lim <= m_steps m).
Proof.
  intros m R. destruct (py_loop_ok comp lim 0 pv_new init_tape 0 0 [] None init) as (A & B); auto.
  constructor; cbn; auto using canon_init, represents_init; try lia; intros ? ? [].
Qed.

(** Plain programs. *)
Lemma prog_by_plain M n : forall c, steps (prog_by (plain M)) n c = steps M n c.
Proof.
  assert (P : forall s c, prog_by (plain M) s c = M s c) by (intros s c; unfold prog_by, plain; destruct (M s c); auto).
  induction n as [|n IH]; intros c; auto. cbn [steps]. unfold step. rewrite P.
  destruct (M (c_state c) (c_tape c (c_pos c))) as [[[? ?] ?]|]; auto.
Qed.

Definition plain_ok (M : program) (m : mach) : Prop :=
  0 <= m_steps m
  /\ (forall s j, In (s, j) (m_blanks m) -> blank_at M s j /\ j <= m_steps m)
  /\ exists c, steps M (Z.to_nat (m_steps m)) init = Some c /\ represents (m_tape m) c /\ canon (m_tape m)
     /\ match m_end m with
        | MUndfnd s => s = (c_state c, c_tape c (c_pos c)) /\ M (c_state c) (c_tape c (c_pos c)) = None
        | MSpnout => spins_out_from M c
        | _ => True
        end.

Lemma py_run_plain M lim : let m := py_machine_run (plain M) lim in
  m_rulapp m = 0 ->
  plain_ok M m /\ (m_end m = MXlimit -> Z.of_nat lim <= m_steps m).
Proof.
  intros m R. destruct (py_run_ok (plain M) lim R) as ((A & B & c & E & RP & CN & F) & X). fold m in A, B, E, RP, CN, F, X.
  split; auto. split; auto. split.
  { intros s j I. destruct (B s j I) as ((P & d & D) & L). rewrite prog_by_plain in D. split; auto. split; eauto. }
  rewrite prog_by_plain in E. exists c. split; auto. split; auto. split; auto.
  destruct (m_end m) as [s| | | | |]; auto.
  - unfold plain in F. destruct (M (c_state c) (c_tape c (c_pos c))) eqn:G; [discriminate|]. inversion F; auto.
  - destruct F as (dir & F). exists dir. intros n. destruct (F n) as (d & D). rewrite prog_by_plain in D. eauto.
Qed.

(** ** src/machine.rs *)
Definition rule_small (r : rule) : Prop := forall i d, In (i, Plus d) r -> Z.abs d <= 2 ^ 31.
Definition pv_small (pv : prover) : Prop :=
  forall k v m r, In (k, v) (pv_rules pv) -> In (m, r) v -> rule_small r.

Lemma as_i32_in n : - 2 ^ 31 <= as_i32 n < 2 ^ 31.
Proof. unfold as_i32. pose proof (Z.mod_pos_bound (n + 2 ^ 31) (2 ^ 32) ltac:(lia)). lia. Qed.

Lemma rs_diff_small a b c d p : rs_calculate_diff a b c d = RsGot (Plus p) -> Z.abs p <= 2 ^ 31.
Proof.
  unfold rs_calculate_diff. destruct (_ && _); [discriminate|].
  destruct (in_i32 (b - a)) eqn:X; cbn [negb]; [|discriminate].
  destruct (in_i32 (c - b)); cbn [negb]; [|discriminate]. cbn zeta.
  assert (P : Z.abs (b - a) <= 2 ^ 31) by (unfold in_i32 in X; zb; lia).
  assert (REST : (if (a =? 0) || (b =? 0) then RsUnknown
      else match rs_divmod b a, rs_divmod c b with
           | Some (q1, r1), Some (q2, r2) =>
               if (q1 =? q2) && (r1 =? r2)
               then match rs_divmod d c with
                    | None => RsPanic
                    | Some (q3, r3) => if (q2 =? q3) && (r2 =? r3) then RsGot (Mult q1 r1) else RsUnknown
                    end
               else RsUnknown
           | _, _ => RsPanic
           end) <> RsGot (Plus p)).
  { destruct (_ || _); [discriminate|]. destruct (rs_divmod b a) as [[? ?]|]; [|discriminate].
    destruct (rs_divmod c b) as [[? ?]|]; [|discriminate]. destruct (_ && _); [|discriminate].
    destruct (rs_divmod d c) as [[? ?]|]; [|discriminate]. destruct (_ && _); discriminate. }
  destruct (b - a =? c - b); [|intros Y; elim REST; exact Y].
  destruct (in_i32 (d - c)); cbn [negb]; [|discriminate].
  destruct (c - b =? d - c); [|intros Y; elim REST; exact Y].
  intros Y. inversion Y; subst. auto.
Qed.

Lemma rs_rule_side_small s : forall zs i r, rs_rule_side s i zs = RsRule r -> rule_small r.
Proof.
  induction zs as [|[[[a b] c] d] zs IH]; intros i r E; cbn in E.
  - inversion E; subst. intros ? ? [].
  - destruct (rs_calculate_diff _ _ _ _) as [| |o|] eqn:D; try discriminate; [eauto|].
    destruct (rs_rule_side s (S i) zs) as [r'| |] eqn:R; try discriminate. inversion E; subst.
    intros j p [X|X]; [|eapply IH; eauto]. inversion X; subst. eapply rs_diff_small; eauto.
Qed.

Lemma rs_make_rule_small k1 k2 k3 k4 r : rs_make_rule k1 k2 k3 k4 = RsRule r -> rule_small r.
Proof.
  unfold rs_make_rule. destruct (rs_rule_side false _ _) as [r1| |] eqn:A; try discriminate.
  destruct (rs_rule_side true _ _) as [r2| |] eqn:B; try discriminate. intros E. inversion E; subst.
  intros i d X. apply in_app_or in X as [X|X];
    [exact (rs_rule_side_small _ _ _ _ A i d X)|exact (rs_rule_side_small _ _ _ _ B i d X)].
Qed.

Lemma rules_at_In rs s v : rules_at rs s = Some v -> exists k, In (k, v) rs.
Proof.
  induction rs as [|[k w] rs IH]; cbn; [discriminate|]. destruct (slot_eqb k s).
  - intros X. inversion X; subst. eauto.
  - intros X. destruct (IH X) as (k' & ?). eauto.
Qed.

Lemma match_rule_In sig temp r : match_rule sig temp = Some r -> exists m, In (m, r) temp.
Proof.
  induction temp as [|[[[sc l r0] [lex rex]] r1] temp IH]; cbn; [discriminate|].
  destruct (_ && _).
  - intros X. inversion X; subst. eauto.
  - intros X. destruct (IH X) as (m & ?). eauto.
Qed.

Lemma get_rule_small pv state scan sig r : pv_small pv -> get_rule pv state scan sig = Some r -> rule_small r.
Proof.
  unfold get_rule. intros P E. destruct (rules_at _ _) as [v|] eqn:A; [|discriminate].
  destruct (rules_at_In _ _ _ A) as (k & ?). destruct (match_rule_In _ _ _ E) as (m & ?). eapply P; eauto.
Qed.

Lemma rules_add_small rs s e : rule_small (snd e) ->
  (forall k v m r, In (k, v) rs -> In (m, r) v -> rule_small r) ->
  forall k v m r, In (k, v) (rules_add rs s e) -> In (m, r) v -> rule_small r.
Proof.
  intros He. induction rs as [|[k w] rs IH]; intros P k' v m r H1 H2; cbn in H1.
  - destruct H1 as [X|[]]. inversion X; subst. destruct H2 as [Y|[]]; subst. exact He.
  - destruct (slot_eqb k s).
    + destruct H1 as [X|X].
      * inversion X; subst. apply in_app_or in H2 as [Y|[Y|[]]]; [|subst; exact He].
        eapply (P k' w); [left; reflexivity|eauto].
      * eapply P; [right|]; eauto.
    + destruct H1 as [X|X].
      * inversion X; subst. eapply P; [left; reflexivity|eauto].
      * eapply IH; eauto. intros. eapply P; [right|]; eauto.
Qed.

Lemma rs_delta_counts_no_rule M pv state sig r : forall ds t, rs_delta_counts M pv state sig ds t <> inr (TRule r).
Proof.
  induction ds as [|x ds IH]; intros t; cbn; [discriminate|].
  destruct (rs_simulate _ _ _ _ _); try discriminate. destruct (_ || _); [discriminate|].
  destruct (rs_delta_counts _ _ _ _ ds _) eqn:X; [discriminate|]. intros Y. inversion Y; subst. eapply IH; eauto.
Qed.

Lemma rs_try_rule_small M pv cycle state t pv' tr : pv_small pv -> rs_try_rule M pv cycle state t = (pv', tr) ->
  pv_small pv' /\ (forall r, tr = TRule r -> rule_small r).
Proof.
  intros P E. unfold rs_try_rule in E. cbn zeta in E.
  destruct (get_rule _ _ _ _) as [r|] eqn:G.
  { inversion E; subst. split; auto. intros r' X. inversion X; subst. eapply get_rule_small; eauto. }
  destruct (cfg_get _ _) as [past|].
  2:{ destruct (100000 <? _); inversion E; subst; (split; [auto|discriminate]). }
  destruct (pcs_next_deltas past state cycle) as [past' d].
  destruct d as [| |d1 d2 d3]; try (inversion E; subst; split; [auto|discriminate]).
  destruct (_ || _); [inversion E; subst; split; [auto|discriminate]|].
  destruct (rs_delta_counts _ _ _ _ _ _) as [cs|r] eqn:DC.
  2:{ inversion E; subst. split; [auto|]. intros r' ->.
      elim (rs_delta_counts_no_rule _ _ _ _ _ _ _ DC). }
  destruct cs as [|c1 [|c2 [|c3 [|]]]]; try (inversion E; subst; split; [auto|discriminate]).
  destruct (rs_make_rule _ _ _ _) as [r| |] eqn:MK; try (inversion E; subst; split; [auto|discriminate]).
  apply rs_make_rule_small in MK.
  destruct (forallb _ _); [inversion E; subst; split; [auto|discriminate]|].
  destruct (existsb _ _); [inversion E; subst; split; [auto|discriminate]|].
  destruct (swap_rule _ _); [inversion E; subst; split; [auto|discriminate]|].
  destruct (rs_min_sig _ _ _ _ _ _); inversion E; subst; (split; [|try discriminate]); try exact P.
  - unfold set_rule, pv_small. cbn [pv_rules]. apply rules_add_small; auto.
  - intros r' X. inversion X; subst; auto.
Qed.

(** Counts and the sum of all counts. *)
Fixpoint span_total (s : span) : Z := match s with [] => 0 | b :: s => b_count b + span_total s end.
Definition total (t : tape) : Z := span_total (t_lspan t) + span_total (t_rspan t).

Lemma span_total_nonneg s : wf_span s -> 0 <= span_total s.
Proof. induction s as [|b s IH]; intros W; cbn; [lia|]. inv W. specialize (IH H2). lia. Qed.

Lemma nth_total s : forall i b, wf_span s -> nth_error s i = Some b -> 1 <= b_count b <= span_total s.
Proof.
  induction s as [|x s IH]; intros [|i] b W E; cbn in *; try discriminate; inv W.
  - inversion E; subst. pose proof (span_total_nonneg s H2). lia.
  - specialize (IH i b H2 E). lia.
Qed.

Lemma get_count_total t i n : wf_tape t -> get_count t i = Some n -> 1 <= n <= total t.
Proof.
  intros (A & B). unfold get_count, t_get_count, total. destruct i as [s i]. cbn.
  destruct (nth_error _ _) as [b|] eqn:E; cbn; [|discriminate]. intros X. inversion X; subst.
  pose proof (span_total_nonneg _ A). pose proof (span_total_nonneg _ B).
  destruct s; apply nth_total in E; auto; lia.
Qed.

Lemma pull_total s scan skip nx k s' : wf_span s -> rs_pull s scan skip = (nx, k, s') -> span_total s' <= span_total s.
Proof.
  unfold rs_pull. intros W E.
  assert (P : forall (s : span) (st nx k : Z) (s' : span), wf_span s ->
    match s with
    | [] => (0, st, s)
    | np :: s' => if b_count np >? 1 then (b_color np, st, Blk (b_color np) (b_count np - 1) :: s')
                  else (b_color np, st, s')
    end = (nx, k, s') -> span_total s' <= span_total s).
  { clear. intros s st nx k s' W E. destruct s as [|b s]; cbn in E; [inversion E; subst; cbn; lia|]. inv W.
    destruct (b_count b >? 1) eqn:G; inversion E; subst; cbn; zb; lia. }
  destruct s as [|b s0]; [inversion E; subst; cbn; lia|].
  destruct (skip && (b_color b =? scan)).
  - inv W. pose proof (P _ _ _ _ _ H2 E). cbn [span_total]. lia.
  - exact (P (b :: s0) _ _ _ _ W E).
Qed.

Lemma push_total s print k : 0 <= k -> span_total (rs_push s print k) <= span_total s + k.
Proof.
  intros K. destruct s as [|b s]; cbn.
  - destruct (print =? 0); cbn; lia.
  - destruct (b_color b =? print); cbn; lia.
Qed.

Lemma step_total t shift color skip t' n : wf_tape t -> rs_step t shift color skip = (t', n) ->
  1 <= n /\ wf_tape t' /\ total t' <= total t + n.
Proof.
  intros W E. rewrite side_step_eq in E.
  destruct (rs_pull (side t shift) (t_scan t) skip) as [[nx k] pull] eqn:EP.
  destruct (rs_pull_spec _ _ _ _ _ _ (wf_side _ _ W) EP) as (K & WP & _).
  destruct (rs_push_spec (side t (negb shift)) color k (wf_side _ _ W) K) as (WQ & _).
  pose proof (pull_total _ _ _ _ _ _ (wf_side _ _ W) EP) as PT.
  pose proof (push_total (side t (negb shift)) color k ltac:(lia)) as QT.
  injection E as <- <-. split; auto. unfold total.
  split; [destruct shift; split; auto|]. destruct shift; cbn [side negb t_lspan t_rspan] in *; unfold side in *; lia.
Qed.

(** *** apply_rule *)
Lemma rs_count_apps_pos r t : wf_tape t -> forall apps times pos res,
  (forall t0 p0 r0, apps = RASome t0 p0 r0 -> 1 <= t0 <= total t /\ 1 <= r0) ->
  rs_count_apps r t apps = RASome times pos res -> 1 <= times <= total t /\ 1 <= res.
Proof.
  intros W. induction r as [|[i [d|m a]] r IH]; intros apps times pos res H E; cbn in E.
  - eapply H; eauto.
  - destruct (0 <=? d) eqn:D; [eauto|]. zb.
    destruct (get_count t i) as [count|] eqn:GC; [|discriminate].
    apply get_count_total in GC; auto.
    destruct (count <=? Z.abs d) eqn:C; [discriminate|]. zb.
    set (p := if 0 <? count mod Z.abs d then (count / Z.abs d, count mod Z.abs d) else (count / Z.abs d - 1, Z.abs d)) in *.
    assert (P : 1 <= fst p <= total t /\ 1 <= snd p).
    { unfold p. pose proof (Z.div_mod count (Z.abs d) ltac:(lia)). pose proof (Z.mod_pos_bound count (Z.abs d) ltac:(lia)).
      destruct (0 <? count mod Z.abs d) eqn:X; zb; cbn [fst snd]; split; nia. }
    destruct p as [tm mr]. cbn [fst snd] in P.
    eapply IH; [|exact E]. intros t0 p0 r0 X.
    destruct apps as [| |ta pa ra]; [inversion X; subst; auto|inversion X; subst; auto|].
    destruct (tm <? ta); [inversion X; subst; auto|]. eapply H; eauto.
  - discriminate.
Qed.

Lemma set_nth_wf s : forall i v s', wf_span s -> 1 <= v -> set_nth_count s i v = Some s' -> wf_span s'.
Proof.
  induction s as [|b s IH]; intros [|i] v s' W V E; cbn in E; try discriminate; inv W.
  - inversion E; subst. constructor; auto.
  - destruct (set_nth_count s i v) eqn:X; cbn in E; [|discriminate]. inversion E; subst. constructor; auto.
    exact (IH _ _ _ H2 V X).
Qed.

Lemma set_count_wf t i v t' : wf_tape t -> 1 <= v -> set_count t i v = Some t' -> wf_tape t'.
Proof.
  intros (A & B) V E. unfold set_count, t_set_count in E. destruct i as [[|] i]; cbn in E;
    (destruct (set_nth_count _ _ _) eqn:X; cbn in E; [|discriminate]); inversion E; subst; split; cbn; auto;
    [exact (set_nth_wf _ _ _ _ B V X)|exact (set_nth_wf _ _ _ _ A V X)].
Qed.

Lemma rs_apply_loop_facts T p res : 1 <= T -> 1 <= res -> forall r t, wf_tape t ->
  match rs_apply_loop r t T p res with
  | RsApplied (Some n) t' => n = T /\ wf_tape t'
  | RsApplied None t' => wf_tape t' /\ exists i d, In (i, Plus d) r /\ u64_max < Z.abs d * T
  | RsApplyPanic => True
  end.
Proof.
  intros HT HR. induction r as [|[i [d|m a]] r IH]; intros t W; cbn [rs_apply_loop]; auto.
  assert (SET : forall v, 1 <= v -> match match set_count t i v with
                         | None => RsApplyPanic
                         | Some t => rs_apply_loop r t T p res
                         end with
    | RsApplied (Some n) t' => n = T /\ wf_tape t'
    | RsApplied None t' => wf_tape t' /\ exists j e, In (j, Plus e) ((i, Plus d) :: r) /\ u64_max < Z.abs e * T
    | RsApplyPanic => True
    end).
  { intros v V. destruct (set_count t i v) as [t1|] eqn:E; auto.
    specialize (IH t1 (set_count_wf _ _ _ _ W V E)).
    destruct (rs_apply_loop r t1 T p res) as [[n|] t'|]; auto.
    destruct IH as (A & j & e & B' & C). split; auto. exists j, e. split; [right; auto|auto]. }
  cbn zeta. destruct (index_eqb i p); [destruct (d <? 0); [apply SET; auto|exact I]|].
  destruct (get_count t i) as [count|] eqn:G; [|exact I].
  apply get_count_total in G; auto.
  unfold rs_apply_plus. cbn zeta. destruct (u64_max <? Z.abs d * T) eqn:X.
  - zb. split; auto. exists i, d. split; [left; auto|auto].
  - destruct (u64_max <? count + Z.abs d * T); auto. apply SET. nia.
Qed.

Lemma rs_apply_rule_facts r t : wf_tape t ->
  match rs_apply_rule r t with
  | RsApplied (Some n) t' => 1 <= n /\ wf_tape t'
  | RsApplied None t' => wf_tape t' /\ (rule_small r -> total t < 2 ^ 33 -> t' = t)
  | RsApplyPanic => True
  end.
Proof.
  intros W. unfold rs_apply_rule. destruct (rs_count_apps r t RANone) as [| |T p res] eqn:C; auto.
  apply rs_count_apps_pos in C; auto; [|intros; discriminate].
  destruct C as (C1 & C2). pose proof (rs_apply_loop_facts T p res ltac:(lia) C2 r t W) as A.
  destruct (rs_apply_loop r t T p res) as [[n|] t'|]; auto.
  - destruct A as (-> & A). split; auto. lia.
  - destruct A as (A & i & d & I & X). split; auto. intros S L. exfalso. specialize (S i d I).
    unfold u64_max in X. assert (Z.abs d * T <= 2 ^ 31 * (2 ^ 33 - 1)) by nia. lia.
Qed.

(** *** The loop *)
Definition rs_go M fuel cycle pv state steps blanks rulapp t : option (machine_result * prover) :=
  let sl := (state, t_scan t) in
  match M state (t_scan t) with
  | None => Some (MR undfnd steps cycle (t_marks t) rulapp blanks (Some sl), pv)
  | Some (color, shift, next_state) =>
      let same := state =? next_state in
      if same && t_at_edge t shift then Some (MR spnout steps cycle (t_marks t) rulapp blanks None, pv)
      else
        let '(t, stepped) := rs_step t shift color same in
        let steps := steps + stepped in
        let state := next_state in
        if (color =? 0) && t_blank t
        then if blanks_has blanks state then Some (MR infrul steps 0 (t_marks t) rulapp blanks None, pv)
             else let blanks := (state, steps) :: blanks in
                  if state =? 0 then Some (MR infrul steps 0 (t_marks t) rulapp blanks None, pv)
                  else rs_prover_loop M fuel (cycle + 1) pv t state steps blanks rulapp
        else rs_prover_loop M fuel (cycle + 1) pv t state steps blanks rulapp
  end.

Lemma rs_prover_loop_S M fuel cycle pv t state steps blanks rulapp :
  rs_prover_loop M (S fuel) cycle pv t state steps blanks rulapp =
  let '(pv, tr) := rs_try_rule M pv cycle state t in
  let fin e l := Some (MR e steps cycle (t_marks t) rulapp blanks l, pv) in
  match tr with
  | TInfinite => fin infrul None
  | TConfigLimit => fin cfglim None
  | TMult => fin mulrul None
  | TErr | TLoop | TSuspected _ _ => None
  | TNone => rs_go M fuel cycle pv state steps blanks rulapp t
  | TRule r =>
      match rs_apply_rule r t with
      | RsApplyPanic => None
      | RsApplied (Some times) t => rs_prover_loop M fuel (cycle + 1) pv t state steps blanks (rulapp + times)
      | RsApplied None t => rs_go M fuel cycle pv state steps blanks rulapp t
      end
  end.
Proof. reflexivity. Qed.

Lemma rs_mono M fuel : forall cycle pv t state steps blanks rulapp r pvx, wf_tape t ->
  rs_prover_loop M fuel cycle pv t state steps blanks rulapp = Some (r, pvx) ->
  rulapp <= mr_rulapp r /\ steps <= mr_steps r.
Proof.
  induction fuel as [|fuel IH]; intros cycle pv t state steps blanks rulapp r pvx W E.
  { cbn in E. inversion E; subst; cbn; lia. }
  rewrite rs_prover_loop_S in E. cbn zeta in E.
  assert (G : forall pv t, wf_tape t -> rs_go M fuel cycle pv state steps blanks rulapp t = Some (r, pvx) ->
    rulapp <= mr_rulapp r /\ steps <= mr_steps r).
  { clear - IH. intros pv t W E. unfold rs_go in E. cbn zeta in E.
    destruct (M state (t_scan t)) as [[[color shift] next]|]; [|inversion E; subst; cbn; lia].
    destruct (_ && t_at_edge _ _); [inversion E; subst; cbn; lia|].
    destruct (rs_step _ _ _ _) as [t' n] eqn:ST. destruct (step_total _ _ _ _ _ _ W ST) as (N & W' & _).
    destruct (_ && t_blank _).
    - destruct (blanks_has _ _); [inversion E; subst; cbn; lia|].
      destruct (next =? 0); [inversion E; subst; cbn; lia|]. apply IH in E; auto. lia.
    - apply IH in E; auto. lia. }
  destruct (rs_try_rule M pv cycle state t) as [pv' tr]. destruct tr as [ |rl| | | |a b| | ];
    try discriminate; try (inversion E; subst; cbn; lia); [eapply G; eauto|].
  pose proof (rs_apply_rule_facts rl t W) as A. destruct (rs_apply_rule rl t) as [[times|] t'|]; [| |discriminate].
  - destruct A as (A & W'). apply IH in E; auto. lia.
  - destruct A as (W' & _). eapply G; eauto.
Qed.

Definition rs_ok (M : program) (r : machine_result) : Prop :=
  0 <= mr_steps r
  /\ (forall s j, In (s, j) (mr_blanks r) -> blank_at M s j /\ j <= mr_steps r)
  /\ exists c, steps M (Z.to_nat (mr_steps r)) init = Some c /\ marks_are (c_tape c) (mr_marks r)
     /\ match mr_result r with
        | undfnd => mr_last_slot r = Some (c_state c, c_tape c (c_pos c))
                    /\ M (c_state c) (c_tape c (c_pos c)) = None
        | spnout => spins_out_from M c
        | _ => True
        end.

Lemma rs_loop_ok M fuel : forall cycle pv t state step blanks c r pvx,
  inv M t blanks state step c -> pv_small pv -> total t <= step ->
  rs_prover_loop M fuel cycle pv t state step blanks 0 = Some (r, pvx) ->
  mr_rulapp r = 0 -> mr_steps r < 2 ^ 33 ->
  rs_ok M r /\ (mr_result r = xlimit -> step + Z.of_nat fuel <= mr_steps r).
Proof.
  induction fuel as [|fuel IH]; intros cycle pv t state step blanks c r pvx I PS TT E R L.
  - destruct I as [Hk Hr Hrep Hc Hst Hb]. cbn in E. inversion E; subst. cbn. split; [|lia].
    split; cbn; auto. split; auto. exists c. split; auto. split; auto.
    eapply marks_represents; eauto. apply canon_wf; auto.
  - rewrite rs_prover_loop_S in E. cbn zeta in E.
    pose proof I as [Hk Hr Hrep Hc Hst Hb]. pose proof (canon_wf _ Hc) as W.
    assert (HS : c_tape c (c_pos c) = t_scan t) by (apply represents_iff; auto).
    assert (FIN : forall e cyc l, (e = undfnd -> l = Some (c_state c, c_tape c (c_pos c)) /\ M (c_state c) (c_tape c (c_pos c)) = None) ->
      (e = spnout -> spins_out_from M c) -> rs_ok M (MR e step cyc (t_marks t) 0 blanks l)).
    { intros e cyc l A B. split; cbn; auto. split; auto. exists c. split; auto.
      split; [eapply marks_represents; eauto|]. destruct e; auto. }
    assert (G : forall pv, pv_small pv -> rs_go M fuel cycle pv state step blanks 0 t = Some (r, pvx) ->
      rs_ok M r /\ (mr_result r = xlimit -> step + Z.of_nat (S fuel) <= mr_steps r)).
    { clear pv E PS. intros pv PS E. unfold rs_go in E. cbn zeta in E.
      destruct (M state (t_scan t)) as [[[color shift] next]|] eqn:EG.
      2:{ inversion E; subst. split; [|discriminate]. apply FIN; [|discriminate]. intros _. rewrite HS. split; auto. }
      destruct ((state =? next) && t_at_edge t shift) eqn:ES.
      { inversion E; subst r. split; [|discriminate]. apply FIN; [discriminate|]. intros _. zb. subst next.
        apply (spin_out_lemma _ c shift color).
        - unfold t_at_edge in H0. zb. rewrite H in EG. rewrite Hst. exact EG.
        - intros i Hi. eapply represents_edge; eauto. }
      destruct (rs_step t shift color (state =? next)) as [tp' n] eqn:ESTEP.
      destruct (inv_step M t blanks state step c color shift next tp' n I EG ESTEP) as (N & c' & I').
      destruct (step_total _ _ _ _ _ _ W ESTEP) as (_ & W' & TT').
      pose proof I' as [Hk' Hr' Hrep' Hc' Hst' Hb'].
      assert (FIN2 : forall cyc b, (forall s j, In (s, j) b -> blank_at M s j /\ j <= step + n) ->
        rs_ok M (MR infrul (step + n) cyc (t_marks tp') 0 b None)).
      { intros cyc b A. split; cbn; auto. split; auto. exists c'. split; auto.
        split; [eapply marks_represents; eauto|auto]. }
      destruct ((color =? 0) && t_blank tp') eqn:EB.
      - zb. assert (BA : blank_at M next (step + n)).
        { split; [lia|]. exists c'. repeat split; auto. eapply represents_blank; eauto. }
        assert (B2 : forall s j, In (s, j) ((next, step + n) :: blanks) -> blank_at M s j /\ j <= step + n).
        { intros s j [X|X]; [inversion X; subst; split; auto; lia|auto]. }
        destruct (blanks_has blanks next) eqn:EH.
        + inversion E; subst r. split; [|discriminate]. apply FIN2; auto.
        + destruct (next =? 0) eqn:EZ.
          * inversion E; subst r. split; [|discriminate]. apply FIN2; auto.
          * eapply IH with (c := c') in E; auto; [|constructor; auto|lia].
            destruct E as (A & B). split; auto. intros X. specialize (B X). lia.
      - eapply IH with (c := c') in E; eauto; [|lia].
        destruct E as (A & B). split; auto. intros X. specialize (B X). lia. }
    destruct (rs_try_rule M pv cycle state t) as [pv' tr] eqn:TR.
    destruct (rs_try_rule_small _ _ _ _ _ _ _ PS TR) as (PS' & RS).
    destruct tr as [ |rl| | | |a b| | ]; try discriminate;
      try (inversion E; subst r; split; [apply FIN; discriminate|discriminate]); [apply (G pv'); auto|].
    pose proof (rs_apply_rule_facts rl t W) as A. specialize (RS rl eq_refl).
    destruct (rs_apply_rule rl t) as [[times|] t'|]; [| |discriminate].
    + exfalso. destruct A as (A & W'). apply rs_mono in E; auto. lia.
    + destruct A as (W' & A).
      assert (ST : step <= mr_steps r).
      { clear - E W'. unfold rs_go in E. cbn zeta in E.
        destruct (M state (t_scan t')) as [[[color shift] next]|]; [|inversion E; subst; cbn; lia].
        destruct (_ && t_at_edge _ _); [inversion E; subst; cbn; lia|].
        destruct (rs_step _ _ _ _) as [t1 n] eqn:ST. destruct (step_total _ _ _ _ _ _ W' ST) as (N & W1 & _).
        destruct (_ && t_blank _).
        - destruct (blanks_has _ _); [inversion E; subst; cbn; lia|].
          destruct (next =? 0); [inversion E; subst; cbn; lia|]. apply rs_mono in E; auto. lia.
        - apply rs_mono in E; auto. lia. }
      rewrite A in E by (auto; lia). apply (G pv'); auto.
Qed.

Lemma rs_run_ok M lim r : rs_run_prover M lim = Some r -> mr_rulapp r = 0 -> mr_steps r < 2 ^ 33 ->
  rs_ok M r /\ (mr_result r = xlimit -> Z.of_nat lim <= mr_steps r).
Proof.
  unfold rs_run_prover. intros E R L. destruct (rs_prover_loop M lim 0 pv_new (Tape [] 0 []) 0 0 [] 0) as [[r' pvx]|] eqn:E'; [|discriminate].
  cbn in E. inversion E; subst r'. clear E. destruct (rs_loop_ok M lim 0 pv_new init_tape 0 0 [] init r pvx) as (A & B); auto.
  - constructor; cbn; auto using canon_init, represents_init; try lia; intros ? ? [].
  - intros ? ? ? ? [].
  - vm_compute. discriminate.
Qed.

(** ** What the properties say *)
Lemma machine_undfnd M lim n s :
  m_rulapp (py_machine_run (plain M) lim) = 0 ->
  m_undfnd (py_machine_run (plain M) lim) = Some (n, s) ->
  0 <= n /\ halts_at M (Z.to_nat n) s
  /\ exists c, steps M (Z.to_nat n) init = Some c
     /\ marks_are (c_tape c) (t_marks (m_tape (py_machine_run (plain M) lim))).
Proof.
  intros R. destruct (py_run_plain M lim R) as ((A & _ & c & E & RP & CN & B) & _).
  unfold m_undfnd. destruct (m_end (py_machine_run (plain M) lim)) eqn:ME; try discriminate.
  destruct B as (-> & B2). intros X. inversion X; subst.
  assert (MK := marks_represents _ _ (canon_wf _ CN) RP).
  split; auto. split; [|eauto]. exists c. cbn. auto.
Qed.

Lemma machine_spnout M lim :
  m_rulapp (py_machine_run (plain M) lim) = 0 ->
  m_end (py_machine_run (plain M) lim) = MSpnout ->
  never_halts M
  /\ exists c, steps M (Z.to_nat (m_steps (py_machine_run (plain M) lim))) init = Some c
     /\ spins_out_from M c
     /\ marks_are (c_tape c) (t_marks (m_tape (py_machine_run (plain M) lim))).
Proof.
  intros R ME. destruct (py_run_plain M lim R) as ((A & _ & c & E & RP & CN & B) & _). rewrite ME in B.
  assert (MK := marks_represents _ _ (canon_wf _ CN) RP).
  split; [eapply spins_out_never_halts; eauto|eauto].
Qed.

Lemma machine_steps M lim :
  let m := py_machine_run (plain M) lim in
  m_rulapp m = 0 ->
  0 <= m_steps m
  /\ (exists c, steps M (Z.to_nat (m_steps m)) init = Some c /\ marks_are (c_tape c) (t_marks (m_tape m)))
  /\ (forall s j, In (s, j) (m_blanks m) -> 0 <= j <= m_steps m
        /\ exists c, steps M (Z.to_nat j) init = Some c /\ c_state c = s /\ is_blank c)
  /\ (m_end m = MXlimit -> Z.of_nat lim <= m_steps m).
Proof.
  cbn zeta. intros R. destruct (py_run_plain M lim R) as ((A & BL & c & E & RP & CN & _) & X).
  assert (MK := marks_represents _ _ (canon_wf _ CN) RP).
  split; auto. split; [eauto|]. split; auto.
  intros s j I. destruct (BL s j I) as ((P & Q) & L). split; auto.
Qed.

Lemma run_prover_undfnd M lim r n s :
  rs_run_prover M lim = Some r -> mr_rulapp r = 0 -> mr_steps r < 2 ^ 33 ->
  mr_undfnd r = Some (n, s) ->
  0 <= n /\ halts_at M (Z.to_nat n) s
  /\ exists c, steps M (Z.to_nat n) init = Some c /\ marks_are (c_tape c) (mr_marks r).
Proof.
  intros E R L. destruct (rs_run_ok M lim r E R L) as ((A & _ & c & F & MK & B) & _).
  unfold mr_undfnd. destruct (mr_result r) eqn:RR; try discriminate.
  destruct B as (B1 & B2). rewrite B1. intros X. inversion X; subst.
  split; auto. split; [|eauto]. exists c. cbn. auto.
Qed.

Lemma run_prover_spnout M lim r :
  rs_run_prover M lim = Some r -> mr_rulapp r = 0 -> mr_steps r < 2 ^ 33 ->
  mr_result r = spnout ->
  never_halts M
  /\ exists c, steps M (Z.to_nat (mr_steps r)) init = Some c /\ spins_out_from M c /\ marks_are (c_tape c) (mr_marks r).
Proof.
  intros E R L RR. destruct (rs_run_ok M lim r E R L) as ((A & _ & c & F & MK & B) & _). rewrite RR in B.
  split; [eapply spins_out_never_halts; eauto|eauto].
Qed.

Lemma run_prover_steps M lim r :
  rs_run_prover M lim = Some r -> mr_rulapp r = 0 -> mr_steps r < 2 ^ 33 ->
  0 <= mr_steps r
  /\ (exists c, steps M (Z.to_nat (mr_steps r)) init = Some c /\ marks_are (c_tape c) (mr_marks r))
  /\ (forall s j, In (s, j) (mr_blanks r) -> 0 <= j <= mr_steps r
        /\ exists c, steps M (Z.to_nat j) init = Some c /\ c_state c = s /\ is_blank c)
  /\ (mr_result r = xlimit -> Z.of_nat lim <= mr_steps r).
Proof.
  intros E R L. destruct (rs_run_ok M lim r E R L) as ((A & BL & c & F & MK & _) & X).
  split; auto. split; [eauto|]. split; auto.
  intros s j I. destruct (BL s j I) as ((P & Q) & LL). split; auto.
Qed.

Lemma blank_start M lim j :
  m_rulapp (py_machine_run (plain M) lim) = 0 ->
  In (0, j) (m_blanks (py_machine_run (plain M) lim)) -> 0 < j -> never_halts M.
Proof.
  intros R I L. destruct (py_run_plain M lim R) as ((_ & BL & _) & _). destruct (BL 0 j I) as (B & _).
  apply (two_blanks_loop M 0 0 j); auto. split; [lia|]. exists init. repeat split.
Qed.

Lemma marks_unique f k k' : marks_are f k -> marks_are f k' -> k = k'.
Proof.
  intros (l & N & H & L) (l' & N' & H' & L'). subst. f_equal. apply Nat.le_antisymm; apply NoDup_incl_length; auto;
    intros x X; [apply H', H|apply H, H']; auto.
Qed.

Lemma agree_without_rules M lim r :
  rs_run_prover M lim = Some r -> mr_rulapp r = 0 -> mr_steps r < 2 ^ 33 ->
  m_rulapp (py_machine_run (plain M) lim) = 0 ->
  (forall n s n' s', m_undfnd (py_machine_run (plain M) lim) = Some (n, s) -> mr_undfnd r = Some (n', s') ->
     n = n' /\ s = s' /\ t_marks (m_tape (py_machine_run (plain M) lim)) = mr_marks r)
  /\ ~ (m_end (py_machine_run (plain M) lim) = MSpnout /\ mr_result r = undfnd)
  /\ ~ (mr_result r = spnout /\ exists s, m_end (py_machine_run (plain M) lim) = MUndfnd s).
Proof.
  intros E R L RP. split; [|split].
  - intros n s n' s' U V. destruct (machine_undfnd M lim n s RP U) as (A & H & c & C & MK).
    destruct (run_prover_undfnd M lim r n' s' E R L V) as (A' & H' & c' & C' & MK').
    destruct (halts_at_unique _ _ _ _ _ H H') as (X & ->).
    assert (n = n') by lia. subst n'. rewrite C in C'. inversion C'; subst c'. split; auto. split; auto.
    eapply marks_unique; eauto.
  - intros (U & V). destruct (machine_spnout M lim RP U) as (NH & _).
    destruct (rs_run_ok M lim r E R L) as ((_ & _ & c & _ & _ & B) & _). rewrite V in B. destruct B as (B & _).
    destruct (run_prover_undfnd M lim r (mr_steps r) (c_state c, c_tape c (c_pos c)) E R L) as (_ & H & _).
    { unfold mr_undfnd. rewrite V, B. auto. }
    apply (halts_not_never M); auto. exists (Z.to_nat (mr_steps r)). eexists; eauto.
  - intros (U & s & V). destruct (run_prover_spnout M lim r E R L U) as (NH & _).
    destruct (machine_undfnd M lim (m_steps (py_machine_run (plain M) lim)) s RP) as (_ & H & _).
    { unfold m_undfnd. rewrite V. auto. }
    apply (halts_not_never M); auto. eexists _, s; eauto.
Qed.

(** ** Wrong answers *)

(** Grows a block of 1s by one per turn, goes over it to the right counting modulo [m], and halts
    when the count is [m - 1]. *)
Definition sweep (m : nat) : comp_prog :=
  let z := Z.of_nat in
  flat_map (fun i => ((z i, 1), (1, true, z (Nat.modulo (S i) m))) ::
     (if Nat.eqb (S i) m then [] else [((z i, 0), (1, false, z m))])) (seq 0 m)
  ++ [((z m, 1), (1, false, z m)); ((z m, 0), (0, true, 0))].

(** Writes [n] 2s and consumes them one by one while a block of 1s grows by two per turn; goes over
    the block counting modulo [m] and halts when the count is [m - 1]. *)
Definition leap (n m : nat) : comp_prog :=
  let z := Z.of_nat in
  map (fun i => ((z i, 0), (2, true, z (S i)))) (seq 0 n)
  ++ [((z n, 0), (1, false, z (n + 1)%nat)); ((z (n + 1)%nat, 1), (1, false, z (n + 1)%nat));
      ((z (n + 1)%nat, 2), (1, true, z (n + 2)%nat))]
  ++ flat_map (fun i => ((z (n + 2 + i)%nat, 1), (1, true, z (n + 2 + Nat.modulo (S i) m)%nat)) ::
       (if Nat.eqb (S i) m then [] else [((z (n + 2 + i)%nat, 0), (1, false, z (n + 1)%nat))])) (seq 0 m).

(** Writes [a] 2s and [b] 3s and consumes one of each per turn. *)
Definition squeeze (a b : nat) : comp_prog :=
  let z := Z.of_nat in let l := z (a + b + 1)%nat in let r := z (a + b + 2)%nat in
  map (fun i => ((z i, 0), (2, true, z (S i)))) (seq 0 a)
  ++ [((z a, 0), (1, true, z (S a)))]
  ++ map (fun i => ((z (S a + i)%nat, 0), (3, negb (Nat.eqb (S i) b), z (S a + S i)%nat))) (seq 0 b)
  ++ [((l, 3), (3, false, l)); ((l, 1), (1, false, l)); ((l, 2), (1, true, r)); ((r, 1), (1, true, r)); ((r, 3), (1, false, l))].

Lemma quick_says p lim n s k : mr_undfnd (run_quick_machine p lim) = Some (n, s) -> mr_marks (run_quick_machine p lim) = k ->
  halts_at (machine_of p) (Z.to_nat n) s /\ exists c, steps (machine_of p) (Z.to_nat n) init = Some c /\ marks_are (c_tape c) k.
Proof. intros A B. destruct (quick_undfnd p lim n s A) as (_ & H & c & E & K). rewrite B in K. eauto. Qed.

Lemma infrul_wrong : exists M lim,
  m_end (py_machine_run (plain M) lim) = MInfrul /\ m_rulapp (py_machine_run (plain M) lim) = 0 /\ halts M.
Proof.
  exists (machine_of (sweep 10)), 100%nat. split; [vm_compute; reflexivity|]. split; [vm_compute; reflexivity|].
  destruct (quick_says (sweep 10) 1000 99 (9, 0) 9) as (H & _); [vm_compute; reflexivity..|]. eexists _, _; eauto.
Qed.

Lemma rs_infrul_wrong : exists M lim r,
  rs_run_prover M lim = Some r /\ mr_result r = infrul /\ rs_run_for_infrul M lim = Some true /\ halts M.
Proof.
  exists (machine_of (sweep 10)), 100%nat. eexists. split; [vm_compute; reflexivity|]. split; [reflexivity|].
  split; [vm_compute; reflexivity|].
  destruct (quick_says (sweep 10) 1000 99 (9, 0) 9) as (H & _); [vm_compute; reflexivity..|]. eexists _, _; eauto.
Qed.

Lemma undfnd_wrong : exists M lim n s s',
  0 < m_rulapp (py_machine_run (plain M) lim)
  /\ m_end (py_machine_run (plain M) lim) = MUndfnd s /\ halts_at M n s' /\ s <> s'
  /\ exists c, steps M n init = Some c /\ ~ marks_are (c_tape c) (t_marks (m_tape (py_machine_run (plain M) lim))).
Proof.
  destruct (quick_says (leap 13 9) 1000 184 (23, 0) 22) as (H & c & E & K); [vm_compute; reflexivity..|].
  exists (machine_of (leap 13 9)), 1000%nat, (Z.to_nat 184), (14, 0), (23, 0).
  split; [vm_compute; reflexivity|]. split; [vm_compute; reflexivity|]. split; auto. split; [congruence|].
  exists c. split; auto. intros K'. pose proof (marks_unique _ _ _ K K') as X. vm_compute in X. discriminate.
Qed.

Lemma rs_undfnd_wrong : exists M lim r n s s',
  rs_run_prover M lim = Some r /\ 0 < mr_rulapp r
  /\ mr_last_slot r = Some s /\ mr_result r = undfnd /\ halts_at M n s' /\ s <> s'
  /\ exists c, steps M n init = Some c /\ ~ marks_are (c_tape c) (mr_marks r).
Proof.
  destruct (quick_says (leap 13 9) 1000 184 (23, 0) 22) as (H & c & E & K); [vm_compute; reflexivity..|].
  exists (machine_of (leap 13 9)), 1000%nat. eexists. exists (Z.to_nat 184), (14, 0), (23, 0).
  split; [vm_compute; reflexivity|]. split; [reflexivity|]. split; [reflexivity|]. split; [reflexivity|].
  split; auto. split; [congruence|].
  exists c. split; auto. intros K'. pose proof (marks_unique _ _ _ K K') as X. cbn in X. discriminate.
Qed.

Lemma marks_differ : exists M lim n s r,
  rs_run_prover M lim = Some r /\ mr_result r = undfnd /\ mr_last_slot r = Some s
  /\ m_end (py_machine_run (plain M) lim) = MUndfnd s /\ halts_at M n s
  /\ exists c, steps M n init = Some c
     /\ marks_are (c_tape c) (t_marks (m_tape (py_machine_run (plain M) lim))) /\ ~ marks_are (c_tape c) (mr_marks r).
Proof.
  destruct (quick_says (squeeze 12 12) 1000 361 (25, 0) 25) as (H & c & E & K); [vm_compute; reflexivity..|].
  exists (machine_of (squeeze 12 12)), 1000%nat, (Z.to_nat 361), (25, 0). eexists.
  split; [vm_compute; reflexivity|]. split; [reflexivity|]. split; [reflexivity|].
  split; [vm_compute; reflexivity|]. split; auto. exists c. split; auto. split.
  - replace (t_marks _) with 25 by (vm_compute; reflexivity). auto.
  - intros K'. pose proof (marks_unique _ _ _ K K') as X. cbn in X. discriminate.
Qed.

Lemma steps_wrong : exists M lim r n s,
  rs_run_prover M lim = Some r /\ mr_undfnd r = Some (n, s)
  /\ exists n', halts_at M (Z.to_nat n') s /\ n < n'
     /\ exists c, steps M (Z.to_nat n') init = Some c /\ marks_are (c_tape c) (mr_marks r).
Proof.
  destruct (quick_says (leap 12 13) 1000 337 (13, 0) 25) as (H & c & E & K); [vm_compute; reflexivity..|].
  exists (machine_of (leap 12 13)), 1000%nat. do 3 eexists.
  split; [vm_compute; reflexivity|]. split; [vm_compute; reflexivity|].
  exists 337. split; [exact H|]. split; [reflexivity|]. exists c. split; [exact E|]. exact K.
Qed.
