(** * Runs whose rules are laws *)
From Verif Require Import Base TM TMFacts ProgModel TapeModel TapeSpec TapeProofs RulesModel RulesSpec RulesProofs
  DiffProofs PastModel EnumModel QuickModel QuickProofs ProverModel MachineProofs EdgeProofs LawSpec.

(** ** Tapes of one shape *)
Lemma counts_span f : forall s, (forall i, f i = None <-> nth_error s i = None) ->
  exists s', map b_color s' = map b_color s /\ forall i, option_map b_count (nth_error s' i) = f i.
Proof.
  intros s. revert f. induction s as [|b s IH]; intros f H.
  - exists []. split; auto. intros i. rewrite (proj2 (H i)); destruct i; reflexivity.
  - destruct (IH (fun i => f (S i))) as (s' & A & B). { intros i. apply (H (S i)). }
    destruct (f 0%nat) as [c|] eqn:F; [|exfalso; pose proof (proj1 (H 0%nat) F); discriminate].
    exists (Blk (b_color b) c :: s'). split; [cbn; f_equal; auto|]. intros [|i]; cbn; auto.
Qed.

Lemma counts_tape t f : (forall i, f i = None <-> get_count t i = None) ->
  exists t', same_shape t t' /\ forall i, get_count t' i = f i.
Proof.
  intros H.
  assert (E : forall d i, f (d, i) = None <-> nth_error (if d : bool then t_rspan t else t_lspan t) i = None).
  { intros d i. rewrite H. unfold get_count, t_get_count. cbn. destruct (nth_error _ _); cbn; split; congruence. }
  destruct (counts_span (fun i => f (false, i)) (t_lspan t)) as (l & L1 & L2); [intros i; apply (E false)|].
  destruct (counts_span (fun i => f (true, i)) (t_rspan t)) as (r & R1 & R2); [intros i; apply (E true)|].
  exists (Tape l (t_scan t) r). split; [repeat split; auto|]. intros [[|] i]; unfold get_count, t_get_count; cbn; auto.
Qed.

Lemma bump_n_S r k f i : bump_n r (S k) f i = bump r (bump_n r k f) i.
Proof. reflexivity. Qed.

Lemma bump_none r f i : bump r f i = None <-> f i = None.
Proof. unfold bump. destruct (rule_at r i); [|tauto]. destruct (f i); cbn; split; congruence. Qed.

Lemma bump_n_none r k f i : bump_n r k f i = None <-> f i = None.
Proof. induction k; [tauto|]. rewrite bump_n_S, bump_none. auto. Qed.

Lemma after_exists r k t : exists t', after r k t t'.
Proof. destruct (counts_tape t (bump_n r k (get_count t))) as (t' & A & B); [intros; apply bump_n_none|]. exists t'. split; auto. Qed.

Lemma after_0 r t : after r 0 t t.
Proof. split; [apply same_shape_refl|auto]. Qed.

Lemma span_eq s : forall s', map b_color s = map b_color s' ->
  (forall i, option_map b_count (nth_error s i) = option_map b_count (nth_error s' i)) -> s = s'.
Proof.
  induction s as [|[c n] s IH]; intros [|[c' n'] s'] E H; cbn in E; try discriminate; auto. inv E.
  pose proof (H 0%nat) as X. cbn in X. inv X. f_equal. apply IH; auto. intros i. apply (H (S i)).
Qed.

Lemma tape_eq t t' : same_shape t t' -> (forall i, get_count t i = get_count t' i) -> t = t'.
Proof.
  intros (A & B & C) H. destruct t as [l s r], t' as [l' s' r']. cbn in *. subst.
  rewrite (span_eq l l'), (span_eq r r'); auto; intros i; [apply (H (true, i))|apply (H (false, i))].
Qed.

Lemma after_unique r k t t1 t2 : after r k t t1 -> after r k t t2 -> t1 = t2.
Proof.
  intros ((A & B & C) & E) ((A' & B' & C') & E'). apply tape_eq; [repeat split; congruence|]. intros i. rewrite E, E'. auto.
Qed.

Lemma canon_shape_span s : forall s', map b_color s = map b_color s' -> canon_span s -> wf_span s' -> canon_span s'.
Proof.
  induction s as [|b s IH]; intros [|b' s'] E C W; cbn in E; try discriminate; auto. inversion E as [[E1 E2]].
  destruct C as (C1 & C2 & C3). inv W. split; auto. split; [|apply IH; auto].
  rewrite <- E1. destruct s as [|x s], s' as [|x' s']; cbn in E2; try discriminate; auto. inversion E2; congruence.
Qed.

Lemma canon_shape t t' : same_shape t t' -> canon t -> wf_tape t' -> canon t'.
Proof.
  intros (_ & A & B) (C & D) (E & F). split; eapply canon_shape_span; eauto.
Qed.

Lemma wf_count t i n : wf_tape t -> get_count t i = Some n -> 1 <= n.
Proof.
  intros (A & B) E. unfold get_count, t_get_count in E.
  destruct (nth_error _ _) as [b|] eqn:X; [|discriminate]. inv E.
  apply nth_error_In in X. unfold wf_span in *. rewrite Forall_forall in A, B. destruct (fst i); auto.
Qed.

(** ** A rule that applies has its positions on the tape *)
Lemma apply_loop_defined r : forall t times p res times' t', py_apply_loop r t times p res = EvApplied times' t' ->
  forall i o, In (i, o) r -> get_count t i <> None.
Proof.
  induction r as [|[j o'] r IH]; intros t times p res times' t' E i o I; [destruct I|]. cbn in E.
  destruct (get_count t j) as [c|] eqn:G; [|discriminate].
  destruct I as [X|X]; [inv X; congruence|].
  assert (ST : forall v t1, set_count t j v = Some t1 -> get_count t1 i <> None -> get_count t i <> None).
  { intros v t1 S N. destruct (set_count_spec t j v c G) as (t1' & S' & _ & GG). rewrite S in S'. inv S'.
    rewrite GG in N. destruct (index_eqb_spec i j) as [->|]; congruence. }
  destruct o'.
  - destruct (set_count _ _ _) as [t1|] eqn:S; [|discriminate]. eapply ST; eauto.
  - destruct (mult_int _ _ _); [|discriminate]. destruct (set_count _ _ _) as [t1|] eqn:S; [|discriminate]. eapply ST; eauto.
Qed.

Lemma applied_addressed r t times t' : wf_tape t -> py_apply_rule r t = EvApplied times t' -> addressed r t.
Proof.
  intros W E i o I. unfold py_apply_rule in E. destruct (py_count_apps r t ANone) as [| |tm p rs]; try discriminate.
  pose proof (apply_loop_defined _ _ _ _ _ _ _ E i o I) as D. destruct (get_count t i) as [n|] eqn:G; [|congruence].
  exists n. split; auto. eapply wf_count; eauto.
Qed.

(** ** Following a law *)
Lemma leads_go M least state t t' c n : leads least M state t t' -> steps M n init = Some c -> represents t c -> c_state c = state ->
  exists n' c', (n + least <= n')%nat /\ steps M n' init = Some c' /\ c_state c' = state /\ represents t' c'.
Proof.
  intros L E R S. destruct (L c R S) as (m & c' & A & B & C & D). exists (n + m)%nat, c'. split; [lia|].
  split; [rewrite (steps_add_some _ _ _ _ _ E); auto|]. auto.
Qed.

Lemma leads_trans M a b state t t' t'' : leads a M state t t' -> leads b M state t' t'' -> leads (a + b) M state t t''.
Proof.
  intros L L' c R S. destruct (L c R S) as (m & c' & A & B & C & D). destruct (L' c' D C) as (m' & c'' & A' & B' & C' & D').
  exists (m + m')%nat, c''. split; [lia|]. split; [rewrite (steps_add_some _ _ _ _ _ B); auto|]. auto.
Qed.

Lemma law_iterates M state r t n : wf_tape t -> law M state r t ->
  (forall k tk, (k < n)%nat -> after r k t tk -> ~ blocked r tk) ->
  forall tn, after r n t tn -> wf_tape tn /\ leads n M state t tn.
Proof.
  intros W L. induction n as [|n IH]; intros NB tn A.
  - rewrite <- (after_unique r 0 t t tn (after_0 r t) A). split; auto.
    intros c R S. exists 0%nat, c. auto.
  - destruct (after_exists r n t) as (tm & B).
    destruct (IH ltac:(intros k tk X; apply NB; lia) tm B) as (W' & L').
    destruct (L n tm tn B W' (NB n tm ltac:(lia) B) A) as (W'' & L''). split; auto.
    replace (S n) with (n + 1)%nat by lia. eapply leads_trans; eauto.
Qed.

(** One application of apply_rule, the rule being a law. *)
Lemma law_applied_times M state r t times t' : canon t -> distinct r -> law M state r t ->
  py_apply_rule r t = EvApplied times t' ->
  canon t' /\ 1 <= times /\ leads (Z.to_nat times) M state t t'.
Proof.
  intros C D L E. pose proof (canon_wf _ C) as W. pose proof (applied_addressed _ _ _ _ W E) as AD.
  pose proof (py_apply_rule_spec r t D AD) as SP. rewrite E in SP.
  destruct SP as (n & -> & N & SH & CT & POS & _).
  destruct (law_iterates M state r t n W L) with (tn := t') as (W' & L').
  - intros k tk K (SK & CK) (i & d & c & I & Neg & G & B). destruct (POS i d (S k) ltac:(lia) I) as (c' & G' & P).
    rewrite bump_n_S in G'. unfold bump in G'. rewrite (rule_at_In _ _ _ D I), <- CK, G in G'. cbn in G'. inv G'. lia.
  - split; auto.
  - split; [eapply canon_shape; eauto|]. split; [lia|]. rewrite Nat2Z.id. auto.
Qed.

Lemma law_applied M state r t times t' : canon t -> distinct r -> law M state r t ->
  py_apply_rule r t = EvApplied times t' ->
  canon t' /\ leads 1 M state t t'.
Proof.
  intros C D L E. destruct (law_applied_times M state r t times t' C D L E) as (A & B & X). split; auto.
  intros c R S. destruct (X c R S) as (m & c' & M1 & Y). exists m, c'. split; [lia|auto].
Qed.

(** A law in which nothing decreases goes on for ever. *)
Lemma law_forever M state r t c n : wf_tape t -> law M state r t -> nothing_decreases r ->
  steps M n init = Some c -> represents t c -> c_state c = state -> never_halts M.
Proof.
  intros W L ND E R S. eapply never_halts_from; [exact E|]. intros m.
  destruct (after_exists r m t) as (tm & A).
  destruct (law_iterates M state r t m W L) with (tn := tm) as (_ & L'); auto.
  { intros k tk _ _ (i & d & x & I & Neg & _). specialize (ND i d I). lia. }
  destruct (L' c R S) as (k & c' & K & X & _). eapply steps_le; eauto.
Qed.

(** ** The rules held *)
Definition pv_distinct (pv : prover) : Prop := forall s ms r, holds_rule pv s ms r -> distinct r.

Lemma lawful_sub M pv pv' : (forall s ms r, holds_rule pv s ms r -> holds_rule pv' s ms r) -> lawful M pv' -> lawful M pv.
Proof. intros H L state scan ms r t X. apply (L state scan ms r t); auto. Qed.

Lemma cc_eqb_eq a b : cc_eqb a b = true -> a = b.
Proof. destruct a, b; cbn; intros; zb; try discriminate; congruence. Qed.
Lemma ccs_eqb_eq a : forall b, ccs_eqb a b = true -> a = b.
Proof. induction a as [|x a IH]; intros [|y b]; cbn; intros H; try discriminate; auto. zb. f_equal; auto. apply cc_eqb_eq; auto. Qed.

Lemma rules_at_slot rs s v : rules_at rs s = Some v -> In (s, v) rs.
Proof.
  induction rs as [|[k w] rs IH]; cbn; [discriminate|]. destruct (slot_eqb k s) eqn:E.
  - intros X. inv X. left. f_equal. unfold slot_eqb in E. destruct k, s. cbn in E. zb. congruence.
  - auto.
Qed.

Lemma match_rule_covers t temp r : match_rule (t_signature t) temp = Some r -> exists ms, In (ms, r) temp /\ covers ms t.
Proof.
  induction temp as [|[[[sc l rr] [lex rex]] r1] temp IH]; cbn -[t_signature]; [discriminate|].
  destruct (_ && _) eqn:E.
  - intros X. inv X. eexists. split; [left; reflexivity|]. zb. apply ccs_eqb_eq in H0, H1. cbn -[t_signature].
    split; [auto|]. split.
    + destruct lex; [exists []; rewrite app_nil_r; auto|].
      exists (skipn (length l) (sg_l (t_signature t))). split; [|discriminate]. rewrite H1 at 1. symmetry. apply firstn_skipn.
    + destruct rex; [exists []; rewrite app_nil_r; auto|].
      exists (skipn (length rr) (sg_r (t_signature t))). split; [|discriminate]. rewrite H0 at 1. symmetry. apply firstn_skipn.
  - intros X. destruct (IH X) as (ms & A & B). exists ms. auto.
Qed.

Lemma get_rule_covers pv state t r : get_rule pv state (t_scan t) (t_signature t) = Some r ->
  exists ms, holds_rule pv (state, t_scan t) ms r /\ covers ms t.
Proof.
  unfold get_rule. destruct (rules_at _ _) as [v|] eqn:A; [|discriminate]. intros E.
  destruct (match_rule_covers _ _ _ E) as (ms & B & C). exists ms. split; auto. exists v. split; auto. apply rules_at_slot; auto.
Qed.

Lemma rules_add_in rs s e : exists v, In (s, v) (rules_add rs s e) /\ In e v.
Proof.
  induction rs as [|[k w] rs IH]; cbn.
  - exists [e]. cbn. auto.
  - destruct (slot_eqb k s) eqn:E.
    + exists (w ++ [e]). split; [left; f_equal; unfold slot_eqb in E; destruct k, s; cbn in E; zb; congruence|].
      apply in_or_app. right. left. auto.
    + destruct IH as (v & A & B). exists v. split; [right|]; auto.
Qed.
Lemma rules_add_keeps rs s e k v x : In (k, v) rs -> In x v -> exists v', In (k, v') (rules_add rs s e) /\ In x v'.
Proof.
  induction rs as [|[k' w] rs IH]; intros A B; [destruct A|]. cbn. destruct A as [A|A].
  - inv A. destruct (slot_eqb k s).
    + exists (v ++ [e]). split; [left; auto|]. apply in_or_app; auto.
    + exists v. split; [left|]; auto.
  - destruct (slot_eqb k' s).
    + exists v. split; [right|]; auto.
    + destruct (IH A B) as (v' & C & D). exists v'. split; [right|]; auto.
Qed.
Lemma rules_add_only rs s e k v x : In (k, v) (rules_add rs s e) -> In x v -> x = e \/ exists v', In (k, v') rs /\ In x v'.
Proof.
  induction rs as [|[k' w] rs IH]; cbn; intros A B.
  - destruct A as [A|[]]. inv A. destruct B as [B|[]]; auto.
  - destruct (slot_eqb k' s).
    + destruct A as [A|A].
      * inv A. apply in_app_or in B as [B|[B|[]]]; auto. right. exists w. auto.
      * right. exists v. auto.
    + destruct A as [A|A].
      * inv A. right. exists v. auto.
      * destruct (IH A B) as [|(v' & C & D)]; auto. right. exists v'. auto.
Qed.

Lemma min_sig_covers comp pv n state t m :
  py_min_sig comp pv n state (to_enum t) (t_signature t) = MsGot m -> covers m t /\ sg_scan (fst m) = t_scan t.
Proof.
  intros E. destruct (min_sig_edges _ _ _ _ _ _ E) as (lo & ro & le & re & -> & A & B). split; [|reflexivity].
  cbn -[t_signature]. split; auto.
  split; [exists (skipn lo (sg_l (t_signature t)))|exists (skipn ro (sg_r (t_signature t)))]; rewrite firstn_skipn; split; auto; intros X.
  - rewrite (A X). apply skipn_all2. cbn. rewrite map_length. auto.
  - rewrite (B X). apply skipn_all2. cbn. rewrite map_length. auto.
Qed.

(** ** Simulations inside try_rule *)
Section sim.
Variables (M : program).

Lemma prog_step t c state color shift next t' n : canon t -> represents t c -> c_state c = state ->
  M state (t_scan t) = Some (color, shift, next) -> py_step t shift color (state =? next) = (t', n) ->
  1 <= n /\ canon t' /\ exists c', steps M (Z.to_nat n) c = Some c' /\ represents t' c' /\ c_state c' = next.
Proof.
  intros C R S EM ES. pose proof (canon_wf _ C) as W.
  pose proof (py_step_refines_lemma M t c shift color next (state =? next) W R) as X. rewrite S in X. specialize (X EM).
  rewrite ES in X. destruct X as (N & _ & _ & d & A & B & D & _). { intros Y. zb. auto. }
  split; auto. split; [|exists d; auto]. rewrite py_rs_step in ES by auto. eapply rs_step_canon; eauto.
Qed.

Lemma simulate_leads pv : lawful M pv -> pv_distinct pv -> forall n state t s t' c,
  canon t -> represents t c -> c_state c = state ->
  py_simulate (plain M) pv n state t = SimEnd s t' ->
  canon t' /\ exists m c', steps M m c = Some c' /\ c_state c' = s /\ represents t' c'.
Proof.
  intros L D. induction n as [|n IH]; intros state t s t' c C R S E; cbn [py_simulate] in E.
  - inv E. split; auto. exists 0%nat, c. auto.
  - assert (G : match plain M state (t_scan t) with
        | LGot (color, shift, next_state) => py_simulate (plain M) pv n next_state (fst (py_step t shift color (state =? next_state)))
        | LKey _ => SimKey t | LLoop => SimLoop end = SimEnd s t' ->
        canon t' /\ exists m c', steps M m c = Some c' /\ c_state c' = s /\ represents t' c').
    { clear E. unfold plain at 1. destruct (M state (t_scan t)) as [[[color shift] next]|] eqn:EM; [|discriminate]. intros E.
      destruct (py_step t shift color (state =? next)) as [t1 k] eqn:ES.
      destruct (prog_step _ _ _ _ _ _ _ _ C R S EM ES) as (_ & C1 & c1 & A1 & R1 & S1).
      destruct (IH next t1 s t' c1 C1 R1 S1 E) as (C' & m & c' & A' & X). split; auto.
      exists (Z.to_nat k + m)%nat, c'. rewrite (steps_add_some _ _ _ _ _ A1). auto. }
    destruct (get_rule pv state (t_scan t) (t_signature t)) as [r|] eqn:GR; [|auto].
    destruct (get_rule_covers _ _ _ _ GR) as (ms & H & CV).
    destruct (py_apply_rule r t) as [| | |times t1] eqn:AP; try discriminate; auto.
    destruct (law_applied M state r t times t1 C (D _ _ _ H) (L _ _ _ _ _ H CV C) AP) as (C1 & L1).
    destruct (L1 c R S) as (k & c1 & _ & A1 & S1 & R1).
    destruct (IH state t1 s t' c1 C1 R1 S1 E) as (C' & m & c' & A' & X). split; auto.
    exists (k + m)%nat, c'. rewrite (steps_add_some _ _ _ _ _ A1). auto.
Qed.

Lemma compatible_colors s : forall g, (length g <= length s)%nat -> span_compatible (firstn (length g) s) g = true ->
  exists rest, map b_color s = map cc_color g ++ rest.
Proof.
  induction s as [|b s IH]; intros [|c g] L E; cbn in *; try lia; eauto. zb.
  destruct (IH g ltac:(lia) H0) as (rest & X). exists rest. rewrite X. f_equal. auto.
Qed.
Lemma sig_colors s : map cc_color (map sig_of_block s) = map b_color s.
Proof. rewrite map_map. apply map_ext. intros b. unfold sig_of_block. destruct (_ =? _); auto. Qed.

Lemma compatible_shape t u : t_sig_compatible u (t_signature t) = true ->
  t_scan u = t_scan t
  /\ (exists rest, map b_color (t_lspan u) = map b_color (t_lspan t) ++ rest)
  /\ (exists rest, map b_color (t_rspan u) = map b_color (t_rspan t) ++ rest).
Proof.
  unfold t_sig_compatible. cbn [t_signature sg_scan sg_l sg_r]. rewrite !andb_true_iff, !Nat.leb_le, Z.eqb_eq.
  intros ((((A & B) & C) & D) & E). split; auto.
  split; [destruct (compatible_colors _ _ B D) as (rest & X)|destruct (compatible_colors _ _ C E) as (rest & X)];
    exists rest; rewrite X, sig_colors; auto.
Qed.

Lemma delta_counts_leads pv state t0 : lawful M pv -> pv_distinct pv -> forall ds t cs, canon t ->
  py_delta_counts (plain M) pv state (t_signature t0) ds t = inl cs ->
  exists ts, cs = map t_counts ts /\ length ts = length ds
    /\ Forall (fun u => canon u /\ t_sig_compatible u (t_signature t0) = true) ts
    /\ (forall u v a b, t :: ts = a ++ u :: v :: b -> leads 0 M state u v).
Proof.
  intros L D. induction ds as [|d ds IH]; intros t cs C E; cbn [py_delta_counts] in E.
  - inv E. exists []. repeat split; auto. intros u v a b X. destruct a as [|? [|? ?]]; discriminate.
  - destruct (py_simulate (plain M) pv (Z.to_nat d) state t) as [s t1| | |] eqn:SM; try discriminate.
    destruct (negb (s =? state) || negb (t_sig_compatible t1 (t_signature t0))) eqn:Q; [discriminate|].
    apply orb_false_iff in Q as (Q1 & Q2). apply negb_false_iff in Q1, Q2. zb. subst s.
    assert (LD : leads 0 M state t t1).
    { intros c R S. destruct (simulate_leads pv L D _ _ _ _ _ c C R S SM) as (_ & m & c' & A & B & X).
      exists m, c'. split; [lia|auto]. }
    assert (C1 : canon t1).
    { apply (simulate_leads pv L D _ _ _ _ _ (Cfg state 0 (tape_cell t)) C (fun i => eq_refl) eq_refl SM). }
    destruct (py_delta_counts (plain M) pv state (t_signature t0) ds t1) as [cs'|] eqn:DC; [|discriminate]. inv E.
    destruct (IH t1 cs' C1 DC) as (ts & -> & LN & F & P). exists (t1 :: ts). split; auto. split; [cbn; lia|]. split; auto.
    intros u v a b X. destruct a as [|x a]; cbn in X.
    + inv X. auto.
    + inv X. eapply P; eauto.
Qed.

Lemma counts_at_get t i : counts_at (t_counts t) i = get_count t i.
Proof.
  unfold counts_at, get_count, t_get_count, t_counts. cbn. destruct (fst i); rewrite nth_error_map; auto.
Qed.

(** ** try_rule *)
Definition try_good (pv : prover) (state : Z) (t : tape) (r : try_res) : Prop :=
  match r with
  | TRule r => exists ms, holds_rule pv (state, t_scan t) ms r /\ covers ms t
  | TInfinite => lawful M pv -> exists r, grows M state t r
  | _ => True
  end.

Lemma delta_counts_err pv state sig : forall ds t r, py_delta_counts (plain M) pv state sig ds t = inr r ->
  r = TNone \/ r = TLoop \/ r = TErr.
Proof.
  induction ds as [|d ds IH]; intros t r E; cbn [py_delta_counts] in E; [discriminate|].
  destruct (py_simulate _ _ _ _ _) as [s t1| | |]; try (inv E; auto; fail).
  destruct (_ || _); [inv E; auto|]. destruct (py_delta_counts _ _ _ _ _ _) eqn:X; inv E. eauto.
Qed.

Lemma get_prefix u t i a : (exists rest, map b_color (t_lspan u) = map b_color (t_lspan t) ++ rest) ->
  (exists rest, map b_color (t_rspan u) = map b_color (t_rspan t) ++ rest) ->
  get_count t i = Some a -> exists b, get_count u i = Some b.
Proof.
  intros (l & L) (r & R) E. unfold get_count, t_get_count in *.
  destruct (nth_error (if fst i then t_rspan t else t_lspan t) (snd i)) as [x|] eqn:X; [|discriminate].
  destruct (nth_error (if fst i then t_rspan u else t_lspan u) (snd i)) as [y|] eqn:Y; [cbn; eauto|]. exfalso.
  apply nth_error_None in Y. assert (N : (snd i < length (if fst i then t_rspan t else t_lspan t))%nat) by (apply nth_error_Some; congruence).
  apply (f_equal (@length Z)) in L, R. rewrite app_length, !map_length in L, R. destruct (fst i); lia.
Qed.

Lemma grown t t1 t2 t3 pv state : lawful M pv -> pv_distinct pv -> canon t ->
  canon t1 -> canon t2 -> canon t3 ->
  leads 0 M state t t1 -> leads 0 M state t1 t2 -> leads 0 M state t2 t3 ->
  (forall u, u = t1 \/ u = t2 \/ u = t3 -> t_sig_compatible u (t_signature t) = true) ->
  py_make_rule (t_counts t) (t_counts t1) (t_counts t2) (t_counts t3) = RInfinite ->
  exists r, grows M state t r.
Proof.
  intros L D C C1 C2 C3 L1 L2 L3 SC E. pose proof (make_rule_spec (t_counts t) (t_counts t1) (t_counts t2) (t_counts t3)) as MS.
  rewrite E in MS. destruct MS as (r & (A & B & DS) & F). exists r.
  rewrite forallb_forall in F. split.
  { intros i d I. specialize (F _ I). unfold nonneg_plus in F. cbn in F. zb. auto. }
  exists t1, t2, t3. split; auto. split; auto. split; auto. split; [intros u U; apply compatible_shape; auto|].
  intros i a G.
  assert (U : forall u, u = t1 \/ u = t2 \/ u = t3 -> exists b, get_count u i = Some b).
  { intros u U. destruct (compatible_shape t u (SC u U)) as (_ & X & Y). eapply get_prefix; eauto. }
  destruct (U t1) as (b & Gb); auto. destruct (U t2) as (c & Gc); auto. destruct (U t3) as (d & Gd); auto.
  exists b, c, d. split; auto. split; auto. split; auto.
  assert (RC : recorded (t_counts t) (t_counts t1) (t_counts t2) (t_counts t3) i a b c d).
  { repeat split; rewrite counts_at_get; auto. }
  assert (Pa : 0 < a) by (pose proof (wf_count _ _ _ (canon_wf _ C) G); lia).
  unfold bump. rewrite G, Gb.
  destruct (B i a b c d RC) as [X|(o & X & Y)].
  - pose proof X as X0. apply py_diff_none in X. rewrite rule_at_None.
    + split; [f_equal; lia|]. split; [f_equal; lia|lia].
    + intros o I. destruct (A i o I) as (a' & b' & c' & d' & (R1 & R2 & R3 & R4) & Y).
      destruct RC as (R1' & R2' & R3' & R4'). assert (a' = a) by congruence. assert (b' = b) by congruence.
      assert (c' = c) by congruence. assert (d' = d) by congruence. congruence.
  - rewrite (rule_at_In _ _ _ DS Y). cbn [option_map].
    destruct (got_sign a b c d o Pa X) as (S1 & _ & S3). specialize (F _ Y).
    assert (N : nonneg_plus (false, 0%nat, o) = true) by exact F.
    destruct o as [p|m k]; cbn [bump_op].
    + apply py_diff_plus in X. split; [f_equal; lia|]. split; [f_equal; lia|]. apply S1 in N as N'. apply S3 in N. lia.
    + apply py_diff_mult in X; auto. split; [f_equal; lia|]. split; [f_equal; lia|lia].
Qed.

Definition same_or_more (pv pv' : prover) : Prop := forall s ms r, holds_rule pv s ms r -> holds_rule pv' s ms r.

Lemma positive_counts_canon t : canon t -> positive_counts (t_counts t).
Proof. intros C i n E. rewrite counts_at_get in E. eapply wf_count; [apply canon_wf; eauto|eauto]. Qed.

Lemma holds_configs pv cf s ms r : holds_rule (PV (pv_rules pv) cf) s ms r <-> holds_rule pv s ms r.
Proof. split; auto. Qed.

Lemma try_rule_good pv cycle state t pv' res : canon t -> pv_distinct pv ->
  py_try_rule (plain M) pv cycle state t = (pv', res) ->
  same_or_more pv pv' /\ pv_distinct pv' /\ try_good pv' state t res.
Proof.
  intros C D E. unfold py_try_rule in E.
  assert (SM : forall cf, same_or_more pv (PV (pv_rules pv) cf) /\ pv_distinct (PV (pv_rules pv) cf)) by (split; [intros ? ? ? X; exact X|exact D]).
  assert (S0 : same_or_more pv pv) by (intros ? ? ? X; exact X).
  destruct (get_rule pv state (t_scan t) (t_signature t)) as [r|] eqn:GR.
  { inv E. split; auto. split; auto. apply get_rule_covers; auto. }
  destruct (cfg_get (pv_configs pv) (t_signature t)) as [past|].
  2:{ destruct (_ <? _); inv E; [split; [|split]; cbn; auto|]. destruct (SM (cfg_set (pv_configs pv) (t_signature t) (pcs_new state cycle))).
      split; [|split]; cbn; auto. }
  destruct (pcs_next_deltas past state cycle) as [past' d].
  set (pv1 := PV (pv_rules pv) (cfg_set (pv_configs pv) (t_signature t) past')) in *.
  assert (S1 : same_or_more pv pv1 /\ pv_distinct pv1) by apply SM. destruct S1 as (S1 & D1).
  destruct d as [| |d1 d2 d3]; try (inv E; split; [|split]; cbn; auto; fail).
  destruct (py_delta_counts (plain M) pv1 state (t_signature t) [d1; d2; d3] t) as [cs|r] eqn:DC.
  2:{ inv E. split; auto. split; auto. destruct (delta_counts_err _ _ _ _ _ _ DC) as [->|[->| ->]]; cbn; auto. }
  destruct cs as [|c1 [|c2 [|c3 [|? ?]]]]; try (inv E; split; [|split]; cbn; auto; fail).
  destruct (py_make_rule (t_counts t) c1 c2 c3) as [r| | |a b|] eqn:MR; try (inv E; split; [|split]; cbn; auto; fail).
  - destruct (swap_rule r t). { inv E; split; [|split]; cbn; auto. }
    set (pv2 := PV (pv_rules pv1) (cfg_set (pv_configs pv1) (t_signature t) (pcs_delete past' state))) in *.
    assert (S2 : same_or_more pv pv2 /\ pv_distinct pv2) by apply SM. destruct S2 as (S2 & D2).
    destruct (py_min_sig (plain M) pv2 (Z.to_nat d1) state (to_enum t) (t_signature t)) as [m| |] eqn:MS;
      try (inv E; split; [|split]; cbn; auto; fail).
    inv E. destruct (min_sig_covers _ _ _ _ _ _ MS) as (CV & SC).
    split.
    { intros s ms r' H. apply S2 in H. destruct H as (v & A & B). destruct (rules_add_keeps _ (state, sg_scan (fst m)) (m, r) _ _ _ A B) as (v' & A' & B').
      exists v'. auto. }
    split.
    { intros s ms r' (v & A & B). cbn [set_rule pv_rules] in A. destruct (rules_add_only _ _ _ _ _ _ A B) as [X|(v' & A' & B')].
      - inv X. eapply make_rule_rule; [apply positive_counts_canon; eauto|eauto].
      - apply (D2 s ms r'). exists v'. auto. }
    cbn [try_good]. exists m. split; auto. rewrite <- SC. apply rules_add_in.
  - inv E. split; auto. split; auto. cbn [try_good]. intros L.
    destruct (delta_counts_leads pv1 state t L D1 _ _ _ C DC) as (ts & ET & LN & F & P).
    destruct ts as [|t1 [|t2 [|t3 [|? ?]]]]; cbn in LN; try discriminate. cbn in ET. inv ET.
    inv F. inv H2. inv H4. destruct H1, H3, H2.
    apply (grown t t1 t2 t3 pv1 state); auto.
    + apply (P t t1 [] [t2; t3]); auto.
    + apply (P t1 t2 [t] [t3]); auto.
    + apply (P t2 t3 [t; t1] []); auto.
    + intros u [->|[->| ->]]; auto.
Qed.

(** ** The loop *)
Lemma loop_keeps fuel : forall cycle pv t state step blanks rulapp sus,
  (forall pv t cycle state pv' res, py_try_rule (plain M) pv cycle state t = (pv', res) -> same_or_more pv pv') ->
  same_or_more pv (m_prover (py_machine_loop (plain M) fuel cycle pv t state step blanks rulapp sus)).
Proof.
  induction fuel as [|fuel IH]; intros cycle pv t state step blanks rulapp sus K; [intros ? ? ? X; exact X|].
  rewrite py_machine_loop_S. destruct (py_try_rule (plain M) pv cycle state t) as [pv' tr] eqn:TR.
  assert (S1 : same_or_more pv pv') by eauto.
  assert (G : forall t step cyc state b ra su, same_or_more pv (m_prover (py_machine_loop (plain M) fuel cyc pv' t state step b ra su))).
  { intros. intros s ms r X. apply IH; auto. }
  assert (G' : forall su, same_or_more pv (m_prover (py_go (plain M) fuel cycle pv' t state step blanks rulapp su))).
  { intros su. unfold py_go. destruct (plain M state (t_scan t)) as [[[color shift] next]|s|]; auto. cbn zeta.
    destruct (_ && t_at_edge _ _); auto. destruct (py_step _ _ _ _) as [t' n].
    destruct (_ && t_blank _); auto. destruct (blanks_has _ _); auto. destruct (next =? 0); auto. }
  destruct tr as [ |r| | | |a b| | ]; auto.
  destruct (py_apply_rule r t); auto.
Qed.

Lemma try_keeps pv t cycle state pv' res : py_try_rule (plain M) pv cycle state t = (pv', res) -> same_or_more pv pv'.
Proof.
  unfold py_try_rule. intros E.
  assert (SM : forall cf, same_or_more pv (PV (pv_rules pv) cf)) by (intros cf ? ? ? X; exact X).
  assert (S0 : same_or_more pv pv) by (intros ? ? ? X; exact X).
  destruct (get_rule _ _ _ _); [inv E; auto|]. destruct (cfg_get _ _); [|destruct (_ <? _); inv E; auto].
  destruct (pcs_next_deltas _ _ _) as [past' [| |d1 d2 d3]]; [inv E; auto..|].
  destruct (py_delta_counts _ _ _ _ _ _) as [cs|]; [|inv E; auto].
  destruct cs as [|c1 [|c2 [|c3 [|? ?]]]]; try (inv E; auto; fail).
  destruct (py_make_rule _ _ _ _); try (inv E; auto; fail).
  destruct (swap_rule _ _); [inv E; auto|].
  destruct (py_min_sig _ _ _ _ _ _) as [m| |]; inv E; auto.
  intros s ms r' (v & A & B). destruct (rules_add_keeps _ (state, sg_scan (fst m)) (m, r) _ _ _ A B) as (v' & A' & B').
  exists v'. auto.
Qed.

Record linv (t : tape) (blanks : blanks_t) (state step : Z) (c : config) (n : nat) : Prop := {
  l_run : steps M n init = Some c;
  l_rep : represents t c;
  l_can : canon t;
  l_st : c_state c = state;
  l_step : step = -1 \/ step = Z.of_nat n;
  l_bl : forall s j, In (s, j) blanks -> exists k, (1 <= k <= n)%nat /\ (j = -1 \/ j = Z.of_nat k) /\ blank_at M s (Z.of_nat k)
}.

Definition law_ok (m : mach) (least : nat) : Prop :=
  exists n c, linv (m_tape m) (m_blanks m) (c_state c) (m_steps m) c n
  /\ match m_end m with
     | MUndfnd s => s = (c_state c, c_tape c (c_pos c)) /\ M (c_state c) (c_tape c (c_pos c)) = None
     | MSpnout => spins_out_from M c
     | MInfrul => never_halts M \/ exists r, grows M (c_state c) (m_tape m) r /\ (law M (c_state c) r (m_tape m) -> never_halts M)
     | MXlimit => (least <= n)%nat
     | _ => True
     end.

Lemma loop_law fuel : forall cycle pv t state step blanks rulapp sus c n,
  linv t blanks state step c n -> pv_distinct pv ->
  lawful M (m_prover (py_machine_loop (plain M) fuel cycle pv t state step blanks rulapp sus)) ->
  law_ok (py_machine_loop (plain M) fuel cycle pv t state step blanks rulapp sus) (n + fuel).
Proof.
  induction fuel as [|fuel IH]; intros cycle pv t state step blanks rulapp sus c n I D L.
  - exists n, c. cbn. rewrite (l_st _ _ _ _ _ _ I). split; auto. lia.
  - rewrite py_machine_loop_S in *. pose proof I as [Hr Hrep Hc Hst Hs Hb].
    assert (HS : c_tape c (c_pos c) = t_scan t) by (apply represents_iff; auto).
    destruct (py_try_rule (plain M) pv cycle state t) as [pv' tr] eqn:TR.
    destruct (try_rule_good _ _ _ _ _ _ Hc D TR) as (SM & D' & TG).
    assert (FIN : forall e cyc su pvx, match e with
       | MUndfnd s => s = (state, t_scan t) /\ M state (t_scan t) = None
       | MSpnout => spins_out_from M c
       | MInfrul => exists r, grows M state t r
       | MXlimit => False
       | _ => True
       end -> law_ok (MachR e step cyc rulapp t blanks su pvx) (n + S fuel)).
    { intros e cyc su pvx A. exists n, c. cbn. rewrite Hst, HS. split; [rewrite <- Hst in I |- *; auto|].
      destruct e; auto; [tauto|]. right. destruct A as (r & A). exists r. split; auto. intros LW.
      eapply (law_forever M state r t c n); eauto; [apply canon_wf; auto|apply A]. }
    assert (G : forall su, lawful M (m_prover (py_go (plain M) fuel cycle pv' t state step blanks rulapp su)) ->
       law_ok (py_go (plain M) fuel cycle pv' t state step blanks rulapp su) (n + S fuel)).
    { clear L. intros su L. unfold py_go in *. cbn zeta in *. unfold plain at 1. unfold plain at 1 in L.
      destruct (M state (t_scan t)) as [[[color shift] next]|] eqn:EG.
      2:{ apply FIN. auto. }
      destruct ((state =? next) && t_at_edge t shift) eqn:ES.
      { apply FIN. zb. subst next. apply (spin_out_lemma _ c shift color).
        - unfold t_at_edge in H0. zb. rewrite H in EG. rewrite Hst. exact EG.
        - intros i Hi. eapply represents_edge; eauto. }
      destruct (py_step t shift color (state =? next)) as [tp' k] eqn:ESTEP.
      destruct (prog_step _ _ _ _ _ _ _ _ Hc Hrep Hst EG ESTEP) as (K & C' & c' & A' & R' & S').
      set (step' := if step =? -1 then step else step + k) in *.
      assert (RUN : steps M (n + Z.to_nat k) init = Some c') by (rewrite (steps_add_some _ _ _ _ _ Hr); auto).
      assert (ST' : step' = -1 \/ step' = Z.of_nat (n + Z.to_nat k)).
      { unfold step'. destruct (Z.eqb_spec step (-1)); [auto|]. right. destruct Hs; lia. }
      assert (BL : forall s j, In (s, j) blanks -> exists k0, (1 <= k0 <= n + Z.to_nat k)%nat /\ (j = -1 \/ j = Z.of_nat k0) /\ blank_at M s (Z.of_nat k0)).
      { intros s j X. destruct (Hb s j X) as (k0 & P & Q). exists k0. split; [lia|auto]. }
      assert (GO : forall b su, (forall s j, In (s, j) b -> exists k0, (1 <= k0 <= n + Z.to_nat k)%nat /\ (j = -1 \/ j = Z.of_nat k0) /\ blank_at M s (Z.of_nat k0)) ->
        lawful M (m_prover (py_machine_loop (plain M) fuel (cycle + 1) pv' tp' next step' b rulapp su)) ->
        law_ok (py_machine_loop (plain M) fuel (cycle + 1) pv' tp' next step' b rulapp su) (n + S fuel)).
      { intros b su0 HB L0. destruct (IH (cycle + 1) pv' tp' next step' b rulapp su0 c' (n + Z.to_nat k)%nat) as (n2 & c2 & I2 & E2); auto.
        { constructor; auto. }
        exists n2, c2. split; auto. destruct (m_end _); auto. lia. }
      destruct ((color =? 0) && t_blank tp') eqn:EB; [|apply GO; auto].
      zb. assert (BA : blank_at M next (Z.of_nat (n + Z.to_nat k))).
      { split; [lia|]. exists c'. rewrite Nat2Z.id. split; auto. split; auto. eapply represents_blank; eauto. }
      assert (B2 : forall s j, In (s, j) ((next, step') :: blanks) -> exists k0, (1 <= k0 <= n + Z.to_nat k)%nat /\ (j = -1 \/ j = Z.of_nat k0) /\ blank_at M s (Z.of_nat k0)).
      { intros s j [X|X]; [|auto]. inv X. exists (n + Z.to_nat k)%nat. split; [lia|]. split; auto. }
      assert (NH : forall cyc b pvx, (forall s j, In (s, j) b -> exists k0, (1 <= k0 <= n + Z.to_nat k)%nat /\ (j = -1 \/ j = Z.of_nat k0) /\ blank_at M s (Z.of_nat k0)) ->
        never_halts M -> law_ok (MachR MInfrul step' cyc rulapp tp' b su pvx) (n + S fuel)).
      { intros cyc b pvx HB N. exists (n + Z.to_nat k)%nat, c'. cbn. split; auto. constructor; auto. }
      destruct (blanks_has blanks next) eqn:EH.
      - apply NH; auto. apply blanks_has_In in EH as (j & EH). destruct (Hb _ _ EH) as (k0 & P & _ & Q).
        apply (two_blanks_loop M next (Z.of_nat k0) (Z.of_nat (n + Z.to_nat k))); auto. lia.
      - destruct (next =? 0) eqn:EZ; [|apply GO; auto].
        apply NH; auto. apply Z.eqb_eq in EZ. rewrite EZ in BA. eapply (two_blanks_loop M 0 0); [|exact BA|lia].
        split; [lia|]. exists init. repeat split. }
    destruct tr as [ |r| | | |a b| | ]; try (apply G; auto; fail); try (apply FIN; auto; fail).
    destruct (py_apply_rule r t) as [| | |times t'] eqn:A; try (apply G; auto; fail); try (apply FIN; auto; fail).
      destruct TG as (ms & H & CV).
      assert (L' : lawful M pv').
      { eapply lawful_sub; [|exact L]. apply loop_keeps. intros. eapply try_keeps; eauto. }
      destruct (law_applied M state r t times t' Hc (D' _ _ _ H) (L' _ _ _ _ _ H CV Hc) A) as (C' & LD).
      destruct (leads_go _ _ _ _ _ _ _ LD Hr Hrep Hst) as (n' & c' & N' & R' & S' & P').
      destruct (IH (cycle + 1) pv' t' state (-1) blanks (rulapp + times) sus c' n') as (n2 & c2 & I2 & E2); auto.
      { constructor; auto. intros s j X. destruct (Hb s j X) as (k0 & P & Q). exists k0. split; [lia|auto]. }
      exists n2, c2. split; auto. destruct (m_end _); auto. lia.
Qed.

Lemma run_law lim : lawful M (m_prover (py_machine_run (plain M) lim)) -> law_ok (py_machine_run (plain M) lim) lim.
Proof.
  intros L. apply (loop_law lim 0 pv_new init_tape 0 0 [] 0 None init 0); auto.
  - constructor; auto using canon_init, represents_init. intros ? ? [].
  - intros s ms r (v & [] & _).
Qed.
End sim.

(** ** Statements *)
Lemma run_lawful M lim : let m := py_machine_run (plain M) lim in lawful M (m_prover m) ->
  exists n c, steps M n init = Some c
  /\ (m_steps m <> -1 -> m_steps m = Z.of_nat n)
  /\ represents (m_tape m) c /\ marks_are (c_tape c) (t_marks (m_tape m))
  /\ (forall s, m_end m = MUndfnd s -> halts_at M n s)
  /\ (m_end m = MSpnout -> never_halts M /\ spins_out_from M c)
  /\ (m_end m = MXlimit -> (lim <= n)%nat)
  /\ (forall s j, In (s, j) (m_blanks m) -> exists k d, (1 <= k <= n)%nat /\ (j <> -1 -> j = Z.of_nat k)
       /\ steps M k init = Some d /\ c_state d = s /\ is_blank d).
Proof.
  intros m L. destruct (run_law M lim L) as (n & c & I & E). fold m in I, E. destruct I as [Hr Hrep Hc Hst Hs Hb].
  exists n, c. split; auto. split; [intros X; destruct Hs; [contradiction|auto]|].
  split; auto. split; [apply marks_represents; auto; apply canon_wf; auto|]. split; [|split; [|split]].
  - intros s X. rewrite X in E. destruct E as (-> & E). exists c. cbn. auto.
  - intros X. rewrite X in E. split; auto. eapply spins_out_never_halts; eauto.
  - intros X. rewrite X in E. auto.
  - intros s j X. destruct (Hb s j X) as (k & P & Q & _ & d & D & R). rewrite Nat2Z.id in D. exists k, d. split; auto. split; [intros Y; destruct Q; [contradiction|auto]|auto].
Qed.

Lemma run_lawful_infrul M lim : let m := py_machine_run (plain M) lim in lawful M (m_prover m) -> m_end m = MInfrul ->
  never_halts M
  \/ exists n c r, steps M n init = Some c /\ represents (m_tape m) c
      /\ grows M (c_state c) (m_tape m) r /\ (law M (c_state c) r (m_tape m) -> never_halts M).
Proof.
  intros m L X. destruct (run_law M lim L) as (n & c & I & E). fold m in I, E. rewrite X in E. destruct I as [Hr Hrep Hc Hst Hs Hb].
  destruct E as [E|(r & E)]; [left; auto|]. right. exists n, c, r. auto.
Qed.
