(** Lemmas about instr_seq. *)
From Verif Require Import Base TM TMFacts ProgModel TapeModel TapeSpec TapeProofs ParseModel ParseSpec ParseProofs
  NormModel NormSpec NormProofs NormFull QuickProofs InstrSeqModel InstrSeqSpec.

Lemma steps_prog_ext (P Q : program) : (forall s c, P s c = Q s c) -> forall n c, steps P n c = steps Q n c.
Proof.
  intros H. induction n as [|n IH]; intros c; cbn; auto. unfold step. rewrite H.
  destruct (Q (c_state c) (c_tape c (c_pos c))) as [[[pr sh] tr]|]; auto.
Qed.

Lemma halts_at_ext (P Q : program) : (forall s c, P s c = Q s c) -> forall n sl, halts_at P n sl -> halts_at Q n sl.
Proof.
  intros H n sl (c & A & B & D & E). exists c. rewrite <- (steps_prog_ext P Q H), <- H. auto.
Qed.

Lemma steps_sub (P Q : program) : (forall s c i, P s c = Some i -> Q s c = Some i) ->
  forall n c d, steps P n c = Some d -> steps Q n c = Some d.
Proof.
  intros H. induction n as [|n IH]; intros c d E; cbn in *; auto.
  unfold step in *. destruct (P (c_state c) (c_tape c (c_pos c))) as [i|] eqn:EP; [|discriminate].
  rewrite (H _ _ _ EP). destruct i as [[pr sh] tr]. auto.
Qed.

Lemma rfu_loop_ok prog fuel : forall t k state c r sl,
  rfu_loop prog fuel t k state = Some (r, sl) ->
  wf_tape t -> represents t c -> c_state c = state -> 0 <= k ->
  steps (n_get prog) (Z.to_nat k) init = Some c ->
  0 <= r /\ halts_at (n_get prog) (Z.to_nat r) sl.
Proof.
  induction fuel as [|fuel IH]; intros t k state c r sl H W R S K HR; cbn in H; [discriminate|].
  assert (HSC : c_tape c (c_pos c) = t_scan t) by (apply represents_iff; auto).
  destruct (n_get prog state (t_scan t)) as [[[color shift] next]|] eqn:E.
  2:{ inv H. split; auto. exists c. cbn. auto. }
  destruct ((state =? next) && t_at_edge t shift); [discriminate|].
  pose proof (py_step_refines_lemma (n_get prog) t c shift color next (state =? next) W R) as P.
  rewrite S in P. specialize (P E ltac:(intros X; zb; congruence)).
  destruct (py_step t shift color (state =? next)) as [t' n].
  destruct P as (N & W' & _ & d & A & B & D & F).
  apply (IH t' (k + n) next d r sl H W' B D ltac:(lia)).
  rewrite Z2Nat.inj_add by lia. rewrite (steps_add_some _ _ _ _ _ HR). auto.
Qed.

Lemma rfu_ok lim prog r sl : run_for_undefined lim prog = Some (r, sl) ->
  0 <= r /\ halts_at (n_get prog) (Z.to_nat r) sl.
Proof.
  intros H. apply (rfu_loop_ok prog lim init_tape 0 0 init r sl H); auto; try lia.
  - apply canon_wf, canon_init.
  - apply represents_init.
Qed.

Lemma rfu_none prog fuel : forall t k state c,
  rfu_loop prog fuel t k state = None ->
  canon t -> represents t c -> c_state c = state -> 0 <= k ->
  steps (n_get prog) (Z.to_nat k) init = Some c ->
  forall m sl, halts_at (n_get prog) m sl -> k + Z.of_nat fuel <= Z.of_nat m.
Proof.
  induction fuel as [|fuel IH]; intros t k state c H W R S K HR m sl HM; cbn in H.
  - destruct (Nat.le_gt_cases (Z.to_nat k) m); [lia|].
    rewrite (halts_at_stops _ _ _ HM) in HR by lia. discriminate.
  - destruct (n_get prog state (t_scan t)) as [[[color shift] next]|] eqn:E; [|discriminate].
    destruct ((state =? next) && t_at_edge t shift) eqn:EE.
    { exfalso. zb. subst next. apply (halts_not_never (n_get prog)); [exists m, sl; auto|].
      apply (spins_out_never_halts _ _ _ HR). apply (spin_out_lemma _ c shift color).
      - match goal with X : t_at_edge t shift = true |- _ => unfold t_at_edge in X end. zb.
        replace (t_scan t) with 0 in E by auto. rewrite S. exact E.
      - intros i Hi. eapply represents_edge; eauto. }
    pose proof (py_step_refines_lemma (n_get prog) t c shift color next (state =? next) (canon_wf _ W) R) as P.
    rewrite S in P. specialize (P E ltac:(intros X; zb; congruence)).
    pose proof (py_step_canon t shift color (state =? next) W) as CN.
    destruct (py_step t shift color (state =? next)) as [t' n].
    destruct P as (N & W' & _ & d & A & B & D & F).
    assert (X : (k + n) + Z.of_nat fuel <= Z.of_nat m).
    { apply (IH t' (k + n) next d H CN B D ltac:(lia)) with (sl := sl); auto.
      rewrite Z2Nat.inj_add by lia. rewrite (steps_add_some _ _ _ _ _ HR). auto. }
    lia.
Qed.

Lemma rfu_quiet lim prog : run_for_undefined lim prog = None ->
  forall m sl, halts_at (n_get prog) m sl -> (lim <= m)%nat.
Proof.
  intros H m sl HM.
  pose proof (rfu_none prog lim init_tape 0 0 init H canon_init represents_init eq_refl ltac:(lia) eq_refl m sl HM). lia.
Qed.

Lemma n_set_ok n sl i S C n' : table_shape n S C -> 0 <= fst sl < Z.of_nat S -> 0 <= snd sl < Z.of_nat C ->
  n_set n sl i = Some n' ->
  table_shape n' S C /\ forall s c, n_get n' s c = if slot_eqb (s, c) sl then Some i else n_get n s c.
Proof.
  destruct sl as [a b]. cbn [fst snd]. intros H H1 H2. unfold n_set. cbn [fst snd]. destruct (dget n a) as [w|] eqn:E; [|discriminate]. intros X. inv X.
  assert (W : map fst w = map Z.of_nat (seq 0 C)).
  { destruct H as (_ & H). rewrite Forall_forall in H. apply (H _ (dget_pair _ _ _ E)). }
  assert (W' : map fst (dset w b (Some i)) = map Z.of_nat (seq 0 C)).
  { rewrite dset_keys; auto. rewrite W. apply seqZ_in. auto. }
  split; [apply shape_dset; auto|]. intros s c. unfold n_get, slot_eqb. cbn [fst snd]. rewrite dget_dset.
  rewrite (Z.eqb_sym s). destruct (Z.eqb_spec a s) as [->|]; cbn [andb]; auto.
  rewrite dget_dset, (Z.eqb_sym c). destruct (Z.eqb_spec b c) as [->|]; auto. rewrite E. auto.
Qed.

Lemma is_loop_ok lim g S C : (1 <= S)%nat -> (1 <= C)%nat ->
  table_shape (norm_of g) S C -> bounded (table_machine g) 10 26 ->
  forall fuel n, table_shape n S C ->
  (forall s c i, n_get n s c = Some i -> table_get g (s, c) = Some i) ->
  entries_ok lim g fuel (rows_of n) (is_loop lim fuel (norm_of g) n).
Proof.
  intros HS HC SG BG. induction fuel as [|fuel IH]; intros n SN SUB; cbn [is_loop]; [constructor|].
  destruct (rows_norm n S C SN) as (RN & _ & _).
  assert (EXT : forall s c, n_get n s c = table_get (rows_of n) (s, c)).
  { intros s c. rewrite <- norm_get, RN. auto. }
  destruct (run_for_undefined lim n) as [[k sl]|] eqn:ER.
  2:{ apply entries_running. intros m sl HM. apply (rfu_quiet lim n ER m sl).
      apply (halts_at_ext (table_machine (rows_of n))); auto. intros. symmetry. apply EXT. }
  destruct (rfu_ok _ _ _ _ ER) as (K & HA).
  assert (SUBT : sub_table (rows_of n) g).
  { intros [s c] i E. rewrite <- EXT in E. auto. }
  constructor; auto.
  - apply (repr_text n S C); auto. intros s c pr sh tr E. apply (BG s c pr sh tr). apply SUB. auto.
  - apply (halts_at_ext (n_get n)); auto.
  - destruct HA as (c & A1 & A2 & A3 & A4). exists c. split.
    + apply (steps_sub (n_get n)); auto.
    + rewrite A2, A3. destruct sl; auto.
  - destruct (n_get (norm_of g) (fst sl) (snd sl)) as [i|] eqn:EG.
    2:{ left. rewrite norm_get, <- surjective_pairing in EG. auto. }
    destruct (shape_get _ _ _ _ _ _ SG EG) as (R1 & R2).
    destruct (n_set n sl i) as [n'|] eqn:ES.
    2:{ exfalso. unfold n_set in ES. destruct (shape_row _ _ _ _ SN R1) as (w & Ew & _). rewrite Ew in ES. discriminate. }
    right. exists (rows_of n').
    destruct (n_set_ok n sl i S C n' SN R1 R2 ES) as (SN' & GN').
    rewrite norm_get in EG. rewrite <- surjective_pairing in EG.
    destruct (rows_norm n' S C SN') as (RN' & _ & _).
    assert (HN : table_get (rows_of n) sl = None).
    { destruct HA as (c & A1 & A2 & A3 & A4). destruct sl as [a b]. cbn in A4. rewrite <- EXT. auto. }
    split.
    + split; auto. split; [congruence|]. intros [s c]. rewrite <- norm_get, RN', GN', EXT.
      destruct (slot_eqb (s, c) sl) eqn:E; auto. unfold slot_eqb in E. cbn in E. zb. destruct sl; cbn in *. congruence.
    + apply IH; auto. intros s c j. rewrite GN'. destruct (slot_eqb (s, c) sl) eqn:E; [|apply SUB].
      intros X. inv X. unfold slot_eqb in E. cbn in E. zb. destruct sl; cbn in *. congruence.
Qed.

Definition init_grid (s c : nat) : list (list (option instr)) :=
  (Some (1, true, 1) :: repeat None c) :: repeat (repeat None (S c)) s.

Lemma map_repeat_ {A B} (f : A -> B) x n : map f (repeat x n) = repeat (f x) n.
Proof. induction n; cbn; congruence. Qed.

Lemma init_grid_text s c : exists t, init_prog (S s) (S c) = Some t /\ prog_text (init_grid s c) t.
Proof.
  eexists. split; [reflexivity|].
  replace (join [SPACE; SPACE] _) with
    (join [SPACE; SPACE] (map (fun r => join [SPACE] (map show_instr r)) (init_grid s c))).
  - apply join_prog; [discriminate|]. intros r Hr. apply join_row.
    + destruct Hr as [<-|Hr]; [discriminate|]. apply repeat_spec in Hr. subst. discriminate.
    + intros i Hi. apply show_cell. intros pr sh tr ->.
      destruct Hr as [<-|Hr].
      * destruct Hi as [X|X]; [inv X; lia|]. apply repeat_spec in X. discriminate.
      * apply repeat_spec in Hr. subst. apply repeat_spec in Hi. discriminate.
  - f_equal. unfold init_grid. repeat (rewrite ?map_cons, ?map_repeat_). reflexivity.
Qed.

Lemma nth_repeat_none {A} n (x : A) k d : nth k (repeat x n) d = x \/ nth k (repeat x n) d = d.
Proof. revert k. induction n as [|n IH]; intros [|k]; cbn; auto. Qed.

Lemma init_grid_get s c sl i : table_get (init_grid s c) sl = Some i -> sl = (0, 0) /\ i = (1, true, 1).
Proof.
  unfold table_get, init_grid, instr in *. destruct sl as [a b]. cbn [fst snd].
  destruct ((0 <=? a) && (0 <=? b)) eqn:E; [|discriminate]. zb. intros X.
  destruct (Z.to_nat a) eqn:EA; cbn [nth] in X.
  - destruct (Z.to_nat b) eqn:EB; cbn [nth] in X.
    + inv X. split; auto. f_equal; lia.
    + destruct (nth_repeat_none c (@None (Z * bool * Z)) n None) as [Y|Y]; exfalso; rewrite Y in X; discriminate.
  - destruct (nth_repeat_none s (repeat (@None (Z * bool * Z)) (S c)) n []) as [Y|Y]; rewrite Y in X.
    + destruct (nth_repeat_none (S c) (@None (Z * bool * Z)) (Z.to_nat b) None) as [Z|Z]; exfalso; rewrite Z in X; discriminate.
    + destruct (Z.to_nat b); discriminate.
Qed.

Lemma init_grid_rect s c : rectangular (init_grid s c) (S c).
Proof.
  constructor; [cbn; rewrite repeat_length; auto|]. apply Forall_forall. intros r Hr.
  apply repeat_spec in Hr. subst. apply repeat_length.
Qed.

Lemma instr_seq_ok lim g s cols : prog_text g s -> rectangular g cols -> (1 <= cols)%nat ->
  table_get g (0, 0) = Some (1, true, 1) ->
  exists l h, instr_seq lim s = Some l
    /\ (forall sl i, table_get h sl = Some i <-> sl = (0, 0) /\ i = (1, true, 1))
    /\ entries_ok lim g (length g * cols - 1) h l.
Proof.
  intros HT HR HC H0. unfold instr_seq. rewrite (parse_text _ _ HT).
  pose proof (norm_shape g cols HR) as SG.
  assert (HS : (1 <= length g)%nat) by (inv HT; cbn; lia).
  rewrite (shape_colors _ _ _ SG HS). rewrite (shape_states _ _ _ SG).
  assert (L1 : length (map fst (norm_of g)) = length g) by (rewrite map_length; apply (shape_len _ _ _ SG)).
  rewrite L1, map_length, seq_length. unfold n_init.
  destruct (length g) as [|s'] eqn:EL; [lia|]. destruct cols as [|c']; [lia|].
  destruct (init_grid_text s' c') as (t & Et & Ht). rewrite Et, (parse_text _ _ Ht).
  assert (SI : table_shape (norm_of (init_grid s' c')) (S s') (S c')).
  { pose proof (norm_shape _ _ (init_grid_rect s' c')) as X. cbn [init_grid length] in X. rewrite repeat_length in X. auto. }
  destruct (rows_norm _ _ _ SI) as (RN & _ & _).
  do 2 eexists. split; [reflexivity|]. split.
  - intros sl i. rewrite (surjective_pairing sl) at 1. rewrite <- norm_get, RN, norm_get, <- surjective_pairing.
    split; [apply init_grid_get|]. intros (-> & ->). reflexivity.
  - apply (is_loop_ok lim g (S s') (S c')); auto; try lia.
    + intros a b pr sh tr E. exact (text_shows_ok g s HT (a, b) pr sh tr E).
    + intros a b i E. rewrite norm_get in E. apply init_grid_get in E. destruct E as (-> & ->). auto.
Qed.

Lemma instr_seq_other_start : exists g s l txt k sl h,
  prog_text g s /\ rectangular g 2 /\ instr_seq 1000 s = Some l /\ In (txt, k, sl) l
  /\ prog_text h txt /\ ~ sub_table h g
  /\ ~ (exists c, steps (table_machine g) (Z.to_nat k) init = Some c /\ (c_state c, c_tape c (c_pos c)) = sl).
Proof.
  exists [[Some (1, false, 0); None]; [None; None]], (text_of "1LA ...  ... ...").
  eexists. exists (text_of "1RB ...  ... ..."), 1, (1, 0), (init_grid 1 1).
  split; [|split; [|split; [vm_compute; reflexivity|split; [left; reflexivity|split; [|split]]]]].
  - apply (prog_cons _ (text_of "1LA ...") _ (text_of "... ...")).
    + apply (row_cons _ (text_of "1LA") _ (text_of "...")); [cbn; repeat split; lia|constructor; reflexivity].
    + constructor. apply (row_cons _ (text_of "...") _ (text_of "...")); [reflexivity|constructor; reflexivity].
  - repeat constructor.
  - destruct (init_grid_text 1 1) as (t & E & H). vm_compute in E. inv E. exact H.
  - intros X. specialize (X (0, 0) (1, true, 1) eq_refl). discriminate.
  - intros (c & E & X). vm_compute in E. inv E. discriminate.
Qed.
