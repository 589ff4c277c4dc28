(** * Proofs about functions on texts *)
From Verif Require Import Base TM ProgModel ParseModel ParseSpec ParseProofs ApiSpec ApiModel.
From Verif Require Import TapeModel QuickModel QuickProofs ProverModel MachineProofs TermRecModel TermRecSpec TermRecProofs TermRecComplete.
From Verif Require Import GraphSpec GraphModel GraphProofs ReasonModel ReasonSpec ReasonProofs ReasonKinds SegModel SegSpec SegSound.
From Verif Require Import BlocksModel BlocksSpec BlocksProofs MacroModel MakeMacroModel RenameSpec RenameProofs InstrSeqProofs.

(** ** Reading *)
Lemma white_ws c : white c -> is_whitespace c = true.
Proof. intros [->|[->|[->| ->]]]; reflexivity. Qed.

Lemma trim_start_app a s : Forall white a -> trim_start (a ++ s) = trim_start s.
Proof. induction 1 as [|c a W _ IH]; cbn [app trim_start]; auto. rewrite (white_ws _ W). auto. Qed.

Lemma trim_start_id c s : is_whitespace c = false -> trim_start (c :: s) = c :: s.
Proof. intros H. cbn [trim_start]. rewrite H. reflexivity. Qed.

Lemma trim_padded a s b : Forall white a -> Forall white b ->
  (exists c s', s = c :: s' /\ is_whitespace c = false) -> (exists c s', s = s' ++ [c] /\ is_whitespace c = false) ->
  trim (a ++ s ++ b) = s.
Proof.
  intros A B (c & s' & E & W) (d & t & E2 & W2). unfold trim. rewrite trim_start_app by auto.
  assert (X : trim_start (s ++ b) = s ++ b) by (rewrite E; apply (trim_start_id c (s' ++ b)); auto).
  rewrite X, rev_app_distr, trim_start_app by (apply Forall_rev; auto).
  assert (Y : trim_start (rev s) = rev s) by (rewrite E2, rev_app_distr; apply (trim_start_id d (rev t)); auto).
  rewrite Y. apply rev_involutive.
Qed.

Lemma read_row_keys st : forall l co p, read_row st co l = Some p ->
  NoDup (map fst p) /\ forall s c i, In ((s, c), i) p -> s = st /\ co <= c.
Proof.
  induction l as [|x l IH]; intros co p; cbn [read_row].
  - intros E. inv E. split; [constructor|]. intros ? ? ? [].
  - destruct (read_instr x) as [[i|]|]; try discriminate; destruct (read_row st (co + 1) l) as [q|] eqn:E; try discriminate;
    intros H; inv H; destruct (IH _ _ E) as (N & K).
    + split.
      * cbn [map fst]. constructor; auto. intros X. apply in_map_iff in X. destruct X as ([[s c] i'] & Y & Z).
        cbn [fst] in Y. inv Y. destruct (K _ _ _ Z). lia.
      * intros s c i' [Y|Y]; [inv Y; lia|]. destruct (K _ _ _ Y). lia.
    + split; auto. intros s c i' Y. destruct (K _ _ _ Y). lia.
Qed.

Lemma nodup_app {A} (a b : list A) : NoDup a -> NoDup b -> (forall x, In x a -> In x b -> False) -> NoDup (a ++ b).
Proof.
  induction 1 as [|x a X N IH]; intros B D; cbn [app]; auto. constructor.
  - rewrite in_app_iff. intros [Y|Y]; auto. apply (D x); [left|]; auto.
  - apply IH; auto. intros y Y. apply D. right; auto.
Qed.

Lemma read_rows_keys : forall l st p, read_rows st l = Some p ->
  NoDup (map fst p) /\ forall s c i, In ((s, c), i) p -> st <= s.
Proof.
  induction l as [|x l IH]; intros st p; cbn [read_rows].
  - intros E. inv E. split; [constructor|]. intros ? ? ? [].
  - destruct (read_row st 0 (split1 x)) as [q|] eqn:E; try discriminate.
    destruct (read_rows (st + 1) l) as [r|] eqn:F; try discriminate. intros H. inv H.
    destruct (read_row_keys _ _ _ _ E) as (N & K). destruct (IH _ _ F) as (N' & K'). split.
    + rewrite map_app. apply nodup_app; auto. intros [s c] X Y. apply in_map_iff in X, Y.
      destruct X as ([[s1 c1] i1] & X & X'), Y as ([[s2 c2] i2] & Y & Y'). cbn [fst] in X, Y. inv X. inv Y.
      destruct (K _ _ _ X'). pose proof (K' _ _ _ Y'). lia.
    + intros s c i. rewrite in_app_iff. intros [X|X]; [destruct (K _ _ _ X); lia|]. pose proof (K' _ _ _ X). lia.
Qed.

Lemma read_writes t M : writes t M -> exists p, from_str t = Some p /\ NoDup (map fst p) /\ forall s c, machine_of p s c = M s c.
Proof.
  intros (a & s & b & g & -> & A & B & P & T). destruct (prog_ends _ _ P) as (H1 & H2).
  destruct (read_rows_ok g _ 0 (prog_split _ _ P)) as (p & E & G). exists p.
  unfold from_str. rewrite trim_padded by auto. split; auto. split; [apply (read_rows_keys _ _ _ E)|].
  intros st co. unfold machine_of. rewrite G, T. unfold table_get. cbn [fst snd]. rewrite Z.sub_0_r. reflexivity.
Qed.

(** ** Equal programs *)
Section Ext.
Variables P Q : program.
Hypothesis PQ : forall s c, P s c = Q s c.
Let ST : forall n c, steps P n c = steps Q n c := steps_prog_ext P Q PQ.

Lemma never_halts_same : never_halts P -> never_halts Q.
Proof. intros H n. rewrite <- ST. apply H. Qed.
Lemma edge_same s t : edge P s t -> edge Q s t.
Proof. intros (c & pr & sh & H). exists c, pr, sh. rewrite <- PQ. auto. Qed.
Lemma spins_same c : spins_out_from P c -> spins_out_from Q c.
Proof. intros (d & H). exists d. intros n. rewrite <- ST. apply H. Qed.
Lemma erases_same : never_erases P -> never_erases Q.
Proof. intros H m n c d L. rewrite <- !ST. apply H. auto. Qed.
Lemma restartable_same : restartable P -> restartable Q.
Proof. intros (K & K0 & H). exists K. split; auto. intros s X. destruct (H s X) as (s' & X' & E). exists s'. split; auto. apply edge_same; auto. Qed.
Lemma named_same : named P -> named Q.
Proof.
  intros (Z0 & H). split; [rewrite <- PQ; auto|]. intros s c pr sh t E. rewrite <- PQ in E.
  destruct (H _ _ _ _ _ E) as (A & B & (s1 & c1 & C1 & C2) & (s2 & c2 & D1 & D2)). split; auto. split; auto.
  split; [exists s1, c1|exists s2, c2]; rewrite <- PQ; auto.
Qed.
Lemma closed_same S : GraphSpec.closed P S -> (forall s t, edge Q s t -> edge P s t) -> GraphSpec.closed Q S.
Proof. intros H E s t X. apply H. auto. Qed.
Lemma recurs_same : recurs P -> recurs Q.
Proof.
  intros (n & m & c & d & k & A & B & C & D & E & F). exists n, m, c, d, k. rewrite <- !ST. repeat (split; auto).
  destruct F as [F|[(F & G)|(F & G)]]; [auto|right; left|right; right]; split; auto; intros j e p; rewrite <- ST; apply G.
Qed.
Lemma reaches_same s t : reaches P s t -> reaches Q s t.
Proof.
  induction 1 as [t E N|u t R IH E N]; [apply reaches_one|apply (reaches_more _ _ u)]; auto; apply edge_same; auto.
Qed.
Lemma connected_same S : connected P S -> connected Q S.
Proof.
  intros (A & B). split; [|apply reaches_same; auto]. intros s H. destruct (A s H) as (t & N & E). exists t. split; auto. apply edge_same; auto.
Qed.
End Ext.

Lemma spin_never_same (P Q : program) : (forall s c, P s c = Q s c) -> never_spins_out P -> never_spins_out Q.
Proof.
  intros PQ H n c E X. rewrite <- (steps_prog_ext P Q PQ) in E. apply (H n c E). apply (spins_same Q P); auto.
Qed.

(** ** The functions *)
Ltac go t M := intros W; destruct (read_writes t M W) as (p & E & ND & PM); unfold on_text; rewrite ?E;
  assert (MP : forall s c, M s c = machine_of p s c) by (intros; symmetry; apply PM).

Lemma api_quick t M lim : writes t M -> exists r, py_run_quick_machine t lim = Some r
  /\ (forall n s, mr_undfnd r = Some (n, s) -> 0 <= n /\ halts_at M (Z.to_nat n) s
       /\ exists c, steps M (Z.to_nat n) init = Some c /\ marks_are (c_tape c) (mr_marks r))
  /\ (mr_result r = spnout -> never_halts M /\ exists c, steps M (Z.to_nat (mr_steps r)) init = Some c /\ spins_out_from M c
       /\ marks_are (c_tape c) (mr_marks r))
  /\ (mr_result r = infrul -> never_halts M)
  /\ (forall s n, In (s, n) (mr_blanks r) -> 0 <= n /\ exists c, steps M (Z.to_nat n) init = Some c /\ c_state c = s /\ is_blank c)
  /\ (forall n s, halts_at M n s -> (n < lim)%nat -> mr_undfnd r = Some (Z.of_nat n, s)).
Proof.
  unfold py_run_quick_machine. go t M. exists (run_quick_machine p lim). split; auto.
  pose proof (steps_prog_ext _ _ PM) as ST. repeat apply conj.
  - intros n s H. destruct (quick_undfnd p lim n s H) as (A & B & c & C & D). split; auto.
    split; [apply (halts_at_ext _ _ PM); auto|]. exists c. rewrite <- ST. auto.
  - intros H. destruct (quick_spnout p lim H) as (A & c & B & C & D). split; [apply (never_halts_same _ _ PM); auto|].
    exists c. rewrite <- ST. split; auto. split; auto. apply (spins_same _ _ PM); auto.
  - intros H. apply (never_halts_same _ _ PM), (quick_infrul p lim); auto.
  - intros s n H. destruct (quick_blanks p lim s n H) as (A & c & B & C). split; auto. exists c. rewrite <- ST. auto.
  - intros n s H L. apply quick_complete; auto. apply (halts_at_ext _ _ MP); auto.
Qed.

Lemma api_halt t M d r : writes t M -> restartable M -> named M -> py_cant_halt t d = Some (OSome r) -> never_halts M.
Proof.
  unfold py_cant_halt. go t M. intros R N H. inv H. apply (never_halts_same _ _ PM).
  eapply cant_halt_sound; [auto| | |eassumption]; [apply (restartable_same _ _ MP)|apply (named_same _ _ MP)]; auto.
Qed.
Lemma api_blank t M d r : writes t M -> restartable M -> py_cant_blank t d = Some (OSome r) -> never_erases M.
Proof.
  unfold py_cant_blank. go t M. intros R H. inv H. apply (erases_same _ _ PM).
  eapply cant_blank_sound; [auto| |eassumption]; apply (restartable_same _ _ MP); auto.
Qed.
Lemma api_spin t M d r : writes t M -> restartable M -> py_cant_spin_out t d = Some (OSome r) -> never_spins_out M.
Proof.
  unfold py_cant_spin_out. go t M. intros R H. inv H. apply (spin_never_same _ _ PM).
  eapply cant_spin_out_sound; [auto| |eassumption]; apply (restartable_same _ _ MP); auto.
Qed.
Lemma api_answers t M d : writes t M -> exists a b c, py_cant_halt t d = Some a /\ py_cant_blank t d = Some b /\ py_cant_spin_out t d = Some c
  /\ a <> OPanic /\ b <> OPanic /\ c <> OPanic.
Proof.
  unfold py_cant_halt, py_cant_blank, py_cant_spin_out. go t M. do 3 eexists. do 3 (split; [reflexivity|]). apply reason_total.
Qed.
Lemma api_segments t M segs rfuel fuel r : writes t M -> named M -> py_segments t segs rfuel fuel = Some (SegSome r) -> never_halts M.
Proof.
  unfold py_segments. go t M. intros N H. assert (H' : py_segment_cant_halt p segs rfuel fuel = SegSome r) by congruence.
  apply (never_halts_same _ _ PM). eapply py_segment_sound; [auto| |exact H']. apply (named_same _ _ MP); auto.
Qed.
Lemma api_connected t M states : writes t M -> 1 <= states -> GraphSpec.closed M states ->
  exists b, py_is_connected t states = Some b /\ (b = true <-> connected M states).
Proof.
  unfold py_is_connected. go t M. intros S C.
  assert (C' : GraphSpec.closed (machine_of p) states). { apply (closed_same M); auto. intros s u. apply (edge_same _ _ PM). }
  destruct (connected_rs p states S ND C') as (b & B & I). exists b. split; auto. rewrite I.
  split; [apply (connected_same _ _ PM)|apply (connected_same _ _ MP)].
Qed.
Lemma api_term t M : writes t M -> M 0 0 = Some (1, true, 1) ->
  (exists lim, py_quick_term_or_rec t lim = Some true) <-> recurs M.
Proof.
  unfold py_quick_term_or_rec. go t M. intros F. rewrite MP in F. pose proof (quick_term_or_rec_cyclers p F) as Q.
  split.
  - intros (lim & H). apply (recurs_same _ _ PM), Q. exists lim. congruence.
  - intros H. destruct (proj2 Q (recurs_same _ _ MP H)) as (lim & L). exists lim. congruence.
Qed.
Lemma api_block t M n : writes t M -> exists b, py_opt_block t n = Some b /\ (1 <= b)%nat.
Proof. unfold py_opt_block. go t M. apply opt_block_total. Qed.

(** ** Machine and run_prover *)
Lemma id_renaming : renaming (fun x => x).
Proof. split; auto. Qed.
Lemma named_id i : named_instr (fun x => x) (fun x => x) i = i.
Proof. destruct i as [[? ?] ?]. reflexivity. Qed.
Lemma span_id s : named_span (fun x => x) s = s.
Proof. unfold named_span. rewrite <- (map_id s) at 2. apply map_ext. intros []. reflexivity. Qed.
Lemma blanks_id b : named_blanks (fun x => x) b = b.
Proof. unfold named_blanks. rewrite <- (map_id b) at 2. apply map_ext. intros []. reflexivity. Qed.

Lemma machine_same (p : comp_prog) (M : program) lim : (forall s c, machine_of p s c = M s c) -> exists m, py_machine p None None None None lim = Some m
  /\ let m' := py_machine_run (plain M) lim in
     m_end m = m_end m' /\ m_steps m = m_steps m' /\ m_cycles m = m_cycles m' /\ m_rulapp m = m_rulapp m'
     /\ m_tape m = m_tape m' /\ m_blanks m = m_blanks m'.
Proof.
  intros PM. eexists. split; [reflexivity|]. cbv zeta.
  assert (R : renamed_lookups (fun x => x) (fun x => x) (plain M) (as_comp (dict_lookup p))).
  { intros s c. specialize (PM s c). unfold machine_of in PM. unfold plain, as_comp, dict_lookup. rewrite PM.
    destruct (M s c); cbn [named_lookup]; [rewrite named_id|]; reflexivity. }
  destruct (py_named _ _ id_renaming id_renaming _ _ R lim) as (A & B & C & D & E & F & _). cbn [fst snd].
  split; [|repeat (split; auto)].
  - rewrite A. destruct (m_end (py_machine_run (plain M) lim)) as [[? ?]| | | | |]; reflexivity.
  - rewrite E. unfold named_tape. rewrite !span_id. destruct (m_tape (py_machine_run (plain M) lim)); reflexivity.
  - rewrite F. apply blanks_id.
Qed.

Lemma api_machine t M lim : writes t M -> exists m, machine_on_text t None None None None lim = Some m
  /\ let m' := py_machine_run (plain M) lim in
     m_end m = m_end m' /\ m_steps m = m_steps m' /\ m_cycles m = m_cycles m' /\ m_rulapp m = m_rulapp m'
     /\ m_tape m = m_tape m' /\ m_blanks m = m_blanks m'.
Proof. unfold machine_on_text. go t M. apply machine_same; auto. Qed.

Lemma api_machine_true t M lim m : writes t M -> machine_on_text t None None None None lim = Some m -> m_rulapp m = 0 ->
  (forall n s, m_undfnd m = Some (n, s) -> 0 <= n /\ halts_at M (Z.to_nat n) s
     /\ exists c, steps M (Z.to_nat n) init = Some c /\ marks_are (c_tape c) (t_marks (m_tape m)))
  /\ (m_end m = MSpnout -> never_halts M
     /\ exists c, steps M (Z.to_nat (m_steps m)) init = Some c /\ spins_out_from M c /\ marks_are (c_tape c) (t_marks (m_tape m))).
Proof.
  intros W H R. destruct (api_machine t M lim W) as (m' & E & A & B & _ & D & T & _). rewrite H in E. inv E. rewrite D in R. split.
  - intros n s U. rewrite T. apply machine_undfnd; auto. unfold m_undfnd in *. rewrite <- A, <- B. auto.
  - intros U. rewrite B, T. apply machine_spnout; auto. congruence.
Qed.

Lemma result_id r : named_result (fun x => x) (fun x => x) r = r.
Proof. unfold named_result. rewrite blanks_id. destruct r as [? ? ? ? ? ? l]; cbn [mr_last_slot]. destruct l as [[? ?]|]; reflexivity. Qed.

Lemma api_prover t M lim : writes t M -> py_run_prover t lim = rs_run_prover M lim.
Proof.
  unfold py_run_prover. go t M. rewrite (rs_named _ _ id_renaming id_renaming M (machine_of p)).
  - destruct (rs_run_prover M lim); cbn [option_map]; [rewrite result_id|]; reflexivity.
  - intros s c. rewrite PM. destruct (M s c) as [i|]; cbn [option_map]; [rewrite named_id|]; reflexivity.
Qed.

Lemma api_prover_true t M lim r : writes t M -> py_run_prover t lim = Some r -> mr_rulapp r = 0 -> mr_steps r < 2 ^ 33 ->
  (forall n s, mr_undfnd r = Some (n, s) -> 0 <= n /\ halts_at M (Z.to_nat n) s
     /\ exists c, steps M (Z.to_nat n) init = Some c /\ marks_are (c_tape c) (mr_marks r))
  /\ (mr_result r = spnout -> never_halts M
     /\ exists c, steps M (Z.to_nat (mr_steps r)) init = Some c /\ spins_out_from M c /\ marks_are (c_tape c) (mr_marks r)).
Proof.
  intros W H. rewrite (api_prover t M) in H by auto. intros R L. split.
  - intros n s. apply (run_prover_undfnd M lim); auto.
  - apply (run_prover_spnout M lim); auto.
Qed.

(** ** Writing back *)
Lemma api_show a s b g cols : Forall white a -> Forall white b -> prog_text g s -> rectangular g cols -> (1 <= cols)%nat ->
  exists p, tcompile (a ++ s ++ b) = Some p /\ py_show_comp p (Some (Z.of_nat (length g), Z.of_nat cols)) = s.
Proof.
  intros A B P R C. destruct (show_parse g s cols P R C) as (p & E & _ & F). exists p. split; auto.
  unfold tcompile. rewrite <- E. destruct (prog_ends _ _ P). unfold from_str. rewrite trim_padded, trim_id by auto. reflexivity.
Qed.

Lemma writes_shown a b p ms mc : Forall white a -> Forall white b -> 1 <= ms -> 1 <= mc -> shows_ok p -> ParseSpec.fits p ms mc ->
  writes (a ++ py_show_comp p (Some (ms, mc)) ++ b) (machine_of p).
Proof.
  intros A B S C O F. exists a, (py_show_comp p (Some (ms, mc))), b, (table_of p ms mc). split; auto. split; auto. split; auto.
  split; [apply show_text; auto|]. intros s c. rewrite table_of_get by auto. reflexivity.
Qed.

Lemma shown_of p ms mc : NoDup (map fst p) ->
  (forall s c pr sh tr, In ((s, c), (pr, sh, tr)) p -> (0 <= s < ms /\ 0 <= c < mc) /\ 0 <= pr < 10 /\ 0 <= tr < 26) -> 1 <= ms -> 1 <= mc ->
  writes (py_show_comp p (Some (ms, mc))) (machine_of p).
Proof.
  intros N H S C. rewrite <- (app_nil_r (py_show_comp _ _)). apply (writes_shown [] []); auto.
  - intros s c pr sh tr E. apply (comp_get_in p (s, c) _ N) in E. apply (H _ _ _ _ _ E).
  - intros s c [[pr sh] tr] E. apply (comp_get_in p (s, c) _ N) in E. apply (H _ _ _ _ _ E).
Qed.
Ltac in_range E := cbn in E; repeat (destruct E as [E|E]; [inv E; lia|]); contradiction.

Lemma api_wrong : exists t1 t2 t3 t4 M1 M2 M3 M4, writes t1 M1 /\ writes t2 M2 /\ writes t3 M3 /\ writes t4 M4
  /\ (py_cant_halt t1 2 = Some (OSome 1) /\ halts M1) /\ (py_cant_blank t2 3 = Some (OSome 2) /\ ~ never_erases M2)
  /\ (py_cant_spin_out t3 2 = Some (OSome 1) /\ ~ never_spins_out M3)
  /\ ((exists segs rfuel fuel r, py_segments t4 segs rfuel fuel = Some (SegSome r)) /\ halts M4).
Proof.
  exists (py_show_comp halt_bug (Some (3, 2))), (py_show_comp blank_bug (Some (4, 2))), (py_show_comp spin_bug (Some (4, 2))),
    (py_show_comp seg_bad (Some (4, 2))).
  do 4 eexists. split; [|split; [|split; [|split; [|split; [|split; [|split]]]]]].
  1-4: apply shown_of; [repeat constructor; cbn; intuition congruence|intros s c pr sh tr E; in_range E|lia|lia].
  - split; [vm_compute; reflexivity|apply cant_halt_wrong].
  - split; [vm_compute; reflexivity|apply cant_blank_wrong].
  - split; [vm_compute; reflexivity|apply cant_spin_out_wrong].
  - split; [|apply seg_bad_wrong]. exists 2, 100%nat, 100%nat. eexists. vm_compute. reflexivity.
Qed.
