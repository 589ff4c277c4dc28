(** * Proofs about the simulators of machines/: whole inputs *)
From Verif Require Import Base TM TMFacts ProgModel ParseModel ParseSpec LinModel LinSpec LinProofs.
From Verif Require CProofs MachineProofs EnumProofs.

Lemma reported_unique X M n w n' w' : reported X M n w -> reported X M n' w' -> n = n' /\ w = w'.
Proof.
  intros (m & c & E & W & EN & NE & N) (m' & c' & E' & W' & EN' & NE' & N').
  assert (Q : m = m').
  { destruct (Nat.lt_trichotomy m m') as [L|[L|L]]; [|auto|].
    - elim (NE' m c L E EN).
    - elim (NE m' c' L E' EN'). }
  subst m'. rewrite E in E'. injection E' as <-. split; [|exact (MachineProofs.marks_unique _ _ _ W W')].
  destruct N as [(A & ->)|(A & ->)]; destruct N' as [(B & ->)|(B & ->)]; auto; contradiction.
Qed.

Lemma reported_late X M (k n w : Z) : (forall j d, Z.of_nat j < k -> steps M j init = Some d -> ~ ended M j d) -> reported X M n w -> k <= n.
Proof.
  intros NE (m & c & E & W & EN & _ & N). destruct (Z_lt_le_dec (Z.of_nat m) k) as [L|L]; [elim (NE m c L E EN)|].
  destruct N as [(_ & ->)|(_ & ->)]; [lia|]. destruct (sm_early X (c_state c)); lia.
Qed.

(** The array is clear and everything is at the start. *)
Definition clear (X : sim) (mm : mem) : Prop :=
  (forall i, 0 <= i < 2 * sm_limit X -> m_tape mm i = 0)
  /\ m_pos mm = sm_limit X /\ m_pmin mm = sm_limit X /\ m_pmax mm = sm_limit X + 1.

Section Sim.
Variable X : sim.
Hypothesis OK : sim_ok X.
Variable g : list (list instr).
Hypothesis TB : lin_table X g.

Lemma inv_init mm : clear X mm -> m_marks mm = 0 -> m_steps mm = 0 -> inv X g 0 init mm 0 0.
Proof.
  intros (T & P & PMI & PMA) M0 S0. destruct OK as (SO & CO & LI & LI2).
  split; [reflexivity|]. split; [auto|]. split; [cbn; lia|].
  split. { rewrite M0. split; [|cbn; lia]. exists []. split; [constructor|]. split; [intros p; split; [intros []|intros N; elim N; reflexivity]|reflexivity]. }
  split; [cbn; lia|]. split; [intros; cbn; auto|]. split; [intros; change (0 <= 0 < sm_colors X); lia|]. split; [cbn; lia|].
  split. { intros j d J F. replace j with 0%nat in F by lia. injection F as <-. cbn. lia. }
  split; [exists 0%nat, init; split; [lia|]; split; reflexivity|].
  split; [exists 0%nat, init; split; [lia|]; split; reflexivity|].
  split; [intros; reflexivity|]. lia.
Qed.

Lemma fin_wipe mm : fin X g mm ->
  (~ overruns X (lin_machine g) /\ exists mm', wipe X mm = Some mm' /\ clear X mm' /\ m_steps mm' = m_steps mm /\ m_marks mm' = m_marks mm
     /\ ((m_steps mm < sm_limit X /\ reported X (lin_machine g) (m_steps mm) (m_marks mm))
         \/ (sm_limit X <= m_steps mm /\ forall n w, reported X (lin_machine g) n w -> sm_limit X <= n)))
  \/ (overruns X (lin_machine g) /\ wipe X mm = None).
Proof.
  intros (m & c & lo & hi & E & ML & NE & (PMI & PMA & LO & HI) & T & OV & PH & R).
  destruct OK as (SO & CO & LI & LI2). set (lim := sm_limit X) in *.
  unfold wipe, in_tape. fold lim. rewrite PMI, PMA.
  replace (lim + lo <? lim + hi + 1) with true by lia. replace (0 <=? lim + lo) with true by lia.
  replace (lim + lo <? 2 * lim) with true by lia. replace (0 <=? lim + hi + 1 - 1) with true by lia. cbn [andb].
  destruct (Z.ltb_spec (lim + hi + 1 - 1) (2 * lim)) as [B|B]; cbn [negb].
  - left. split.
    { intros (c0 & E0 & P0 & NB0 & NE0). fold lim in E0, P0, NE0.
      assert (EQ : m = Z.to_nat lim).
      { destruct (Nat.eq_dec m (Z.to_nat lim)) as [|N]; [auto|]. destruct R as [(EN & _)|(EN & _)]; [|lia].
        elim (NE0 m c ltac:(lia) E EN). }
      subst m. rewrite E in E0. injection E0 as <-. specialize (PH ltac:(lia) NB0). lia. }
    eexists. split; [reflexivity|]. cbn [m_tape m_pos m_pmin m_pmax m_steps m_marks].
    split. { split; [|auto]. cbn [m_tape]. intros i I.
             destruct ((lim + lo <=? i) && (i <? lim + hi + 1)) eqn:D; [auto|]. apply T; [auto|]. rewrite PMI, PMA. lia. }
    split; [auto|]. split; [auto|].
    destruct R as [(EN & W & N)|(EQ & ST)].
    + assert (RP : reported X (lin_machine g) (m_steps mm) (m_marks mm)) by (exists m, c; tauto).
      destruct (Z_lt_le_dec (m_steps mm) lim) as [L|L]; [left; auto|right]. split; [auto|].
      intros n w RP'. destruct (reported_unique _ _ _ _ _ _ RP RP'). lia.
    + right. split; [auto|]. intros n w. apply reported_late. intros j d J. apply NE. lia.
  - right. split; [|reflexivity]. destruct (OV ltac:(lia)) as (A & P & NB). exists c. fold lim.
    replace (Z.to_nat lim) with m by lia. split; [auto|]. split; [auto|]. split; [auto|]. auto.
Qed.

Lemma run_whole mm : clear X mm -> m_marks mm = 0 -> m_steps mm = 0 ->
  (exists mm', run X (concat g) (Z.to_nat (sm_limit X) + 1) 0 mm = AtH mm' /\ fin X g mm')
  \/ (run X (concat g) (Z.to_nat (sm_limit X) + 1) 0 mm = Undefined /\ overruns X (lin_machine g)).
Proof.
  intros C M0 S0. rewrite Nat.add_1_r. apply (run_right X OK g TB _ 0 init mm 0 0 (inv_init mm C M0 S0)).
  - intros j d J. lia.
  - destruct OK as (_ & _ & LI & _). cbn. lia.
  - left. destruct OK. cbn. lia.
Qed.

End Sim.

(** ** Texts *)

(** An instruction as text. *)
Definition cellt (i : instr) : text := let '(c, s, t) := i in [48 + c; if s then 82 else 76; 65 + t].

Lemma cell_is i s : cell_text (Some i) s -> s = cellt i /\ (let '(c, _, t) := i in 0 <= c < 10 /\ 0 <= t < 26).
Proof. destruct i as [[c sh] t]. intros (C & T & ->). auto. Qed.

Lemma format_cell i s : cell_text (Some i) s -> format_instr i = s.
Proof.
  intros H. destruct (cell_is i s H) as (-> & B). destruct i as [[c sh] t]. cbn.
  rewrite !Z.mod_small by lia. rewrite (Z.add_comm c), (Z.add_comm t). auto.
Qed.

Ltac name_cell C := match goal with K : cell_text (Some _) _ |- _ => rename K into C end.
Ltac name_row R := match goal with K : row_text (map Some _) _ |- _ => rename K into R end.
Ltac name_prog R := match goal with K : prog_text (map (map Some) _) _ |- _ => rename K into R end.

Definition squeeze (s : text) : text := filter (fun c => negb (c =? 32)) s.

Lemma squeeze_cell i s : cell_text (Some i) s -> squeeze s = s.
Proof.
  intros H. destruct (cell_is i s H) as (-> & B). destruct i as [[c sh] t]. unfold squeeze. cbn [cellt filter].
  replace (48 + c =? 32) with false by lia. replace (65 + t =? 32) with false by lia.
  destruct sh; reflexivity.
Qed.

Lemma squeeze_app a b : squeeze (a ++ b) = squeeze a ++ squeeze b.
Proof. apply filter_app. Qed.

Lemma squeeze_row : forall row s, row_text (map Some row) s -> squeeze s = flat_map cellt row.
Proof.
  induction row as [|i row IH]; intros s H; [inversion H|]. inversion H; subst; clear H; name_cell C.
  - destruct row; [|discriminate]. cbn. rewrite app_nil_r. rewrite (squeeze_cell _ _ C). apply (cell_is _ _ C).
  - name_row R. rewrite !squeeze_app. cbn [map flat_map]. rewrite (squeeze_cell _ _ C), (IH _ R). rewrite (proj1 (cell_is _ _ C)). reflexivity.
Qed.

Lemma squeeze_prog : forall g s, prog_text (map (map Some) g) s -> squeeze s = flat_map cellt (concat g).
Proof.
  induction g as [|row g IH]; intros s H; [inversion H|]. inversion H; subst; clear H; name_row C.
  - destruct g; [|discriminate]. cbn. rewrite app_nil_r. apply squeeze_row. auto.
  - name_prog R. rewrite !squeeze_app. cbn [concat]. rewrite flat_map_app. rewrite (squeeze_row _ _ C), (IH _ R). reflexivity.
Qed.

Lemma format_row X : forall row s k rest, row_text (map Some row) s -> 1 <= sm_colors X ->
  k mod sm_colors X + Z.of_nat (length row) <= sm_colors X ->
  format_instrs X k (row ++ rest)
  = (if k mod sm_colors X =? 0 then [32; 32] else [32]) ++ s ++ format_instrs X (k + Z.of_nat (length row)) rest.
Proof.
  induction row as [|i row IH]; intros s k rest H C L; [inversion H|]. inversion H; subst; clear H; name_cell CT.
  - destruct row; [|discriminate]. cbn [app format_instrs length]. rewrite (format_cell _ _ CT). reflexivity.
  - name_row R. assert (LR : (1 <= length row)%nat) by (destruct row; [inversion R|cbn; lia]).
    cbn [app format_instrs]. rewrite (format_cell _ _ CT). cbn [length] in L.
    assert (K : (k + 1) mod sm_colors X = k mod sm_colors X + 1).
    { rewrite <- Z.add_mod_idemp_l by lia. apply Z.mod_small. pose proof (Z.mod_pos_bound k (sm_colors X)). lia. }
    rewrite (IH _ (k + 1) rest R C) by lia. rewrite K.
    replace (k mod sm_colors X + 1 =? 0) with false by (pose proof (Z.mod_pos_bound k (sm_colors X)); lia).
    cbn [length]. replace (k + 1 + Z.of_nat (length row)) with (k + Z.of_nat (S (length row))) by lia.
    rewrite <- !app_assoc. reflexivity.
Qed.

Lemma format_prog X : 1 <= sm_colors X -> forall g s k, prog_text (map (map Some) g) s ->
  Forall (fun row : list instr => Z.of_nat (length row) = sm_colors X) g -> k mod sm_colors X = 0 ->
  format_instrs X k (concat g) = [32; 32] ++ s.
Proof.
  intros C. induction g as [|row g IH]; intros s k H F K; [inversion H|]. inversion F as [|? ? LR F']; subst. inversion H; subst; clear H; name_row CT.
  - destruct g; [|discriminate]. cbn [concat]. rewrite (format_row X row s k [] CT C) by lia.
    rewrite K. cbn [format_instrs]. rewrite app_nil_r. reflexivity.
  - name_prog R. cbn [concat]. rewrite (format_row X row s0 k (concat g) CT C) by lia. rewrite K.
    rewrite (IH t (k + Z.of_nat (length row)) R F').
    + reflexivity.
    + rewrite LR. rewrite <- Z.add_mod_idemp_r, Z.mod_same, Z.add_0_r by lia. exact K.
Qed.

Lemma read_cells : forall l rest, Forall (fun i : instr => let '(c, _, t) := i in 0 <= c < 10 /\ 0 <= t < 26) l ->
  read_actions (length l) (flat_map cellt l ++ rest) = (l, rest).
Proof.
  induction l as [|[[c s] t] l IH]; intros rest F; [reflexivity|]. inversion F as [|? ? B F']; subst.
  cbn [length flat_map cellt app read_actions]. unfold read_action. cbn [next].
  rewrite IH by auto.
  replace (48 + c - 48) with c by lia. replace (65 + t - 65) with t by lia. destruct s; reflexivity.
Qed.

(** The first instruction apart. *)
Lemma table_first X g : lin_table X g -> exists l, concat g = (1, true, 1) :: l.
Proof. intros (_ & _ & row & g' & ->). cbn. eauto. Qed.

Lemma concat_length X g : lin_table X g -> length (concat g) = Z.to_nat (sm_states X * sm_colors X).
Proof.
  intros (L & F & _). rewrite <- L. clear L. induction F as [|row g (LR & _) F IH]; [reflexivity|].
  cbn [concat length]. rewrite app_length, IH. lia.
Qed.

Lemma table_bounds X g : sim_ok X -> lin_table X g ->
  Forall (fun i : instr => let '(c, _, t) := i in 0 <= c < 10 /\ 0 <= t < 26) (concat g).
Proof.
  intros (SO & CO & _) (_ & F & _). induction F as [|row g (_ & R) F IH]; [constructor|].
  cbn [concat]. apply Forall_app. split; [|exact IH]. eapply Forall_impl; [|exact R].
  intros [[c s] t] (A & B). lia.
Qed.

Lemma text_first X g s : lin_table X g -> lin_text g s -> exists s', s = [49; 82; 66] ++ s'.
Proof.
  intros (_ & _ & row & g' & ->) H. unfold lin_text in H. cbn [map] in H.
  assert (R : forall s0, row_text (Some (1, true, 1) :: map Some row) s0 -> exists s', s0 = [49; 82; 66] ++ s').
  { intros s0 Q. inversion Q; subst; clear Q; name_cell C; destruct (cell_is _ _ C) as (-> & _).
    - exists []. reflexivity.
    - exists ([32] ++ t). reflexivity. }
  inversion H; subst; clear H; match goal with K : row_text _ _ |- _ => destruct (R _ K) as (s' & ->) end.
  - eauto.
  - exists (s' ++ [32; 32] ++ t). reflexivity.
Qed.

(** What a line of input is read as, and shown as. *)
Lemma fed_read X g s rest : sim_ok X -> lin_table X g -> lin_text g s ->
  exists l, concat g = (1, true, 1) :: l
  /\ read_actions (Z.to_nat (sm_states X * sm_colors X) - 1) (fed s ++ rest) = (l, 10 :: rest)
  /\ [49; 82; 66] ++ format_instrs X 1 l = s.
Proof.
  intros OK TB TX. destruct (table_first X g TB) as (l & E). exists l. split; [exact E|].
  destruct (text_first X g s TB TX) as (s' & ES).
  assert (Q : squeeze s' = flat_map cellt l).
  { pose proof (squeeze_prog g s TX) as Q. rewrite E, ES, squeeze_app in Q. cbn [flat_map] in Q.
    change (squeeze [49; 82; 66]) with [49; 82; 66] in Q. change (cellt (1, true, 1)) with [49; 82; 66] in Q.
    apply app_inv_head in Q. exact Q. }
  pose proof (table_bounds X g OK TB) as B. rewrite E in B. inversion B as [|? ? _ B']; subst.
  pose proof (concat_length X g TB) as L. rewrite E in L. cbn [length] in L.
  split.
  - unfold fed. change (skipn 3 ([49; 82; 66] ++ s')) with s'. fold (squeeze s'). rewrite Q, <- app_assoc.
    rewrite <- L. cbn [Nat.sub]. rewrite Nat.sub_0_r. rewrite read_cells by exact B'. reflexivity.
  - assert (FL : Forall (fun row : list instr => Z.of_nat (length row) = sm_colors X) g).
    { destruct TB as (_ & F & _). eapply Forall_impl; [|exact F]. intros ? (? & _). auto. }
    destruct OK as (_ & CO & _).
    pose proof (format_prog X ltac:(lia) g _ 0 TX FL (Z.mod_0_l (sm_colors X) ltac:(lia))) as Q'. rewrite E in Q'. cbn [format_instrs] in Q'.
    rewrite Z.mod_0_l in Q' by lia. cbn [Z.eqb] in Q'. apply app_inv_head in Q'. exact Q'.
Qed.

(** ** The loop over the input *)

Lemma read_actions_end : forall k, snd (read_actions k []) = [].
Proof. induction k; [reflexivity|]. cbn. destruct (read_actions k []) as [l r]. cbn in *. auto. Qed.

(** The programs of an input. *)
Definition inputs (ps : list (list (list instr) * text)) : text := concat (map (fun p => fed (snd p)) ps).

Lemma loop_right X : sim_ok X -> forall ps fuel num mm, (length ps < fuel)%nat -> clear X mm ->
  Forall (fun p => lin_table X (fst p) /\ lin_text (fst p) (snd p)) ps ->
  (Forall (fun p => ~ overruns X (lin_machine (fst p))) ps ->
     exists out, prints X num ps out /\ main_loop X fuel num (inputs ps) mm = (out ++ [100; 111; 110; 101; 10], Exited))
  /\ (Exists (fun p => overruns X (lin_machine (fst p))) ps -> snd (main_loop X fuel num (inputs ps) mm) = Crashed).
Proof.
  intros OK. induction ps as [|[g s] ps IH]; intros fuel num mm FU CL F; (destruct fuel as [|fuel]; [cbn in FU; lia|]).
  - cbn [inputs concat map main_loop].
    destruct (read_actions (Z.to_nat (sm_states X * sm_colors X) - 1) []) as [l r] eqn:E.
    pose proof (read_actions_end (Z.to_nat (sm_states X * sm_colors X) - 1)) as R. rewrite E in R. cbn in R. subst r.
    cbn [next]. split.
    + intros _. exists []. split; [constructor|reflexivity].
    + intros Q. inversion Q.
  - destruct (Forall_inv F) as (TB & TX). pose proof (Forall_inv_tail F) as F'. cbn [fst snd] in TB, TX.
    change (inputs ((g, s) :: ps)) with (fed s ++ inputs ps). cbn [main_loop].
    destruct (fed_read X g s (inputs ps) OK TB TX) as (l & EG & RD & SH). rewrite RD. cbn [next].
    replace (10 =? -1) with false by reflexivity. rewrite <- EG.
    set (m0 := Mem (m_tape mm) (m_pos mm) (m_pmin mm) (m_pmax mm) 0 0).
    assert (CL0 : clear X m0) by exact CL.
    destruct (run_whole X OK g TB m0 CL0 eq_refl eq_refl) as [(mm' & RUN & FIN)|(RUN & OV)]; rewrite RUN.
    2: { split; [|reflexivity]. intros Q. elim (Forall_inv Q). exact OV. }
    destruct (fin_wipe X OK g mm' FIN) as [(NOV & w & W & CW & S1 & S2 & RES)|(OV & W)]; rewrite W.
    2: { split; [|reflexivity]. intros Q. elim (Forall_inv Q). exact OV. }
    destruct (IH fuel (num + 1) w ltac:(cbn in FU; lia) CW F') as (IH1 & IH2).
    split.
    + intros Q. pose proof (Forall_inv_tail Q) as Q'. destruct (IH1 Q') as (out & PR & ML). rewrite ML.
      destruct RES as [(LT & RP)|(GE & RP)].
      * eexists. split; [apply (prints_line X num g s ps _ _ out RP LT PR)|].
        replace (m_steps w <? sm_limit X) with true by lia. unfold line. rewrite EG. cbn [tl]. rewrite S1, S2.
        rewrite <- SH. rewrite <- !app_assoc. reflexivity.
      * exists out. split; [apply prints_none; auto|]. replace (m_steps w <? sm_limit X) with false by lia. reflexivity.
    + intros Q. apply Exists_cons in Q. destruct Q as [Q1|Q']; [cbn in Q1; contradiction|].
      specialize (IH2 Q'). destruct (main_loop X fuel (num + 1) (inputs ps) w) as [out e]. cbn in IH2 |- *. exact IH2.
Qed.

Lemma clear_init X : clear X (mem_init X).
Proof. split; [intros; reflexivity|]. split; [reflexivity|]. split; reflexivity. Qed.

Lemma fed_length s : (1 <= length (fed s))%nat.
Proof. unfold fed. rewrite app_length. cbn. lia. Qed.

Lemma inputs_length : forall ps, (length ps <= length (inputs ps))%nat.
Proof.
  induction ps as [|p ps IH]; [cbn; lia|]. unfold inputs in *. cbn [map concat length]. rewrite app_length.
  pose proof (fed_length (snd p)). lia.
Qed.

Lemma simulate_right X ps : sim_ok X -> Forall (fun p => lin_table X (fst p) /\ lin_text (fst p) (snd p)) ps ->
  Forall (fun p => ~ overruns X (lin_machine (fst p))) ps ->
  exists out, prints X 0 ps out /\ simulate X (inputs ps) = (out ++ [100; 111; 110; 101; 10], Exited).
Proof.
  intros OK F. unfold simulate. apply (loop_right X OK ps); [pose proof (inputs_length ps); lia|apply clear_init|exact F].
Qed.

Lemma simulate_overrun X ps : sim_ok X -> Forall (fun p => lin_table X (fst p) /\ lin_text (fst p) (snd p)) ps ->
  Exists (fun p => overruns X (lin_machine (fst p))) ps -> snd (simulate X (inputs ps)) = Crashed.
Proof.
  intros OK F. unfold simulate. apply (loop_right X OK ps); [pose proof (inputs_length ps); lia|apply clear_init|exact F].
Qed.

(** ** What the reports mean *)

Lemma beyond_blank M : forall m c p, steps M m init = Some c ->
  (forall j d, (j < m)%nat -> steps M j init = Some d -> c_pos d <> p) -> c_tape c p = 0.
Proof.
  induction m as [|m IH]; intros c p E V.
  - injection E as <-. reflexivity.
  - rewrite steps_S_r in E. destruct (steps M m init) as [d|] eqn:F; [|discriminate].
    unfold step in E. destruct (M (c_state d) (c_tape d (c_pos d))) as [[[co di] ne]|]; [|discriminate].
    injection E as <-. cbn. unfold write. destruct (Z.eqb_spec p (c_pos d)) as [->|N].
    + elim (V m d ltac:(lia) F eq_refl).
    + apply (IH d p eq_refl). intros j e J. apply V. lia.
Qed.

Lemma edge_spins M m c : steps M m init = Some c -> edge_spin M m c -> spins_out_from M c /\ never_halts M.
Proof.
  intros E (Z0 & pr & dir & A & D).
  assert (S : spins_out_from M c).
  { apply (spin_out_lemma M c dir pr A). intros i I. destruct (Z.eq_dec i 0) as [->|N].
    - rewrite Z.add_0_r, Z.sub_0_r. destruct dir; exact Z0.
    - apply (beyond_blank M m c _ E). intros j d J F. specialize (D j d ltac:(lia) F). destruct dir; lia. }
  split; [exact S|]. exact (spins_out_never_halts M m c E S).
Qed.

Lemma reported_true X M n w : reported X M n w ->
  exists m c, steps M m init = Some c /\ marks_are (c_tape c) w
  /\ (forall j d, (1 <= j < m)%nat -> steps M j init = Some d -> c_state d <> 7 /\ ~ is_blank d)
  /\ (n = Z.of_nat m /\ (c_state c = 7 \/ ((1 <= m)%nat /\ is_blank c))
      \/ n = Z.of_nat m + (if sm_early X (c_state c) then 0 else 1) /\ spins_out_from M c /\ never_halts M).
Proof.
  intros (m & c & E & W & EN & NE & N). exists m, c. split; [exact E|]. split; [exact W|]. split.
  { intros j d J F. specialize (NE j d ltac:(lia) F). unfold ended in NE. split; [tauto|]. intros B. apply NE. right. left. split; [lia|exact B]. }
  destruct N as [(A & ->)|(A & ->)]; [left; auto|right]. split; [reflexivity|]. apply (edge_spins M m c E).
  destruct EN as [EN|[EN|EN]]; tauto.
Qed.

(** In 2-4.c a spin-out can only be in B, where it is seen before the step is counted. *)
Lemma reported_2_4 g n w : lin_table sim_2_4 g -> reported sim_2_4 (lin_machine g) n w ->
  exists m c, steps (lin_machine g) m init = Some c /\ n = Z.of_nat m
  /\ (c_state c = 7 \/ ((1 <= m)%nat /\ is_blank c) \/ spins_out_from (lin_machine g) c).
Proof.
  intros (L & _ & row & g' & EG) (m & c & E & W & EN & NE & N). exists m, c. split; [exact E|].
  destruct N as [(A & ->)|(A & ->)]; [split; [reflexivity|tauto]|].
  assert (ES : edge_spin (lin_machine g) m c) by (destruct EN as [EN|[EN|EN]]; tauto).
  split; [|right; right; apply (edge_spins _ m c E ES)].
  destruct ES as (_ & pr & dir & K & _).
  assert (B : 0 <= c_state c < 2).
  { unfold lin_machine, table_get in K. cbn [fst snd] in K. destruct (Z.leb_spec 0 (c_state c)) as [P|P]; [|discriminate].
    cbn [andb] in K. change (0 <=? 0) with true in K. cbn iota in K.
    destruct (Z_lt_le_dec (c_state c) 2) as [Q|Q]; [lia|].
    rewrite (nth_overflow (map (map Some) g)) in K by (rewrite map_length; cbn in L; lia). discriminate K. }
  assert (c_state c <> 0).
  { intros Q. rewrite Q in K. rewrite EG in K. discriminate K. }
  assert (Q : c_state c = 1) by lia. rewrite Q. change (sm_early sim_2_4 1) with true. cbn iota. lia.
Qed.

(** ** Off the end of the array *)

(** A goes right to B, B goes right to A, on blanks; the rest does not matter. *)
Definition runaway (X : sim) : list (list instr) :=
  ((1, true, 1) :: repeat (1, true, 0) (Z.to_nat (sm_colors X) - 1))
  :: repeat (repeat (1, true, 0) (Z.to_nat (sm_colors X))) (Z.to_nat (sm_states X) - 1).

Lemma runaway_table X : sim_ok X -> lin_table X (runaway X).
Proof.
  intros (SO & CO & _). unfold runaway. split; [cbn [length]; rewrite repeat_length; lia|]. split.
  - assert (C : forall k, Forall (fun i : instr => let '(pr, _, tr) := i in 0 <= pr < sm_colors X /\ (0 <= tr < sm_states X \/ tr = 7)) (repeat (1, true, 0) k)).
    { intros k. apply Forall_forall. intros i I. apply repeat_spec in I. subst i. lia. }
    constructor.
    + split; [cbn [length]; rewrite repeat_length; lia|]. constructor; [lia|apply C].
    + apply Forall_forall. intros r R. apply repeat_spec in R. subst r. rewrite repeat_length. split; [lia|apply C].
  - eauto.
Qed.

Lemma runaway_step X s : sim_ok X -> s = 0 \/ s = 1 -> lin_machine (runaway X) s 0 = Some (1, true, 1 - s).
Proof.
  intros (SO & CO & _) [->| ->]; unfold lin_machine, table_get, runaway; [reflexivity|].
  cbn [fst snd Z.leb Z.compare andb]. change (0 <=? 1) with true. change (0 <=? 0) with true. cbn [andb].
  destruct (Z.to_nat (sm_states X) - 1)%nat as [|n] eqn:E; [lia|].
  destruct (Z.to_nat (sm_colors X)) as [|k] eqn:F; [lia|]. reflexivity.
Qed.

Lemma runaway_steps X : sim_ok X -> forall n, exists c, steps (lin_machine (runaway X)) n init = Some c
  /\ c_pos c = Z.of_nat n /\ (c_state c = 0 \/ c_state c = 1) /\ (forall p, c_tape c p = if (0 <=? p) && (p <? Z.of_nat n) then 1 else 0).
Proof.
  intros OK. induction n as [|n (c & E & P & SS & T)].
  - exists init. split; [reflexivity|]. split; [reflexivity|]. split; [left; reflexivity|]. intros p.
    change (Z.of_nat 0) with 0. destruct ((0 <=? p) && (p <? 0)) eqn:D; [lia|reflexivity].
  - exists (Cfg (1 - c_state c) (c_pos c + 1) (write (c_tape c) (c_pos c) 1)).
    assert (Z0 : c_tape c (c_pos c) = 0) by (rewrite T, P; replace (Z.of_nat n <? Z.of_nat n) with false by lia; rewrite andb_false_r; auto).
    split; [rewrite steps_S_r, E; unfold step; rewrite Z0, (runaway_step X _ OK SS); reflexivity|].
    cbn [c_pos c_state c_tape]. split; [lia|]. split; [lia|]. intros p. unfold write. rewrite T, P.
    replace (Z.of_nat (S n)) with (Z.of_nat n + 1) by lia.
    destruct (Z.eqb_spec p (Z.of_nat n)); destruct ((0 <=? p) && (p <? Z.of_nat n)) eqn:D; destruct ((0 <=? p) && (p <? Z.of_nat n + 1)) eqn:D'; lia.
Qed.

Lemma runaway_overruns X : sim_ok X -> overruns X (lin_machine (runaway X)).
Proof.
  intros OK. destruct (runaway_steps X OK (Z.to_nat (sm_limit X))) as (c & E & P & S & T).
  assert (LI : 1 <= sm_limit X) by apply OK.
  exists c. split; [exact E|]. split; [lia|]. split.
  - intros B. specialize (B 0). rewrite T in B. assert (Q : 0 <? Z.of_nat (Z.to_nat (sm_limit X)) = true) by (apply Z.ltb_lt; lia). rewrite Q in B. discriminate B.
  - intros j d J F. destruct (runaway_steps X OK j) as (d' & F' & P' & S' & T'). rewrite F in F'. injection F' as <-.
    intros [H|[(H1 & H2)|(_ & pr & dir & H & _)]].
    + lia.
    + specialize (H2 0). rewrite T' in H2. assert (Q : 0 <? Z.of_nat j = true) by (apply Z.ltb_lt; lia). rewrite Q in H2. discriminate H2.
    + rewrite (runaway_step X _ OK S') in H. injection H as _ _ H. lia.
Qed.

Lemma text_exists X g : sim_ok X -> lin_table X g -> exists s, lin_text g s.
Proof.
  intros (SO & CO & _) (L & F & _).
  assert (R : forall row : list instr, (1 <= length row)%nat ->
    Forall (fun i : instr => let '(pr, _, tr) := i in 0 <= pr < sm_colors X /\ (0 <= tr < sm_states X \/ tr = 7)) row ->
    exists s, row_text (map Some row) s).
  { induction row as [|[[c sh] t] row IH]; intros LR FR; [cbn in LR; lia|]. inversion FR as [|? ? B FR']; subst.
    assert (CT : cell_text (Some (c, sh, t)) [48 + c; if sh then 82 else 76; 65 + t]) by (cbn; split; [lia|split; [lia|reflexivity]]).
    destruct row as [|i row]; [eexists; apply row_one; exact CT|].
    destruct IH as (s & S); [cbn; lia|exact FR'|]. eexists. apply row_cons; [exact CT|exact S]. }
  assert (LG : (1 <= length g)%nat) by lia. clear L. unfold lin_text.
  induction F as [|row g (LR & FR) F IH]; [cbn in LG; lia|].
  destruct (R row ltac:(lia) FR) as (s & S). destruct g as [|row' g].
  - eexists. apply prog_one. exact S.
  - destruct IH as (t & T); [cbn; lia|]. eexists. apply prog_cons; [exact S|exact T].
Qed.

Lemma overrun_there X : sim_ok X -> exists g s, lin_table X g /\ lin_text g s /\ snd (simulate X (fed s)) = Crashed.
Proof.
  intros OK. pose proof (runaway_table X OK) as TB. destruct (text_exists X _ OK TB) as (s & TX).
  exists (runaway X), s. split; [exact TB|]. split; [exact TX|].
  pose proof (simulate_overrun X [(runaway X, s)] OK) as Q. unfold inputs in Q. cbn [map concat snd] in Q. rewrite app_nil_r in Q.
  apply Q.
  - constructor; [split; [exact TB|exact TX]|constructor].
  - constructor. cbn. apply runaway_overruns. exact OK.
Qed.
