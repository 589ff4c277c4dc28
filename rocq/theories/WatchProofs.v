(** * Proofs about watching a run (C101) *)
From Coq Require Import Sorted.
From Verif Require Import Base TM ProgModel TapeModel TapeSpec TapeProofs TMFacts RulesModel RulesProofs QuickModel QuickProofs ProverModel MachineProofs
  LawSpec LawProofs NumModel ParseModel NumShowModel MachLineProofs TapeShowModel TapeShowSpec TapeShowProofs WatchModel WatchSpec.
Local Open Scope string_scope.
Local Open Scope list_scope.
Local Open Scope Z_scope.

(** ** Watching changes nothing *)
Section W.
Variable comp : Z -> Z -> lookup.

Definition w_go (fuel : nat) (cycle : Z) (pv : prover) (t : tape) (state step : Z) (blanks : blanks_t) (rulapp : Z)
    (sus : option (Z * Z)) : watched :=
  let fin e sus := Watched (MachR e step cycle rulapp t blanks sus pv) state [] in
  match comp state (t_scan t) with
  | LKey s => fin (MUndfnd s) sus
  | LLoop => fin MInfrul sus
  | LGot (color, shift, next_state) =>
      if (state =? next_state) && t_at_edge t shift then fin MSpnout sus
      else
        let '(t, stepped) := py_step t shift color (state =? next_state) in
        let step := if step =? -1 then step else step + stepped in
        let fin e b := Watched (MachR e step cycle rulapp t b sus pv) next_state [] in
        if (color =? 0) && t_blank t
        then if blanks_has blanks next_state then fin MInfrul blanks
             else if next_state =? 0 then fin MInfrul ((next_state, step) :: blanks)
                  else py_watch_loop comp fuel (cycle + 1) pv t next_state step ((next_state, step) :: blanks) rulapp sus
        else py_watch_loop comp fuel (cycle + 1) pv t next_state step blanks rulapp sus
  end.
Lemma py_watch_loop_S fuel cycle pv t state step blanks rulapp sus :
  py_watch_loop comp (S fuel) cycle pv t state step blanks rulapp sus =
  and_shown (Shown step cycle state t)
  (let '(pv, tr) := py_try_rule comp pv cycle state t in
  match tr with
  | TInfinite => Watched (MachR MInfrul step cycle rulapp t blanks sus pv) state []
  | TConfigLimit => Watched (MachR MCfglim step cycle rulapp t blanks sus pv) state []
  | TErr | TMult => Watched (MachR MErr step cycle rulapp t blanks sus pv) state []
  | TSuspected a b => w_go fuel cycle pv t state step blanks rulapp (Some (a, b))
  | TNone | TLoop => w_go fuel cycle pv t state step blanks rulapp sus
  | TRule r =>
      match py_apply_rule r t with
      | EvApplied times t => py_watch_loop comp fuel (cycle + 1) pv t state (-1) blanks (rulapp + times) sus
      | EvNone => w_go fuel cycle pv t state step blanks rulapp sus
      | EvIndex | EvSymbolic => Watched (MachR MErr step cycle rulapp t blanks sus pv) state []
      end
  end).
Proof. reflexivity. Qed.

Lemma watch_loop_same fuel : forall cycle pv t state step blanks rulapp sus,
  w_mach (py_watch_loop comp fuel cycle pv t state step blanks rulapp sus)
  = py_machine_loop comp fuel cycle pv t state step blanks rulapp sus.
Proof.
  induction fuel as [|fuel IH]; intros; [reflexivity|]. rewrite py_machine_loop_S, py_watch_loop_S. cbn [and_shown w_mach].
  assert (G : forall pv sus, w_mach (w_go fuel cycle pv t state step blanks rulapp sus) = py_go comp fuel cycle pv t state step blanks rulapp sus).
  { clear pv sus. intros pv sus. unfold w_go, py_go. destruct (comp state (t_scan t)) as [[[color shift] next]| |]; try reflexivity.
    cbn zeta. destruct (_ && t_at_edge _ _); [reflexivity|]. destruct (py_step _ _ _ _) as [t' n].
    destruct (_ && t_blank _); [|apply IH]. destruct (blanks_has _ _); [reflexivity|]. destruct (next =? 0); [reflexivity|apply IH]. }
  destruct (py_try_rule comp pv cycle state t) as [pv' [ |r| | | |a b| | ]]; try reflexivity; try apply G.
  destruct (py_apply_rule r t); try reflexivity; [apply G|apply IH].
Qed.

(** ** The lines and the end *)
Ltac loops IH :=
  match goal with |- context [py_watch_loop _ _ ?a ?b ?c ?d ?e ?f ?g ?h] => specialize (IH a b c d e f g h) end.

Lemma watch_numbered fuel : forall cycle pv t state step blanks rulapp sus,
  let w := py_watch_loop comp fuel cycle pv t state step blanks rulapp sus in
  m_cycles (w_mach w) = cycle + Z.of_nat (length (w_shown w)) - 1
  /\ forall k l, nth_error (w_shown w) k = Some l -> sh_cycle l = cycle + Z.of_nat k.
Proof.
  induction fuel as [|fuel IH]; intros cycle pv t state step blanks rulapp sus.
  { cbn. split; [lia|]. intros [|k] l; discriminate. }
  cbn zeta in *. rewrite py_watch_loop_S. cbn [and_shown w_mach w_shown length nth_error].
  match goal with |- context [w_mach ?x] => set (w := x) end.
  assert (H : (w_shown w = [] /\ m_cycles (w_mach w) = cycle) \/
    (m_cycles (w_mach w) = cycle + 1 + Z.of_nat (length (w_shown w)) - 1
     /\ forall k l, nth_error (w_shown w) k = Some l -> sh_cycle l = cycle + 1 + Z.of_nat k)).
  { assert (G : forall pv sus, let w := w_go fuel cycle pv t state step blanks rulapp sus in (w_shown w = [] /\ m_cycles (w_mach w) = cycle) \/
      (m_cycles (w_mach w) = cycle + 1 + Z.of_nat (length (w_shown w)) - 1
       /\ forall k l, nth_error (w_shown w) k = Some l -> sh_cycle l = cycle + 1 + Z.of_nat k)).
    { clear w pv sus. intros pv sus. cbn zeta. unfold w_go. destruct (comp state (t_scan t)) as [[[color shift] next]| |]; try (left; split; reflexivity).
      cbn zeta. destruct (_ && t_at_edge _ _); [left; split; reflexivity|]. destruct (py_step _ _ _ _) as [t' n].
      destruct (_ && t_blank _); [|right; apply IH]. destruct (blanks_has _ _); [left; split; reflexivity|].
      destruct (next =? 0); [left; split; reflexivity|right; apply IH]. }
    unfold w. destruct (py_try_rule comp pv cycle state t) as [pv' [ |r| | | |a b| | ]]; try (left; split; reflexivity); try apply G.
    destruct (py_apply_rule r t); try (left; split; reflexivity); [apply G|right; apply IH]. }
  clearbody w. destruct H as [(E & C)|(C & N)].
  - rewrite E, C. cbn [length]. split; [lia|]. intros [|k] l X; cbn in X; [inv X; cbn [sh_cycle]; lia|destruct k; discriminate X].
  - split; [lia|]. intros [|k] l X; cbn [nth_error] in X; [inv X; cbn [sh_cycle]; lia|]. apply N in X. lia.
Qed.

Lemma watch_end fuel : forall cycle pv t state step blanks rulapp sus,
  let w := py_watch_loop comp fuel cycle pv t state step blanks rulapp sus in
  m_end (w_mach w) = MXlimit /\ length (w_shown w) = fuel
  \/ exists pre l, w_shown w = pre ++ [l]
     /\ (m_end (w_mach w) = MInfrul /\ m_blanks (w_mach w) <> []
         \/ sh_step l = m_steps (w_mach w) /\ sh_tape l = m_tape (w_mach w) /\ sh_state l = w_state w).
Proof.
  induction fuel as [|fuel IH]; intros cycle pv t state step blanks rulapp sus; [left; split; reflexivity|].
  cbn zeta in *. rewrite py_watch_loop_S. cbn [and_shown w_mach w_shown length w_state].
  match goal with |- context [w_mach ?x] => set (w := x) end.
  assert (H : (w_shown w = [] /\ (m_end (w_mach w) = MInfrul /\ m_blanks (w_mach w) <> []
         \/ step = m_steps (w_mach w) /\ t = m_tape (w_mach w) /\ state = w_state w)) \/
     m_end (w_mach w) = MXlimit /\ length (w_shown w) = fuel
     \/ exists pre l, w_shown w = pre ++ [l]
     /\ (m_end (w_mach w) = MInfrul /\ m_blanks (w_mach w) <> []
         \/ sh_step l = m_steps (w_mach w) /\ sh_tape l = m_tape (w_mach w) /\ sh_state l = w_state w)).
  { assert (G : forall pv sus, let w := w_go fuel cycle pv t state step blanks rulapp sus in
      (w_shown w = [] /\ (m_end (w_mach w) = MInfrul /\ m_blanks (w_mach w) <> []
         \/ step = m_steps (w_mach w) /\ t = m_tape (w_mach w) /\ state = w_state w)) \/
     m_end (w_mach w) = MXlimit /\ length (w_shown w) = fuel
     \/ exists pre l, w_shown w = pre ++ [l]
     /\ (m_end (w_mach w) = MInfrul /\ m_blanks (w_mach w) <> []
         \/ sh_step l = m_steps (w_mach w) /\ sh_tape l = m_tape (w_mach w) /\ sh_state l = w_state w)).
    { clear w pv sus. intros pv sus. cbn zeta. unfold w_go.
      destruct (comp state (t_scan t)) as [[[color shift] next]| |]; try (left; split; [reflexivity|right; repeat split]).
      cbn zeta. destruct (_ && t_at_edge _ _); [left; split; [reflexivity|right; repeat split]|]. destruct (py_step _ _ _ _) as [t' n].
      destruct (_ && t_blank _); [|right; apply IH]. destruct (blanks_has blanks next) eqn:BH.
      - left. split; [reflexivity|left]. cbn. split; [reflexivity|]. intros ->. discriminate BH.
      - destruct (next =? 0); [left; split; [reflexivity|left; cbn; split; [reflexivity|discriminate]]|right; apply IH]. }
    unfold w. destruct (py_try_rule comp pv cycle state t) as [pv' [ |r| | | |a b| | ]]; try (left; split; [reflexivity|right; repeat split]); try apply G.
    destruct (py_apply_rule r t); try (left; split; [reflexivity|right; repeat split]); [apply G|right; apply IH]. }
  clearbody w. destruct H as [(E & H)|[(E & L)|(pre & l & E & H)]].
  - right. rewrite E. exists [], (Shown step cycle state t). cbn. split; [reflexivity|]. exact H.
  - left. split; [exact E|congruence].
  - right. exists (Shown step cycle state t :: pre), l. split; [rewrite E; reflexivity|exact H].
Qed.
End W.

(** ** The lines are true *)
Section True.
Variable M : program.

Definition wrun (w : watched) (n : nat) : Prop :=
  exists ns, Forall2 (true_line M) (w_shown w) ns /\ Sorted Peano.lt ns /\ Forall (Peano.le n) ns
  /\ (exists nf, true_line M (Shown (m_steps (w_mach w)) 0 (w_state w) (m_tape (w_mach w))) nf /\ (n <= nf)%nat
      /\ Forall (fun k => (k <= nf)%nat) ns
      /\ (m_end (w_mach w) = MXlimit -> Forall (fun k => (k < nf)%nat) ns))
  /\ (m_rulapp (w_mach w) = 0 -> m_steps (w_mach w) <> -1 /\ Forall (fun l => sh_step l <> -1) (w_shown w)).

Lemma wrun_later w n m : (m <= n)%nat -> wrun w n -> wrun w m.
Proof.
  intros L (ns & F & S0 & G & (nf & A & B & C & D) & R). exists ns. split; [exact F|]. split; [exact S0|].
  split; [eapply Forall_impl; [|exact G]; cbn; intros; lia|]. split; [exists nf; split; [exact A|split; [lia|split; assumption]]|exact R].
Qed.
Lemma wrun_more w n l : wrun w (S n) -> true_line M l n -> (m_rulapp (w_mach w) = 0 -> sh_step l <> -1) -> wrun (and_shown l w) n.
Proof.
  intros (ns & F & S0 & G & (nf & A & B & C & D) & R) T NR. exists (n :: ns). cbn [and_shown w_shown w_mach w_state].
  split; [constructor; assumption|]. split.
  { constructor; [exact S0|]. destruct G; constructor. lia. }
  split; [constructor; [lia|]; eapply Forall_impl; [|exact G]; cbn; intros; lia|].
  split; [exists nf; split; [exact A|split; [lia|split; [constructor; [lia|exact C]|intros X; constructor; [lia|exact (D X)]]]]|].
  intros X. destruct (R X). split; [assumption|constructor; auto].
Qed.

Lemma watch_true fuel : forall cycle pv t state step blanks rulapp sus c n,
  steps M n init = Some c -> represents t c -> canon t -> c_state c = state -> step = -1 \/ step = Z.of_nat n ->
  0 <= rulapp -> (rulapp = 0 -> step <> -1) -> pv_distinct pv ->
  let w := py_watch_loop (plain M) fuel cycle pv t state step blanks rulapp sus in
  m_rulapp (w_mach w) = 0 \/ lawful M (m_prover (w_mach w)) -> wrun w n.
Proof.
  induction fuel as [|fuel IH]; intros cycle pv t state step blanks rulapp sus c n Hr Hrep Hc Hst Hs R0 NS D w OK.
  { exists []. cbn. split; [constructor|]. split; [constructor|]. split; [constructor|]. split.
    - exists n. split; [|split; [lia|split; [constructor|constructor]]]. exists c. cbn. repeat split; auto. destruct Hs; auto; contradiction.
    - intros X. split; [auto|constructor]. }
  assert (T : forall cyc, true_line M (Shown step cyc state t) n).
  { exists c. cbn. repeat split; auto. destruct Hs; auto; contradiction. }
  unfold w in *. clear w. rewrite py_watch_loop_S in *. cbn [and_shown w_mach w_shown] in OK.
  destruct (py_try_rule (plain M) pv cycle state t) as [pv' tr] eqn:TR.
  destruct (try_rule_good M _ _ _ _ _ _ Hc D TR) as (SM & D' & TG).
  assert (FIN : forall e cyc su pvx, e <> MXlimit -> wrun (and_shown (Shown step cycle state t) (Watched (MachR e step cyc rulapp t blanks su pvx) state [])) n).
  { intros e cyc su pvx NX. exists [n]. cbn. split; [repeat constructor; apply T|]. split; [repeat constructor|]. split; [repeat constructor|].
    split; [exists n; split; [apply T|split; [lia|split; [repeat constructor|contradiction]]]|]. intros X. split; [auto|repeat constructor; cbn; auto]. }
  assert (MORE : forall w, wrun w (S n) -> rulapp <= m_rulapp (w_mach w) -> wrun (and_shown (Shown step cycle state t) w) n).
  { intros w W L. apply wrun_more; auto. cbn. intros X. apply NS. lia. }
  assert (G : forall su, m_rulapp (w_mach (w_go (plain M) fuel cycle pv' t state step blanks rulapp su)) = 0
      \/ lawful M (m_prover (w_mach (w_go (plain M) fuel cycle pv' t state step blanks rulapp su))) ->
     wrun (and_shown (Shown step cycle state t) (w_go (plain M) fuel cycle pv' t state step blanks rulapp su)) n).
  { clear OK. intros su OK. unfold w_go in *. cbn zeta in *.
    destruct (plain M state (t_scan t)) as [[[color shift] next]|s|] eqn:EP; [|apply FIN; discriminate..].
    assert (EG : M state (t_scan t) = Some (color, shift, next)) by (unfold plain in EP; destruct (M state (t_scan t)); [inversion EP; reflexivity|discriminate EP]).
    destruct ((state =? next) && t_at_edge t shift) eqn:ES; [apply FIN; discriminate|].
    destruct (py_step t shift color (state =? next)) as [tp' k] eqn:ESTEP.
    destruct (prog_step _ _ _ _ _ _ _ _ _ Hc Hrep Hst EG ESTEP) as (K & C' & c' & A' & R' & S').
    set (step' := if step =? -1 then step else step + k) in *.
    assert (RUN : steps M (n + Z.to_nat k) init = Some c') by (rewrite (steps_add_some _ _ _ _ _ Hr); auto).
    assert (ST' : step' = -1 \/ step' = Z.of_nat (n + Z.to_nat k)).
    { unfold step'. destruct (Z.eqb_spec step (-1)); [auto|]. right. destruct Hs; lia. }
    assert (NS' : rulapp = 0 -> step' <> -1).
    { intros X. specialize (NS X). unfold step'. destruct (Z.eqb_spec step (-1)); [contradiction|]. destruct Hs; lia. }
    assert (LATER : forall w, wrun w (n + Z.to_nat k) -> wrun w (S n)) by (intros w; apply wrun_later; lia).
    assert (FIN2 : forall b cyc pvx, wrun (Watched (MachR MInfrul step' cyc rulapp tp' b su pvx) next []) (n + Z.to_nat k)).
    { intros b cyc pvx. exists []. cbn. split; [constructor|]. split; [constructor|]. split; [constructor|]. split.
      - exists (n + Z.to_nat k)%nat. split; [|split; [lia|split; [constructor|discriminate]]]. exists c'. cbn. repeat split; auto. destruct ST'; auto; contradiction.
      - intros X. split; [auto|constructor]. }
    assert (REC : forall b, m_rulapp (w_mach (py_watch_loop (plain M) fuel (cycle + 1) pv' tp' next step' b rulapp su)) = 0
        \/ lawful M (m_prover (w_mach (py_watch_loop (plain M) fuel (cycle + 1) pv' tp' next step' b rulapp su))) ->
       wrun (and_shown (Shown step cycle state t) (py_watch_loop (plain M) fuel (cycle + 1) pv' tp' next step' b rulapp su)) n).
    { intros b O. apply MORE; [|rewrite watch_loop_same; apply py_rulapp_mono]. apply LATER. apply (IH _ _ _ _ _ _ _ _ c'); auto. }
    destruct ((color =? 0) && t_blank tp'); [|apply REC; exact OK].
    destruct (blanks_has blanks next); [apply MORE; [apply LATER, FIN2|cbn; lia]|].
    destruct (next =? 0); [apply MORE; [apply LATER, FIN2|cbn; lia]|apply REC; exact OK]. }
  destruct tr as [ |r| | | |a b| | ]; try (apply G; exact OK); try (apply FIN; discriminate).
  destruct (py_apply_rule r t) as [| | |times t'] eqn:A; try (apply G; exact OK); try (apply FIN; discriminate).
  pose proof (py_apply_rule_pos _ _ _ _ A) as TP. rewrite watch_loop_same in OK.
  pose proof (py_rulapp_mono (plain M) fuel (cycle + 1) pv' t' state (-1) blanks (rulapp + times) sus) as MO.
  destruct OK as [OK|L]; [lia|]. destruct TG as (ms & H & CV).
  assert (L' : lawful M pv').
  { eapply lawful_sub; [|exact L]. apply loop_keeps. intros. eapply try_keeps; eauto. }
  destruct (law_applied M state r t times t' Hc (D' _ _ _ H) (L' _ _ _ _ _ H CV Hc) A) as (C' & LD).
  destruct (leads_go _ _ _ _ _ _ _ LD Hr Hrep Hst) as (n' & c' & N' & R' & S' & P').
  apply MORE; [|rewrite watch_loop_same; lia]. apply (wrun_later _ n'); [lia|].
  apply (IH _ _ _ _ _ _ _ _ c'); auto; try lia. right. rewrite watch_loop_same. exact L.
Qed.
End True.

(** ** Statements about runs *)
Lemma watch_same comp lim : fst (py_watch comp lim) = py_machine_run comp lim.
Proof. apply watch_loop_same. Qed.

Lemma sorted_app_le ns nf : Sorted Peano.lt ns -> Forall (fun k => (k <= nf)%nat) ns -> Sorted Peano.le (ns ++ [nf]).
Proof.
  induction ns as [|a ns IH]; intros S0 F; [repeat constructor|]. inv S0. inv F. cbn [app]. constructor; [auto|].
  destruct ns as [|b ns]; cbn [app]; constructor; [lia|]. inv H2. lia.
Qed.
Lemma sorted_lt_le ns : Sorted Peano.lt ns -> Sorted Peano.le ns.
Proof. induction 1; constructor; auto. destruct H0; constructor. lia. Qed.

Lemma watch_lines_true M lim : let m := py_machine_run (plain M) lim in m_rulapp m = 0 \/ lawful M (m_prover m) ->
  exists ns, Forall2 (true_line M) (snd (py_watch (plain M) lim)) ns
  /\ Sorted Peano.lt (firstn (Z.to_nat (m_cycles m + 1)) ns) /\ Sorted Peano.le ns.
Proof.
  intros m OK. unfold py_watch. change (Tape [] 0 []) with init_tape. set (w := py_watch_loop _ _ _ _ _ _ _ _ _ _).
  assert (E : w_mach w = m) by apply watch_loop_same.
  destruct (watch_true M lim 0 pv_new init_tape 0 0 [] 0 None init 0) as (ns & F & S0 & _ & (nf & T & _ & L & _) & _); auto using canon_init, represents_init; try lia.
  { intros s ms r (v & [] & _). }
  { fold w. rewrite E. exact OK. }
  fold w in F, T. pose proof (proj1 (watch_numbered (plain M) lim 0 pv_new init_tape 0 0 [] 0 None)) as C. fold w in C.
  assert (LN : length ns = length (w_shown w)) by (clear - F; induction F; cbn; congruence).
  assert (FN : Z.to_nat (m_cycles m + 1) = length ns) by (rewrite <- E, C, LN; lia).
  cbn [snd]. rewrite FN. destruct (shows_last (w_mach w)).
  - exists (ns ++ [nf]). split; [|split].
    + apply Forall2_app; [exact F|]. constructor; [|constructor]. exact T.
    + rewrite firstn_app, firstn_all, Nat.sub_diag, app_nil_r. exact S0.
    + apply sorted_app_le; assumption.
  - exists ns. rewrite app_nil_r, firstn_all. split; [exact F|]. split; [exact S0|apply sorted_lt_le; exact S0].
Qed.

Lemma watch_lines_steps M lim : let m := py_machine_run (plain M) lim in m_rulapp m = 0 ->
  forall l, In l (snd (py_watch (plain M) lim)) -> sh_step l <> -1.
Proof.
  intros m R l. unfold py_watch. change (Tape [] 0 []) with init_tape. set (w := py_watch_loop _ _ _ _ _ _ _ _ _ _).
  assert (E : w_mach w = m) by apply watch_loop_same.
  destruct (watch_true M lim 0 pv_new init_tape 0 0 [] 0 None init 0) as (ns & _ & _ & _ & _ & P); auto using canon_init, represents_init; try lia.
  { intros s ms r (v & [] & _). }
  { fold w. rewrite E. auto. }
  fold w in P. rewrite E in P. destruct (P R) as (P1 & P2). cbn [snd]. rewrite in_app_iff. rewrite Forall_forall in P2. intros [X|X]; [auto|].
  destruct (shows_last _); [|destruct X]. destruct X as [<-|[]]. cbn. rewrite E. exact P1.
Qed.

Lemma watch_lines_numbered comp lim : let m := py_machine_run comp lim in let lines := snd (py_watch comp lim) in
  (forall k l, nth_error lines k = Some l -> sh_cycle l = Z.of_nat k)
  /\ Z.of_nat (length lines) = m_cycles m + (if shows_last m then 2 else 1).
Proof.
  cbn zeta. unfold py_watch. change (Tape [] 0 []) with init_tape. set (w := py_watch_loop _ _ _ _ _ _ _ _ _ _).
  assert (E : w_mach w = py_machine_run comp lim) by apply watch_loop_same. rewrite <- E.
  destruct (watch_numbered comp lim 0 pv_new init_tape 0 0 [] 0 None) as (C & N). fold w in C, N. cbn [snd]. split.
  - intros k l X. destruct (Nat.lt_ge_cases k (length (w_shown w))) as [K|K].
    + rewrite nth_error_app1 in X by exact K. apply N in X. lia.
    + rewrite nth_error_app2 in X by exact K. destruct (shows_last _); [|destruct (k - _)%nat; discriminate X].
      destruct (k - length (w_shown w))%nat as [|j] eqn:J; [|destruct j; discriminate X]. inv X. cbn [sh_cycle]. lia.
  - rewrite app_length, Nat2Z.inj_add. destruct (shows_last _); cbn [length]; lia.
Qed.

Lemma watch_last comp lim : let m := py_machine_run comp lim in let lines := snd (py_watch comp lim) in
  m_end m <> MErr -> (m_end m = MXlimit -> m_blanks m <> []) ->
  exists pre l, lines = pre ++ [l] /\ sh_step l = m_steps m /\ sh_tape l = m_tape m
  /\ (forall s, m_end m = MUndfnd s -> exists pre' l', pre = pre' ++ [l'] /\ sh_cycle l = sh_cycle l' + 1
       /\ sh_step l' = sh_step l /\ sh_state l' = sh_state l /\ sh_tape l' = sh_tape l).
Proof.
  cbn zeta. unfold py_watch. change (Tape [] 0 []) with init_tape. set (w := py_watch_loop _ _ _ _ _ _ _ _ _ _).
  assert (E : w_mach w = py_machine_run comp lim) by apply watch_loop_same. rewrite <- E. intros NE NX. cbn [snd].
  pose proof (watch_end comp lim 0 pv_new init_tape 0 0 [] 0 None) as H.
  destruct (watch_numbered comp lim 0 pv_new init_tape 0 0 [] 0 None) as (C & N). cbn zeta in H. fold w in C, N, H. clearbody w.
  destruct (shows_last (w_mach w)) eqn:SL.
  - exists (w_shown w). eexists. split; [reflexivity|]. cbn [sh_step sh_tape sh_state sh_cycle]. split; [reflexivity|]. split; [reflexivity|].
    intros s U. destruct H as [(X & _)|(pre & l & P & [(X & _)|(A & B & D)])]; [congruence..|].
    exists pre, l. split; [exact P|]. split; [|auto]. specialize (N (length pre) l). rewrite P, nth_error_app2, Nat.sub_diag in N by lia.
    specialize (N eq_refl). rewrite P, app_length in C. cbn [length] in C. lia.
  - assert (NU : forall s, m_end (w_mach w) <> MUndfnd s) by (intros s X; unfold shows_last in SL; rewrite X in SL; discriminate SL).
    assert (BN : m_blanks (w_mach w) = []).
    { unfold shows_last in SL. destruct (m_end (w_mach w)) as [s| | | | |]; try (destruct (m_blanks (w_mach w)); [reflexivity|discriminate SL]). contradiction. }
    destruct H as [(X & _)|(pre & l & P & [(X & B)|(A & B & D)])]; [destruct (NX X BN)|contradiction|].
    exists pre, l. rewrite app_nil_r. split; [exact P|]. split; [exact A|]. split; [exact B|]. intros s X. destruct (NU s X).
Qed.

(** ** The text of a line *)
Lemma show_num_go_fr k : ~ 48 <= k <= 57 -> k > 57 -> forall f n, fr k (show_num_go f n).
Proof.
  intros K K2 f. induction f as [|f IH]; intros n; cbn [show_num_go]; destruct (Z.ltb_spec n 10).
  - intros [X|[]]. lia.
  - intros [].
  - intros [X|[]]. lia.
  - apply fr_app; [apply IH|]. intros [X|[]]. pose proof (Z.mod_pos_bound n 10 ltac:(lia)). lia.
Qed.
Lemma padded_fr k n : fr 124 (padded k n).
Proof.
  unfold padded. cbn zeta. apply fr_app.
  - intros X. apply repeat_spec in X. discriminate X.
  - destruct (n <? 0); [apply str_int_fr; lia|]. intros [X|X]; [discriminate X|]. revert X. apply str_int_fr; lia.
Qed.
Fixpoint unpad (s : text) : text := match s with 32 :: s => unpad s | _ => s end.
Lemma unpad_int n : unpad (str_int n) = str_int n.
Proof.
  destruct (str_int n) as [|c s] eqn:E; [reflexivity|]. cbn [unpad]. assert (c <> 32).
  { intros ->. apply (str_int_fr 32 n); [lia|lia|]. rewrite E. left. reflexivity. }
  destruct c as [|p|p]; try reflexivity. repeat (destruct p as [p|p|]; try reflexivity). congruence.
Qed.
Lemma padded_int k n : unpad (padded k n) = str_int n.
Proof.
  unfold padded. cbn zeta. set (s := if n <? 0 then _ else _). generalize (k - length s)%nat. unfold s. clear s. intros j.
  induction j as [|j IH]; [|exact IH]. cbn [repeat app]. destruct (n <? 0); [|cbn [unpad]]; apply unpad_int.
Qed.
Lemma padded_inj k a b : padded k a = padded k b -> a = b.
Proof. intros E. apply str_int_inj. rewrite <- (padded_int k a), <- (padded_int k b), E. reflexivity. Qed.
Lemma padded_dots k n : padded k n <> quoted "...".
Proof.
  intros E. assert (X : str_int n = quoted "...") by (rewrite <- (padded_int k n), E; reflexivity).
  apply (str_int_fr 46 n); [lia|lia|]. rewrite X. left. reflexivity.
Qed.

Lemma line_tells order a b : full_line a -> full_line b -> full_counts (sh_tape a) -> full_counts (sh_tape b) ->
  shown_text order a = shown_text order b -> a = b.
Proof.
  intros (A1 & A2) (B1 & B2) FA FB. destruct a as [st cy q t], b as [st' cy' q' t']. cbn [sh_step sh_state sh_tape] in *.
  unfold shown_text. cbn [sh_step sh_state sh_tape sh_cycle].
  set (p := if st =? -1 then _ else _). set (p' := if st' =? -1 then _ else _).
  assert (FP : fr 124 p /\ fr 124 p') by (unfold p, p'; split; [destruct (st =? -1)|destruct (st' =? -1)]; try apply padded_fr; apply fr_q; reflexivity).
  assert (J : forall e d l, join (quoted " | ") (e :: d :: l) = (e ++ [32]) ++ 124 :: (32 :: join (quoted " | ") (d :: l))).
  { intros. cbn [join]. rewrite <- app_assoc. reflexivity. }
  assert (F32 : forall x, fr 124 x -> fr 124 (x ++ [32])) by (intros; apply fr_app; [assumption|apply fr_q; reflexivity]).
  rewrite !J. intros E.
  apply cut in E; [|apply F32, padded_fr..]. destruct E as [E1 E]. apply app_inv_tail in E1. apply padded_inj in E1. injection E as E.
  apply cut in E; [|apply F32; apply FP..]. destruct E as [E2 E]. apply app_inv_tail in E2. injection E as EQ E.
  apply cut in E; [|apply F32; apply show_num_go_fr; lia..]. destruct E as [_ E]. injection E as E.
  apply py_text_tells in E; [|assumption..].
  assert (q = q').
  { rewrite (Z.mod_small q), (Z.mod_small q') in EQ by lia.
    pose proof (Z.div_mod (q + 65) 256 ltac:(lia)). pose proof (Z.div_mod (q' + 65) 256 ltac:(lia)).
    pose proof (Z.mod_pos_bound (q + 65) 256 ltac:(lia)). assert (0 <= (q + 65) / 256 < 2) by (split; [apply Z.div_pos; lia|apply Z.div_lt_upper_bound; lia]).
    assert (0 <= (q' + 65) / 256 < 2) by (split; [apply Z.div_pos; lia|apply Z.div_lt_upper_bound; lia]). lia. }
  assert (st = st').
  { unfold p, p' in E2. destruct (Z.eqb_spec st (-1)), (Z.eqb_spec st' (-1)); [lia|symmetry in E2|..]; [destruct (padded_dots _ _ E2)..|exact (padded_inj _ _ _ E2)]. }
  congruence.
Qed.
