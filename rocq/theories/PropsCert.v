(** * Properties of runs whose rules are certified (C55 - C57, C45)

    The condition that each rule is a law is here replaced by one that is computed: see CertSpec.v. *)
From Verif Require Import Base TM ProgModel TapeModel TapeSpec RulesModel RulesSpec QuickModel ProverModel LawSpec LawProofs RsLawProofs RsGrowProofs
  CertSpec CertProofs ParseModel ParseSpec ApiSpec ApiModel AgreeSpec ReasonModel ReasonSpec ApiProofs CertAgree.

(** The certificate means what it says: a rule that passes is a law of the machine on all tapes that its signature speaks of. *)
Theorem C55_certificate_sound_partial : forall M fuel state ms r t,
  certified_rule M fuel state ms r = true -> covers ms t -> canon t -> law M state r t.
Proof. exact certified_law. Qed.
Print Assumptions C55_certificate_sound_partial.

(** C55: so a run of Python's machine whose rules pass stands for what the machine really does. *)
Theorem C55_certified_run_partial : forall M lim fuel, let m := py_machine_run (plain M) lim in
  certified M fuel (m_prover m) = true ->
  exists n c, steps M n init = Some c
  /\ (m_steps m <> -1 -> m_steps m = Z.of_nat n)
  /\ represents (m_tape m) c /\ marks_are (c_tape c) (t_marks (m_tape m))
  /\ (forall s, m_end m = MUndfnd s -> halts_at M n s)
  /\ (m_end m = MSpnout -> never_halts M /\ spins_out_from M c)
  /\ (m_end m = MXlimit -> (lim <= n)%nat)
  /\ (forall s j, In (s, j) (m_blanks m) -> exists k d, (1 <= k <= n)%nat /\ (j <> -1 -> j = Z.of_nat k)
       /\ steps M k init = Some d /\ c_state d = s /\ is_blank d).
Proof. exact run_certified. Qed.
Print Assumptions C55_certified_run_partial.

(** And of Rust's, unless the machine makes 2^64 moves. *)
Theorem C55_rust_certified_run_partial : forall M lim fuel r pv,
  rs_run_prover M lim = Some r -> rs_run_prover_end M lim = Some pv ->
  certified M fuel pv = true -> all_one_down pv = true ->
  lasts M (2 ^ 64)
  \/ exists n c, steps M n init = Some c
  /\ (0 <= mr_steps r /\ 0 <= mr_rulapp r /\ mr_steps r + mr_rulapp r <= Z.of_nat n)
  /\ marks_are (c_tape c) (mr_marks r)
  /\ (mr_result r = undfnd -> exists s, mr_last_slot r = Some s /\ halts_at M n s)
  /\ (mr_result r = spnout -> never_halts M /\ spins_out_from M c)
  /\ (mr_result r = xlimit -> (lim <= n)%nat)
  /\ (forall s j, In (s, j) (mr_blanks r) -> exists k d, (1 <= k <= n)%nat /\ j <= Z.of_nat k
       /\ steps M k init = Some d /\ c_state d = s /\ is_blank d).
Proof. exact rs_run_certified. Qed.
Print Assumptions C55_rust_certified_run_partial.

(** C56: two certified runs that reach an undefined instruction agree. *)
Theorem C56_certified_agree_partial : forall M lim fuel r pv, let m := py_machine_run (plain M) lim in
  certified M fuel (m_prover m) = true ->
  rs_run_prover M lim = Some r -> rs_run_prover_end M lim = Some pv ->
  certified M fuel pv = true -> all_one_down pv = true ->
  forall s s', m_end m = MUndfnd s -> mr_result r = undfnd -> mr_last_slot r = Some s' ->
  lasts M (2 ^ 64) \/ (s' = s /\ mr_marks r = t_marks (m_tape m)).
Proof. exact certified_agree. Qed.
Print Assumptions C56_certified_agree_partial.

(** C57: the step count of a certified run is a lower bound. *)
Theorem C57_certified_lower_bound_partial : forall M lim fuel r pv n s,
  rs_run_prover M lim = Some r -> rs_run_prover_end M lim = Some pv ->
  certified M fuel pv = true -> all_one_down pv = true -> mr_undfnd r = Some (n, s) ->
  lasts M (2 ^ 64) \/ exists n', halts_at M (Z.to_nat n') s /\ n + mr_rulapp r <= n'.
Proof. exact certified_steps_short. Qed.
Print Assumptions C57_certified_lower_bound_partial.

(** C45: an infrul of a certified run means that the machine never halts, or that it was seen to grow by a rule; and if that
    rule passes for a signature of the tape, too, it never halts either. *)
Theorem C45_certified_growth_partial : forall M lim fuel, let m := py_machine_run (plain M) lim in
  certified M fuel (m_prover m) = true -> m_end m = MInfrul ->
  never_halts M
  \/ exists n c r, steps M n init = Some c /\ represents (m_tape m) c /\ grows M (c_state c) (m_tape m) r
      /\ forall fuel' ms, covers ms (m_tape m) -> certified_rule M fuel' (c_state c) ms r = true -> never_halts M.
Proof. exact run_certified_infrul. Qed.
Print Assumptions C45_certified_growth_partial.

(** A certified rule in which nothing decreases, on a tape that is reached. *)
Theorem C45_certified_never_halts_partial : forall M fuel ms r t n c,
  steps M n init = Some c -> represents t c -> canon t -> covers ms t ->
  certified_rule M fuel (c_state c) ms r = true -> none_down r = true -> never_halts M.
Proof. exact certified_never. Qed.
Print Assumptions C45_certified_never_halts_partial.

(** C93: the same for a Machine made from a text. *)
Theorem C93_certified_true_partial : forall t M lim m fuel, writes t M -> machine_on_text t None None None None lim = Some m ->
  certified M fuel (m_prover m) = true ->
  exists n c, steps M n init = Some c
  /\ (m_steps m <> -1 -> m_steps m = Z.of_nat n)
  /\ marks_are (c_tape c) (t_marks (m_tape m))
  /\ (forall s, m_end m = MUndfnd s -> halts_at M n s)
  /\ (m_end m = MSpnout -> never_halts M /\ spins_out_from M c).
Proof. exact text_run_certified. Qed.
Print Assumptions C93_certified_true_partial.

(** C99: what a certified Machine says with the help of rules, no other tool contradicts (deciders under their conditions). *)
Theorem C99_certified_runs_agree_partial : forall t M lim m fuel, writes t M -> machine_on_text t None None None None lim = Some m ->
  certified M fuel (m_prover m) = true ->
  (forall s, m_end m = MUndfnd s ->
     (forall n' s' k', says_halts t n' s' k' -> s' = s /\ k' = t_marks (m_tape m))
     /\ (forall n' k', ~ says_spins t n' k')
     /\ (forall lim' r, py_run_quick_machine t lim' = Some r -> mr_result r <> infrul)
     /\ (forall lim' fuel' m', machine_on_text t None None None None lim' = Some m' -> certified M fuel' (m_prover m') = true ->
           m_end m' <> MSpnout /\ forall s', m_end m' = MUndfnd s' -> s' = s /\ t_marks (m_tape m') = t_marks (m_tape m))
     /\ (M 0 0 = Some (1, true, 1) -> restartable M -> named M -> ~ says_never t))
  /\ (m_end m = MSpnout ->
     (forall n' s' k', ~ says_halts t n' s' k')
     /\ (restartable M -> forall d r, py_cant_spin_out t d <> Some (OSome r))).
Proof. exact certified_texts_agree. Qed.
Print Assumptions C99_certified_runs_agree_partial.

(** ** Cases *)

(** test/prog_data.py: "1RB 2LA 1LC  0LA 2RB 1LB  ... 1RA 1RC", which takes over 10^17 moves: 1662 cycles of the machine, and two
    rules, which pass. *)
Definition champion_33 : comp_prog :=
  [((0, 0), (1, true, 1)); ((0, 1), (2, false, 0)); ((0, 2), (1, false, 2));
   ((1, 0), (0, false, 0)); ((1, 1), (2, true, 1)); ((1, 2), (1, false, 1)); ((2, 1), (1, true, 0)); ((2, 2), (1, true, 2))].
Example C55_certified_case :
  let M := machine_of champion_33 in let m := py_machine_run (plain M) 2000 in
  certified M 40 (m_prover m) = true /\ m_end m = MUndfnd (2, 0) /\ m_rulapp m = 562014314 /\ t_marks (m_tape m) = 374676382
  /\ exists n c, halts_at M n (2, 0) /\ steps M n init = Some c /\ marks_are (c_tape c) 374676382.
Proof.
  cbv zeta. pose proof (run_certified (machine_of champion_33) 2000 40) as X. cbv zeta in X.
  assert (Y : (fun m => (certified (machine_of champion_33) 40 (m_prover m), m_end m, m_rulapp m, t_marks (m_tape m)))
    (py_machine_run (plain (machine_of champion_33)) 2000) = (true, MUndfnd (2, 0), 562014314, 374676382)) by (vm_compute; reflexivity).
  revert X Y. generalize (py_machine_run (plain (machine_of champion_33)) 2000). intros m X Y. injection Y as Y1 Y2 Y3 Y4.
  split; [exact Y1|]. split; [exact Y2|]. split; [exact Y3|]. split; [exact Y4|].
  destruct (X Y1) as (n & c & E & _ & _ & MA & H & _). exists n, c. split; [exact (H _ Y2)|]. split; [exact E|]. rewrite <- Y4. exact MA.
Qed.
Example C55_rust_certified_case : exists r pv,
  rs_run_prover (machine_of champion_33) 2000 = Some r /\ rs_run_prover_end (machine_of champion_33) 2000 = Some pv
  /\ certified (machine_of champion_33) 40 pv = true /\ all_one_down pv = true
  /\ mr_result r = undfnd /\ mr_last_slot r = Some (2, 0) /\ mr_undfnd r = Some (6855370663, (2, 0)) /\ mr_marks r = 374676382.
Proof.
  assert (A : option_map (fun r => (mr_result r, mr_last_slot r, mr_undfnd r, mr_marks r)) (rs_run_prover (machine_of champion_33) 2000)
    = Some (undfnd, Some (2, 0), Some (6855370663, (2, 0)), 374676382)) by (vm_compute; reflexivity).
  assert (B : option_map (fun pv => (certified (machine_of champion_33) 40 pv, all_one_down pv)) (rs_run_prover_end (machine_of champion_33) 2000)
    = Some (true, true)) by (vm_compute; reflexivity).
  revert A B. generalize (rs_run_prover (machine_of champion_33) 2000), (rs_run_prover_end (machine_of champion_33) 2000).
  intros [r|] [pv|] A B; try discriminate A; try discriminate B. cbn [option_map] in A, B. injection A as A1 A2 A3 A4. injection B as B1 B2.
  exists r, pv. repeat split; assumption.
Qed.

Definition champion_text : text := py_show_comp champion_33 (Some (3, 3)).
Example C99_certified_case : exists m, writes champion_text (machine_of champion_33)
  /\ machine_on_text champion_text None None None None 2000 = Some m
  /\ certified (machine_of champion_33) 40 (m_prover m) = true /\ m_end m = MUndfnd (2, 0) /\ m_rulapp m = 562014314
  /\ forall d, py_cant_spin_out champion_text d <> None.
Proof.
  assert (W : writes champion_text (machine_of champion_33))
    by (apply shown_of; [repeat constructor; cbn; intuition congruence|intros s c pr sh tr E; in_range E|lia|lia]).
  assert (A : option_map (fun m => (certified (machine_of champion_33) 40 (m_prover m), m_end m, m_rulapp m))
    (machine_on_text champion_text None None None None 2000) = Some (true, MUndfnd (2, 0), 562014314)) by (vm_compute; reflexivity).
  revert A. destruct (machine_on_text champion_text None None None None 2000) as [m|]; intros A; [|discriminate A].
  cbn [option_map] in A. injection A as A1 A2 A3. exists m. split; [exact W|]. split; [reflexivity|]. split; [exact A1|]. split; [exact A2|].
  split; [exact A3|]. intros d. destruct (read_writes _ _ W) as (p & E & _). unfold py_cant_spin_out, on_text. rewrite E. discriminate.
Qed.

(** A block of 1s that grows at both ends. *)
Definition both_ends : comp_prog := [((0, 0), (1, true, 1)); ((1, 1), (1, true, 1)); ((1, 0), (1, false, 0)); ((0, 1), (1, false, 0))].
Example C45_certified_case :
  let M := machine_of both_ends in let t := Tape [] 0 [Blk 1 2] in
  let ms := (Sig 0 [] [TapeModel.Mult 1], (true, true)) in let r := [((true, 0%nat), Plus 2)] in
  exists c, steps M 3 init = Some c /\ represents t c /\ canon t /\ covers ms t
  /\ certified_rule M 10 (c_state c) ms r = true /\ none_down r = true.
Proof.
  cbv zeta. eexists. split; [cbn; reflexivity|]. split.
  { intros i. cbn. unfold write, tape_cell. cbn.
    repeat match goal with |- context [Z.eqb ?a ?b] => destruct (Z.eqb_spec a b) | |- context [Z.ltb ?a ?b] => destruct (Z.ltb_spec a b) end; try lia; auto. }
  split; [split; cbn; [auto|repeat split; lia]|].
  split; [split; [reflexivity|]; split; exists []; auto|]. split; vm_compute; reflexivity.
Qed.
