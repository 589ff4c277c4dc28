(** * The tools do not contradict each other *)
From Verif Require Import Base TM ProgModel ParseModel ParseSpec ApiSpec ApiModel AgreeSpec.
From Verif Require Import TapeModel QuickModel ProverModel MachineProofs TermRecModel TermRecSpec TermRecProofs ReasonModel ReasonSpec SegModel.
From Verif Require Import MacroModel MakeMacroModel ApiProofs TMFacts.

Lemma said_halts t M n s k : writes t M -> says_halts t n s k -> 0 <= n /\ halts_at M (Z.to_nat n) s
  /\ exists c, steps M (Z.to_nat n) init = Some c /\ marks_are (c_tape c) k.
Proof.
  intros W [lim r n' s' E U|lim m n' s' E A U|lim r n' s' E A B U].
  - destruct (api_quick t M lim W) as (r' & E' & H & _). rewrite E in E'. inv E'. auto.
  - exact (proj1 (api_machine_true t M lim m W E A) n' s' U).
  - exact (proj1 (api_prover_true t M lim r W E A B) n' s' U).
Qed.
Lemma said_spins t M n k : writes t M -> says_spins t n k -> never_halts M
  /\ exists c, steps M (Z.to_nat n) init = Some c /\ spins_out_from M c /\ marks_are (c_tape c) k.
Proof.
  intros W [lim r E U|lim m E A U|lim r E A B U].
  - destruct (api_quick t M lim W) as (r' & E' & _ & H & _). rewrite E in E'. inv E'. auto.
  - exact (proj2 (api_machine_true t M lim m W E A) U).
  - exact (proj2 (api_prover_true t M lim r W E A B) U).
Qed.
Lemma said_never t M : writes t M -> M 0 0 = Some (1, true, 1) -> restartable M -> named M -> says_never t -> never_halts M.
Proof.
  intros W F R N [d r E|segs rf fu r E|lim E|n k E|lim r E U].
  - exact (api_halt t M d r W R N E).
  - exact (api_segments t M segs rf fu r W N E).
  - apply recurs_never_halts. apply (api_term t M W F). exists lim. exact E.
  - apply (said_spins t M n k W E).
  - destruct (api_quick t M lim W) as (r' & E' & _ & _ & H & _). rewrite E in E'. inv E'. auto.
Qed.
Lemma halts_at_halts M n s : halts_at M n s -> ~ never_halts M.
Proof. intros H NH. apply (halts_not_never M); auto. exists n, s. exact H. Qed.

Lemma runs_agree t M : writes t M ->
  (forall n s k n' s' k', says_halts t n s k -> says_halts t n' s' k' -> n = n' /\ s = s' /\ k = k')
  /\ (forall n s k n' k', says_halts t n s k -> ~ says_spins t n' k')
  /\ (forall n s k lim r, says_halts t n s k -> py_run_quick_machine t lim = Some r -> mr_result r <> infrul).
Proof.
  intros W. split; [|split].
  - intros n s k n' s' k' A B. destruct (said_halts _ _ _ _ _ W A) as (P & H & c & S1 & K), (said_halts _ _ _ _ _ W B) as (P' & H' & c' & S1' & K').
    destruct (halts_at_unique _ _ _ _ _ H H') as (X & ->). assert (n = n') by lia. subst n'. split; auto. split; auto.
    rewrite S1 in S1'. inv S1'. eapply marks_unique; eauto.
  - intros n s k n' k' A B. apply (halts_at_halts M (Z.to_nat n) s); [apply (said_halts _ _ _ _ _ W A)|apply (said_spins _ _ _ _ W B)].
  - intros n s k lim r A E I. destruct (api_quick t M lim W) as (r' & E' & _ & _ & H & _). rewrite E in E'. inv E'.
    apply (halts_at_halts M (Z.to_nat n) s); [apply (said_halts _ _ _ _ _ W A)|auto].
Qed.

Lemma deciders_agree t M : writes t M -> M 0 0 = Some (1, true, 1) -> restartable M -> named M ->
  (forall n s k, says_halts t n s k -> ~ says_never t)
  /\ (forall n k d r, says_spins t n k -> py_cant_spin_out t d <> Some (OSome r))
  /\ (forall s n d r, says_blank t s n -> 0 < n -> py_cant_blank t d <> Some (OSome r)).
Proof.
  intros W F R N. split; [|split].
  - intros n s k A B. apply (halts_at_halts M (Z.to_nat n) s); [apply (said_halts _ _ _ _ _ W A)|apply (said_never t M); auto].
  - intros n k d r A E. destruct (said_spins _ _ _ _ W A) as (_ & c & S1 & X & _). apply (api_spin t M d r W R E _ _ S1 X).
  - intros s n d r (lim & q & E & J) P C. destruct (api_quick t M lim W) as (r' & E' & _ & _ & _ & H & _). rewrite E in E'. inv E'.
    destruct (H _ _ J) as (_ & c & S1 & _ & B).
    assert (exists d1, steps M 1 init = Some d1 /\ c_tape d1 0 <> 0) as (d1 & S0 & NZ).
    { assert (ST : step M init = Some (Cfg 1 1 (write blank_tape 0 1))) by (unfold step; change (M (c_state init) (c_tape init (c_pos init))) with (M 0 0); rewrite F; reflexivity).
      cbn [steps]. rewrite ST. eexists. split; [reflexivity|]. discriminate. }
    refine (api_blank t M d r W R C 1%nat (Z.to_nat n) d1 c _ S0 _ S1 B); [lia|exists 0; auto].
Qed.
