(** * Certified runs of programs given as texts *)
From Verif Require Import Base TM ProgModel ParseModel ParseSpec ApiSpec ApiModel AgreeSpec.
From Verif Require Import TapeModel TapeSpec RulesModel QuickModel ProverModel MachineProofs ReasonModel ReasonSpec SegModel.
From Verif Require Import MacroModel MakeMacroModel RenameSpec RenameProofs ApiProofs AgreeProofs TMFacts LawSpec CertSpec CertProofs.

Lemma rcc_id c : rcc (fun x => x) c = c.
Proof. destruct c; reflexivity. Qed.
Lemma ms_id m : rms (fun x => x) m = m.
Proof.
  destruct m as [[s l r] e]. unfold rms, rsg. cbn [fst snd sg_scan sg_l sg_r]. rewrite !(map_ext (rcc (fun x => x)) (fun x => x) rcc_id), !map_id. reflexivity.
Qed.
Lemma rules_id rs : rrules (fun x => x) (fun x => x) rs = rs.
Proof.
  unfold rrules. rewrite <- (map_id rs) at 2. apply map_ext. intros [[s c] l]. cbn. f_equal.
  rewrite <- (map_id l) at 2. apply map_ext. intros [m r]. cbn. rewrite ms_id. reflexivity.
Qed.

Lemma text_rules t M lim m : writes t M -> machine_on_text t None None None None lim = Some m ->
  pv_rules (m_prover m) = pv_rules (m_prover (py_machine_run (plain M) lim)).
Proof.
  unfold machine_on_text. go t M. intros H. injection H as <-. 
  assert (R : renamed_lookups (fun x => x) (fun x => x) (plain M) (as_comp (dict_lookup p))).
  { intros s c. specialize (PM s c). unfold machine_of in PM. unfold plain, as_comp, dict_lookup. rewrite PM.
    destruct (M s c); cbn [named_lookup]; [rewrite named_id|]; reflexivity. }
  pose proof (py_mach_rn _ _ id_renaming id_renaming _ _ _ R lim 0 pv_new init_tape 0 0 [] 0 None) as H. cbn [fst snd].
  unfold py_machine_run. 
  change (py_machine_loop (as_comp (dict_lookup p)) lim 0 pv_new init_tape 0 0 [] 0 None = ren_mach (fun x => x) (fun x => x) (named_slot (fun x => x) (fun x => x)) (py_machine_loop (plain M) lim 0 pv_new init_tape 0 0 [] 0 None)) in H.
  change (Tape [] 0 []) with init_tape. rewrite H. cbn. apply rules_id.
Qed.
Lemma text_certified t M lim m fuel : writes t M -> machine_on_text t None None None None lim = Some m ->
  certified M fuel (m_prover m) = true -> certified M fuel (m_prover (py_machine_run (plain M) lim)) = true.
Proof. intros W E H. unfold certified in *. rewrite <- (text_rules t M lim m W E). exact H. Qed.

Lemma text_run_certified t M lim m fuel : writes t M -> machine_on_text t None None None None lim = Some m ->
  certified M fuel (m_prover m) = true ->
  exists n c, steps M n init = Some c
  /\ (m_steps m <> -1 -> m_steps m = Z.of_nat n)
  /\ marks_are (c_tape c) (t_marks (m_tape m))
  /\ (forall s, m_end m = MUndfnd s -> halts_at M n s)
  /\ (m_end m = MSpnout -> never_halts M /\ spins_out_from M c).
Proof.
  intros W E H. destruct (run_certified M lim fuel (text_certified t M lim m fuel W E H)) as (n & c & A & B & _ & C & D & F & _).
  destruct (api_machine t M lim W) as (m' & E' & X & Y & _ & _ & Z & _). rewrite E in E'. injection E' as <-.
  exists n, c. rewrite X, Y, Z. auto.
Qed.

Lemma certified_texts_agree t M lim m fuel : writes t M -> machine_on_text t None None None None lim = Some m ->
  certified M fuel (m_prover m) = true ->
  (forall s, m_end m = MUndfnd s ->
     (forall n' s' k', says_halts t n' s' k' -> s' = s /\ k' = t_marks (m_tape m))
     /\ (forall n' k', ~ says_spins t n' k')
     /\ (forall lim' r, py_run_quick_machine t lim' = Some r -> mr_result r <> infrul)
     /\ (forall lim' fuel' m', machine_on_text t None None None None lim' = Some m' -> certified M fuel' (m_prover m') = true ->
           m_end m' <> MSpnout /\ forall s', m_end m' = MUndfnd s' -> s' = s /\ t_marks (m_tape m') = t_marks (m_tape m))
     /\ (M 0 0 = Some (1, true, 1) -> restartable M -> named M -> ~ says_never t))
  /\ (m_end m = MSpnout ->
     (forall n' s' k', ~ says_halts t n' s' k')
     /\ (restartable M -> forall d r, py_cant_spin_out t d <> Some (OSome r))).
Proof.
  intros W E H. destruct (text_run_certified t M lim m fuel W E H) as (n & c & A & _ & K & D & F). split.
  - intros s U. specialize (D s U). pose proof (halts_at_halts _ _ _ D) as NN.
    split; [|split; [|split; [|split]]].
    + intros n' s' k' S'. destruct (said_halts _ _ _ _ _ W S') as (P & H' & c' & A' & K').
      destruct (halts_at_unique _ _ _ _ _ D H') as (X & Y). subst s'. split; auto. rewrite <- X, A in A'. inv A'. eapply marks_unique; eauto.
    + intros n' k' S'. apply NN. apply (said_spins _ _ _ _ W S').
    + intros lim' r E' I. destruct (api_quick t M lim' W) as (r' & E2 & _ & _ & H' & _). rewrite E' in E2. inv E2. apply NN. auto.
    + intros lim' fuel' m' E' H'. destruct (text_run_certified t M lim' m' fuel' W E' H') as (n' & c' & A' & _ & K' & D' & F').
      split; [intros X; apply NN; apply F'; auto|]. intros s' U'. specialize (D' s' U').
      destruct (halts_at_unique _ _ _ _ _ D D') as (X & Y). subst s' n'. split; auto. rewrite A in A'. inv A'. eapply marks_unique; eauto.
    + intros X R N S'. apply NN. apply (said_never t M); auto.
  - intros U. destruct (F U) as (NH & SO). split.
    + intros n' s' k' S'. destruct (said_halts _ _ _ _ _ W S') as (_ & H' & _). apply (halts_at_halts _ _ _ H' NH).
    + intros R d r X. apply (api_spin t M d r W R X _ _ A SO).
Qed.
