(** * Machine over macros on texts: proofs (C93) *)
From Verif Require Import Base TM TMFacts ProgModel ParseModel ParseSpec ParseProofs ApiSpec ApiModel TapeModel QuickProofs TermRecProofs ProverModel
  BlocksModel BlocksSpec BlocksProofs MacroModel MacroSpec MakeMacroModel MakeMacroProofs InstrSeqProofs ApiProofs.

Lemma api_macro_answers t M blocks backsym opt_macro params lim : writes t M ->
  exists m, machine_on_text t blocks backsym opt_macro params lim = Some m.
Proof.
  intro W0. assert (OB : forall n, exists b, py_opt_block t n = Some b) by (intro n; destruct (api_block t M n W0) as (b & E & _); eauto).
  revert W0 OB. unfold machine_on_text, py_opt_block. go t M. intros OB.
  unfold py_machine, make_macro. destruct opt_macro as [n|].
  - destruct (OB n) as (b & B). rewrite B.
    destruct (1 <? b)%nat; destruct params as [[? ?]|]; destruct (prog_params p) as [? ?]; destruct backsym; cbn; eauto.
  - destruct blocks as [b|]; [destruct (1 <? b)%nat|]; destruct params as [[? ?]|]; destruct (prog_params p) as [? ?]; destruct backsym; cbn; eauto.
Qed.

Lemma api_macro_true t M blocks backsym opt_macro params lim m : writes t M ->
  (forall p, tcompile t = Some p -> honest p (prog_params p) /\ forall ps, params = Some ps -> honest p ps) ->
  machine_on_text t blocks backsym opt_macro params lim = Some m -> m_rulapp m = 0 ->
  (forall s, m_end m = MUndfnd s -> exists N, m_steps m <= Z.of_nat N /\ halts_at M N s) /\ (m_end m = MSpnout -> never_halts M).
Proof.
  unfold machine_on_text. go t M. intros HO. destruct (HO p E) as [H1 H2]. intros R A. split.
  - intros s U. destruct (macro_machine_undfnd _ _ _ _ _ _ _ _ H1 H2 R A U) as (N & L & X). exists N. split; [exact L|].
    apply (halts_at_ext _ _ PM); auto.
  - intros U n. destruct (macro_machine_spnout _ _ _ _ _ _ _ H1 H2 R A U n) as (c & X). exists c. rewrite <- (steps_prog_ext _ _ PM). exact X.
Qed.
