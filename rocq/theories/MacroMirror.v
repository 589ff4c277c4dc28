(** * Mirror images and Machine objects over macros: proofs (C91) *)
From Verif Require Import Base TM TMFacts ProgModel TapeModel BlocksModel ProverModel MacroModel MacroSpec MakeMacroModel MakeMacroProofs
  MirrorSpec MirrorProofs MirrorCert SegMirror.

Lemma params_mirror p : prog_params (mirrored p) = prog_params p.
Proof.
  unfold prog_params, mirrored. rewrite !map_map. f_equal; f_equal; apply map_ext; intros [[s c] [[pr sh] tr]]; reflexivity.
Qed.

Lemma honest_mirror p ps : honest p ps -> honest (mirrored p) ps.
Proof.
  intros (H1 & H2 & H3). split; [exact H1|]. split; [exact H2|]. intros s c pr sh tr Hs Hc E.
  unfold dict_lookup in E. pose proof (mirrored_machine p s c) as M. unfold machine_of, mirror in M.
  rewrite M in E. destruct (comp_get p (s, c)) as [[[pr' sh'] tr']|] eqn:G; cbn in E; [|discriminate].
  injection E as <- _ <-. apply (H3 s c pr' sh' tr' Hs Hc). unfold dict_lookup. rewrite G. reflexivity.
Qed.

Lemma mirrored_halts p n s : halts_at (machine_of (mirrored p)) n s -> halts_at (machine_of p) n s.
Proof.
  intro H. apply mirror_halts. destruct H as (c & E & A & B & D). exists c. rewrite <- mirrored_steps. split; [exact E|].
  split; [exact A|]. split; [exact B|]. rewrite <- mirrored_machine. exact D.
Qed.

Lemma macro_mirror p blocks backsym opt_macro params lim m blocks' backsym' opt_macro' params' lim' m' :
  honest p (prog_params p) -> (forall ps, params = Some ps -> honest p ps) -> (forall ps, params' = Some ps -> honest p ps) ->
  py_machine p blocks backsym opt_macro params lim = Some m ->
  py_machine (mirrored p) blocks' backsym' opt_macro' params' lim' = Some m' -> m_rulapp m = 0 -> m_rulapp m' = 0 ->
  (forall s s', m_end m = MUndfnd s -> m_end m' = MUndfnd s' -> s = s')
  /\ (forall s, m_end m = MUndfnd s -> m_end m' <> MSpnout) /\ (forall s, m_end m' = MUndfnd s -> m_end m <> MSpnout).
Proof.
  intros H Hp Hp' E E' R R'.
  assert (Q : honest (mirrored p) (prog_params (mirrored p))) by (rewrite params_mirror; apply honest_mirror, H).
  assert (Qp : forall ps, params' = Some ps -> honest (mirrored p) ps) by (intros ps X; apply honest_mirror, Hp', X).
  assert (U : forall s, m_end m = MUndfnd s -> exists N, halts_at (machine_of p) N s).
  { intros s X. destruct (macro_machine_undfnd _ _ _ _ _ _ _ _ H Hp E R X) as (N & _ & Y). exists N. exact Y. }
  assert (U' : forall s, m_end m' = MUndfnd s -> exists N, halts_at (machine_of p) N s).
  { intros s X. destruct (macro_machine_undfnd _ _ _ _ _ _ _ _ Q Qp E' R' X) as (N & _ & Y). exists N. apply mirrored_halts, Y. }
  split; [|split].
  - intros s s' X X'. destruct (U s X) as [N A], (U' s' X') as [N' A']. exact (proj2 (halts_at_unique _ _ _ _ _ A A')).
  - intros s X Y. destruct (U s X) as [N A]. apply (halts_not_never _ _ _ A). apply never_mirrored.
    exact (macro_machine_spnout _ _ _ _ _ _ _ Q Qp E' R' Y).
  - intros s X Y. destruct (U' s X) as [N A]. apply (halts_not_never _ _ _ A). exact (macro_machine_spnout _ _ _ _ _ _ _ H Hp E R Y).
Qed.
