(** * Certified runs of a machine and of its mirror image *)
From Verif Require Import Base TM TMFacts ProgModel TapeModel TapeSpec TapeProofs MachineProofs RulesModel RulesSpec QuickModel ProverModel LawSpec LawProofs
  RsLawProofs CertSpec CertProofs MirrorSpec MirrorProofs.

Lemma marks_are_flip f g k : (forall p, g p = f (- p)) -> marks_are f k -> marks_are g k.
Proof.
  intros H (ps & A & B & C). exists (map Z.opp ps). repeat split.
  - apply FinFun.Injective_map_NoDup; auto. intros x y; lia.
  - rewrite in_map_iff. intros (q & <- & Hq). rewrite H, Z.opp_involutive. apply B; auto.
  - intro N. apply in_map_iff. exists (- p). split; [lia|]. apply B. rewrite <- H. auto.
  - rewrite map_length. auto.
Qed.

Lemma mirror_lasts M k : lasts (mirror M) k -> lasts M k.
Proof.
  intros H n Hn. destruct (H n Hn) as (d & E). pose proof (mirror_run M n) as R. rewrite E in R.
  destruct (steps M n init) as [c|]; [eauto|contradiction].
Qed.

Lemma mirror_never M : never_halts (mirror M) -> never_halts M.
Proof.
  intros H n. destruct (H n) as (d & E). pose proof (mirror_run M n) as R. rewrite E in R.
  destruct (steps M n init) as [c|]; [eauto|contradiction].
Qed.

Lemma mirror_halts M n s : halts_at (mirror M) n s -> halts_at M n s.
Proof.
  intros (d & E & A & B & C). pose proof (mirror_run M n) as R. rewrite E in R.
  destruct (steps M n init) as [c|] eqn:F; [|contradiction]. destruct R as (R1 & R2 & R3). cbn in R1, R2, R3.
  exists c. split; [auto|]. split; [congruence|]. split.
  - rewrite <- B, R3, R2, Z.opp_involutive. reflexivity.
  - unfold mirror in C. destruct (M (fst s) (snd s)); [discriminate|reflexivity].
Qed.

Lemma halts_not_never M n s : halts_at M n s -> never_halts M -> False.
Proof.
  intros (c & E & A & B & C) H. destruct (H (n + 1)%nat) as (d & D). rewrite steps_add, E in D. cbn in D.
  unfold step in D. rewrite A, B, C in D. discriminate.
Qed.

Lemma certified_mirror M lim lim' fuel fuel' r pv r' pv' :
  rs_run_prover M lim = Some r -> rs_run_prover_end M lim = Some pv ->
  certified M fuel pv = true -> all_one_down pv = true ->
  rs_run_prover (mirror M) lim' = Some r' -> rs_run_prover_end (mirror M) lim' = Some pv' ->
  certified (mirror M) fuel' pv' = true -> all_one_down pv' = true ->
  lasts M (2 ^ 64)
  \/ (mr_result r = undfnd -> mr_result r' = undfnd -> mr_last_slot r' = mr_last_slot r /\ mr_marks r' = mr_marks r)
     /\ (mr_result r = undfnd -> mr_result r' <> spnout) /\ (mr_result r = spnout -> mr_result r' <> undfnd).
Proof.
  intros A B C D A' B' C' D'.
  destruct (rs_run_certified M lim fuel r pv A B C D) as [X|(n & c & E & _ & MA & U & S1 & _)]; [auto|].
  destruct (rs_run_certified _ lim' fuel' r' pv' A' B' C' D') as [X|(n' & c' & E' & _ & MA' & U' & S1' & _)];
    [left; apply mirror_lasts; exact X|].
  right. split; [|split].
  - intros R R'. destruct (U R) as (s & L & H), (U' R') as (s' & L' & H'). apply mirror_halts in H'.
    destruct (halts_at_unique _ _ _ _ _ H H') as (-> & ->). split; [congruence|].
    pose proof (mirror_run M n') as Q. rewrite E, E' in Q. destruct Q as (_ & _ & Q).
    eapply marks_unique; [exact MA'|]. eapply marks_are_flip; [|exact MA]. exact Q.
  - intros R R'. destruct (U R) as (s & _ & H), (S1' R') as (N & _). exact (halts_not_never _ _ _ H (mirror_never _ N)).
  - intros R R'. destruct (U' R') as (s & _ & H), (S1 R) as (N & _). exact (halts_not_never _ _ _ (mirror_halts _ _ _ H) N).
Qed.
