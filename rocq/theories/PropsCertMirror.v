(** * Certified runs of a machine and of its mirror image (C91) *)
From Verif Require Import Base TM ProgModel TapeModel QuickModel ProverModel LawSpec CertSpec CertProofs MirrorSpec MirrorCert PropsCert.

(** run_prover is not the same on both (C91_run_prover_refuted), but runs whose rules are certified do not contradict
    each other, unless the machine makes 2^64 moves: if both reach an undefined instruction it is the same one, with
    the same number of marks, and it is not so that one does and the other spins out. *)
Theorem C91_certified_prover_partial : forall M lim lim' fuel fuel' r pv r' pv',
  rs_run_prover M lim = Some r -> rs_run_prover_end M lim = Some pv ->
  certified M fuel pv = true -> all_one_down pv = true ->
  rs_run_prover (mirror M) lim' = Some r' -> rs_run_prover_end (mirror M) lim' = Some pv' ->
  certified (mirror M) fuel' pv' = true -> all_one_down pv' = true ->
  lasts M (2 ^ 64)
  \/ (mr_result r = undfnd -> mr_result r' = undfnd -> mr_last_slot r' = mr_last_slot r /\ mr_marks r' = mr_marks r)
     /\ (mr_result r = undfnd -> mr_result r' <> spnout) /\ (mr_result r = spnout -> mr_result r' <> undfnd).
Proof. exact certified_mirror. Qed.
Print Assumptions C91_certified_prover_partial.

(** The mirror image of the machine of C55_rust_certified_case. *)
Example C91_certified_case : exists r pv,
  rs_run_prover (mirror (machine_of champion_33)) 2000 = Some r /\ rs_run_prover_end (mirror (machine_of champion_33)) 2000 = Some pv
  /\ certified (mirror (machine_of champion_33)) 40 pv = true /\ all_one_down pv = true
  /\ mr_result r = undfnd /\ mr_last_slot r = Some (2, 0) /\ mr_marks r = 374676382.
Proof.
  assert (A : option_map (fun r => (mr_result r, mr_last_slot r, mr_marks r)) (rs_run_prover (mirror (machine_of champion_33)) 2000)
    = Some (undfnd, Some (2, 0), 374676382)) by (vm_compute; reflexivity).
  assert (B : option_map (fun pv => (certified (mirror (machine_of champion_33)) 40 pv, all_one_down pv))
    (rs_run_prover_end (mirror (machine_of champion_33)) 2000) = Some (true, true)) by (vm_compute; reflexivity).
  revert A B. generalize (rs_run_prover (mirror (machine_of champion_33)) 2000), (rs_run_prover_end (mirror (machine_of champion_33)) 2000).
  intros [r|] [pv|] A B; try discriminate A; try discriminate B. cbn [option_map] in A, B. injection A as A1 A2 A3. injection B as B1 B2.
  exists r, pv. repeat split; assumption.
Qed.
