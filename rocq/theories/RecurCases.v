(** Concrete programs for the theorems about the recurrence checkers, and the parts of the theorems put together. *)
From Verif Require Import Base TM TMFacts ProgModel TapeModel QuickModel TermRecModel TermRecSpec TermRecProofs TermRecComplete RecurModel RecurSpec
  RecurProofs RecurStrict RecurComplete RecurSample.

(** Spinning out is recurring with period 1. *)
Lemma spins_recurs_at comp n c : steps (machine_of comp) n init = Some c -> spins_out_from (machine_of comp) c ->
  recurs_at (machine_of comp) n 1.
Proof.
  intros E (dir & SP). apply recurs_at_trace; [lia|]. intros t L.
  destruct (SP (t - n)%nat) as (d & D1 & D2 & D3 & D4). destruct (SP (t - n + 1)%nat) as (e & E1 & E2 & E3 & E4).
  exists d, e. split; [rewrite <- D1; replace t with (n + (t - n))%nat at 1 by lia; rewrite (steps_add_some _ _ _ _ _ E); auto|].
  split; [rewrite <- E1; replace (t + 1)%nat with (n + (t - n + 1))%nat by lia; rewrite (steps_add_some _ _ _ _ _ E); auto|].
  split; congruence.
Qed.

Lemma strict_right comp lim check a b sp q : sr_end (strict_run comp lim check) = SLin a b sp q ->
  0 <= a /\ 0 < b /\ recurs_at (machine_of comp) (Z.to_nat a) (Z.to_nat b)
  /\ (forall n m, recurs_at (machine_of comp) n m -> b <= Z.of_nat m)
  /\ never_halts (machine_of comp).
Proof.
  intros E. pose proof (strict_run_ok comp lim check) as (_ & OK). rewrite E in OK. destruct OK as (A & B & R & _).
  split; [auto|]. split; [auto|]. split; [auto|]. split; [intros n m H; eapply strict_least; eauto|].
  exact (recurs_never_halts _ (recurs_at_recurs _ _ _ R)).
Qed.

Lemma strict_spins comp lim check a b sp q : sr_end (strict_run comp lim check) = SLin a b sp q ->
  (sp <> None <-> exists n c, steps (machine_of comp) n init = Some c /\ spins_out_from (machine_of comp) c)
  /\ (forall n, sp = Some n -> n = a /\ exists c, steps (machine_of comp) (Z.to_nat n) init = Some c /\ spins_out_from (machine_of comp) c).
Proof.
  intros E. pose proof (strict_run_ok comp lim check) as (_ & OK). rewrite E in OK. destruct OK as (A & B & R & SP & _).
  assert (X : forall n, sp = Some n -> n = a /\ exists c, steps (machine_of comp) (Z.to_nat n) init = Some c /\ spins_out_from (machine_of comp) c).
  { intros n ->. destruct (Z.eqb_spec b 1) as [->|]; [|discriminate]. injection SP as ->. split; auto.
    apply recurs_one_spins. exact R. }
  split; [|exact X]. split.
  - intros N. destruct sp as [n|]; [|contradiction]. destruct (X n eq_refl) as (_ & c & C1 & C2). eauto.
  - intros (n & c & C1 & C2) ->. pose proof (strict_least comp check lim a b None q n 1 E (spins_recurs_at comp n c C1 C2)) as L.
    destruct (Z.eqb_spec b 1); [discriminate|lia].
Qed.

Lemma strict_quasi comp lim check a b sp q : sr_end (strict_run comp lim check) = SLin a b sp q ->
  (q = true -> quasihalts (machine_of comp)) /\ (check <= 0 -> quasihalts (machine_of comp) -> q = true).
Proof.
  intros E. pose proof (strict_run_ok comp lim check) as (_ & OK). rewrite E in OK. destruct OK as (A & B & R & SP & Q). exact Q.
Qed.

Lemma strict_ends comp lim check : match sr_end (strict_run comp lim check) with
  | SLin _ _ _ _ => recurs (machine_of comp)
  | SUndfnd n s => 0 <= n /\ halts_at (machine_of comp) (Z.to_nat n) s
  | SXlimit n => Z.of_nat lim <= n /\ exists c, steps (machine_of comp) (Z.to_nat n) init = Some c
  | SErr => False
  end.
Proof.
  pose proof (strict_run_ok comp lim check) as (_ & OK). destruct (sr_end (strict_run comp lim check)); auto.
  destruct OK as (_ & _ & R & _). exact (recurs_at_recurs _ _ _ R).
Qed.

Lemma strict_halts comp lim check n s : halts_at (machine_of comp) n s -> (n < lim)%nat ->
  sr_end (strict_run comp lim check) = SUndfnd (Z.of_nat n) s.
Proof.
  intros H L. pose proof (strict_ends comp lim check) as OK.
  assert (HH : halts (machine_of comp)) by (exists n, s; auto).
  destruct (sr_end (strict_run comp lim check)) as [a b sp q|m s'|m|].
  - destruct (halts_not_never _ HH (recurs_never_halts _ OK)).
  - destruct OK as (M0 & M1). destruct (halts_at_unique _ _ _ _ _ H M1) as (X & Y). subst s'. f_equal. lia.
  - destruct OK as (M0 & c & M1). destruct H as (d & D1 & D2 & D3 & D4). exfalso.
    replace (Z.to_nat m) with (n + S (Z.to_nat m - S n))%nat in M1 by lia. rewrite (steps_add_some _ _ _ _ _ D1) in M1.
    cbn [steps] in M1. unfold step in M1. rewrite D2, D3, D4 in M1. discriminate.
  - destruct OK.
Qed.

Lemma strict_blanks comp lim check s k : let r := strict_run comp lim check in
  let last := match sr_end r with SLin a b _ _ => a + b | SUndfnd n _ => n | SXlimit n => n | SErr => 0 end in
  In (s, k) (sr_blanks r) <-> 0 <= k <= last /\ first_blank (machine_of comp) s (Z.to_nat k).
Proof.
  intros r last. pose proof (strict_run_ok comp lim check) as ((c & _ & B1 & B2) & OK). fold r in B1, B2, OK.
  assert (EL : Z.of_nat (end_step (sr_end r)) = last).
  { unfold end_step, last. destruct (sr_end r); lia. }
  split.
  - intros I. destruct (B1 s k I) as (X & Y). split; [lia|auto].
  - intros (L & FB). pose proof FB as (N & d & D1 & D2 & D3 & D4).
    pose proof (B2 (Z.to_nat k) d ltac:(lia) D1 D3) as HB. rewrite D2 in HB.
    assert (IN : exists k', In (s, k') (sr_blanks r)).
    { clear -HB. induction (sr_blanks r) as [|[s' k'] l IH]; cbn in HB; [discriminate|]. apply orb_prop in HB.
      destruct HB as [HB|HB]; [zb; subst; exists k'; left; auto|]. destruct (IH HB) as (x & X). exists x. right. auto. }
    destruct IN as (k' & I'). replace k with k'; auto. destruct (B1 s k' I') as (X & (N' & d' & D1' & D2' & D3' & D4')).
    destruct (Nat.lt_trichotomy (Z.to_nat k) (Z.to_nat k')) as [LT|[EQ|LT]]; [|lia|]; exfalso.
    + apply (D4' (Z.to_nat k) d); auto; lia.
    + apply (D4 (Z.to_nat k') d'); auto; lia.
Qed.

(** "1RB 1RB  1RC 1LB  1LA 1RA". *)
Definition drifter : comp_prog :=
  [((0, 0), (1, true, 1)); ((0, 1), (1, true, 1)); ((1, 0), (1, true, 2)); ((1, 1), (1, false, 1));
   ((2, 0), (1, false, 0)); ((2, 1), (1, true, 0))].
(** "1RB ...  1RB ...". *)
Definition away : comp_prog := [((0, 0), (1, true, 1)); ((1, 0), (1, true, 1))].
(** "1RB 0RC  0LD 1RA  ... 0LB  1RB 1LD", which halts after 20 moves. *)
Definition pretender : comp_prog :=
  [((0, 0), (1, true, 1)); ((0, 1), (0, true, 2)); ((1, 0), (0, false, 3)); ((1, 1), (1, true, 0));
   ((2, 1), (0, false, 1)); ((3, 0), (1, true, 1)); ((3, 1), (1, false, 3))].
(** "1RB ...  0LC ...  ... 0RA": it clears its tape. *)
Definition cleaner : comp_prog := [((0, 0), (1, true, 1)); ((1, 0), (0, false, 2)); ((2, 1), (0, true, 0))].

Lemma drifter_recurs : recurs_at (machine_of drifter) 4 7.
Proof.
  apply (sample_right drifter 12 (map Z.of_nat (seq 4 8)) 4 11); [lia| |vm_compute; reflexivity].
  intros t T. apply in_map. apply in_seq. lia.
Qed.

Lemma drifter_least n m : recurs_at (machine_of drifter) n m -> (4 <= n)%nat /\ (7 <= m)%nat.
Proof.
  intros R. assert (E : sr_end (strict_run drifter 100 0) = SLin 7 7 None false) by (vm_compute; reflexivity).
  pose proof (strict_least _ _ _ _ _ _ _ _ _ E R) as L. split; [|lia].
  destruct (le_lt_dec 4 n) as [|G]; auto. exfalso.
  pose proof (strict_period _ _ _ _ _ _ _ _ _ E R) as R7. change (Z.to_nat 7) with 7%nat in R7.
  rewrite recurs_at_trace in R7 by lia. destruct (R7 3%nat ltac:(lia)) as (c & d & E1 & E2 & E3 & _).
  assert (X : option_map c_state (steps (machine_of drifter) 3 init) = Some (c_state c)) by (rewrite E1; auto).
  assert (Y : option_map c_state (steps (machine_of drifter) (3 + 7) init) = Some (c_state d)) by (rewrite E2; auto).
  rewrite E3 in Y. vm_compute in X, Y. congruence.
Qed.

Lemma away_quasihalts : quasihalts (machine_of away).
Proof.
  assert (E : sr_end (strict_run away 50 0) = SLin 1 1 (Some 1) true) by (vm_compute; reflexivity).
  exact (proj1 (strict_quasi _ _ _ _ _ _ _ E) eq_refl).
Qed.

Lemma pretender_halts : halts_at (machine_of pretender) 20 (2, 0).
Proof.
  pose proof (strict_ends pretender 100 0) as H.
  replace (sr_end (strict_run pretender 100 0)) with (SUndfnd 20 (2, 0)) in H by (vm_compute; reflexivity). exact (proj2 H).
Qed.
