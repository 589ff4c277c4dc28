(** * Proofs about idris/Parse.idr *)
From Verif Require Import Base TM ParseModel IdrisModel IdrisSpec IdrisParseModel IdrisParseSpec.

Definition icell_value (i : option instr) : Z * bool * Z :=
  match i with Some (c, sh, tr) => (c, sh, tr + 1) | None => (0, true, 0) end.

Lemma sat_ok p x t : p x = true -> sat p (x :: t) = [(x, t)].
Proof. intros H. unfold sat, pbind, item. rewrite H. reflexivity. Qed.

Lemma pcolor_ok c t : 0 <= c < 10 -> pcolor (48 + c :: t) = [(c, t)].
Proof.
  intros H. assert (D : is_digit (48 + c) = true) by (unfold is_digit; bdestr; auto; lia).
  unfold pcolor, pbind. rewrite sat_ok by (rewrite D; reflexivity). unfold ppure. rewrite D. replace (48 + c - 48) with c by lia. reflexivity.
Qed.

Lemma pshift_ok (sh : bool) t : pshift ((if sh then 82 else 76) :: t) = [(sh, t)].
Proof. destruct sh; reflexivity. Qed.

Lemma pstate_ok tr t : -1 <= tr < 12 -> pstate ((if tr =? -1 then 95 else 65 + tr) :: t) = [(tr + 1, t)].
Proof.
  intros H. unfold pstate, pbind. rewrite sat_ok.
  - unfold ppure, cast_state. destruct (Z.eqb_spec tr (-1)) as [->|N]; [reflexivity|]. bdestr; try lia. replace (65 + tr - 64) with (tr + 1) by lia. reflexivity.
  - unfold is_upper. destruct (Z.eqb_spec tr (-1)) as [->|N]; [reflexivity|]. bdestr; auto; lia.
Qed.

Lemma pspace_ok t : pspace (32 :: t) = [(tt, t)].
Proof. reflexivity. Qed.

Lemma pinstruction_cell i s t : icell_text i s -> pinstruction (s ++ t) = [(icell_value i, t)].
Proof.
  destruct i as [[[c sh] tr]|]; cbn [icell_text]; [|intros ->; reflexivity]. intros (Hc & Ht & ->). cbn [app].
  unfold pinstruction, pbind. rewrite pcolor_ok, pshift_ok, pstate_ok by assumption. reflexivity.
Qed.

Lemma pinstructions_row r s : irow_text r s -> forall t, pinstructions (length r) (s ++ t) = [(map icell_value r, t)].
Proof.
  induction 1 as [i s C|i s r s' C R IH]; intros t; cbn [length].
  - cbn [pinstructions]. unfold pbind at 1. rewrite (pinstruction_cell _ _ _ C). reflexivity.
  - assert (L : exists m, length r = S m) by (destruct R; cbn; eauto). destruct L as (m & L).
    rewrite L in *. change (pinstructions (S (S m))) with
      (pbind pinstruction (fun i => pbind pspace (fun _ => pbind (pinstructions (S m)) (fun is => ppure (i :: is))))).
    unfold pbind at 1. rewrite <- !app_assoc, (pinstruction_cell _ _ _ C). cbn [app]. unfold pbind. rewrite !pspace_ok, IH. reflexivity.
Qed.

Lemma pprogram_text k n g s : iprog_text k n g s -> forall t, pprogram n k (s ++ t) = [(map (map icell_value) g, t)].
Proof.
  induction 1 as [r s L R|n r s g s' L R G IH]; intros t.
  - cbn [pprogram]. unfold pbind. rewrite <- L, (pinstructions_row _ _ R). reflexivity.
  - assert (X : exists m, n = S m) by (destruct G; eauto). destruct X as (m & ->).
    change (pprogram (S (S m)) k) with
      (pbind (pinstructions k) (fun i => pbind pspace (fun _ => pbind pspace (fun _ =>
               pbind (pprogram (S m) k) (fun is => ppure (i :: is)))))).
    unfold pbind at 1. rewrite <- !app_assoc. rewrite <- L at 1. rewrite (pinstructions_row _ _ R). cbn [app]. unfold pbind. rewrite !pspace_ok, IH. reflexivity.
Qed.

Lemma cast_machine g s c : machine_of_idris (cast_prog (map (map icell_value) g)) s c = itable_machine g s c.
Proof.
  unfold machine_of_idris, itable_machine, cast_prog. destruct (Z.eqb_spec s (-1)); [reflexivity|].
  replace (s + 1 - 1) with s by lia. rewrite nth_error_map. destruct (nth_error g (Z.to_nat s)) as [row|]; cbn [option_map]; [|reflexivity].
  unfold color_index. destruct (nth_error row (Z.to_nat c)) as [i|] eqn:E.
  - rewrite (nth_error_nth (map icell_value row) (Z.to_nat c) (1, true, ihalt) (x := icell_value i)) by (rewrite nth_error_map, E; reflexivity).
    destruct i as [[[a d] tr]|]; cbn [icell_value]; [|reflexivity]. replace (tr + 1 - 1) with tr by lia. reflexivity.
  - apply nth_error_None in E. rewrite nth_overflow by (rewrite map_length; exact E). reflexivity.
Qed.

(** Whatever is read prints digits. *)
Definition idigit (i : Z * bool * Z) : Prop := 0 <= fst (fst i) < 10.

Lemma pinstruction_digit s i t : pinstruction s = [(i, t)] -> idigit i.
Proof.
  unfold pinstruction, pcolor, sat, pbind. destruct s as [|x s]; cbn [item]; [discriminate|].
  destruct (is_digit x || (x =? 46)); cbn [ppure pempty]; [|discriminate].
  destruct (pshift s) as [|[sh s1] [|]]; try discriminate. destruct (pstate s1) as [|[st s2] [|]]; try discriminate.
  intros E. inversion E; subst. unfold idigit. cbn [fst]. unfold is_digit. bdestr; lia.
Qed.

Lemma pinstructions_digit k : forall s l t, pinstructions k s = [(l, t)] -> Forall idigit l.
Proof.
  induction k as [|[|k] IH]; intros s l t E.
  - cbn in E. inversion E. constructor.
  - cbn [pinstructions] in E. unfold pbind in E. destruct (pinstruction s) as [|[i s1] [|]] eqn:I; try discriminate E.
    inversion E; subst. constructor; [eapply pinstruction_digit; eauto|constructor].
  - change (pinstructions (S (S k))) with
      (pbind pinstruction (fun i => pbind pspace (fun _ => pbind (pinstructions (S k)) (fun is => ppure (i :: is))))) in E.
    unfold pbind in E. destruct (pinstruction s) as [|[i s1] [|]] eqn:I; try discriminate E.
    destruct (pspace s1) as [|[u s2] [|]]; try discriminate E. destruct (pinstructions (S k) s2) as [|[is s3] [|]] eqn:R; try discriminate E.
    inversion E; subst. constructor; [eapply pinstruction_digit; eauto|eapply IH; eauto].
Qed.

Lemma pprogram_digit n k : forall s l t, pprogram n k s = [(l, t)] -> Forall (Forall idigit) l.
Proof.
  induction n as [|[|n] IH]; intros s l t E.
  - cbn in E. inversion E. constructor.
  - cbn [pprogram] in E. unfold pbind in E. destruct (pinstructions k s) as [|[i s1] [|]] eqn:I; try discriminate E.
    inversion E; subst. constructor; [eapply pinstructions_digit; eauto|constructor].
  - change (pprogram (S (S n)) k) with
      (pbind (pinstructions k) (fun i => pbind pspace (fun _ => pbind pspace (fun _ =>
               pbind (pprogram (S n) k) (fun is => ppure (i :: is)))))) in E.
    unfold pbind in E. destruct (pinstructions k s) as [|[i s1] [|]] eqn:I; try discriminate E.
    destruct (pspace s1) as [|[u s2] [|]]; try discriminate E. destruct (pspace s2) as [|[u' s3] [|]]; try discriminate E.
    destruct (pprogram (S n) k s3) as [|[is s4] [|]] eqn:R; try discriminate E.
    inversion E; subst. constructor; [eapply pinstructions_digit; eauto|eapply IH; eauto].
Qed.

Lemma iparse_digits n k s P : iparse n k s = Some P -> prints_digits P.
Proof.
  unfold iparse, run_parser. destruct (pprogram n k s) as [|[l [|]] [|]] eqn:E; try discriminate. cbn [option_map]. intros X. injection X as <-.
  apply pprogram_digit in E. intros st c. unfold cast_prog. destruct (nth_error l (Z.to_nat (st - 1))) as [row|] eqn:R; [|lia].
  apply nth_error_In in R. rewrite Forall_forall in E. specialize (E _ R). rewrite Forall_forall in E. unfold color_index.
  destruct (nth_in_or_default (Z.to_nat c) row (1, true, ihalt)) as [H|H].
  - specialize (E _ H). unfold idigit in E. destruct (nth (Z.to_nat c) row (1, true, ihalt)) as [[a d] tr]. exact E.
  - rewrite H. lia.
Qed.

Lemma iparse_right k n g s : iprog_text k n g s -> exists P, iparse n k s = Some P
  /\ forall st c, machine_of_idris P st c = itable_machine g st c.
Proof.
  intros G. pose proof (pprogram_text _ _ _ _ G []) as E. rewrite app_nil_r in E. unfold iparse, run_parser. rewrite E.
  eexists. split; [reflexivity|]. apply cast_machine.
Qed.

(** ** What is accepted *)

Lemma sat_some p s x t : sat p s = [(x, t)] -> s = x :: t /\ p x = true.
Proof.
  unfold sat, pbind, item. destruct s as [|y s]; [discriminate|]. destruct (p y) eqn:E; cbn; [|discriminate].
  intros X. injection X as <- <-. auto.
Qed.

Lemma pinstruction_ok s i t : pinstruction s = [(i, t)] -> exists u, s = u ++ t /\ icell_ok u.
Proof.
  unfold pinstruction, pcolor, pshift, pstate, pbind.
  destruct (sat (fun x => is_digit x || (x =? 46)) s) as [|[a s1] [|]] eqn:A; try discriminate. cbn [ppure].
  destruct (sat (fun x => (x =? 76) || (x =? 82) || (x =? 46)) s1) as [|[b s2] [|]] eqn:B; try discriminate. cbn [ppure].
  destruct (sat (fun x => is_upper x || (x =? 95) || (x =? 46)) s2) as [|[c s3] [|]] eqn:C; try discriminate. cbn [ppure].
  intros X. injection X as _ <-. apply sat_some in A, B, C. destruct A as (-> & A), B as (-> & B), C as (-> & C).
  exists [a; b; c]. split; [reflexivity|]. exists a, b, c. split; [reflexivity|]. unfold is_digit, is_upper in *.
  rewrite !orb_true_iff, ?andb_true_iff, ?Z.eqb_eq, ?Z.leb_le in *. lia.
Qed.

Lemma pspace_some s t u : pspace s = [(u, t)] -> exists x, s = x :: t /\ iblank_ok x.
Proof.
  unfold pspace, pbind. destruct (sat is_space s) as [|[x s1] [|]] eqn:A; try discriminate. cbn [ppure]. intros X. injection X as _ <-.
  apply sat_some in A. destruct A as (-> & A). exists x. split; [reflexivity|]. unfold is_space in A. rewrite !orb_true_iff, !Z.eqb_eq in A.
  unfold iblank_ok. lia.
Qed.

Lemma pinstructions_ok k : forall s l t, pinstructions (S k) s = [(l, t)] -> exists u, s = u ++ t /\ irow_ok (S k) u.
Proof.
  induction k as [|k IH]; intros s l t E.
  - cbn [pinstructions] in E. unfold pbind in E. destruct (pinstruction s) as [|[i s1] [|]] eqn:A; try discriminate E.
    injection E as _ <-. apply pinstruction_ok in A. destruct A as (u & -> & A). exists u. split; [reflexivity|]. constructor. exact A.
  - change (pinstructions (S (S k))) with
      (pbind pinstruction (fun i => pbind pspace (fun _ => pbind (pinstructions (S k)) (fun is => ppure (i :: is))))) in E.
    unfold pbind in E. destruct (pinstruction s) as [|[i s1] [|]] eqn:A; try discriminate E.
    destruct (pspace s1) as [|[w s2] [|]] eqn:B; try discriminate E.
    destruct (pinstructions (S k) s2) as [|[l' s3] [|]] eqn:C; try discriminate E. injection E as _ <-.
    apply pinstruction_ok in A. destruct A as (u & -> & A). apply pspace_some in B. destruct B as (x & -> & B).
    apply IH in C. destruct C as (v & -> & C). exists (u ++ x :: v). split; [rewrite <- app_assoc; reflexivity|]. constructor; assumption.
Qed.

Lemma pprogram_ok k n : forall s l t, pprogram (S n) (S k) s = [(l, t)] -> exists u, s = u ++ t /\ iprog_ok (S k) (S n) u.
Proof.
  induction n as [|n IH]; intros s l t E.
  - cbn [pprogram] in E. unfold pbind in E. destruct (pinstructions (S k) s) as [|[i s1] [|]] eqn:A; try discriminate E.
    injection E as _ <-. apply pinstructions_ok in A. destruct A as (u & -> & A). exists u. split; [reflexivity|]. constructor. exact A.
  - change (pprogram (S (S n)) (S k)) with
      (pbind (pinstructions (S k)) (fun i => pbind pspace (fun _ => pbind pspace (fun _ =>
               pbind (pprogram (S n) (S k)) (fun is => ppure (i :: is)))))) in E.
    unfold pbind in E. destruct (pinstructions (S k) s) as [|[i s1] [|]] eqn:A; try discriminate E.
    destruct (pspace s1) as [|[w s2] [|]] eqn:B; try discriminate E. destruct (pspace s2) as [|[w' s3] [|]] eqn:B'; try discriminate E.
    destruct (pprogram (S n) (S k) s3) as [|[l' s4] [|]] eqn:C; try discriminate E. injection E as _ <-.
    apply pinstructions_ok in A. destruct A as (u & -> & A). apply pspace_some in B. destruct B as (x & -> & B). apply pspace_some in B'. destruct B' as (y & -> & B').
    apply IH in C. destruct C as (v & -> & C). exists (u ++ x :: y :: v). split; [rewrite <- app_assoc; reflexivity|]. constructor; assumption.
Qed.

Lemma pinstruction_takes u t : icell_ok u -> exists i, pinstruction (u ++ t) = [(i, t)].
Proof.
  intros (a & b & c & -> & A & B & C). cbn [app]. unfold pinstruction, pcolor, pshift, pstate, pbind.
  rewrite sat_ok by (unfold is_digit; rewrite orb_true_iff, andb_true_iff, Z.eqb_eq, !Z.leb_le; lia). cbn [ppure].
  rewrite sat_ok by (rewrite !orb_true_iff, !Z.eqb_eq; lia). cbn [ppure].
  rewrite sat_ok by (unfold is_upper; rewrite !orb_true_iff, andb_true_iff, !Z.eqb_eq, !Z.leb_le; lia). eexists; reflexivity.
Qed.

Lemma pspace_takes x t : iblank_ok x -> pspace (x :: t) = [(tt, t)].
Proof.
  intros H. unfold pspace, pbind. rewrite sat_ok; [reflexivity|]. unfold is_space, iblank_ok in *. rewrite !orb_true_iff, !Z.eqb_eq. lia.
Qed.

Lemma pinstructions_takes k u : irow_ok k u -> forall t, exists l, pinstructions k (u ++ t) = [(l, t)].
Proof.
  induction 1 as [s C|k s x s' C B R IH]; intros t.
  - cbn [pinstructions]. unfold pbind. destruct (pinstruction_takes s t C) as (i & ->). eexists; reflexivity.
  - change (pinstructions (S (S k))) with
      (pbind pinstruction (fun i => pbind pspace (fun _ => pbind (pinstructions (S k)) (fun is => ppure (i :: is))))).
    unfold pbind. rewrite <- app_assoc. cbn [app]. destruct (pinstruction_takes s (x :: s' ++ t) C) as (i & ->). rewrite (pspace_takes _ _ B).
    destruct (IH t) as (l & ->). eexists; reflexivity.
Qed.

Lemma pprogram_takes k n u : iprog_ok k n u -> forall t, exists l, pprogram n k (u ++ t) = [(l, t)].
Proof.
  induction 1 as [s R|n s x y s' R B B' G IH]; intros t.
  - cbn [pprogram]. unfold pbind. destruct (pinstructions_takes k s R t) as (l & ->). eexists; reflexivity.
  - change (pprogram (S (S n)) k) with
      (pbind (pinstructions k) (fun i => pbind pspace (fun _ => pbind pspace (fun _ =>
               pbind (pprogram (S n) k) (fun is => ppure (i :: is)))))).
    unfold pbind. rewrite <- app_assoc. cbn [app]. destruct (pinstructions_takes k s R (x :: y :: s' ++ t)) as (i & ->).
    rewrite (pspace_takes _ _ B), (pspace_takes _ _ B'). destruct (IH t) as (l & ->). eexists; reflexivity.
Qed.

Lemma iparse_accepts n k s : iparse (S n) (S k) s <> None <-> iprog_ok (S k) (S n) s.
Proof.
  unfold iparse, run_parser. split.
  - destruct (pprogram (S n) (S k) s) as [|[l [|]] [|]] eqn:E; cbn [option_map]; try congruence. intros _.
    apply pprogram_ok in E. destruct E as (u & -> & E). rewrite app_nil_r. exact E.
  - intros H. destruct (pprogram_takes _ _ _ H []) as (l & E). rewrite app_nil_r in E. rewrite E. discriminate.
Qed.
