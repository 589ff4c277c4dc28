(** * A certified rule is a law *)
From Verif Require Import Base TM TMFacts ProgModel TapeModel TapeSpec TapeProofs RulesModel RulesSpec RulesProofs
  EnumModel QuickModel ProverModel LawSpec LawProofs RsLawProofs RsGrowProofs LawCase CertSpec.
Local Open Scope list_scope.
Local Open Scope Z_scope.

Section Values.
Variable v : index -> Z.
Hypothesis v_pos : forall i, 0 <= v i.

Fixpoint total (us : list index) : Z := match us with [] => 0 | i :: us => v i + total us end.
Definition value (n : ucount) : Z := fst n + total (snd n).
Definition block_at (b : ublock) : block := Blk (fst b) (value (snd b)).
Definition span_at (rest : span) (s : uspan) : span := map block_at (u_blocks s) ++ (if u_open s then rest else []).
Definition tape_at (lr rr : span) (t : utape) : tape := Tape (span_at lr (u_l t)) (u_scan t) (span_at rr (u_r t)).

Lemma total_pos us : 0 <= total us.
Proof. induction us; cbn; [lia|]. pose proof (v_pos a). lia. Qed.
Lemma total_app a b : total (a ++ b) = total a + total b.
Proof. induction a; cbn; lia. Qed.
Lemma value_add a b : value (u_add a b) = value a + value b.
Proof. unfold value, u_add. cbn. rewrite total_app. lia. Qed.
Lemma total_take_out i : forall us us', take_out i us = Some us' -> total us = v i + total us'.
Proof.
  induction us as [|j us IH]; intros us' H; cbn in H; [discriminate|].
  destruct (index_eqb_spec i j) as [->|N]; [inv H; reflexivity|].
  destruct (take_out i us) as [w|] eqn:E; [|discriminate]. inv H. cbn. rewrite (IH w eq_refl). lia.
Qed.
Lemma total_same a : forall b, same_unknowns a b = true -> total a = total b.
Proof.
  induction a as [|i a IH]; intros b H; cbn in H; [destruct b; [auto|discriminate]|].
  destruct (take_out i b) as [w|] eqn:E; [|discriminate]. cbn. rewrite (total_take_out _ _ _ E), (IH w H). lia.
Qed.

(** Taking one cell. *)
Definition rs_take (s : span) : Z * span :=
  match s with
  | [] => (0, s)
  | b :: s' => if b_count b >? 1 then (b_color b, Blk (b_color b) (b_count b - 1) :: s') else (b_color b, s')
  end.
Lemma take_at rest s x s' : u_take s = Some (x, s') -> rs_take (span_at rest s) = (x, span_at rest s').
Proof.
  destruct s as [bs o]. unfold u_take, span_at. cbn [u_blocks u_open]. destruct bs as [|[c [n us]] bs].
  - destruct o; [discriminate|]. intros H. inv H. reflexivity.
  - destruct (Z.leb_spec 2 n) as [E|E].
    + intros H. inv H. cbn. unfold value. cbn. pose proof (total_pos us). zb.
      replace (n + total us >? 1) with true by (symmetry; rewrite Z.gtb_lt; lia).
      unfold block_at at 2, value. cbn. replace (n + total us - 1) with (n - 1 + total us) by lia. reflexivity.
    + destruct us; [|discriminate]. destruct (n =? 1) eqn:E1; [|discriminate]. intros H. inv H. zb. subst n.
      cbn. reflexivity.
Qed.
Lemma rs_pull_take s scan skip : rs_pull s scan skip =
  match s with
  | b :: s' => if skip && (b_color b =? scan) then (let '(x, w) := rs_take s' in (x, 1 + b_count b, w))
               else (let '(x, w) := rs_take s in (x, 1, w))
  | [] => (0, 1, [])
  end.
Proof.
  unfold rs_pull, rs_take. destruct s as [|b s]; auto.
  destruct (skip && (b_color b =? scan)).
  - destruct s as [|b' s]; auto. destruct (b_count b' >? 1); auto.
  - destruct (b_count b >? 1); auto.
Qed.
Lemma pull_at rest s scan skip x n s' : u_pull s scan skip = Some (x, n, s') ->
  rs_pull (span_at rest s) scan skip = (x, value n, span_at rest s').
Proof.
  destruct s as [bs o]. rewrite rs_pull_take. unfold u_pull. cbn [u_blocks u_open]. destruct bs as [|[c m] bs].
  - destruct o; [discriminate|]. intros H. inv H. reflexivity.
  - unfold span_at at 1. cbn [u_blocks u_open map app block_at fst snd b_color b_count].
    destruct (skip && (c =? scan)).
    + destruct (u_take (US bs o)) as [[y w]|] eqn:E; [|discriminate]. intros H. inv H.
      pose proof (take_at rest _ _ _ E) as T. unfold span_at in T at 1. cbn [u_blocks u_open] in T. rewrite T.
      rewrite value_add. reflexivity.
    + match goal with |- context [u_take ?s] => destruct (u_take s) as [[y w]|] eqn:E end; [|discriminate]. intros H. inv H.
      rewrite (take_at rest _ _ _ E). reflexivity.
Qed.
Lemma push_at rest s color n s' : u_push s color n = Some s' ->
  TapeModel.rs_push (span_at rest s) color (value n) = span_at rest s'.
Proof.
  destruct s as [bs o]. unfold u_push, span_at. cbn [u_blocks u_open]. destruct bs as [|[c m] bs].
  - destruct o; [discriminate|]. intros H. inv H. cbn. destruct (color =? 0); reflexivity.
  - intros H. inv H. cbn. destruct (c =? color); cbn; auto.
    unfold block_at at 2. cbn [fst snd]. rewrite value_add. reflexivity.
Qed.

Lemma step_at lr rr M state t next t' : u_step M state t = Some (next, t') -> wf_tape (tape_at lr rr t) ->
  wf_tape (tape_at lr rr t') /\ forall c, represents (tape_at lr rr t) c -> c_state c = state ->
    exists n c', (1 <= n)%nat /\ steps M n c = Some c' /\ c_state c' = next /\ represents (tape_at lr rr t') c'.
Proof.
  unfold u_step. intros H W. destruct (M state (u_scan t)) as [[[color shift] nx]|] eqn:EM; [|discriminate].
  assert (X : exists k, nx = next /\ rs_step (tape_at lr rr t) shift color (state =? nx) = (tape_at lr rr t', k)).
  { unfold rs_step. destruct shift; cbn [t_lspan t_scan t_rspan tape_at].
    - destruct (u_pull (u_r t) (u_scan t) (state =? nx)) as [[[x n] w]|] eqn:E1; [|discriminate].
      destruct (u_push (u_l t) color n) as [p|] eqn:E2; [|discriminate]. injection H as <- <-.
      rewrite (pull_at _ _ _ _ _ _ _ E1), (push_at _ _ _ _ _ E2). eexists. split; reflexivity.
    - destruct (u_pull (u_l t) (u_scan t) (state =? nx)) as [[[x n] w]|] eqn:E1; [|discriminate].
      destruct (u_push (u_r t) color n) as [p|] eqn:E2; [|discriminate]. injection H as <- <-.
      rewrite (pull_at _ _ _ _ _ _ _ E1), (push_at _ _ _ _ _ E2). eexists. split; reflexivity. }
  destruct X as (k & -> & X). rewrite <- py_rs_step in X by auto.
  exact (hop M state color shift next _ _ k W EM X).
Qed.

Lemma comes_back_at lr rr M r s0 t0 : forall fuel state t, comes_back M fuel r s0 t0 state t = true -> wf_tape (tape_at lr rr t) ->
  exists t', is_gained r t0 t' = true /\ wf_tape (tape_at lr rr t') /\
  forall c, represents (tape_at lr rr t) c -> c_state c = state ->
    exists n c', (1 <= n)%nat /\ steps M n c = Some c' /\ c_state c' = s0 /\ represents (tape_at lr rr t') c'.
Proof.
  induction fuel as [|fuel IH]; intros state t H W; cbn [comes_back] in H; [discriminate|].
  destruct (u_step M state t) as [[next t']|] eqn:E; [|discriminate].
  destruct (step_at lr rr _ _ _ _ _ E W) as (W' & S).
  destruct ((next =? s0) && is_gained r t0 t') eqn:B.
  - apply andb_true_iff in B. destruct B as (B1 & B2). zb. subst next. exists t'. auto.
  - destruct (IH _ _ H W') as (t2 & G & W2 & S2). exists t2. split; auto. split; auto.
    intros c R C. destruct (S c R C) as (n1 & c1 & N1 & E1 & C1 & R1). destruct (S2 c1 R1 C1) as (n2 & c2 & N2 & E2 & C2 & R2).
    exists (n1 + n2)%nat, c2. split; [lia|]. split; auto. rewrite (steps_add_some _ _ _ _ _ E1). auto.
Qed.

(** ** What the rule does to the blocks of one side *)
Definition gain0 (r : rule) (i : index) : Z := match gain r i with Some d => d | None => 0 end.
Fixpoint bumped (r : rule) (side : bool) (k : nat) (s : span) : span :=
  match s with [] => [] | b :: s => Blk (b_color b) (b_count b + gain0 r (side, k)) :: bumped r side (S k) s end.

Lemma bumped_colors r side : forall s k, map b_color (bumped r side k s) = map b_color s.
Proof. induction s; intros k; cbn; f_equal; auto. Qed.
Lemma bumped_nth r side : forall s k j,
  option_map b_count (nth_error (bumped r side k s) j) = option_map (fun n => n + gain0 r (side, (k + j)%nat)) (option_map b_count (nth_error s j)).
Proof.
  induction s as [|b s IH]; intros k [|j]; cbn; auto.
  - rewrite Nat.add_0_r. auto.
  - rewrite IH. rewrite Nat.add_succ_r. reflexivity.
Qed.
Lemma bumped_same r side : forall s k, (forall j, (k <= j)%nat -> gain0 r (side, j) = 0) -> bumped r side k s = s.
Proof.
  induction s as [|[c n] s IH]; intros k H; cbn; auto. rewrite IH by (intros; apply H; lia). rewrite H by lia. rewrite Z.add_0_r. auto.
Qed.
Lemma gained_bumped r side rest : forall a b k, gained r side k a b = true ->
  (forall j, (k + length a <= j)%nat -> gain0 r (side, j) = 0) ->
  map block_at b ++ rest = bumped r side k (map block_at a ++ rest).
Proof.
  induction a as [|[c [n us]] a IH]; intros [|[c' [n' us']] b] k G H; cbn [gained] in G; try discriminate.
  - cbn. rewrite bumped_same; auto. intros j L. apply H. cbn. lia.
  - destruct (gain r (side, k)) as [d|] eqn:E.
    2: { rewrite andb_false_r in G. discriminate. }
    repeat rewrite andb_true_iff in G. destruct G as (((G1 & G2) & G3) & G4). zb. subst c' n'.
    cbn. rewrite <- (IH b (S k) G4).
    + do 2 f_equal. unfold block_at, value, gain0. cbn. rewrite E. rewrite (total_same _ _ G3). f_equal. lia.
    + intros j L. apply H. cbn. lia.
Qed.
Lemma gained_some r side : forall a b k, gained r side k a b = true ->
  forall j, (j < length a)%nat -> gain r (side, (k + j)%nat) <> None.
Proof.
  induction a as [|[c [n us]] a IH]; intros [|[c' [n' us']] b] k G j L; cbn [gained] in G; cbn in L; try discriminate; try lia.
  destruct (gain r (side, k)) as [d|] eqn:E.
  2: { rewrite andb_false_r in G. discriminate. }
  repeat rewrite andb_true_iff in G. destruct G as (_ & G). destruct j as [|j].
  - rewrite Nat.add_0_r. congruence.
  - rewrite Nat.add_succ_r. apply (IH b (S k) G). lia.
Qed.
Lemma start_length r side : forall g k, length (u_start r side k g) = length g.
Proof. induction g; intros k; cbn; auto. Qed.
Lemma start_at r side : forall g k s,
  (forall j c, nth_error g j = Some c -> nth_error s j = Some (Blk (cc_color c) (value (u_count r (side, (k + j)%nat) c)))) ->
  map block_at (u_start r side k g) ++ skipn (length g) s = s.
Proof.
  induction g as [|c g IH]; intros k s H; cbn; auto.
  pose proof (H 0%nat c eq_refl) as H0. rewrite Nat.add_0_r in H0. destruct s as [|b s]; [discriminate|]. cbn in H0. inv H0.
  f_equal. apply (IH (S k)). intros j d E. specialize (H (S j) d E). rewrite Nat.add_succ_r in H. exact H.
Qed.
End Values.

(** ** The values of the unknowns *)
Definition sig_side (g : signature) (side : bool) : list colcount := if side then sg_r g else sg_l g.
Definition unknown (r : rule) (g : signature) (t : tape) (i : index) : Z :=
  match get_count t i, nth_error (sig_side g (fst i)) (snd i) with
  | Some n, Some c => n - fst (u_count r i c)
  | _, _ => 0
  end.

(** What is known of a count on a tape that the rule is used on. *)
Lemma count_known r k t t1 (i : index) c : wf_tape t -> after r k t t1 -> ~ blocked r t1 ->
  option_map sig_of_block (nth_error (if fst i then t_rspan t else t_lspan t) (snd i)) = Some c ->
  gain r i <> None ->
  exists n, nth_error (if fst i then t_rspan t1 else t_lspan t1) (snd i) = Some (Blk (cc_color c) n)
  /\ fst (u_count r i c) <= n /\ (snd (u_count r i c) = [] -> n = fst (u_count r i c))
  /\ (snd (u_count r i c) = [] \/ snd (u_count r i c) = [i]).
Proof.
  intros W (SH & CN) NB E G. destruct (nth_error (if fst i then t_rspan t else t_lspan t) (snd i)) as [b|] eqn:Eb; [|discriminate].
  cbn in E. assert (GC : get_count t i = Some (b_count b)) by (unfold get_count, t_get_count; rewrite Eb; reflexivity).
  pose proof (wf_count _ _ _ W GC) as P.
  pose proof (CN i) as C1.
  assert (ON : exists n, get_count t1 i = Some n /\ exists d, gain r i = Some d
    /\ (d < 0 -> 1 - d <= n) /\ (0 <= d -> b_count b <= n) /\ (d = 0 -> n = b_count b)).
  { unfold gain in *. destruct (rule_at r i) as [[d|m a]|] eqn:RA; [|congruence|].
    - rewrite (bump_n_Plus r k _ i d (b_count b) RA GC) in C1. eexists. split; [exact C1|]. exists d. split; auto.
      split; [|split; intros; nia]. intros D.
      destruct (Z.le_gt_cases (1 - d) (b_count b + d * Z.of_nat k)); auto. exfalso. apply NB.
      exists i, d, (b_count b + d * Z.of_nat k). split; [apply rule_at_some_In; auto|]. split; auto. split; auto. lia.
    - rewrite (bump_n_None r k _ i RA), GC in C1. eexists. split; [exact C1|]. exists 0. split; auto. lia. }
  destruct ON as (n & GN & d & GD & D1 & D2 & D3). exists n. split.
  { unfold get_count, t_get_count in GN.
    assert (CO : option_map b_color (nth_error (if fst i then t_rspan t1 else t_lspan t1) (snd i)) = Some (b_color b)).
    { destruct SH as (_ & L & R). destruct (fst i); cbn in *.
      - rewrite <- nth_error_map, <- R, nth_error_map, Eb. reflexivity.
      - rewrite <- nth_error_map, <- L, nth_error_map, Eb. reflexivity. }
    destruct (nth_error (if fst i then t_rspan t1 else t_lspan t1) (snd i)) as [[c1 n1]|]; [|discriminate].
    cbn in GN, CO. inv GN. inv CO. do 2 f_equal. unfold sig_of_block in E. destruct (b_count b =? 1); inv E; reflexivity. }
  unfold u_count. rewrite GD. unfold sig_of_block in E. destruct (Z.ltb_spec d 0) as [L|L].
  { cbn. split; [auto|]. split; [discriminate|auto]. }
  destruct (Z.eqb_spec (b_count b) 1) as [E1|E1]; inv E.
  - destruct (Z.eqb_spec d 0) as [E2|E2]; cbn; split; try lia; split; auto; try discriminate. intros _. rewrite D3; auto.
  - cbn. split; [lia|]. split; [discriminate|auto].
Qed.

Lemma gain_outside r i : rule_at r i = None -> gain r i = Some 0.
Proof. unfold gain. intros ->. auto. Qed.
Lemma within_outside r g side j : within r g = true -> (length (sig_side g side) <= j)%nat -> rule_at r (side, j) = None.
Proof.
  intros H L. destruct (rule_at r (side, j)) as [o|] eqn:E; auto. apply rule_at_some_In in E.
  unfold within in H. rewrite forallb_forall in H. apply H in E. cbn in E. apply Nat.ltb_lt in E. unfold sig_side in L. lia.
Qed.

Lemma certified_law M fuel state ms r t : certified_rule M fuel state ms r = true -> covers ms t -> canon t -> law M state r t.
Proof.
  destruct ms as [[scan gl gr] [lex rex]]. unfold certified_rule. cbn [sg_l sg_r sg_scan]. set (g := Sig scan gl gr).
  intros H (SC & (restl & EL & XL) & (restr & ER & XR)) CA. apply canon_wf in CA.
  apply andb_true_iff in H. destruct H as (HW & HB).
  intros k t1 t2 A1 W1 NB A2.
  set (t0 := UT (US (u_start r false 0 gl) (negb lex)) scan (US (u_start r true 0 gr) (negb rex))) in *.
  set (v := unknown r g t1).
  (* the gain is known where the signature speaks *)
  assert (GS : forall side j, (j < length (sig_side g side))%nat -> gain r (side, j) <> None).
  { assert (X : exists t', is_gained r t0 t' = true).
    { clear -HB. revert HB. generalize t0 at 2 as t, state at 2 as s. intros t s. revert s t. induction fuel as [|f IH]; intros s t H; cbn [comes_back] in H; [discriminate|].
      destruct (u_step M s t) as [[nx t']|]; [|discriminate]. destruct ((nx =? state) && is_gained r t0 t') eqn:E; [|eauto].
      apply andb_true_iff in E. destruct E. eauto. }
    destruct X as (t' & X). unfold is_gained in X. repeat rewrite andb_true_iff in X. destruct X as ((((_ & X1) & _) & X2) & _).
    intros [|] j L; cbn in L.
    - apply (gained_some _ _ _ _ _ X2 j). cbn. rewrite start_length. auto.
    - apply (gained_some _ _ _ _ _ X1 j). cbn. rewrite start_length. auto. }
  assert (SG : forall side j c, nth_error (sig_side g side) j = Some c ->
    option_map sig_of_block (nth_error (if side then t_rspan t else t_lspan t) j) = Some c).
  { intros side j c E. rewrite <- nth_error_map. cbn in EL, ER. destruct side; cbn in E.
    - rewrite ER, nth_error_app1; [auto|]. apply nth_error_Some. congruence.
    - rewrite EL, nth_error_app1; [auto|]. apply nth_error_Some. congruence. }
  assert (KN : forall side j c, nth_error (sig_side g side) j = Some c ->
    nth_error (if side then t_rspan t1 else t_lspan t1) j = Some (Blk (cc_color c) (value v (u_count r (side, j) c)))
    /\ 0 <= v (side, j)).
  { intros side j c E. assert (L : (j < length (sig_side g side))%nat) by (apply nth_error_Some; congruence).
    destruct (count_known r k t t1 (side, j) c CA A1 NB (SG _ _ _ E) (GS _ _ L)) as (n & N1 & N2 & N3 & N4). cbn [fst snd] in N1.
    assert (V : v (side, j) = n - fst (u_count r (side, j) c)).
    { unfold v, unknown, get_count, t_get_count. cbn [fst snd]. rewrite N1, E. reflexivity. }
    split; [|lia]. rewrite N1. do 2 f_equal. unfold value. destruct N4 as [N4|N4].
    - rewrite (N3 N4), N4. cbn. lia.
    - rewrite N4. cbn [total]. rewrite V. lia. }
  assert (VP : forall i, 0 <= v i).
  { intros [side j]. destruct (nth_error (sig_side g side) j) as [c|] eqn:E; [apply (KN side j c E)|].
    unfold v, unknown. cbn [fst snd]. rewrite E. destruct (get_count t1 (side, j)); lia. }
  set (lr := skipn (length gl) (t_lspan t1)). set (rr := skipn (length gr) (t_rspan t1)).
  destruct A1 as ((S1 & S2 & S3) & CN1).
  assert (NL : lex = true -> lr = []).
  { intros X. specialize (XL X). subst restl. rewrite app_nil_r in EL. unfold lr. apply skipn_all2.
    rewrite <- (map_length b_color), <- S2, map_length. cbn in EL. rewrite <- EL, map_length. lia. }
  assert (NR : rex = true -> rr = []).
  { intros X. specialize (XR X). subst restr. rewrite app_nil_r in ER. unfold rr. apply skipn_all2.
    rewrite <- (map_length b_color), <- S3, map_length. cbn in ER. rewrite <- ER, map_length. lia. }
  assert (OP : forall (ex : bool) (rest : list block), (ex = true -> rest = []) -> (if negb ex then rest else []) = rest).
  { intros [|] rest X; cbn; auto. symmetry. auto. }
  assert (T1 : tape_at v lr rr t0 = t1).
  { unfold tape_at, t0, span_at. cbn [u_l u_r u_scan u_blocks u_open]. rewrite (OP _ _ NL), (OP _ _ NR).
    unfold lr, rr. rewrite (start_at v r false gl 0 (t_lspan t1)), (start_at v r true gr 0 (t_rspan t1)).
    - rewrite SC, S1. destruct t1; reflexivity.
    - intros j c E. apply (KN true j c E).
    - intros j c E. apply (KN false j c E). }
  destruct (comes_back_at v VP lr rr M r state t0 fuel state t0 HB) as (t' & G & W2 & S). { rewrite T1. auto. }
  assert (T2 : tape_at v lr rr t' = t2).
  { unfold is_gained in G. repeat rewrite andb_true_iff in G. destruct G as ((((G1 & G2) & G3) & G4) & G5).
    apply Bool.eqb_prop in G3, G5. zb.
    assert (OUT : forall side j, (length (sig_side g side) <= j)%nat -> gain0 r (side, j) = 0).
    { intros side j L. unfold gain0. rewrite (gain_outside r _ (within_outside r g side j HW L)). auto. }
    assert (B : tape_at v lr rr t' = Tape (bumped r false 0 (t_lspan t1)) (t_scan t1) (bumped r true 0 (t_rspan t1))).
    { rewrite <- T1. unfold tape_at, span_at. cbn [t_lspan t_scan t_rspan]. rewrite <- G1, <- G3, <- G5. f_equal.
      - apply gained_bumped; auto. intros j L. cbn in L. rewrite start_length in L. apply (OUT false). auto.
      - apply gained_bumped; auto. intros j L. cbn in L. rewrite start_length in L. apply (OUT true). auto. }
    rewrite B. destruct A2 as ((S1' & S2' & S3') & CN2). apply tape_eq.
    - repeat split; cbn; rewrite ?bumped_colors; congruence.
    - intros i. rewrite CN2, bump_n_S. unfold bump. rewrite <- CN1.
      replace (get_count (Tape (bumped r false 0 (t_lspan t1)) (t_scan t1) (bumped r true 0 (t_rspan t1))) i)
        with (option_map (fun n => n + gain0 r i) (get_count t1 i)).
      2: { destruct i as [[|] j]; unfold get_count, t_get_count; cbn [fst snd t_lspan t_rspan]; rewrite bumped_nth; reflexivity. }
      assert (GI : gain r i <> None).
      { destruct i as [side j]. destruct (Nat.lt_ge_cases j (length (sig_side g side))) as [L|L]; [apply GS; auto|].
        rewrite (gain_outside r _ (within_outside r g side j HW L)). discriminate. }
      unfold gain0, gain in *. destruct (rule_at r i) as [[d|m a]|]; [reflexivity|congruence|].
      destruct (get_count t1 i); cbn; [f_equal; lia|reflexivity]. }
  rewrite T2 in W2, S. rewrite T1 in S. split; [exact W2|exact S].
Qed.

Lemma certified_lawful M fuel pv : certified M fuel pv = true -> lawful M pv.
Proof.
  intros H state scan ms r t (l & I1 & I2) CV C. unfold certified in H. rewrite forallb_forall in H. specialize (H _ I1).
  rewrite forallb_forall in H. specialize (H _ I2). cbn in H. eapply certified_law; eauto.
Qed.

Lemma one_down_one r : one_down r = true -> one_goes_down r.
Proof.
  unfold one_down. set (f := fun e : index * op => _). intros H i d j e I1 I2 D E. apply Nat.leb_le in H.
  assert (F1 : In (i, Plus d) (filter f r)) by (apply filter_In; split; auto; cbn; apply Z.ltb_lt; auto).
  assert (F2 : In (j, Plus e) (filter f r)) by (apply filter_In; split; auto; cbn; apply Z.ltb_lt; auto).
  destruct (filter f r) as [|a [|b l]]; cbn in H; try lia; [destruct F1|].
  destruct F1 as [->|[]]. destruct F2 as [X|[]]. inv X. auto.
Qed.
Lemma all_one_down_one pv : all_one_down pv = true -> forall s ms r, holds_rule pv s ms r -> one_goes_down r.
Proof.
  intros H s ms r (l & I1 & I2). unfold all_one_down in H. rewrite forallb_forall in H. specialize (H _ I1).
  rewrite forallb_forall in H. specialize (H _ I2). apply one_down_one. exact H.
Qed.
Lemma none_down_none r : none_down r = true -> nothing_decreases r.
Proof. intros H i d I. unfold none_down in H. rewrite forallb_forall in H. specialize (H _ I). cbn in H. apply Z.leb_le. auto. Qed.

Lemma certified_never M fuel ms r t n c : steps M n init = Some c -> represents t c -> canon t -> covers ms t ->
  certified_rule M fuel (c_state c) ms r = true -> none_down r = true -> never_halts M.
Proof.
  intros E R C CV H D. eapply law_forever; [apply canon_wf; exact C| | apply none_down_none; exact D | exact E | exact R | reflexivity].
  eapply certified_law; eauto.
Qed.

(** ** Runs *)
Lemma run_certified M lim fuel : let m := py_machine_run (plain M) lim in certified M fuel (m_prover m) = true ->
  exists n c, steps M n init = Some c
  /\ (m_steps m <> -1 -> m_steps m = Z.of_nat n)
  /\ represents (m_tape m) c /\ marks_are (c_tape c) (t_marks (m_tape m))
  /\ (forall s, m_end m = MUndfnd s -> halts_at M n s)
  /\ (m_end m = MSpnout -> never_halts M /\ spins_out_from M c)
  /\ (m_end m = MXlimit -> (lim <= n)%nat)
  /\ (forall s j, In (s, j) (m_blanks m) -> exists k d, (1 <= k <= n)%nat /\ (j <> -1 -> j = Z.of_nat k)
       /\ steps M k init = Some d /\ c_state d = s /\ is_blank d).
Proof. cbv zeta. intros H. apply run_lawful. eapply certified_lawful; eauto. Qed.

Lemma rs_run_certified M lim fuel r pv :
  rs_run_prover M lim = Some r -> rs_run_prover_end M lim = Some pv ->
  certified M fuel pv = true -> all_one_down pv = true ->
  lasts M (2 ^ 64)
  \/ exists n c, steps M n init = Some c
  /\ (0 <= mr_steps r /\ 0 <= mr_rulapp r /\ mr_steps r + mr_rulapp r <= Z.of_nat n)
  /\ marks_are (c_tape c) (mr_marks r)
  /\ (mr_result r = undfnd -> exists s, mr_last_slot r = Some s /\ halts_at M n s)
  /\ (mr_result r = spnout -> never_halts M /\ spins_out_from M c)
  /\ (mr_result r = xlimit -> (lim <= n)%nat)
  /\ (forall s j, In (s, j) (mr_blanks r) -> exists k d, (1 <= k <= n)%nat /\ j <= Z.of_nat k
       /\ steps M k init = Some d /\ c_state d = s /\ is_blank d).
Proof. intros A B H D. eapply rs_run_lawful; eauto using all_one_down_one. eapply certified_lawful; eauto. Qed.

Lemma certified_agree M lim fuel r pv : let m := py_machine_run (plain M) lim in
  certified M fuel (m_prover m) = true ->
  rs_run_prover M lim = Some r -> rs_run_prover_end M lim = Some pv ->
  certified M fuel pv = true -> all_one_down pv = true ->
  forall s s', m_end m = MUndfnd s -> mr_result r = undfnd -> mr_last_slot r = Some s' ->
  lasts M (2 ^ 64) \/ (s' = s /\ mr_marks r = t_marks (m_tape m)).
Proof.
  cbv zeta. intros H A B H' D. eapply lawful_agree; eauto using all_one_down_one; eapply certified_lawful; eauto.
Qed.

Lemma certified_steps_short M lim fuel r pv n s :
  rs_run_prover M lim = Some r -> rs_run_prover_end M lim = Some pv ->
  certified M fuel pv = true -> all_one_down pv = true -> mr_undfnd r = Some (n, s) ->
  lasts M (2 ^ 64) \/ exists n', halts_at M (Z.to_nat n') s /\ n + mr_rulapp r <= n'.
Proof. intros A B H D. eapply lawful_steps_short; eauto using all_one_down_one. eapply certified_lawful; eauto. Qed.

Lemma run_certified_infrul M lim fuel : let m := py_machine_run (plain M) lim in
  certified M fuel (m_prover m) = true -> m_end m = MInfrul ->
  never_halts M
  \/ exists n c r, steps M n init = Some c /\ represents (m_tape m) c /\ grows M (c_state c) (m_tape m) r
      /\ forall fuel' ms, covers ms (m_tape m) -> certified_rule M fuel' (c_state c) ms r = true -> never_halts M.
Proof.
  cbv zeta. intros H E. destruct (run_lawful_infrul M lim) as [X|(n & c & r & A & B & C & D)]; auto.
  { eapply certified_lawful; eauto. }
  right. exists n, c, r. split; auto. split; auto. split; auto. intros f ms CV CR. apply D.
  eapply certified_law; eauto. destruct (run_law M lim (certified_lawful _ _ _ H)) as (n' & c' & I & _). apply (l_can _ _ _ _ _ _ _ I).
Qed.
