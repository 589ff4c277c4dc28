(** * Backward reasoning about renamed programs *)
From Coq Require Import Permutation.
From Verif Require Import Base TM TMFacts ProgModel TapeModel TermRecModel ParseModel ParseProofs NormModel NormProofs GraphModel GraphSpec GraphProofs ReasonModel ReasonSpec ReasonProofs ReasonKinds OrderProofs RenameSpec RenameProofs.

Section Renaming.
Variables f g : Z -> Z.
Hypothesis Hf : renaming f.
Hypothesis Hg : renaming g.

Definition rk (b : backstepper) : backstepper := BK (HT (h_head (k_ht b)) (named_tape g (h_tape (k_ht b)))) (k_lend b) (k_rend b).
Definition rc (c : rconf) : rconf :=
  RC (f (r_state c)) (rk (r_tape c)) (r_recs c) (map (fun e : Z * backstepper => (f (fst e), rk (snd e))) (r_prev c)).
Definition ren (e : slot * instr) : slot * instr := (named_slot f g (fst e), named_instr f g (snd e)).
Definition rep (ep : entries) : entries := map (fun e : Z * list (slot * instr) => (f (fst e), map ren (snd e))) ep.

Lemma rk_blank b : bk_blank (rk b) = bk_blank b.
Proof.
  unfold bk_blank. change (k_scan (rk b)) with (g (k_scan b)). rewrite (g0 g Hg). f_equal.
  change (k_lspan (rk b)) with (named_span g (k_lspan b)). change (k_rspan (rk b)) with (named_span g (k_rspan b)).
  unfold named_span. rewrite <- map_app. generalize (k_lspan b ++ k_rspan b) as l.
  induction l as [|x l IH]; [reflexivity|]. cbn. rewrite (g0 g Hg), IH. reflexivity.
Qed.
Lemma rk_check b sh pr : check_step (rk b) sh (g pr) = check_step b sh pr.
Proof.
  unfold check_step. change (k_lspan (rk b)) with (named_span g (k_lspan b)). change (k_rspan (rk b)) with (named_span g (k_rspan b)).
  destruct sh; cbn [rk k_lend k_rend]; [destruct (k_lspan b), (k_rspan b)|destruct (k_rspan b), (k_lspan b)]; cbn;
    rewrite ?(eqg g Hg), ?(g0 g Hg); reflexivity.
Qed.
Lemma pull_named s : pull_one (named_span g s) = named_span g (pull_one s).
Proof. destruct s as [|b s]; [reflexivity|]. cbn. destruct (b_count b =? 1); reflexivity. Qed.
Lemma push_named s e x : push_one (named_span g s) e (g x) = named_span g (push_one s e x).
Proof.
  unfold push_one. rewrite (g0 g Hg). destruct s as [|b s]; cbn [named_span map].
  - destruct (negb (x =? 0) || negb true || negb e); reflexivity.
  - destruct (negb (x =? 0) || negb false || negb e); [|reflexivity]. cbn [b_color b_count]. rewrite (eqg g Hg). destruct (b_color b =? x); reflexivity.
Qed.
Lemma rk_back b sh rd : backstep (rk b) sh (g rd) = rk (backstep b sh rd).
Proof.
  unfold backstep. change (k_lspan (rk b)) with (named_span g (k_lspan b)). change (k_rspan (rk b)) with (named_span g (k_rspan b)).
  change (k_scan (rk b)) with (g (k_scan b)). rewrite !pull_named, !push_named. destruct sh; reflexivity.
Qed.
Lemma lin_rec_named st tp : forall prev l r,
  lin_rec_loop (f st) (rk tp) l r (map (fun e : Z * backstepper => (f (fst e), rk (snd e))) prev) = lin_rec_loop st tp l r prev.
Proof.
  induction prev as [|[s t] prev IH]; intros l r; [reflexivity|]. cbn [map lin_rec_loop fst snd].
  change (h_head (k_ht (rk t))) with (h_head (k_ht t)).
  destruct (if h_head (k_ht t) <? l then (h_head (k_ht t), r) else if r <? h_head (k_ht t) then (l, h_head (k_ht t)) else (l, r)) as [l' r'].
  rewrite (eqf f Hf). unfold rk at 1 2; cbn [k_ht]. rewrite (aligns_rn g Hg), IH. reflexivity.
Qed.
Lemma lin_rec_rc c : lin_rec (rc c) = lin_rec c.
Proof. unfold lin_rec. apply lin_rec_named. Qed.

Lemma mem_named x l : mem (f x) (map f l) = mem x l.
Proof. unfold mem. induction l as [|y l IH]; [reflexivity|]. cbn. rewrite (eqf f Hf), IH. reflexivity. Qed.
Lemma dget_rep ep s : dget (rep ep) (f s) = option_map (map ren) (dget ep s).
Proof. induction ep as [|[k v] ep IH]; [reflexivity|]. cbn. rewrite (eqf f Hf). destruct (k =? s); [reflexivity|exact IH]. Qed.
Lemma dset_rep ep s l : dset (rep ep) (f s) (map ren l) = rep (dset ep s l).
Proof.
  induction ep as [|[k v] ep IH]; [reflexivity|]. cbn. rewrite (eqf f Hf). destruct (k =? s); [reflexivity|]. cbn. f_equal. exact IH.
Qed.
Lemma all_named p : all_entrypoints (named_prog f g p) = rep (all_entrypoints p).
Proof.
  unfold all_entrypoints. change (@nil (Z * list (slot * instr))) with (rep []) at 1. generalize (@nil (Z * list (slot * instr))) as ep.
  induction p as [|[sl [[pr sh] st]] p IH]; intros ep; [reflexivity|].
  cbn [named_prog map fold_left fst snd named_instr]. fold (named_prog f g p). rewrite <- IH. f_equal.
  rewrite dget_rep, <- dset_rep. f_equal. destruct (dget ep st); cbn; [rewrite map_app|]; reflexivity.
Qed.
Lemma round_rep ep : prune_round (rep ep) = rep (prune_round ep).
Proof.
  unfold prune_round. assert (K : map fst (rep ep) = map f (map fst ep)) by (unfold rep; rewrite !map_map; apply map_ext; reflexivity).
  rewrite K. generalize (map fst ep) as reached. intros reached. unfold rep. clear K.
  induction ep as [|[k v] ep IH]; [reflexivity|]. cbn [map filter fst snd].
  assert (F : filter (fun x : slot * instr => mem (fst (fst x)) (map f reached)) (map ren v)
            = map ren (filter (fun x : slot * instr => mem (fst (fst x)) reached) v)).
  { clear IH. induction v as [|x v IH]; [reflexivity|]. cbn [map filter]. change (fst (fst (ren x))) with (f (fst (fst x))). rewrite mem_named.
    destruct (mem (fst (fst x)) reached); cbn; rewrite IH; reflexivity. }
  rewrite F. destruct (filter (fun x : slot * instr => mem (fst (fst x)) reached) v) as [|y w]; cbn; rewrite IH; reflexivity.
Qed.
Lemma prune_rep fuel : forall ep, prune fuel (rep ep) = rep (prune fuel ep).
Proof.
  induction fuel as [|fuel IH]; intros ep; [reflexivity|]. cbn [prune]. rewrite round_rep.
  assert (L : forall e, length (rep e) = length e) by (intros e; apply map_length). rewrite !L.
  destruct (Nat.eqb (length (prune_round ep)) (length ep)); [reflexivity|]. apply IH.
Qed.
Lemma entry_named p : get_entrypoints (named_prog f g p) = rep (get_entrypoints p).
Proof. unfold get_entrypoints. rewrite all_named, prune_rep. do 2 f_equal. apply map_length. Qed.

Lemma good_named st tp eps : good_steps (f st) (rk tp) (map ren eps)
  = match good_steps st tp eps with OSome l => OSome (map (named_instr f g) l) | ONone => ONone | OPanic => OPanic end.
Proof.
  induction eps as [|[[ns ncl] [[pr sh] nx]] eps IH]; [reflexivity|]. cbn [map ren fst snd named_instr named_slot good_steps].
  rewrite rk_check. change (k_scan (rk tp)) with (g (k_scan tp)). rewrite (eqg g Hg), (eqf f Hf).
  destruct (check_step tp sh pr) as [e|]; [|exact IH].
  destruct (e && (k_scan tp =? ncl) && (st =? ns)); [reflexivity|]. rewrite IH.
  destruct (good_steps st tp eps); reflexivity.
Qed.

Definition rv (e : list instr * rconf) : list instr * rconf := (map (named_instr f g) (fst e), rc (snd e)).

Lemma valid_named ep configs : get_valid_steps (rep ep) (map rc configs)
  = match get_valid_steps ep configs with OSome l => OSome (map rv l) | ONone => ONone | OPanic => OPanic end.
Proof.
  induction configs as [|c configs IH]; [reflexivity|]. cbn [map get_valid_steps].
  change (r_state (rc c)) with (f (r_state c)). rewrite dget_rep.
  destruct (dget ep (r_state c)) as [eps|]; [|reflexivity]. cbn [option_map].
  change (r_tape (rc c)) with (rk (r_tape c)). rewrite good_named.
  destruct (good_steps (r_state c) (r_tape c) eps) as [l| |]; try reflexivity.
  rewrite IH. destruct (get_valid_steps ep configs) as [v| |]; try reflexivity.
  destruct l; reflexivity.
Qed.

Lemma instrs_named c instrs : forall stepped blanks,
  step_instrs (rc c) (map (named_instr f g) instrs) (map rc stepped) (map f blanks)
  = option_map (fun r => (map rc (fst r), map f (snd r))) (step_instrs c instrs stepped blanks).
Proof.
  induction instrs as [|[[color sh] st] instrs IH]; intros stepped blanks; [reflexivity|].
  cbn [map named_instr step_instrs]. change (r_tape (rc c)) with (rk (r_tape c)). rewrite rk_back, rk_blank, (f0 f Hf), mem_named.
  destruct (bk_blank (backstep (r_tape c) sh color) && (st =? 0)); [reflexivity|].
  destruct (bk_blank (backstep (r_tape c) sh color) && mem st blanks); [apply IH|].
  assert (B : (if bk_blank (backstep (r_tape c) sh color) then f st :: map f blanks else map f blanks)
            = map f (if bk_blank (backstep (r_tape c) sh color) then st :: blanks else blanks)) by (destruct (bk_blank _); reflexivity).
  rewrite B. set (bl := if bk_blank (backstep (r_tape c) sh color) then st :: blanks else blanks).
  pose (nx := RC st (backstep (r_tape c) sh color) (r_recs c) ((r_state c, r_tape c) :: r_prev c)).
  change (RC (f st) (rk (backstep (r_tape c) sh color)) (r_recs (rc c)) ((r_state (rc c), rk (r_tape c)) :: r_prev (rc c))) with (rc nx).
  fold nx. rewrite lin_rec_rc. change (r_recs (rc nx)) with (r_recs nx).
  destruct (lin_rec nx).
  - destruct (1 <? r_recs nx + 1); [reflexivity|]. rewrite <- IH, map_app. reflexivity.
  - rewrite <- IH, map_app. reflexivity.
Qed.

Lemma configs_named configs : forall stepped blanks,
  step_configs (map rv configs) (map rc stepped) (map f blanks)
  = option_map (fun r => (map rc (fst r), map f (snd r))) (step_configs configs stepped blanks).
Proof.
  induction configs as [|[instrs c] configs IH]; intros stepped blanks; [reflexivity|].
  cbn [map rv fst snd step_configs]. rewrite instrs_named.
  destruct (step_instrs c instrs stepped blanks) as [[s b]|]; [|reflexivity]. cbn. apply IH.
Qed.

Lemma loop_named ep fuel : forall step configs blanks,
  reach_loop (rep ep) fuel step (map rc configs) (map f blanks) = reach_loop ep fuel step configs blanks.
Proof.
  induction fuel as [|fuel IH]; intros step configs blanks; [reflexivity|]. cbn [reach_loop]. rewrite valid_named.
  destruct (get_valid_steps ep configs) as [v| |]; try reflexivity.
  destruct v as [|v0 v]; [reflexivity|]. cbn [map]. rewrite <- (map_length rv (v0 :: v)). cbn [map].
  destruct (46 <? _); [reflexivity|].
  rewrite (configs_named (v0 :: v) [] blanks : step_configs (rv v0 :: map rv v) [] (map f blanks) = _).
  destruct (step_configs (v0 :: v) [] blanks) as [[s b]|]; [|reflexivity]. cbn. apply IH.
Qed.

Lemma reach_named p depth configs : cant_reach (named_prog f g p) depth (map rc configs) = cant_reach p depth configs.
Proof.
  destruct configs as [|c0 configs]; [reflexivity|]. unfold cant_reach. cbn [map].
  change (rc c0 :: map rc configs) with (map rc (c0 :: configs)). generalize (c0 :: configs) as cs. intros cs.
  rewrite entry_named. generalize (get_entrypoints p) as ep. intros ep.
  assert (F : filter (fun c => match dget (rep ep) (r_state c) with Some _ => true | None => false end) (map rc cs)
            = map rc (filter (fun c => match dget ep (r_state c) with Some _ => true | None => false end) cs)).
  { induction cs as [|c cs IH]; [reflexivity|]. cbn [map filter]. change (r_state (rc c)) with (f (r_state c)). rewrite dget_rep.
    destruct (dget ep (r_state c)); cbn; rewrite IH; reflexivity. }
  rewrite F. generalize (filter (fun c => match dget ep (r_state c) with Some _ => true | None => false end) cs) as k. intros k.
  transitivity (reach_loop (rep ep) depth 0 (map rc k) (map f (map r_state (filter (fun c => bk_blank (r_tape c)) k)))); [f_equal|apply loop_named].
  induction k as [|c k IH]; [reflexivity|]. cbn [map filter]. change (r_tape (rc c)) with (rk (r_tape c)). rewrite rk_blank.
  destruct (bk_blank (r_tape c)); cbn; rewrite IH; reflexivity.
Qed.

(** ** The starting points *)

Lemma named_nodup p : NoDup (map fst p) -> NoDup (map fst (named_prog f g p)).
Proof.
  intros N. unfold named_prog. rewrite map_map. cbn [fst]. rewrite <- (map_map fst (named_slot f g)).
  apply FinFun.Injective_map_NoDup; [|exact N]. intros [a b] [c d] E. unfold named_slot in E. cbn in E. inv E.
  f_equal; [apply (proj2 Hf)|apply (proj2 Hg)]; auto.
Qed.
Lemma flat_nodup {A} (h : A -> rconf) (P : A -> bool) (k : A -> list slot) l : (forall x, In x l -> path (h x) = k x) -> NoDup (map k l) ->
  NoDup (map path (flat_map (fun x => if P x then [h x] else []) l)).
Proof.
  intros E N. assert (Q : map path (flat_map (fun x => if P x then [h x] else []) l) = map k (filter P l)).
  { clear N. induction l as [|x l IH]; [reflexivity|]. cbn [flat_map filter]. rewrite map_app, IH by (intros; apply E; right; auto).
    destruct (P x); [|reflexivity]. cbn [map app]. f_equal. apply E. left; auto. }
  rewrite Q. apply nodup_filter_map, N.
Qed.
Lemma nodup_sing {A B} (h : A -> B) l : NoDup (map h l) -> NoDup (map (fun x => [h x]) l).
Proof.
  intros N. rewrite <- (map_map h (fun y => [y])). apply FinFun.Injective_map_NoDup; [|exact N]. intros a b E. inv E. reflexivity.
Qed.

Lemma erase_path p : NoDup (map fst p) -> NoDup (map path (erase_configs p)).
Proof.
  intros N. assert (E : erase_configs p = flat_map (fun e : slot * instr =>
      if (fst (fst (snd e)) =? 0) && negb (snd (fst e) =? 0) then [rc_new (fst (fst e)) (init_blank (snd (fst e)))] else []) p).
  { unfold erase_configs. apply flat_map_ext. intros [[s c] [[pr sh] t]]. reflexivity. }
  rewrite E. apply flat_nodup with (k := fun e => [fst e]); [intros [[s c] i] _; reflexivity|]. apply nodup_sing, N.
Qed.
Lemma spin_path p : NoDup (map fst p) -> NoDup (map path (zero_reflexive_configs p)).
Proof.
  intros N. assert (E : zero_reflexive_configs p = flat_map (fun e : slot * instr =>
      if (snd (fst e) =? 0) && (snd (snd e) =? fst (fst e)) then [rc_new (fst (fst e)) (init_spinout (snd (fst (snd e))))] else []) p).
  { unfold zero_reflexive_configs. apply flat_map_ext. intros [[s c] [[pr sh] t]]. reflexivity. }
  assert (E2 : zero_reflexive_configs p = flat_map (fun e : slot * instr =>
      if snd (snd e) =? fst (fst e) then [rc_new (fst (fst e)) (init_spinout (snd (fst (snd e))))] else []) (filter (fun e : slot * instr => snd (fst e) =? 0) p)).
  { rewrite E. clear. induction p as [|e p IH]; [reflexivity|]. cbn [flat_map filter]. rewrite IH. destruct (snd (fst e) =? 0); reflexivity. }
  rewrite E2. apply flat_nodup with (k := fun e => [fst e]).
  - intros [[s c] i] I. apply filter_In in I. destruct I as [_ I]. cbn in I. apply Z.eqb_eq in I. subst. reflexivity.
  - apply nodup_sing, nodup_filter_map, N.
Qed.
Lemma range_nodup n : NoDup (range n).
Proof. unfold range. apply FinFun.Injective_map_NoDup; [|apply seq_NoDup]. intros a b. apply Nat2Z.inj. Qed.
Lemma halt_path p : NoDup (map path (halt_configs p)).
Proof.
  unfold halt_configs. destruct (max_key p) as [ms mc].
  set (slots := flat_map (fun s => map (fun c => (s, c)) (range (mc + 1))) (range (ms + 1))).
  assert (E : flat_map (fun state => flat_map (fun color => match comp_get p (state, color) with None => [rc_new state (init_halt color)] | Some _ => [] end)
      (range (mc + 1))) (range (ms + 1))
    = flat_map (fun e : slot => if match comp_get p e with None => true | Some _ => false end then [rc_new (fst e) (init_halt (snd e))] else []) slots).
  { unfold slots. clear slots. induction (range (ms + 1)) as [|s l IH]; [reflexivity|]. cbn [flat_map]. rewrite flat_map_app, IH. f_equal.
    clear IH. generalize (range (mc + 1)) as r. induction r as [|c r IHr]; [reflexivity|]. cbn. rewrite IHr. destruct (comp_get p (s, c)); reflexivity. }
  rewrite E. apply flat_nodup with (k := fun e => [e]); [intros [s c] _; reflexivity|]. apply (nodup_sing (fun e : slot => e) slots).
  replace (map (fun e : slot => e) slots) with slots by (symmetry; apply map_id). unfold slots.
  assert (K : forall l : list Z, NoDup l -> NoDup (flat_map (fun s : Z => map (fun c : Z => (s, c)) (range (mc + 1))) l)).
  { induction l as [|s l IH]; intros N; [constructor|]. inv N. cbn [flat_map]. apply nodup_app; auto.
    - apply FinFun.Injective_map_NoDup; [intros a b X; inv X; auto|apply range_nodup].
    - intros q I J. apply in_map_iff in I. destruct I as (c & <- & I). apply in_flat_map in J. destruct J as (s' & Is & J).
      apply in_map_iff in J. destruct J as (c' & X & J). inv X. auto. }
  apply K, range_nodup.
Qed.

Lemma fresh_erase p c : In c (erase_configs p) -> wf (r_tape c) /\ r_prev c = [].
Proof. intros I. apply erase_in in I. destruct I as (s & x & sh & t & _ & _ & ->). split; [apply wf_init|reflexivity]. Qed.
Lemma fresh_spin p c : In c (zero_reflexive_configs p) -> wf (r_tape c) /\ r_prev c = [].
Proof. intros I. apply spin_in in I. destruct I as (s & pr & sh & _ & ->). split; [apply wf_init|reflexivity]. Qed.
Lemma fresh_halt p c : In c (halt_configs p) -> wf (r_tape c) /\ r_prev c = [].
Proof. intros I. apply halt_configs_in in I. destruct I as (s & x & _ & _ & _ & ->). split; [apply wf_init|reflexivity]. Qed.

Lemma rc_fresh cs : NoDup (map path cs) -> (forall c, In c cs -> wf (r_tape c) /\ r_prev c = []) ->
  NoDup (map path (map rc cs)) /\ forall c, In c (map rc cs) -> wf (r_tape c) /\ r_prev c = [].
Proof.
  intros N G. split.
  - assert (E : forall c, path (rc c) = map (named_slot f g) (path c)).
    { intros c. unfold path. cbn [rc r_state r_tape r_prev map]. f_equal. rewrite !map_map. reflexivity. }
    rewrite map_map. rewrite (map_ext _ _ E). rewrite <- (map_map path (map (named_slot f g))). apply FinFun.Injective_map_NoDup; [|exact N].
    intros a. induction a as [|x a IH]; intros [|y b] X; try discriminate X; [reflexivity|]. cbn [map] in X. injection X as X1 X2 X3.
    f_equal; [|auto]. destruct x, y. f_equal; [apply (proj2 Hf)|apply (proj2 Hg)]; auto.
  - intros c I. apply in_map_iff in I. destruct I as (d & <- & I). destruct (G d I) as [W Pn]. cbn [rc r_prev r_tape]. rewrite Pn. split; [|reflexivity].
    intros dir. specialize (W dir). unfold wf_span, k_span in *.
    destruct dir; [change (k_rspan (rk (r_tape d))) with (named_span g (k_rspan (r_tape d)))|change (k_lspan (rk (r_tape d))) with (named_span g (k_lspan (r_tape d)))];
      unfold named_span; apply Forall_map; exact W.
Qed.

Lemma erase_named p : erase_configs (named_prog f g p) = map rc (erase_configs p).
Proof.
  unfold erase_configs, named_prog. induction p as [|[[s c] [[pr sh] t]] q IH]; [reflexivity|]. cbn [map flat_map fst snd named_slot named_instr].
  rewrite map_app, IH, !(g0 g Hg). f_equal. destruct ((pr =? 0) && negb (c =? 0)); reflexivity.
Qed.
Lemma spinning_named p : zero_reflexive_configs (named_prog f g p) = map rc (zero_reflexive_configs p).
Proof.
  unfold zero_reflexive_configs, named_prog. induction p as [|[[s c] [[pr sh] t]] q IH]; [reflexivity|].
  cbn [map flat_map fst snd named_slot named_instr].
  rewrite map_app, IH, (g0 g Hg), (eqf f Hf). f_equal. destruct ((c =? 0) && (t =? s)); [|reflexivity]. cbn.
  unfold rc, rc_new, rk, init_spinout, named_tape, named_span; cbn. rewrite (proj1 Hg). reflexivity.
Qed.

Section Both.
Variables p p' : comp_prog.
Hypothesis ND : NoDup (map fst p).
Hypothesis P : Permutation p' (named_prog f g p).

Lemma from_named depth cs cs' : NoDup (map path cs) -> (forall c, In c cs -> wf (r_tape c) /\ r_prev c = []) ->
  Permutation cs' (map rc cs) -> cant_reach p' depth cs' = cant_reach p depth cs.
Proof.
  intros N G Pc. rewrite <- (reach_named p depth cs). symmetry. destruct (rc_fresh cs N G) as [N' G'].
  apply reach_order; auto; [apply named_nodup, ND|apply Permutation_sym, P|apply Permutation_sym, Pc].
Qed.

Lemma blank_named depth : cant_blank p' depth = cant_blank p depth.
Proof.
  apply from_named; [apply erase_path, ND|apply fresh_erase|].
  rewrite <- erase_named. exact (Permutation_flat_map _ P).
Qed.
Lemma spin_named depth : cant_spin_out p' depth = cant_spin_out p depth.
Proof.
  apply from_named; [apply spin_path, ND|apply fresh_spin|].
  rewrite <- spinning_named. exact (Permutation_flat_map _ P).
Qed.

Hypothesis Km : max_key p' = max_key p.
Hypothesis Kf : forall s, 0 <= s <= fst (max_key p) -> 0 <= f s <= fst (max_key p).
Hypothesis Kg : forall c, 0 <= c <= snd (max_key p) -> 0 <= g c <= snd (max_key p).

Lemma onto (h : Z -> Z) m : renaming h -> (forall s, 0 <= s <= m -> 0 <= h s <= m) -> forall y, 0 <= y <= m -> exists x, 0 <= x <= m /\ h x = y.
Proof.
  intros Hh K y Hy.
  assert (I : incl (range (m + 1)) (map h (range (m + 1)))).
  { apply NoDup_length_incl.
    - apply FinFun.Injective_map_NoDup; [exact (proj2 Hh)|apply range_nodup].
    - rewrite map_length. auto.
    - intros z J. apply in_map_iff in J. destruct J as (x & <- & J). apply range_in in J. apply range_in. specialize (K x). lia. }
  specialize (I y). rewrite range_in in I. destruct (proj1 (in_map_iff _ _ _) (I ltac:(lia))) as (x & E & J). apply range_in in J. exists x. split; [lia|auto].
Qed.
Lemma get_named s c : comp_get p' (f s, g c) = option_map (named_instr f g) (comp_get p (s, c)).
Proof.
  pose proof (named_prog_ok f g Hf Hg p s c) as E. unfold machine_of in E. rewrite <- E.
  pose proof (named_nodup p ND) as N. assert (N' : NoDup (map fst p')).
  { eapply Permutation_NoDup; [|exact N]. apply Permutation_map, Permutation_sym, P. }
  destruct (comp_get (named_prog f g p) (f s, g c)) as [i|] eqn:G.
  - apply comp_get_in in G; auto. apply comp_get_in; auto. eapply Permutation_in; [apply Permutation_sym, P|exact G].
  - destruct (comp_get p' (f s, g c)) as [i|] eqn:G'; [|reflexivity]. apply comp_get_in in G'; auto.
    apply (Permutation_in _ P) in G'. apply comp_get_in in G'; auto. congruence.
Qed.
Lemma halt_named depth : cant_halt p' depth = cant_halt p depth.
Proof.
  apply from_named; [apply halt_path|apply fresh_halt|].
  apply NoDup_Permutation.
  - apply (NoDup_map_inv path), halt_path.
  - apply (NoDup_map_inv path), rc_fresh; [apply halt_path|apply fresh_halt].
  - intros c. rewrite in_map_iff, halt_configs_in, Km. split.
    + intros (s & x & Hs & Hx & E & ->). destruct (onto f _ Hf Kf s Hs) as (s0 & H0 & <-). destruct (onto g _ Hg Kg x Hx) as (x0 & H1 & <-).
      exists (rc_new s0 (init_halt x0)). split; [reflexivity|]. apply halt_configs_in. exists s0, x0. rewrite get_named in E.
      destruct (comp_get p (s0, x0)); [discriminate E|]. auto.
    + intros (d & <- & I). apply halt_configs_in in I. destruct I as (s & x & Hs & Hx & E & ->). exists (f s), (g x).
      rewrite get_named, E. auto.
Qed.
End Both.
End Renaming.

(** ** Tables listed in another order *)

Lemma max_key_perm p p' : Permutation p p' -> max_key p = max_key p'.
Proof.
  intros P. unfold max_key. generalize (0, 0) as acc. induction P as [|x l l' P IH|x y l|l l1 l2 P1 IH1 P2 IH2]; intros acc; cbn [fold_left]; auto.
  - do 2 f_equal; cbn [fst snd]; lia.
  - rewrite IH1. apply IH2.
Qed.
Lemma renaming_id : renaming (fun x => x).
Proof. split; auto. Qed.
Lemma named_id p : named_prog (fun x => x) (fun x => x) p = p.
Proof. unfold named_prog. rewrite <- (map_id p) at 2. apply map_ext. intros [[s c] [[pr sh] t]]. reflexivity. Qed.
Lemma order_blank p p' depth : NoDup (map fst p) -> Permutation p' p -> cant_blank p' depth = cant_blank p depth.
Proof. intros N P. rewrite <- (named_id p) in P. exact (blank_named _ _ renaming_id renaming_id p p' N P depth). Qed.
Lemma order_spin p p' depth : NoDup (map fst p) -> Permutation p' p -> cant_spin_out p' depth = cant_spin_out p depth.
Proof. intros N P. rewrite <- (named_id p) in P. exact (spin_named _ _ renaming_id renaming_id p p' N P depth). Qed.
Lemma order_halt p p' depth : NoDup (map fst p) -> Permutation p' p -> cant_halt p' depth = cant_halt p depth.
Proof.
  intros N P. pose proof (max_key_perm _ _ P) as K. rewrite <- (named_id p) in P.
  exact (halt_named _ _ renaming_id renaming_id p p' N P K (fun s H => H) (fun s H => H) depth).
Qed.
