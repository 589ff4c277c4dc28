(** * Proofs about mirrored programs *)
From Verif Require Import Base TM ProgModel TapeModel TermRecModel ParseModel NormModel GraphModel QuickModel ReasonModel MirrorSpec.

(** ** The machine itself *)

Lemma mirror_step M c d : ceq d (mirror_config c) ->
  match step M c, step (mirror M) d with
  | Some c', Some d' => ceq d' (mirror_config c')
  | None, None => True
  | _, _ => False
  end.
Proof.
  intros (Hs & Hp & Ht). unfold step, mirror. cbn in *. rewrite Hs, Hp, Ht, Z.opp_involutive.
  destruct (M (c_state c) (c_tape c (c_pos c))) as [[[color dir] next]|]; cbn; [|exact Logic.I].
  split; [reflexivity|]. cbn. split; [destruct dir; cbn; lia|].
  intros p. unfold write. rewrite Ht.
  destruct (Z.eqb_spec p (- c_pos c)), (Z.eqb_spec (- p) (c_pos c)); try lia; reflexivity.
Qed.

Lemma mirror_steps M n : forall c d, ceq d (mirror_config c) ->
  match steps M n c, steps (mirror M) n d with
  | Some c', Some d' => ceq d' (mirror_config c')
  | None, None => True
  | _, _ => False
  end.
Proof.
  induction n as [|n IH]; intros c d H; cbn; [exact H|].
  pose proof (mirror_step M c d H) as S1.
  destruct (step M c) as [c'|], (step (mirror M) d) as [d'|]; try contradiction; [exact (IH _ _ S1)|exact Logic.I].
Qed.

Lemma mirror_init : ceq init (mirror_config init).
Proof. repeat split; reflexivity. Qed.

Lemma mirror_run M n :
  match steps M n init, steps (mirror M) n init with
  | Some c, Some d => ceq d (mirror_config c)
  | None, None => True
  | _, _ => False
  end.
Proof. apply mirror_steps, mirror_init. Qed.

Lemma get_mirrored p sl : comp_get (mirrored p) sl = option_map turned (comp_get p sl).
Proof.
  induction p as [|[k v] p IH]; [reflexivity|]. cbn. destruct (slot_eqb k sl); [reflexivity|exact IH].
Qed.

Lemma mirrored_machine p s c : machine_of (mirrored p) s c = mirror (machine_of p) s c.
Proof. apply get_mirrored. Qed.

(** ** Tapes *)

Definition mt (t : tape) : tape := Tape (t_rspan t) (t_scan t) (t_lspan t).

Lemma mt_blank t : t_blank (mt t) = t_blank t.
Proof. unfold t_blank, mt; cbn. rewrite <- !andb_assoc, (andb_comm (is_nil (t_rspan t))). reflexivity. Qed.
Lemma mt_marks t : t_marks (mt t) = t_marks t.
Proof. unfold t_marks, mt; cbn. lia. Qed.
Lemma mt_edge t e : t_at_edge (mt t) (negb e) = t_at_edge t e.
Proof. destruct e; reflexivity. Qed.
Lemma mt_step t sh c sk :
  rs_step (mt t) (negb sh) c sk = (mt (fst (rs_step t sh c sk)), snd (rs_step t sh c sk)).
Proof.
  unfold rs_step, mt; destruct sh; cbn;
    match goal with |- context[rs_pull ?a ?b ?d] => destruct (rs_pull a b d) as [[? ?] ?] end; reflexivity.
Qed.

Lemma quick_mirrored p fuel : forall cycle t blanks state steps,
  quick_loop (mirrored p) fuel cycle (mt t) blanks state steps = quick_loop p fuel cycle t blanks state steps.
Proof.
  induction fuel as [|fuel IH]; intros cycle t blanks state steps; cbn [quick_loop].
  - rewrite mt_marks. reflexivity.
  - rewrite get_mirrored. cbn [t_scan mt].
    destruct (comp_get p (state, t_scan t)) as [[[color sh] next]|]; cbn [option_map turned];
      [|rewrite mt_marks; reflexivity].
    rewrite mt_edge, mt_step, mt_marks. destruct (rs_step t sh color (state =? next)) as [t' st]. cbn [fst snd].
    rewrite mt_blank, mt_marks, !IH. reflexivity.
Qed.

Lemma quick_mirror p lim : run_quick_machine (mirrored p) lim = run_quick_machine p lim.
Proof. apply (quick_mirrored p lim 0 init_tape [] 0 0). Qed.

(** ** Backward reasoning *)

Definition mh (h : head_tape) : head_tape := HT (- h_head h) (mt (h_tape h)).
Definition mk (b : backstepper) : backstepper := BK (mh (k_ht b)) (k_rend b) (k_lend b).
Definition mc (c : rconf) : rconf :=
  RC (r_state c) (mk (r_tape c)) (r_recs c) (map (fun e : Z * backstepper => (fst e, mk (snd e))) (r_prev c)).
Definition me (e : slot * instr) : slot * instr := (fst e, turned (snd e)).
Definition mep (ep : entries) : entries := map (fun e : Z * list (slot * instr) => (fst e, map me (snd e))) ep.

Lemma mk_blank b : bk_blank (mk b) = bk_blank b.
Proof.
  unfold bk_blank, k_scan, k_lspan, k_rspan, mk, mh, mt; cbn. rewrite !forallb_app. f_equal. apply andb_comm.
Qed.
Lemma mk_check b sh pr : check_step (mk b) (negb sh) pr = check_step b sh pr.
Proof. destruct sh; reflexivity. Qed.
Lemma mk_backstep b sh rd : backstep (mk b) (negb sh) rd = mk (backstep b sh rd).
Proof.
  unfold backstep, mk, mh, mt, k_lspan, k_rspan, k_scan; destruct sh; cbn; do 2 f_equal; lia.
Qed.

Lemma slice_mirror h start ltr : ht_get_slice (mh h) (- start) (negb ltr) = ht_get_slice h start ltr.
Proof.
  unfold ht_get_slice, mh, mt; destruct ltr; cbn [negb h_tape h_head t_lspan t_rspan].
  - replace (- start - - h_head h) with (h_head h - start) by lia. reflexivity.
  - replace (- h_head h - - start) with (start - h_head h) by lia. reflexivity.
Qed.

Lemma aligns_mirror a b l r : ht_aligns_with (mh a) (mh b) (- r) (- l) = ht_aligns_with a b l r.
Proof.
  unfold ht_aligns_with. change (t_scan (h_tape (mh a))) with (t_scan (h_tape a)).
  change (t_scan (h_tape (mh b))) with (t_scan (h_tape b)).
  destruct (negb (t_scan (h_tape a) =? t_scan (h_tape b))); [reflexivity|].
  change (h_head (mh a)) with (- h_head a). change (h_head (mh b)) with (- h_head b).
  replace (- h_head a - - h_head b) with (- (h_head a - h_head b)) by lia.
  set (d := h_head a - h_head b).
  pose proof (slice_mirror b r false) as S1. pose proof (slice_mirror a (r + d) false) as S2.
  pose proof (slice_mirror b l true) as S3. pose proof (slice_mirror a (l + d) true) as S4.
  cbn [negb] in *. replace (- (r + d)) with (- r + - d) in S2 by lia. replace (- (l + d)) with (- l + - d) in S4 by lia.
  destruct (Z.ltb_spec 0 d), (Z.ltb_spec d 0), (Z.ltb_spec 0 (- d)), (Z.ltb_spec (- d) 0); try lia.
  - rewrite S3, S4. reflexivity.
  - rewrite S1, S2. reflexivity.
  - cbn [mh mt h_tape t_lspan t_rspan].
    destruct (Nat.eqb (length (t_rspan (h_tape a))) (length (t_rspan (h_tape b)))),
      (Nat.eqb (length (t_lspan (h_tape a))) (length (t_lspan (h_tape b)))); cbn; auto.
    apply andb_comm.
Qed.

Lemma lin_rec_mirror st tp : forall prev l r, l <= r ->
  lin_rec_loop st (mk tp) (- r) (- l) (map (fun e : Z * backstepper => (fst e, mk (snd e))) prev)
  = lin_rec_loop st tp l r prev.
Proof.
  induction prev as [|[s t] prev IH]; intros l r Hlr; [reflexivity|].
  cbn [map lin_rec_loop fst snd]. change (h_head (k_ht (mk t))) with (- h_head (k_ht t)).
  set (pos := h_head (k_ht t)).
  assert (E : (if - pos <? - r then (- pos, - l) else if - l <? - pos then (- r, - pos) else (- r, - l))
            = (let '(l', r') := if pos <? l then (pos, r) else if r <? pos then (l, pos) else (l, r) in (- r', - l'))
            /\ (let '(l', r') := if pos <? l then (pos, r) else if r <? pos then (l, pos) else (l, r) in l' <= r')).
  { destruct (Z.ltb_spec pos l), (Z.ltb_spec r pos), (Z.ltb_spec (- pos) (- r)), (Z.ltb_spec (- l) (- pos));
      try lia; split; try reflexivity; lia. }
  destruct E as [-> E].
  destruct (if pos <? l then (pos, r) else if r <? pos then (l, pos) else (l, r)) as [l' r'].
  change (k_ht (mk tp)) with (mh (k_ht tp)). change (k_ht (mk t)) with (mh (k_ht t)).
  rewrite aligns_mirror, IH by exact E. reflexivity.
Qed.

Lemma lin_rec_mc c : lin_rec (mc c) = lin_rec c.
Proof. unfold lin_rec. exact (lin_rec_mirror (r_state c) (r_tape c) (r_prev c) _ _ (Z.le_refl _)). Qed.

Lemma dget_mep ep s : dget (mep ep) s = option_map (map me) (dget ep s).
Proof. induction ep as [|[k v] ep IH]; [reflexivity|]. cbn. destruct (k =? s); [reflexivity|exact IH]. Qed.
Lemma dset_mep ep s l : dset (mep ep) s (map me l) = mep (dset ep s l).
Proof.
  induction ep as [|[k v] ep IH]; [reflexivity|]. cbn. destruct (k =? s); [reflexivity|]. cbn. f_equal. exact IH.
Qed.
Lemma all_mirrored p : all_entrypoints (mirrored p) = mep (all_entrypoints p).
Proof.
  unfold all_entrypoints. change (@nil (Z * list (slot * instr))) with (mep []) at 1. generalize (@nil (Z * list (slot * instr))) as ep.
  induction p as [|[sl [[pr sh] st]] p IH]; intros ep; [reflexivity|].
  cbn [mirrored map fold_left fst snd turned]. fold (mirrored p). rewrite <- IH. f_equal.
  rewrite dget_mep, <- dset_mep. f_equal. destruct (dget ep st); cbn; [rewrite map_app|]; reflexivity.
Qed.
Lemma round_mep ep : prune_round (mep ep) = mep (prune_round ep).
Proof.
  unfold prune_round. assert (K : map fst (mep ep) = map fst ep) by (unfold mep; rewrite map_map; apply map_ext; reflexivity).
  rewrite K. generalize (map fst ep) as reached. intros reached. unfold mep. clear K.
  induction ep as [|[k v] ep IH]; [reflexivity|]. cbn [map filter fst snd].
  assert (F : filter (fun x : slot * instr => mem (fst (fst x)) reached) (map me v)
            = map me (filter (fun x : slot * instr => mem (fst (fst x)) reached) v)).
  { clear. induction v as [|x v IH]; [reflexivity|]. cbn. destruct (mem (fst (fst x)) reached); cbn; rewrite IH; reflexivity. }
  rewrite F. destruct (filter (fun x : slot * instr => mem (fst (fst x)) reached) v) as [|y w]; cbn; rewrite IH; reflexivity.
Qed.
Lemma prune_mep fuel : forall ep, prune fuel (mep ep) = mep (prune fuel ep).
Proof.
  induction fuel as [|fuel IH]; intros ep; [reflexivity|]. cbn [prune]. rewrite round_mep.
  assert (L : forall e, length (mep e) = length e) by (intros e; apply map_length). rewrite !L.
  destruct (Nat.eqb (length (prune_round ep)) (length ep)); [reflexivity|]. apply IH.
Qed.
Lemma entry_mirrored p : get_entrypoints (mirrored p) = mep (get_entrypoints p).
Proof. unfold get_entrypoints. rewrite all_mirrored, prune_mep. do 2 f_equal. apply map_length. Qed.

Lemma good_mirror st tp eps : good_steps st (mk tp) (map me eps)
  = match good_steps st tp eps with OSome l => OSome (map turned l) | ONone => ONone | OPanic => OPanic end.
Proof.
  induction eps as [|[[ns ncl] [[pr sh] nx]] eps IH]; [reflexivity|]. cbn [map me fst snd turned good_steps].
  rewrite mk_check. change (k_scan (mk tp)) with (k_scan tp).
  destruct (check_step tp sh pr) as [e|]; [|exact IH].
  destruct (e && (k_scan tp =? ncl) && (st =? ns)); [reflexivity|]. rewrite IH.
  destruct (good_steps st tp eps); reflexivity.
Qed.

Definition mv (e : list instr * rconf) : list instr * rconf := (map turned (fst e), mc (snd e)).

Lemma valid_mirror ep configs : get_valid_steps (mep ep) (map mc configs)
  = match get_valid_steps ep configs with OSome l => OSome (map mv l) | ONone => ONone | OPanic => OPanic end.
Proof.
  induction configs as [|c configs IH]; [reflexivity|]. cbn [map get_valid_steps].
  change (r_state (mc c)) with (r_state c). rewrite dget_mep.
  destruct (dget ep (r_state c)) as [eps|]; [|reflexivity]. cbn [option_map].
  change (r_tape (mc c)) with (mk (r_tape c)). rewrite good_mirror.
  destruct (good_steps (r_state c) (r_tape c) eps) as [l| |]; try reflexivity.
  rewrite IH. destruct (get_valid_steps ep configs) as [v| |]; try reflexivity.
  destruct l; reflexivity.
Qed.

Lemma instrs_mirror c instrs : forall stepped blanks,
  step_instrs (mc c) (map turned instrs) (map mc stepped) blanks
  = option_map (fun r => (map mc (fst r), snd r)) (step_instrs c instrs stepped blanks).
Proof.
  induction instrs as [|[[color sh] st] instrs IH]; intros stepped blanks; [reflexivity|].
  cbn [map turned step_instrs]. change (r_tape (mc c)) with (mk (r_tape c)). rewrite mk_backstep, mk_blank.
  destruct (bk_blank (backstep (r_tape c) sh color) && (st =? 0)); [reflexivity|].
  destruct (bk_blank (backstep (r_tape c) sh color) && mem st blanks); [apply IH|].
  set (bl := if bk_blank (backstep (r_tape c) sh color) then st :: blanks else blanks).
  pose (nx := RC st (backstep (r_tape c) sh color) (r_recs c) ((r_state c, r_tape c) :: r_prev c)).
  change (RC st (mk (backstep (r_tape c) sh color)) (r_recs (mc c)) ((r_state (mc c), mk (r_tape c)) :: r_prev (mc c))) with (mc nx).
  fold nx. rewrite lin_rec_mc. change (r_recs (mc nx)) with (r_recs nx).
  destruct (lin_rec nx).
  - destruct (1 <? r_recs nx + 1); [reflexivity|]. rewrite <- IH, map_app. reflexivity.
  - rewrite <- IH, map_app. reflexivity.
Qed.

Lemma configs_mirror configs : forall stepped blanks,
  step_configs (map mv configs) (map mc stepped) blanks
  = option_map (fun r => (map mc (fst r), snd r)) (step_configs configs stepped blanks).
Proof.
  induction configs as [|[instrs c] configs IH]; intros stepped blanks; [reflexivity|].
  cbn [map mv fst snd step_configs]. rewrite instrs_mirror.
  destruct (step_instrs c instrs stepped blanks) as [[s b]|]; [|reflexivity]. cbn. apply IH.
Qed.

Lemma reach_mirror ep fuel : forall step configs blanks,
  reach_loop (mep ep) fuel step (map mc configs) blanks = reach_loop ep fuel step configs blanks.
Proof.
  induction fuel as [|fuel IH]; intros step configs blanks; [reflexivity|]. cbn [reach_loop]. rewrite valid_mirror.
  destruct (get_valid_steps ep configs) as [v| |]; try reflexivity.
  destruct v as [|v0 v]; [reflexivity|]. cbn [map]. rewrite <- (map_length mv (v0 :: v)). cbn [map].
  destruct (46 <? _); [reflexivity|].
  rewrite (configs_mirror (v0 :: v) [] blanks : step_configs (mv v0 :: map mv v) [] blanks = _).
  destruct (step_configs (v0 :: v) [] blanks) as [[s b]|]; [|reflexivity]. cbn. apply IH.
Qed.

Lemma cant_mirror p depth configs : cant_reach (mirrored p) depth (map mc configs) = cant_reach p depth configs.
Proof.
  destruct configs as [|c0 configs]; [reflexivity|]. unfold cant_reach. cbn [map].
  change (mc c0 :: map mc configs) with (map mc (c0 :: configs)). generalize (c0 :: configs) as cs. intros cs.
  rewrite entry_mirrored. generalize (get_entrypoints p) as ep. intros ep.
  assert (F : filter (fun c => match dget (mep ep) (r_state c) with Some _ => true | None => false end) (map mc cs)
            = map mc (filter (fun c => match dget ep (r_state c) with Some _ => true | None => false end) cs)).
  { induction cs as [|c cs IH]; [reflexivity|]. cbn. rewrite dget_mep. destruct (dget ep (r_state c)); cbn; rewrite IH; reflexivity. }
  rewrite F. generalize (filter (fun c => match dget ep (r_state c) with Some _ => true | None => false end) cs) as k. intros k.
  rewrite reach_mirror. f_equal.
  induction k as [|c k IH]; [reflexivity|]. cbn [map filter]. change (r_tape (mc c)) with (mk (r_tape c)). rewrite mk_blank.
  destruct (bk_blank (r_tape c)); cbn; rewrite IH; reflexivity.
Qed.

Lemma key_mirrored p : max_key (mirrored p) = max_key p.
Proof.
  unfold max_key. generalize (0, 0) as acc. induction p as [|e p IH]; intros acc; [reflexivity|]. cbn. apply IH.
Qed.

Lemma flat_map_map {A B C} (f : B -> list C) (g : A -> B) l : flat_map f (map g l) = flat_map (fun x => f (g x)) l.
Proof. induction l; cbn; congruence. Qed.
Lemma map_flat_map {A B C} (f : B -> C) (g : A -> list B) l : map f (flat_map g l) = flat_map (fun x => map f (g x)) l.
Proof. induction l; cbn; [|rewrite map_app]; congruence. Qed.

Lemma halt_mirror p depth : cant_halt (mirrored p) depth = cant_halt p depth.
Proof.
  unfold cant_halt. rewrite <- (cant_mirror p depth (halt_configs p)). f_equal. unfold halt_configs. rewrite key_mirrored.
  destruct (max_key p) as [ms mcol]. rewrite map_flat_map. apply flat_map_ext. intros s. rewrite map_flat_map.
  apply flat_map_ext. intros c. rewrite get_mirrored. destruct (comp_get p (s, c)); reflexivity.
Qed.
Lemma blank_mirror p depth : cant_blank (mirrored p) depth = cant_blank p depth.
Proof.
  unfold cant_blank. rewrite <- (cant_mirror p depth (erase_configs p)). f_equal. unfold erase_configs, mirrored. rewrite map_flat_map, flat_map_map.
  apply flat_map_ext. intros [[s c] [[pr sh] t]]. cbn. destruct ((pr =? 0) && negb (c =? 0)); reflexivity.
Qed.
Lemma spin_mirror p depth : cant_spin_out (mirrored p) depth = cant_spin_out p depth.
Proof.
  unfold cant_spin_out. rewrite <- (cant_mirror p depth (zero_reflexive_configs p)). f_equal. unfold zero_reflexive_configs, mirrored. rewrite map_flat_map, flat_map_map.
  apply flat_map_ext. intros [[s c] [[pr sh] t]]. cbn. destruct ((c =? 0) && (t =? s)); [|reflexivity]. destruct sh; reflexivity.
Qed.
