(** * Proofs about the Python Machine on a program and its mirror image *)
From Coq Require Import Permutation.
From Verif Require Import Base TM ProgModel TapeModel EnumModel RulesModel RulesSpec PastModel QuickModel ProverModel
  LawSpec MirrorSpec RulesProofs MachineProofs LawProofs MirrorProofs OrderProofs.

(** ** Tapes *)

Lemma mt_mt t : mt (mt t) = t.
Proof. destruct t; reflexivity. Qed.
Lemma py_step_mt t sh c sk : py_step (mt t) (negb sh) c sk = (mt (fst (py_step t sh c sk)), snd (py_step t sh c sk)).
Proof.
  unfold py_step, mt; destruct sh; cbn;
    match goal with |- context[py_skip_block ?a ?b ?d] => destruct (py_skip_block a b d) as [o pl] end;
    destruct (py_pull_one pl o) as [[? ?] ?]; reflexivity.
Qed.
Lemma lens_mt t : t_span_lens (mt t) = (snd (t_span_lens t), fst (t_span_lens t)).
Proof. reflexivity. Qed.
Lemma counts_mt t : t_counts (mt t) = (snd (t_counts t), fst (t_counts t)).
Proof. reflexivity. Qed.

Definition mi (i : index) : index := (negb (fst i), snd i).
Lemma mi_eqb a b : index_eqb (mi a) (mi b) = index_eqb a b.
Proof. unfold index_eqb, mi; cbn. destruct (fst a), (fst b); reflexivity. Qed.
Lemma get_mt t i : get_count (mt t) (mi i) = get_count t i.
Proof. unfold get_count, t_get_count, mi; cbn. destruct (fst i); reflexivity. Qed.
Lemma set_mt t i v : set_count (mt t) (mi i) v = option_map mt (set_count t i v).
Proof.
  unfold set_count, t_set_count, mi; cbn. destruct (fst i); cbn;
    match goal with |- context[set_nth_count ?a ?b ?c] => destruct (set_nth_count a b c) end; reflexivity.
Qed.

(** ** Enumerating tapes *)

Definition meb (b : eblock) : eblock := EB (eb_color b) (eb_count b) (option_map (fun e : enums => (negb (fst e), snd e)) (eb_enum b)).
Definition met (e : etape) : etape :=
  ET (map meb (et_r e)) (et_scan e) (map meb (et_l e)) (et_roff e) (et_loff e) (et_redge e) (et_ledge e).

Lemma enumerate_m side s : forall n, enumerate (negb side) n s = map meb (enumerate side n s).
Proof. induction s as [|b s IH]; intros n; [reflexivity|]. cbn. f_equal. apply IH. Qed.
Lemma to_enum_m t : to_enum (mt t) = met (to_enum t).
Proof. unfold to_enum, met; cbn. f_equal; [apply (enumerate_m true)|apply (enumerate_m false)]. Qed.
Lemma erase_m e : erase (met e) = mt (erase e).
Proof. unfold erase, erase_span, met, mt; cbn. rewrite !map_map. reflexivity. Qed.
Lemma touch_m e sh : touch_edge (met e) (negb sh) = met (touch_edge e sh).
Proof. destruct sh; reflexivity. Qed.
Lemma offsets_m e b : check_offsets (met e) (meb b) = met (check_offsets e b).
Proof. unfold check_offsets; cbn. destruct (eb_enum b) as [[[] n]|]; reflexivity. Qed.
Lemma offsets_scan e b : et_scan (check_offsets e b) = et_scan e.
Proof. unfold check_offsets. destruct (eb_enum b) as [[[] n]|]; auto. Qed.
Lemma check_m e sh c sk : check_step (met e) (negb sh) c sk = met (check_step e sh c sk).
Proof.
  unfold check_step.
  assert (E : forall pull push,
    (let e1 := match map meb pull with
               | [] => touch_edge (met e) (negb sh)
               | nb :: rest => let e := check_offsets (met e) nb in
                   if sk && (eb_color nb =? et_scan e) then match rest with [] => touch_edge e (negb sh) | sec :: _ => check_offsets e sec end else e
               end in
     match map meb push with [] => e1 | opp :: _ => if c =? eb_color opp then check_offsets e1 opp else e1 end)
    = met (let e1 := match pull with
               | [] => touch_edge e sh
               | nb :: rest => let e := check_offsets e nb in
                   if sk && (eb_color nb =? et_scan e) then match rest with [] => touch_edge e sh | sec :: _ => check_offsets e sec end else e
               end in
     match push with [] => e1 | opp :: _ => if c =? eb_color opp then check_offsets e1 opp else e1 end)).
  { intros pull push. cbv zeta.
    match goal with |- match map meb push with [] => ?x | _ => _ end = met (match push with [] => ?y | _ => _ end) => assert (E1 : x = met y) end.
    { destruct pull as [|nb rest]; [apply touch_m|]. cbn [map]. rewrite offsets_m.
      change (et_scan (met (check_offsets e nb))) with (et_scan (check_offsets e nb)). change (eb_color (meb nb)) with (eb_color nb).
      destruct (sk && _); [|reflexivity].
      destruct rest as [|sec rest]; [apply touch_m|]. cbn [map]. apply offsets_m. }
    rewrite E1. destruct push as [|opp push]; [reflexivity|]. cbn [map]. change (eb_color (meb opp)) with (eb_color opp).
    destruct (c =? eb_color opp); [apply offsets_m|reflexivity]. }
  destruct sh; cbn [met et_l et_r negb]; apply E.
Qed.
Lemma py_epull_m s scan sk : py_epull (map meb s) scan sk
  = (let '(c, s', o, n) := py_epull s scan sk in (c, map meb s', option_map meb o, n)).
Proof.
  unfold py_epull. destruct s as [|b s]; cbn; [reflexivity|].
  destruct (sk && (eb_color b =? scan)).
  - destruct s as [|c s]; cbn; [reflexivity|]. destruct (negb (eb_count c =? 1)); reflexivity.
  - cbn. destruct (negb (eb_count b =? 1)); reflexivity.
Qed.
Lemma py_epush_m s o c n : py_epush None (map meb s) (option_map meb o) c n = map meb (py_epush None s o c n).
Proof.
  unfold py_epush. destruct s as [|b s]; cbn.
  - destruct (negb (c =? 0)); [|reflexivity]. destruct o; reflexivity.
  - destruct (eb_color b =? c); [reflexivity|]. destruct o; reflexivity.
Qed.
Lemma py_estep_m e sh c sk : py_estep None (met e) (negb sh) c sk = met (py_estep None e sh c sk).
Proof.
  unfold py_estep. rewrite check_m. generalize (check_step e sh c sk) as k. intros k.
  destruct sh; cbn [met et_l et_r et_scan negb]; rewrite py_epull_m;
    match goal with |- context[py_epull ?a ?b ?d] => destruct (py_epull a b d) as [[[? ?] ?] ?] end;
    rewrite py_epush_m; reflexivity.
Qed.
Lemma e_get_m e i : e_get_count (met e) (mi i) = option_map (fun x => (fst x, met (snd x))) (e_get_count e i).
Proof.
  unfold e_get_count, mi; cbn [fst snd]. destruct (fst i); cbn [met et_l et_r negb]; rewrite nth_error_map;
    match goal with |- context[nth_error ?a ?b] => destruct (nth_error a b) end; try reflexivity;
    cbn [option_map]; fold (met e); rewrite offsets_m; reflexivity.
Qed.
Lemma eset_nth_m s v : forall n, eset_nth (map meb s) n v = option_map (map meb) (eset_nth s n v).
Proof.
  induction s as [|b s IH]; intros n; [reflexivity|]. destruct n; cbn; [reflexivity|]. rewrite IH.
  destruct (eset_nth s n v); reflexivity.
Qed.
Lemma e_set_m e i v : e_set_count (met e) (mi i) v = option_map met (e_set_count e i v).
Proof.
  unfold e_set_count, mi; cbn [fst snd]. destruct (fst i); cbn [met et_l et_r negb]; rewrite eset_nth_m;
    match goal with |- context[eset_nth ?a ?b ?c] => destruct (eset_nth a b c) end; reflexivity.
Qed.

(** ** Rules read from the other side *)

Definition flip (e : index * op) : index * op := (mi (fst e), snd e).

Definition mapps (a : apps_res) : apps_res := match a with ASome n p r => ASome n (mi p) r | a => a end.
Lemma apps_flip r t : forall a, py_count_apps (map flip r) (mt t) (mapps a) = mapps (py_count_apps r t a).
Proof.
  induction r as [|[pos [d|m k]] r IH]; intros a; cbn [map flip fst snd py_count_apps]; auto.
  destruct (0 <=? d); auto. rewrite get_mt. destruct (get_count t pos) as [n|]; auto.
  destruct (n <=? Z.abs d); auto. destruct (if 0 <? n mod Z.abs d then _ else _) as [times res].
  rewrite <- IH. f_equal. destruct a as [| |t0 p0 r0]; cbn; try reflexivity. destruct (times <? t0); reflexivity.
Qed.
Definition mres (x : apply_res) : apply_res := match x with EvApplied n t => EvApplied n (mt t) | e => e end.
Lemma loop_flip times mp mr r : forall t, py_apply_loop (map flip r) (mt t) times (mi mp) mr = mres (py_apply_loop r t times mp mr).
Proof.
  induction r as [|[pos o] r IH]; intros t; [reflexivity|]. cbn [map flip fst snd py_apply_loop]. rewrite get_mt.
  destruct (get_count t pos) as [n|]; [|reflexivity]. destruct o as [d|m k].
  - rewrite mi_eqb, set_mt. destruct (set_count t pos _); cbn [option_map]; [apply IH|reflexivity].
  - destruct (mult_int times m k); [|reflexivity]. rewrite set_mt. destruct (set_count t pos _); cbn [option_map]; [apply IH|reflexivity].
Qed.
Lemma apply_flip r t : py_apply_rule (map flip r) (mt t) = mres (py_apply_rule r t).
Proof.
  unfold py_apply_rule. change ANone with (mapps ANone) at 1. rewrite apps_flip.
  destruct (py_count_apps r t ANone); cbn [mapps]; try reflexivity. apply loop_flip.
Qed.

Definition mapp (a : option (Z * index * Z)) : option (Z * index * Z) := option_map (fun x : Z * index * Z => (fst (fst x), mi (snd (fst x)), snd x)) a.
Lemma eapps_flip r : forall e a, py_ecount_apps (map flip r) (met e) (mapp a)
  = option_map (fun x => (mapp (fst x), met (snd x))) (py_ecount_apps r e a).
Proof.
  induction r as [|[pos [d|m k]] r IH]; intros e a; cbn [map flip fst snd py_ecount_apps]; auto.
  destruct (0 <=? d); auto. rewrite e_get_m. destruct (e_get_count e pos) as [[n e']|]; auto. cbn [option_map fst snd].
  destruct (n <=? Z.abs d); auto. destruct (if 0 <? n mod Z.abs d then _ else _) as [times res].
  rewrite <- IH. f_equal. destruct a as [[[t0 p0] r0]|]; cbn; try reflexivity. destruct (times <? t0); reflexivity.
Qed.
Definition mearly (x : eapply_res) : eapply_res :=
  match x with EaErr => EaErr | EaNone e => EaNone (met e) | EaApplied n e => EaApplied n (met e) end.
Lemma eloop_flip times mp mr r : forall e, py_eapply_loop (map flip r) (met e) times (mi mp) mr = mearly (py_eapply_loop r e times mp mr).
Proof.
  induction r as [|[pos o] r IH]; intros e; [reflexivity|]. cbn [map flip fst snd py_eapply_loop]. rewrite e_get_m.
  destruct (e_get_count e pos) as [[n e']|]; [|reflexivity]. cbn [option_map fst snd]. destruct o as [d|m k].
  - rewrite mi_eqb, e_set_m. destruct (e_set_count e' pos _); cbn [option_map]; [apply IH|reflexivity].
  - destruct (mult_int times m k); [|reflexivity]. rewrite e_set_m. destruct (e_set_count e' pos _); cbn [option_map]; [apply IH|reflexivity].
Qed.
Lemma eapply_flip r e : py_eapply_rule (map flip r) (met e) = mearly (py_eapply_rule r e).
Proof.
  unfold py_eapply_rule. change (@None (Z * index * Z)) with (mapp None) at 1. rewrite eapps_flip.
  destruct (py_ecount_apps r e None) as [[[[[times pos] res]|] e']|]; try reflexivity. apply eloop_flip.
Qed.

(** ** The order of the entries of a rule *)

Definition down (e : index * op) : bool := match snd e with Plus d => d <? 0 | _ => false end.
Lemma apps_down r t : forall a, py_count_apps r t a = py_count_apps (filter down r) t a.
Proof.
  induction r as [|[pos [d|m k]] r IH]; intros a; cbn [filter down snd py_count_apps]; auto.
  destruct (Z.leb_spec 0 d), (Z.ltb_spec d 0); try lia; auto. cbn [py_count_apps].
  rewrite (proj2 (Z.leb_gt 0 d)) by lia. destruct (get_count t pos) as [n|]; auto.
  destruct (n <=? Z.abs d); auto. destruct (if 0 <? n mod Z.abs d then _ else _) as [times res]. apply IH.
Qed.
Lemma eapps_down r : forall e a, py_ecount_apps r e a = py_ecount_apps (filter down r) e a.
Proof.
  induction r as [|[pos [d|m k]] r IH]; intros e a; cbn [filter down snd py_ecount_apps]; auto.
  destruct (Z.leb_spec 0 d), (Z.ltb_spec d 0); try lia; auto. cbn [py_ecount_apps].
  rewrite (proj2 (Z.leb_gt 0 d)) by lia. destruct (e_get_count e pos) as [[n e']|]; auto.
  destruct (n <=? Z.abs d); auto. destruct (if 0 <? n mod Z.abs d then _ else _) as [times res]. apply IH.
Qed.
Lemma down_one r : distinct r -> one_goes_down r -> (length (filter down r) <= 1)%nat.
Proof.
  intros D O. assert (N : NoDup (map fst (filter down r))).
  { clear O. unfold distinct in D. induction r as [|e r IH]; [constructor|]. cbn in D. inv D. cbn. destruct (down e); auto.
    cbn. constructor; auto. intros X. apply H1. apply in_map_iff in X as (y & A & B). apply filter_In in B. apply in_map_iff. exists y. tauto. }
  assert (F : forall e, In e (filter down r) -> In e r /\ down e = true) by (intros e X; apply filter_In; auto).
  destruct (filter down r) as [|x [|y l]]; cbn; auto; exfalso.
  destruct (F x (or_introl eq_refl)) as (A & B). destruct (F y (or_intror (or_introl eq_refl))) as (A' & B').
  destruct x as [i [d|]], y as [j [e|]]; cbn in B, B'; try discriminate. apply Z.ltb_lt in B, B'.
  pose proof (O i d j e A A' B B'). subst j. cbn in N. inv N. apply H1. left. reflexivity.
Qed.
Lemma perm_one {A} (l l' : list A) : Permutation l l' -> (length l <= 1)%nat -> l = l'.
Proof.
  intros P L. destruct l as [|x [|y l]]; cbn in L; try lia.
  - apply Permutation_nil in P. auto.
  - apply Permutation_length_1_inv in P. auto.
Qed.
Lemma down_perm r r' : distinct r -> one_goes_down r -> Permutation r r' -> filter down r = filter down r'.
Proof. intros D O P. apply perm_one; [apply perm_filter; auto|apply down_one; auto]. Qed.

(** One entry of a rule: what becomes of its count. *)
Definition entry_value (times : Z) (mp : index) (mr : Z) (e : index * op) (count : Z) : option Z :=
  match snd e with
  | Plus d => Some (if negb (index_eqb (fst e) mp) then count + d * times else mr)
  | Mult m a => if mult_int times m a then Some (apply_mult count times m a) else None
  end.
Fixpoint supd (s : span) (n : nat) (h : Z -> option Z) : option span :=
  match s, n with
  | [], _ => None
  | b :: s, O => option_map (fun v => Blk (b_color b) v :: s) (h (b_count b))
  | b :: s, S n => option_map (cons b) (supd s n h)
  end.
Definition upd (t : tape) (i : index) (h : Z -> option Z) : option tape :=
  if fst i then option_map (fun r => Tape (t_lspan t) (t_scan t) r) (supd (t_rspan t) (snd i) h)
  else option_map (fun l => Tape l (t_scan t) (t_rspan t)) (supd (t_lspan t) (snd i) h).

Lemma supd_is s h : forall n,
  match option_map b_count (nth_error s n) with None => None | Some c => match h c with None => None | Some v => set_nth_count s n v end end
  = supd s n h.
Proof.
  induction s as [|b s IH]; intros n; [destruct n; reflexivity|]. destruct n as [|n].
  - cbn. destruct (h (b_count b)); reflexivity.
  - cbn [nth_error set_nth_count supd]. rewrite <- IH. destruct (nth_error s n) as [c|]; [|reflexivity]. cbn [option_map].
    destruct (h (b_count c)); reflexivity.
Qed.
Lemma upd_is t i h : match get_count t i with None => None | Some c => match h c with None => None | Some v => set_count t i v end end = upd t i h.
Proof.
  unfold get_count, t_get_count, set_count, t_set_count, upd. destruct (fst i); rewrite <- supd_is;
    match goal with |- context[nth_error ?a ?b] => destruct (nth_error a b) end; cbn; try reflexivity;
    destruct (h _); reflexivity.
Qed.
Definition obind {A B} (x : option A) (h : A -> option B) : option B := match x with Some a => h a | None => None end.
Lemma supd_swap s h k : forall n m, n <> m -> obind (supd s n h) (fun s => supd s m k) = obind (supd s m k) (fun s => supd s n h).
Proof.
  induction s as [|b s IH]; intros n m N; [destruct n, m; reflexivity|].
  destruct n as [|n], m as [|m]; [congruence| | |].
  - cbn. destruct (h (b_count b)) as [v|] eqn:E, (supd s m k) eqn:F; cbn; rewrite ?E, ?F; reflexivity.
  - cbn. destruct (k (b_count b)) as [v|] eqn:E, (supd s n h) eqn:F; cbn; rewrite ?E, ?F; reflexivity.
  - assert (N' : n <> m) by congruence. specialize (IH n m N'). cbn.
    destruct (supd s n h) as [s1|] eqn:E1, (supd s m k) as [s2|] eqn:E2; cbn in *; rewrite ?IH; try reflexivity.
    rewrite <- IH. reflexivity.
Qed.
Lemma upd_swap t i j h k : i <> j -> obind (upd t i h) (fun t => upd t j k) = obind (upd t j k) (fun t => upd t i h).
Proof.
  intros N. destruct i as [a n], j as [b m]. unfold upd. cbn [fst snd].
  destruct a, b; cbn [t_lspan t_rspan t_scan].
  - assert (N' : n <> m) by congruence. pose proof (supd_swap (t_rspan t) h k n m N') as S.
    destruct (supd (t_rspan t) n h) as [x|], (supd (t_rspan t) m k) as [y|]; cbn in *; rewrite ?S; try reflexivity. rewrite <- S. reflexivity.
  - destruct (supd (t_rspan t) n h) as [x|] eqn:A, (supd (t_lspan t) m k) as [y|] eqn:B; cbn; rewrite ?A, ?B; reflexivity.
  - destruct (supd (t_lspan t) n h) as [x|] eqn:A, (supd (t_rspan t) m k) as [y|] eqn:B; cbn; rewrite ?A, ?B; reflexivity.
  - assert (N' : n <> m) by congruence. pose proof (supd_swap (t_lspan t) h k n m N') as S.
    destruct (supd (t_lspan t) n h) as [x|], (supd (t_lspan t) m k) as [y|]; cbn in *; rewrite ?S; try reflexivity. rewrite <- S. reflexivity.
Qed.

Definition bad (x : apply_res) : Prop := match x with EvIndex | EvSymbolic => True | _ => False end.
Definition sameres (x y : apply_res) : Prop := x = y \/ bad x /\ bad y.
Lemma sameres_trans x y z : sameres x y -> sameres y z -> sameres x z.
Proof. intros [->|(A & B)] [->|(C & D)]; unfold sameres; auto. Qed.
Lemma loop_cons e r t times mp mr :
  match upd t (fst e) (entry_value times mp mr e) with
  | Some t' => py_apply_loop (e :: r) t times mp mr = py_apply_loop r t' times mp mr
  | None => bad (py_apply_loop (e :: r) t times mp mr)
  end.
Proof.
  destruct e as [i o]. cbn [fst]. rewrite <- upd_is. cbn [py_apply_loop]. destruct (get_count t i) as [n|]; [|exact Logic.I].
  unfold entry_value; cbn [fst snd]. destruct o as [d|m k].
  - destruct (set_count t i _); [reflexivity|exact Logic.I].
  - destruct (mult_int times m k); [|exact Logic.I]. destruct (set_count t i _); [reflexivity|exact Logic.I].
Qed.
Lemma distinct_perm r r' : Permutation r r' -> distinct r -> distinct r'.
Proof. intros P. unfold distinct. apply Permutation_NoDup. apply Permutation_map. auto. Qed.
Lemma loop_perm r r' : Permutation r r' -> distinct r -> forall t times mp mr,
  sameres (py_apply_loop r t times mp mr) (py_apply_loop r' t times mp mr).
Proof.
  induction 1 as [|x l l' P IH|x y l|a b c P1 IH1 P2 IH2]; intros D t times mp mr.
  - left. reflexivity.
  - pose proof (loop_cons x l t times mp mr) as A. pose proof (loop_cons x l' t times mp mr) as B.
    destruct (upd t (fst x) _) as [t'|]; [|right; auto]. rewrite A, B. apply IH. unfold distinct in *. cbn in D. inv D. auto.
  - unfold distinct in D. cbn in D. inv D. assert (N : fst y <> fst x) by (intros E; apply H1; left; auto).
    pose proof (upd_swap t (fst y) (fst x) (entry_value times mp mr y) (entry_value times mp mr x) N) as S.
    pose proof (loop_cons y (x :: l) t times mp mr) as A. pose proof (loop_cons x (y :: l) t times mp mr) as B.
    destruct (upd t (fst y) _) as [ty|], (upd t (fst x) _) as [tx|]; cbn [obind] in S.
    + pose proof (loop_cons x l ty times mp mr) as A'. pose proof (loop_cons y l tx times mp mr) as B'.
      rewrite S in A'. rewrite <- A in A'. rewrite <- B in B'.
      destruct (upd tx (fst y) _) as [u|]; [left; congruence|right; auto].
    + pose proof (loop_cons x l ty times mp mr) as A'. rewrite S in A'. rewrite <- A in A'. right; auto.
    + pose proof (loop_cons y l tx times mp mr) as B'. rewrite <- S in B'. rewrite <- B in B'. right; auto.
    + right; auto.
  - eapply sameres_trans; [apply IH1; auto|apply IH2]. eapply distinct_perm; eauto.
Qed.
Lemma apply_perm r r' t : Permutation r r' -> distinct r -> one_goes_down r -> sameres (py_apply_rule r t) (py_apply_rule r' t).
Proof.
  intros P D O. unfold py_apply_rule. rewrite (apps_down r), (apps_down r'), <- (down_perm r r' D O P).
  destruct (py_count_apps (filter down r) t ANone); try (left; reflexivity). apply loop_perm; auto.
Qed.

(** The same on enumerating tapes, where also the offsets are recorded. *)
Fixpoint esupd (s : list eblock) (n : nat) (h : Z -> option Z) : option (eblock * list eblock) :=
  match s, n with
  | [], _ => None
  | b :: s, O => option_map (fun v => (b, EB (eb_color b) v (eb_enum b) :: s)) (h (eb_count b))
  | b :: s, S n => option_map (fun x : eblock * list eblock => (fst x, b :: snd x)) (esupd s n h)
  end.
Definition offs (b : eblock) (l r : nat) : nat * nat :=
  match eb_enum b with Some (true, n) => (l, Nat.max r n) | Some (false, n) => (Nat.max l n, r) | None => (l, r) end.
Lemma offsets_is e b : check_offsets e b = ET (et_l e) (et_scan e) (et_r e) (fst (offs b (et_loff e) (et_roff e)))
  (snd (offs b (et_loff e) (et_roff e))) (et_ledge e) (et_redge e).
Proof.
  unfold check_offsets, offs. destruct e as [l s r a b' c d], (eb_enum b) as [[[] n]|]; cbn [et_l et_r et_scan et_loff et_roff et_ledge et_redge fst snd];
    try reflexivity; f_equal.
  - destruct (Nat.ltb_spec b' n); lia.
  - destruct (Nat.ltb_spec a n); lia.
Qed.
Definition eupd (e : etape) (i : index) (h : Z -> option Z) : option etape :=
  match esupd (if fst i then et_r e else et_l e) (snd i) h with
  | None => None
  | Some (b, s) =>
      let o := offs b (et_loff e) (et_roff e) in
      Some (ET (if fst i then et_l e else s) (et_scan e) (if fst i then s else et_r e) (fst o) (snd o) (et_ledge e) (et_redge e))
  end.
Lemma esupd_is s h : forall n,
  match nth_error s n with None => None | Some b => match h (eb_count b) with None => None | Some v => option_map (pair b) (eset_nth s n v) end end
  = esupd s n h.
Proof.
  induction s as [|b s IH]; intros n; [destruct n; reflexivity|]. destruct n as [|n].
  - cbn. destruct (h (eb_count b)); reflexivity.
  - cbn [nth_error eset_nth esupd]. rewrite <- IH. destruct (nth_error s n) as [c|]; [|reflexivity].
    destruct (h (eb_count c)) as [v|]; [|reflexivity]. destruct (eset_nth s n v); reflexivity.
Qed.
Lemma eupd_is e i h :
  match e_get_count e i with None => None | Some (c, e) => match h c with None => None | Some v => e_set_count e i v end end = eupd e i h.
Proof.
  unfold e_get_count, e_set_count, eupd. rewrite <- esupd_is. destruct i as [[] n]; cbn [fst snd].
  - destruct (nth_error (et_r e) n) as [b|]; [|reflexivity]. destruct (h (eb_count b)) as [v|]; [|reflexivity].
    rewrite offsets_is. cbn. destruct (eset_nth (et_r e) n v); reflexivity.
  - destruct (nth_error (et_l e) n) as [b|]; [|reflexivity]. destruct (h (eb_count b)) as [v|]; [|reflexivity].
    rewrite offsets_is. cbn. destruct (eset_nth (et_l e) n v); reflexivity.
Qed.
(** Two entries of one side. *)
Lemma esupd_swap s h k : forall n m, n <> m ->
  match esupd s n h, esupd s m k with
  | Some (b, s1), Some (c, s2) => exists s3, esupd s1 m k = Some (c, s3) /\ esupd s2 n h = Some (b, s3)
  | Some (b, s1), None => esupd s1 m k = None
  | None, Some (c, s2) => esupd s2 n h = None
  | None, None => True
  end.
Proof.
  induction s as [|b s IH]; intros n m N; [destruct n, m; exact Logic.I|].
  destruct n as [|n], m as [|m]; [congruence| | |].
  - cbn. destruct (h (eb_count b)) as [v|] eqn:E, (esupd s m k) as [[c s2]|] eqn:F; cbn; rewrite ?E, ?F; auto. eexists. split; reflexivity.
  - cbn. destruct (k (eb_count b)) as [v|] eqn:E, (esupd s n h) as [[c s2]|] eqn:F; cbn; rewrite ?E, ?F; auto. eexists. split; reflexivity.
  - assert (N' : n <> m) by congruence. specialize (IH n m N'). cbn.
    destruct (esupd s n h) as [[x s1]|], (esupd s m k) as [[y s2]|]; cbn in *; auto.
    + destruct IH as (s3 & -> & ->). eexists. split; reflexivity.
    + rewrite IH. reflexivity.
    + rewrite IH. reflexivity.
Qed.
Lemma offs_swap b c l r : let o := offs b l r in let q := offs c l r in offs c (fst o) (snd o) = offs b (fst q) (snd q).
Proof.
  unfold offs. destruct (eb_enum b) as [[[] n]|], (eb_enum c) as [[[] m]|]; cbn; f_equal; lia.
Qed.
Lemma eupd_swap e i j h k : i <> j -> obind (eupd e i h) (fun e => eupd e j k) = obind (eupd e j k) (fun e => eupd e i h).
Proof.
  intros N. destruct i as [a n], j as [b m]. unfold eupd. cbn [fst snd].
  destruct a, b; cbn [fst snd].
  - assert (N' : n <> m) by congruence. pose proof (esupd_swap (et_r e) h k n m N') as S.
    destruct (esupd (et_r e) n h) as [[x s1]|], (esupd (et_r e) m k) as [[y s2]|]; cbn [obind et_r et_l et_loff et_roff et_scan et_ledge et_redge] in *; auto.
    + destruct S as (s3 & -> & ->). rewrite offs_swap. reflexivity.
    + rewrite S. reflexivity.
    + rewrite S. reflexivity.
  - destruct (esupd (et_r e) n h) as [[x s1]|] eqn:A, (esupd (et_l e) m k) as [[y s2]|] eqn:B;
      cbn [obind et_r et_l et_loff et_roff et_scan et_ledge et_redge]; rewrite ?A, ?B; auto. rewrite offs_swap. reflexivity.
  - destruct (esupd (et_l e) n h) as [[x s1]|] eqn:A, (esupd (et_r e) m k) as [[y s2]|] eqn:B;
      cbn [obind et_r et_l et_loff et_roff et_scan et_ledge et_redge]; rewrite ?A, ?B; auto. rewrite offs_swap. reflexivity.
  - assert (N' : n <> m) by congruence. pose proof (esupd_swap (et_l e) h k n m N') as S.
    destruct (esupd (et_l e) n h) as [[x s1]|], (esupd (et_l e) m k) as [[y s2]|]; cbn [obind et_r et_l et_loff et_roff et_scan et_ledge et_redge] in *; auto.
    + destruct S as (s3 & -> & ->). rewrite offs_swap. reflexivity.
    + rewrite S. reflexivity.
    + rewrite S. reflexivity.
Qed.
Lemma eloop_cons e r t times mp mr :
  py_eapply_loop (e :: r) t times mp mr
  = match eupd t (fst e) (entry_value times mp mr e) with Some t' => py_eapply_loop r t' times mp mr | None => EaErr end.
Proof.
  destruct e as [i o]. cbn [fst]. rewrite <- eupd_is. cbn [py_eapply_loop]. destruct (e_get_count t i) as [[n e]|]; [|reflexivity].
  unfold entry_value; cbn [fst snd]. destruct o as [d|m k].
  - destruct (e_set_count e i _); reflexivity.
  - destruct (mult_int times m k); [|reflexivity]. destruct (e_set_count e i _); reflexivity.
Qed.
Lemma eloop_perm r r' : Permutation r r' -> distinct r -> forall e times mp mr,
  py_eapply_loop r e times mp mr = py_eapply_loop r' e times mp mr.
Proof.
  induction 1 as [|x l l' P IH|x y l|a b c P1 IH1 P2 IH2]; intros D t times mp mr.
  - reflexivity.
  - rewrite !eloop_cons. destruct (eupd t (fst x) _) as [t'|]; [|auto]. apply IH. unfold distinct in *. cbn in D. inv D. auto.
  - unfold distinct in D. cbn in D. inv D. assert (N : fst y <> fst x) by (intros E; apply H1; left; auto).
    pose proof (eupd_swap t (fst y) (fst x) (entry_value times mp mr y) (entry_value times mp mr x) N) as S.
    rewrite !eloop_cons.
    destruct (eupd t (fst y) _) as [ty|], (eupd t (fst x) _) as [tx|]; cbn [obind] in S; rewrite ?eloop_cons, ?S; auto. rewrite <- S. reflexivity.
  - rewrite IH1 by auto. apply IH2. eapply distinct_perm; eauto.
Qed.
Lemma eapply_perm r r' e : Permutation r r' -> distinct r -> one_goes_down r -> py_eapply_rule r e = py_eapply_rule r' e.
Proof.
  intros P D O. unfold py_eapply_rule. rewrite (eapps_down r), (eapps_down r'), <- (down_perm r r' D O P).
  destruct (py_ecount_apps (filter down r) e None) as [[[[[times pos] res]|] e']|]; auto. apply eloop_perm; auto.
Qed.

(** ** Provers in the mirror *)

Definition rights (r : rule) : rule := filter (fun e : index * op => fst (fst e)) r.
Definition lefts (r : rule) : rule := filter (fun e : index * op => negb (fst (fst e))) r.
Definition mrule (r : rule) : rule := map flip (rights r) ++ map flip (lefts r).
Definition msg (s : signature) : signature := Sig (sg_scan s) (sg_r s) (sg_l s).
Definition mms (m : minsig) : minsig := (msg (fst m), (snd (snd m), fst (snd m))).
Definition mentry (x : minsig * rule) : minsig * rule := (mms (fst x), mrule (snd x)).
Definition mrules (rs : list (slot * list (minsig * rule))) :=
  map (fun e : slot * list (minsig * rule) => (fst e, map mentry (snd e))) rs.
Definition mcfgs (cs : list (signature * past_configs)) := map (fun e : signature * past_configs => (msg (fst e), snd e)) cs.
Definition mpv (pv : prover) : prover := PV (mrules (pv_rules pv)) (mcfgs (pv_configs pv)).

Lemma sides_perm r : Permutation r (rights r ++ lefts r).
Proof.
  induction r as [|[[[] n] o] r IH]; cbn; auto. eapply perm_trans; [apply perm_skip, IH|]. apply Permutation_middle.
Qed.
Lemma mrule_flip r : mrule r = map flip (rights r ++ lefts r).
Proof. unfold mrule. rewrite map_app. reflexivity. Qed.
Lemma apply_m r t : distinct r -> one_goes_down r -> sameres (py_apply_rule (mrule r) (mt t)) (mres (py_apply_rule r t)).
Proof.
  intros D O. rewrite mrule_flip, apply_flip. destruct (apply_perm r _ t (sides_perm r) D O) as [->|(A & B)]; [left; reflexivity|right].
  destruct (py_apply_rule r t), (py_apply_rule (rights r ++ lefts r) t); cbn in *; auto.
Qed.
Lemma eapply_m r e : distinct r -> one_goes_down r -> py_eapply_rule (mrule r) (met e) = mearly (py_eapply_rule r e).
Proof. intros D O. rewrite mrule_flip, eapply_flip, <- (eapply_perm r _ e (sides_perm r) D O). reflexivity. Qed.

Lemma sig_m t : t_signature (mt t) = msg (t_signature t).
Proof. reflexivity. Qed.
Lemma sigeq_m a b : sig_eqb (msg a) (msg b) = sig_eqb a b.
Proof. unfold sig_eqb; cbn. rewrite <- !andb_assoc, (andb_comm (ccs_eqb (sg_r a) _)). reflexivity. Qed.
Lemma compat_m t s : t_sig_compatible (mt t) (msg s) = t_sig_compatible t s.
Proof.
  unfold t_sig_compatible; cbn [mt msg t_scan sg_scan t_lspan t_rspan sg_l sg_r].
  repeat match goal with |- context[?a && ?b] => let x := fresh in set (x := b); destruct x; rewrite ?andb_false_r, ?andb_true_r; auto end.
Qed.
Lemma rules_at_m rl s : rules_at (mrules rl) s = option_map (map mentry) (rules_at rl s).
Proof. induction rl as [|[k v] rl IH]; [reflexivity|]. cbn [mrules map rules_at fst snd]. destruct (slot_eqb k s); [reflexivity|exact IH]. Qed.
Lemma match_m sig temp : match_rule (msg sig) (map mentry temp) = option_map mrule (match_rule sig temp).
Proof.
  induction temp as [|[[[sc l r] [lex rex]] ru] temp IH]; [reflexivity|]. cbn. rewrite IH.
  set (a := ccs_eqb l _). set (b := ccs_eqb r _). destruct (sc =? sg_scan sig), a, b; reflexivity.
Qed.
Lemma get_rule_m pv st sc sig : get_rule (mpv pv) st sc (msg sig) = option_map mrule (get_rule pv st sc sig).
Proof.
  unfold get_rule. cbn [mpv pv_rules]. rewrite rules_at_m. destruct (rules_at (pv_rules pv) (st, sc)); [apply match_m|reflexivity].
Qed.
Lemma rules_add_m rl s e : rules_add (mrules rl) s (mentry e) = mrules (rules_add rl s e).
Proof.
  induction rl as [|[k v] rl IH]; [reflexivity|]. cbn [mrules map rules_add fst snd].
  destruct (slot_eqb k s); cbn; [rewrite map_app; reflexivity|]. f_equal. exact IH.
Qed.
Lemma set_rule_m pv r st m : set_rule (mpv pv) (mrule r) st (mms m) = mpv (set_rule pv r st m).
Proof. unfold set_rule, mpv; cbn. f_equal. exact (rules_add_m (pv_rules pv) (st, sg_scan (fst m)) (m, r)). Qed.
Lemma cfg_get_m cs s : cfg_get (mcfgs cs) (msg s) = cfg_get cs s.
Proof. induction cs as [|[k v] cs IH]; [reflexivity|]. cbn. rewrite sigeq_m. destruct (sig_eqb k s); [reflexivity|exact IH]. Qed.
Lemma cfg_set_m cs s p : cfg_set (mcfgs cs) (msg s) p = mcfgs (cfg_set cs s p).
Proof. induction cs as [|[k v] cs IH]; [reflexivity|]. cbn. rewrite sigeq_m. destruct (sig_eqb k s); cbn; [reflexivity|]. f_equal. exact IH. Qed.

(** ** Rules made from counts *)

Lemma rule_side_at s zs : forall i r, py_rule_side s i zs = RRule r ->
  NoDup (map fst r) /\ forall j o, In (j, o) r -> fst j = s /\ (i <= snd j)%nat.
Proof.
  induction zs as [|[[[a b] c] d] zs IH]; intros i r E; cbn [py_rule_side] in E.
  { inv E. split; [constructor|intros ? ? []]. }
  destruct (py_calculate_diff a b c d) as [|o| |x y|]; try discriminate.
  - destruct (IH _ _ E) as (A & B). split; auto. intros j o X. destruct (B j o X). split; [auto|lia].
  - destruct (py_rule_side s (S i) zs) as [r'| | | |] eqn:E'; try discriminate. inv E.
    destruct (IH _ _ E') as (A & B). split.
    + cbn. constructor; auto. intros X. apply in_map_iff in X as ([j o'] & X & Y). cbn in X. subst j. destruct (B _ _ Y). cbn in *. lia.
    + intros j o' [X|X]; [inv X; cbn; auto|]. destruct (B j o' X). split; [auto|lia].
Qed.
Lemma rule_side_flip s zs : forall i, py_rule_side (negb s) i zs
  = match py_rule_side s i zs with RRule r => RRule (map flip r) | e => e end.
Proof.
  induction zs as [|[[[a b] c] d] zs IH]; intros i; cbn [py_rule_side]; [reflexivity|].
  destruct (py_calculate_diff a b c d) as [|o| |x y|]; try reflexivity; [apply IH|]. rewrite IH.
  destruct (py_rule_side s (S i) zs); reflexivity.
Qed.
Lemma sides_of r1 r2 : (forall j o, In (j, o) r1 -> fst j = false) -> (forall j o, In (j, o) r2 -> fst j = true) ->
  lefts (r1 ++ r2) = r1 /\ rights (r1 ++ r2) = r2.
Proof.
  intros A B. unfold lefts, rights. rewrite !filter_app.
  assert (L : forall r b, (forall j o, In (j, o) r -> fst j = b) ->
    filter (fun e : index * op => fst (fst e)) r = (if b then r else []) /\ filter (fun e : index * op => negb (fst (fst e))) r = (if b then [] else r)).
  { intros r b. induction r as [|[j o] r IH]; intros H; [destruct b; auto|]. destruct IH as (I1 & I2); [intros; eapply H; right; eauto|].
    cbn. rewrite (H j o (or_introl eq_refl)). destruct b; cbn; rewrite I1, I2; auto. }
  split.
  - transitivity (r1 ++ []); [|apply app_nil_r]. f_equal; [exact (proj2 (L r1 false A))|exact (proj2 (L r2 true B))].
  - change r2 with ([] ++ r2) at 2. f_equal; [exact (proj1 (L r1 false A))|exact (proj1 (L r2 true B))].
Qed.
Lemma forallb_m r : forallb nonneg_plus (mrule r) = forallb nonneg_plus r.
Proof.
  assert (F : forall r, forallb nonneg_plus (map flip r) = forallb nonneg_plus r) by (induction r0 as [|e r0 IH]; cbn; [|rewrite IH]; reflexivity).
  rewrite mrule_flip, F. symmetry. pose proof (sides_perm r) as P. revert P. generalize (rights r ++ lefts r). intros l P.
  induction P; cbn; auto; [congruence|destruct (nonneg_plus x), (nonneg_plus y); reflexivity|congruence].
Qed.
Lemma side_not_infinite s zs : forall i, py_rule_side s i zs <> RInfinite.
Proof.
  induction zs as [|[[[a b] c] d] zs IH]; intros i; cbn [py_rule_side]; [discriminate|].
  destruct (py_calculate_diff a b c d) as [|o| |x y|]; try discriminate; [apply IH|].
  specialize (IH (S i)). destruct (py_rule_side s (S i) zs); try discriminate. exact IH.
Qed.
Definition swapc (k : counts_t) : counts_t := (snd k, fst k).
(** The rule in the mirror; or in both cases none, though for different reasons. *)
Definition mmade (x y : rule_res) : Prop :=
  match x with
  | RRule r => y = RRule (mrule r)
  | RInfinite => y = RInfinite
  | _ => match y with RRule _ | RInfinite => False | _ => True end
  end.
Lemma make_m k1 k2 k3 k4 : mmade (py_make_rule k1 k2 k3 k4) (py_make_rule (swapc k1) (swapc k2) (swapc k3) (swapc k4)).
Proof.
  unfold py_make_rule, swapc. cbn [fst snd].
  pose proof (rule_side_flip true (zip4 (snd k1) (snd k2) (snd k3) (snd k4)) 0) as A.
  pose proof (rule_side_flip false (zip4 (fst k1) (fst k2) (fst k3) (fst k4)) 0) as B. cbn [negb] in A, B.
  pose proof (rule_side_at true (zip4 (snd k1) (snd k2) (snd k3) (snd k4)) 0) as P.
  pose proof (rule_side_at false (zip4 (fst k1) (fst k2) (fst k3) (fst k4)) 0) as Q.
  rewrite A, B. clear A B. set (zl := zip4 (fst k1) _ _ _) in *. set (zr := zip4 (snd k1) _ _ _) in *.
  pose proof (side_not_infinite false zl 0) as F1. pose proof (side_not_infinite true zr 0) as F2.
  destruct (py_rule_side false 0 zl) as [r1| | | |] eqn:E1, (py_rule_side true 0 zr) as [r2| | | |] eqn:E2; try congruence; try exact Logic.I.
  destruct (P _ eq_refl) as (_ & P'), (Q _ eq_refl) as (_ & Q').
  destruct (sides_of r1 r2) as (L & R); [intros j o X; apply (Q' j o X)|intros j o X; apply (P' j o X)|].
  assert (E : mrule (r1 ++ r2) = map flip r2 ++ map flip r1) by (unfold mrule; f_equal; f_equal; [exact R|exact L]).
  rewrite <- E, forallb_m. destruct (forallb nonneg_plus (r1 ++ r2)); reflexivity.
Qed.
Lemma made_distinct k1 k2 k3 k4 r : py_make_rule k1 k2 k3 k4 = RRule r -> distinct r.
Proof.
  unfold py_make_rule. destruct (py_rule_side false _ _) as [r1| | | |] eqn:A; try discriminate.
  destruct (py_rule_side true _ _) as [r2| | | |] eqn:B; try discriminate. destruct (forallb _ _); try discriminate. intros E. inv E.
  destruct (rule_side_at _ _ _ _ A) as (N1 & P1). destruct (rule_side_at _ _ _ _ B) as (N2 & P2).
  unfold distinct. rewrite map_app. clear A B. induction r1 as [|[j o] r1 IH]; cbn; auto. inv N1. constructor.
  - intros X. apply in_app_or in X as [X|X]; auto. apply in_map_iff in X as ([j' o'] & X & Y). cbn in X. subst j'.
    destruct (P2 _ _ Y). destruct (P1 j o (or_introl eq_refl)). congruence.
  - apply IH; auto. intros j' o' X. apply (P1 j' o'). right. auto.
Qed.
Lemma swap_m r t : swap_rule (mrule r) (mt t) = swap_rule r t.
Proof.
  assert (L : length (mrule r) = length r).
  { rewrite mrule_flip, map_length. symmetry. apply Permutation_length, sides_perm. }
  assert (G : forall l, length l <> 2%nat -> swap_rule l (mt t) = false /\ swap_rule l t = false).
  { intros [|[? []] [|[? []] [|? ?]]] H; cbn in H; try lia; auto. }
  destruct (Nat.eq_dec (length r) 2) as [E|E].
  - destruct r as [|[[a n] x] [|[[b m] y] [|? ?]]]; cbn in E; try lia.
    unfold swap_rule. rewrite lens_mt. destruct a, b; cbn [mrule rights lefts filter fst snd negb map app flip mi];
      destruct x as [x|], y as [y|]; try reflexivity; cbn [fst snd];
      rewrite ?(Z.eqb_sym (Z.abs y)), ?(andb_comm (Nat.eqb (snd (t_span_lens t)) 1)); reflexivity.
  - destruct (G (mrule r)) as (-> & _); [congruence|]. destruct (G r E) as (_ & ->). reflexivity.
Qed.

(** ** The prover *)

(** All rules held are dicts in which at most one count goes down. *)
Definition tame (pv : prover) : Prop := forall s ms r, holds_rule pv s ms r -> distinct r /\ one_goes_down r.
Lemma match_in sig temp r : match_rule sig temp = Some r -> exists ms, In (ms, r) temp.
Proof.
  induction temp as [|[[[sc l r'] [lex rex]] ru] temp IH]; cbn; [discriminate|]. destruct (_ && _ && _).
  - intros E. inv E. eexists. left. reflexivity.
  - intros E. destruct (IH E) as (ms & X). exists ms. right. auto.
Qed.
Lemma got_tame pv st sc sig r : tame pv -> get_rule pv st sc sig = Some r -> distinct r /\ one_goes_down r.
Proof.
  intros T. unfold get_rule. destruct (rules_at (pv_rules pv) (st, sc)) as [v|] eqn:E; [|discriminate]. intros H.
  destruct (match_in _ _ _ H) as (ms & X). apply (T (st, sc) ms r). exists v. split; auto. apply rules_at_slot. auto.
Qed.

Section Machine.
Variable M : program.
Notation comp := (plain M).
Notation comp' := (plain (mirror M)).
Lemma plain_m s c : comp' s c = match comp s c with LGot i => LGot (turned i) | l => l end.
Proof. unfold plain, mirror. destruct (M s c); reflexivity. Qed.
Definition msim {T} (h : T -> T) (x : sim_res T) : sim_res T :=
  match x with SimEnd s t => SimEnd s (h t) | SimKey t => SimKey (h t) | SimLoop => SimLoop | SimErr => SimErr end.

Lemma sim_m pv (TM : tame pv) n : forall st t, py_simulate comp' (mpv pv) n st (mt t) = msim mt (py_simulate comp pv n st t).
Proof.
  induction n as [|n IH]; intros st t; [reflexivity|]. cbn [py_simulate].
  assert (GO : match comp' st (t_scan (mt t)) with
               | LGot (color, shift, next_state) => py_simulate comp' (mpv pv) n next_state (fst (py_step (mt t) shift color (st =? next_state)))
               | LKey _ => SimKey (mt t) | LLoop => SimLoop end
             = msim mt match comp st (t_scan t) with
               | LGot (color, shift, next_state) => py_simulate comp pv n next_state (fst (py_step t shift color (st =? next_state)))
               | LKey _ => SimKey t | LLoop => SimLoop end).
  { rewrite plain_m. change (t_scan (mt t)) with (t_scan t). destruct (comp st (t_scan t)) as [[[c sh] nx]|s|]; cbn [turned]; try reflexivity.
    rewrite py_step_mt. cbn [fst]. apply IH. }
  rewrite sig_m, get_rule_m. change (t_scan (mt t)) with (t_scan t) at 1.
  destruct (get_rule pv st (t_scan t) (t_signature t)) as [r|] eqn:G; cbn [option_map]; [|exact GO].
  destruct (got_tame _ _ _ _ _ TM G) as (D & O).
  destruct (apply_m r t D O) as [->|(A & B)].
  - destruct (py_apply_rule r t) as [| | |k t']; cbn [mres]; try reflexivity; [exact GO|apply IH].
  - destruct (py_apply_rule (mrule r) (mt t)); cbn in A; try easy; destruct (py_apply_rule r t); cbn in B; easy.
Qed.
Lemma esim_m pv (TM : tame pv) n : forall st e, py_esimulate comp' (mpv pv) n st (met e) = msim met (py_esimulate comp pv n st e).
Proof.
  induction n as [|n IH]; intros st e; [reflexivity|]. cbn [py_esimulate].
  assert (GO : forall e, match comp' st (et_scan (met e)) with
               | LGot (color, shift, next_state) => py_esimulate comp' (mpv pv) n next_state (py_estep None (met e) shift color (st =? next_state))
               | LKey _ => SimKey (met e) | LLoop => SimLoop end
             = msim met match comp st (et_scan e) with
               | LGot (color, shift, next_state) => py_esimulate comp pv n next_state (py_estep None e shift color (st =? next_state))
               | LKey _ => SimKey e | LLoop => SimLoop end).
  { intros k. rewrite plain_m. change (et_scan (met k)) with (et_scan k). destruct (comp st (et_scan k)) as [[[c sh] nx]|s|]; cbn [turned]; try reflexivity.
    rewrite py_estep_m. apply IH. }
  rewrite erase_m, sig_m, get_rule_m. change (et_scan (met e)) with (et_scan e) at 1.
  destruct (get_rule pv st (et_scan e) (t_signature (erase e))) as [r|] eqn:G; cbn [option_map]; [|apply GO].
  destruct (got_tame _ _ _ _ _ TM G) as (D & O). rewrite (eapply_m r e D O).
  destruct (py_eapply_rule r e) as [|e'|k e']; cbn [mearly]; [reflexivity|apply GO|apply IH].
Qed.
Lemma slice_m s e : sig_slice (msg s) (met e) = mms (sig_slice s e).
Proof. reflexivity. Qed.
Lemma min_m pv (TM : tame pv) n st e s : py_min_sig comp' (mpv pv) n st (met e) (msg s)
  = match py_min_sig comp pv n st e s with MsGot m => MsGot (mms m) | m => m end.
Proof. unfold py_min_sig. rewrite (esim_m pv TM). destruct (py_esimulate comp pv n st e); reflexivity. Qed.
Lemma deltas_m pv (TM : tame pv) st s ds : forall t, py_delta_counts comp' (mpv pv) st (msg s) ds (mt t)
  = match py_delta_counts comp pv st s ds t with inl cs => inl (map swapc cs) | inr r => inr r end.
Proof.
  induction ds as [|d ds IH]; intros t; [reflexivity|]. cbn [py_delta_counts]. rewrite (sim_m pv TM).
  destruct (py_simulate comp pv (Z.to_nat d) st t) as [s' t'|t'| |]; cbn [msim]; try reflexivity.
  rewrite compat_m, IH, counts_mt. destruct (negb (s' =? st) || negb (t_sig_compatible t' s)); [reflexivity|].
  destruct (py_delta_counts comp pv st s ds t'); reflexivity.
Qed.

(** What try_rule says in the mirror: the same, or in both cases that there is no rule. *)
Definition quiet (x : try_res) : Prop := match x with TNone | TSuspected _ _ | TErr => True | _ => False end.
Definition mtry (x y : try_res) : Prop := match x with TRule r => y = TRule (mrule r) | _ => y = x \/ quiet x /\ quiet y end.
Lemma try_m pv (TM : tame pv) cy st t :
  let x := py_try_rule comp pv cy st t in let y := py_try_rule comp' (mpv pv) cy st (mt t) in
  fst y = mpv (fst x) /\ mtry (snd x) (snd y).
Proof.
  cbv zeta. unfold py_try_rule. rewrite sig_m. change (t_scan (mt t)) with (t_scan t). rewrite get_rule_m.
  destruct (get_rule pv st (t_scan t) (t_signature t)) as [r|]; [split; reflexivity|]. cbn [option_map].
  cbn [mpv pv_configs pv_rules]. rewrite cfg_get_m.
  destruct (cfg_get (pv_configs pv) (t_signature t)) as [past|].
  - destruct (pcs_next_deltas past st cy) as [past' d].
    rewrite cfg_set_m. change (PV (mrules (pv_rules pv)) (mcfgs ?x)) with (mpv (PV (pv_rules pv) x)).
    destruct d as [| |d1 d2 d3]; try (split; [reflexivity|left; reflexivity]).
    rewrite deltas_m by exact TM.
    destruct (py_delta_counts comp _ st (t_signature t) [d1; d2; d3] t) as [cs|r] eqn:DC.
    2:{ split; [reflexivity|]. destruct (delta_counts_err _ _ _ _ _ _ _ DC) as [->|[->| ->]]; left; reflexivity. }
    destruct cs as [|c1 [|c2 [|c3 [|c4 cs]]]]; try (split; [reflexivity|left; reflexivity]). cbn [map].
    change (t_counts (mt t)) with (swapc (t_counts t)).
    pose proof (make_m (t_counts t) c1 c2 c3) as MK.
    destruct (py_make_rule (t_counts t) c1 c2 c3) as [r| | |a b|]; cbn [mmade] in MK.
    + rewrite MK, swap_m. destruct (swap_rule r t); [split; [reflexivity|left; reflexivity]|].
      unfold pcs_delete. cbn [mpv pv_configs pv_rules]. rewrite cfg_set_m.
      change (PV (mrules (pv_rules pv)) (mcfgs ?x)) with (mpv (PV (pv_rules pv) x)).
      rewrite to_enum_m, min_m by exact TM.
      destruct (py_min_sig comp _ (Z.to_nat d1) st (to_enum t) (t_signature t)); try (split; [reflexivity|left; reflexivity]).
      cbn [fst snd mtry]. rewrite set_rule_m. split; reflexivity.
    + destruct (py_make_rule (swapc _) _ _ _); try easy; split; try reflexivity; right; split; exact Logic.I.
    + rewrite MK. split; [reflexivity|left; reflexivity].
    + destruct (py_make_rule (swapc _) _ _ _); try easy; split; try reflexivity; right; split; exact Logic.I.
    + destruct (py_make_rule (swapc _) _ _ _); try easy; split; try reflexivity; right; split; exact Logic.I.
  - replace (length (mcfgs (pv_configs pv))) with (length (pv_configs pv)) by (unfold mcfgs; rewrite map_length; reflexivity).
    destruct (100000 <? _); [split; [reflexivity|left; reflexivity]|].
    rewrite cfg_set_m. split; [reflexivity|left; reflexivity].
Qed.
Lemma try_distinct pv cy st t pv' res : pv_distinct pv -> py_try_rule comp pv cy st t = (pv', res) -> pv_distinct pv'.
Proof.
  intros D E. unfold py_try_rule in E.
  assert (SM : forall cf, pv_distinct (PV (pv_rules pv) cf)) by (intros ? ? ? ? X; eapply D; exact X).
  destruct (get_rule _ _ _ _); [inv E; auto|]. destruct (cfg_get _ _); [|destruct (_ <? _); inv E; auto].
  destruct (pcs_next_deltas _ _ _) as [past' [| |d1 d2 d3]]; [inv E; auto..|].
  destruct (py_delta_counts _ _ _ _ _ _) as [cs|]; [|inv E; auto].
  destruct cs as [|c1 [|c2 [|c3 [|? ?]]]]; try (inv E; auto; fail).
  destruct (py_make_rule _ _ _ _) eqn:MK; try (inv E; auto; fail).
  destruct (swap_rule _ _); [inv E; auto|].
  destruct (py_min_sig _ _ _ _ _ _) as [m| |]; inv E; auto.
  intros s ms r' (v & A & B). destruct (rules_add_only _ _ _ _ _ _ A B) as [X|(v' & A' & B')].
  - inv X. eapply made_distinct; eauto.
  - apply (D s ms r'). exists v'. auto.
Qed.

Lemma tried_held pv cy st t pv' r : py_try_rule comp pv cy st t = (pv', TRule r) -> exists s ms, holds_rule pv' s ms r.
Proof.
  intros E. unfold py_try_rule in E.
  destruct (get_rule pv st (t_scan t) (t_signature t)) as [r'|] eqn:G.
  { inv E. unfold get_rule in G. destruct (rules_at (pv_rules pv') (st, t_scan t)) as [v|] eqn:A; [|discriminate].
    destruct (match_in _ _ _ G) as (ms & X). exists (st, t_scan t), ms, v. split; auto. apply rules_at_slot. auto. }
  destruct (cfg_get _ _); [|destruct (_ <? _); discriminate].
  destruct (pcs_next_deltas _ _ _) as [past' [| |d1 d2 d3]]; try discriminate.
  destruct (py_delta_counts _ _ _ _ _ _) as [cs|x] eqn:DC.
  2:{ injection E as _ ->. destruct (delta_counts_err _ _ _ _ _ _ _ DC) as [X|[X|X]]; discriminate. }
  destruct cs as [|c1 [|c2 [|c3 [|? ?]]]]; try discriminate.
  destruct (py_make_rule _ _ _ _) eqn:MK; try discriminate.
  destruct (swap_rule _ _); [discriminate|].
  destruct (py_min_sig _ _ _ _ _ _) as [m| |]; try discriminate. inv E.
  destruct (rules_add_in (pv_rules pv) (st, sg_scan (fst m)) (m, r)) as (v & A & B). exists (st, sg_scan (fst m)), m, v. auto.
Qed.

(** ** The machine *)

Lemma go_keeps fuel cy pv t st step bl ra su : same_or_more pv (m_prover (py_go comp fuel cy pv t st step bl ra su)).
Proof.
  assert (G : forall t step cyc state b ra su, same_or_more pv (m_prover (py_machine_loop (plain M) fuel cyc pv t state step b ra su))).
  { intros. apply loop_keeps. intros. eapply try_keeps; eauto. }
  assert (S0 : same_or_more pv pv) by (intros ? ? ? X; exact X).
  unfold py_go. destruct (comp st (t_scan t)) as [[[color shift] next]|s|]; auto. cbn zeta.
  destruct (_ && t_at_edge _ _); auto. destruct (py_step _ _ _ _) as [t' n].
  destruct (_ && t_blank _); auto. destruct (blanks_has _ _); auto. destruct (next =? 0); auto.
Qed.

Lemma mach_m fuel : forall cy pv t st step bl ra sus sus', pv_distinct pv ->
  let m := py_machine_loop comp fuel cy pv t st step bl ra sus in
  let m' := py_machine_loop comp' fuel cy (mpv pv) (mt t) st step bl ra sus' in
  (forall s ms r, holds_rule (m_prover m) s ms r -> one_goes_down r) -> m_end m <> MErr -> m_end m' <> MErr ->
  mirror_report m m'.
Proof.
  induction fuel as [|fuel IH]; intros cy pv t st step bl ra sus sus' PD; cbv zeta; [repeat split|].
  pose proof (loop_keeps M (S fuel) cy pv t st step bl ra sus (fun pv t c s p r => try_keeps M pv t c s p r)) as K0.
  rewrite !py_machine_loop_S in *.
  destruct (py_try_rule comp pv cy st t) as [pv' tr] eqn:TR.
  intros OG N N'.
  assert (TM : tame pv).
  { intros s ms r H. split; [eapply PD; eauto|]. eapply OG. apply K0. exact H. }
  pose proof (try_distinct _ _ _ _ _ _ PD TR) as PD'.
  pose proof (try_m pv TM cy st t) as T. cbv zeta in T. rewrite TR in T. cbn [fst snd] in T.
  destruct (py_try_rule comp' (mpv pv) cy st (mt t)) as [pv2 tr2]. cbn [fst snd] in T. destruct T as (-> & T). clear K0.
  assert (GO : forall su su', let m := py_go comp fuel cy pv' t st step bl ra su in
     let m' := py_go comp' fuel cy (mpv pv') (mt t) st step bl ra su' in
     (forall s ms r, holds_rule (m_prover m) s ms r -> one_goes_down r) -> m_end m <> MErr -> m_end m' <> MErr -> mirror_report m m').
  { clear OG N N'. intros su su'. cbv zeta. unfold py_go. rewrite plain_m. change (t_scan (mt t)) with (t_scan t).
    destruct (comp st (t_scan t)) as [[[c sh] nx]|s|]; [|intros _ _ _; repeat split..]. cbn [turned]. cbv zeta.
    rewrite mt_edge. destruct ((st =? nx) && t_at_edge t sh); [intros _ _ _; repeat split|].
    rewrite py_step_mt. destruct (py_step t sh c (st =? nx)) as [t' n]. cbn [fst snd]. rewrite mt_blank.
    destruct ((c =? 0) && t_blank t'); [|apply IH; auto].
    destruct (blanks_has bl nx); [intros _ _ _; repeat split|].
    destruct (nx =? 0); [intros _ _ _; repeat split|]. apply IH; auto. }
  destruct tr as [ |r| | | |a b| | ]; cbn [mtry] in T.
  - destruct T as [->|(_ & Q)]; [apply GO; auto|]. destruct tr2; try easy; apply GO; auto.
  - rewrite T in N' |- *.
    assert (TD : distinct r /\ one_goes_down r).
    { assert (H : exists s ms, holds_rule pv' s ms r) by (eapply tried_held; eauto).
      destruct H as (s & ms & H). split; [eapply PD'; eauto|]. apply (OG s ms).
      destruct (py_apply_rule r t) as [| | |k t'] eqn:AP; cbn [m_prover]; auto.
      - apply go_keeps. auto.
      - apply (loop_keeps M); [intros; eapply try_keeps; eauto|exact H]. }
    destruct TD as (D & O). destruct (apply_m r t D O) as [E|(A & B)].
    + rewrite E in N' |- *. destruct (py_apply_rule r t) as [| | |k t']; cbn [mres] in *; try (cbn in N; congruence).
      * apply GO; auto.
      * apply IH; auto.
    + destruct (py_apply_rule r t); try easy; cbn in N; congruence.
  - destruct T as [->|([] & _)]. repeat split.
  - destruct T as [->|([] & _)]. cbn in N. congruence.
  - destruct T as [->|([] & _)]. repeat split.
  - destruct T as [->|(_ & Q)]; [apply GO; auto|]. destruct tr2; try easy; apply GO; auto.
  - destruct T as [->|([] & _)]. apply GO; auto.
  - cbn in N. congruence.
Qed.
End Machine.

Lemma machine_mirror M lim :
  let m := py_machine_run (plain M) lim in let m' := py_machine_run (plain (mirror M)) lim in
  (forall s ms r, holds_rule (m_prover m) s ms r -> one_goes_down r) -> m_end m <> MErr -> m_end m' <> MErr ->
  mirror_report m m'.
Proof.
  apply (mach_m M lim 0 pv_new (Tape [] 0 []) 0 0 [] 0 None None). intros s ms r (v & [] & _).
Qed.

(** A check that at most one count goes down in each of the rules held. *)
Definition one_downb (r : rule) : bool := Nat.leb (length (filter down r)) 1.
Lemma one_downb_ok r : one_downb r = true -> one_goes_down r.
Proof.
  intros E i d j e A B D D'. apply Nat.leb_le in E.
  assert (A' : In (i, Plus d) (filter down r)) by (apply filter_In; split; [auto|apply Z.ltb_lt; auto]).
  assert (B' : In (j, Plus e) (filter down r)) by (apply filter_In; split; [auto|apply Z.ltb_lt; auto]).
  destruct (filter down r) as [|x [|y l]]; cbn in E; try lia; [destruct A'|]. destruct A' as [A'|[]], B' as [B'|[]]. congruence.
Qed.
Lemma rules_downb pv : forallb (fun e : slot * list (minsig * rule) => forallb (fun x : minsig * rule => one_downb (snd x)) (snd e)) (pv_rules pv) = true ->
  forall s ms r, holds_rule pv s ms r -> one_goes_down r.
Proof.
  intros E s ms r (v & A & B). rewrite forallb_forall in E. specialize (E _ A). cbn in E. rewrite forallb_forall in E.
  apply one_downb_ok. exact (E _ B).
Qed.
