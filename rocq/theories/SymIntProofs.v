(** * Runs whose counts stay integers: proofs (C85) *)
From Verif Require Import Base TM ProgModel TapeModel EnumModel EnumProofs RulesModel PastModel QuickModel ProverModel EdgeProofs NumModel SymModel SymMachModel SymIntSpec.

(** ** The embedding *)
Definition eb_emb (b : eblock) : sblock := SB (eb_color b) (I (eb_count b)) (eb_enum b).
Definition emb (e : etape) : SymMachModel.stape :=
  ST (map eb_emb (et_l e)) (et_scan e) (map eb_emb (et_r e)) (et_loff e) (et_roff e) (et_ledge e) (et_redge e).

(** Operators that compute on ints. *)
Record int_ops (o : ops) : Prop := {
  io_add : forall a b, o_add o (I a) (I b) = Ok (I (a + b));
  io_sub : forall a b, o_sub o (I a) (I b) = Ok (I (a - b));
  io_mul : forall a b, o_mul o (I a) (I b) = Ok (I (a * b));
  io_div : forall a b, b <> 0 -> o_div o (I a) (I b) = Ok (I (a / b));
  io_lt : forall a b, o_lt o (I a) (I b) = Ok (a <? b)
}.
Lemma ops_at_int fl n : int_ops (ops_at fl (S n)).
Proof.
  split; intros; cbn; try reflexivity. destruct (Z.eqb_spec b 0); [lia|reflexivity].
Qed.

Lemma same_emb e : same_tape (erase e) (emb e).
Proof.
  assert (F : forall l, Forall2 same_block (erase_span l) (map eb_emb l)).
  { induction l; cbn; constructor; auto. split; reflexivity. }
  split; [reflexivity|]. split; apply F.
Qed.

Section Int.
Variable fl : floats.
Variable o : ops.
Hypothesis IO : int_ops o.
Variable comp : Z -> Z -> lookup.

(** ** Tapes *)
Lemma emb_touch e sh : s_touch_edge (emb e) sh = emb (touch_edge e sh).
Proof. destruct sh; reflexivity. Qed.
Lemma emb_check e b : s_check_offsets (emb e) (eb_emb b) = emb (check_offsets e b).
Proof. unfold s_check_offsets, check_offsets. cbn. destruct (eb_enum b) as [[[] k]|]; reflexivity. Qed.
Lemma emb_check_step e sh c sk : s_check_step (emb e) sh c sk = emb (check_step e sh c sk).
Proof.
  unfold s_check_step, check_step.
  change (st_r (emb e)) with (map eb_emb (et_r e)). change (st_l (emb e)) with (map eb_emb (et_l e)).
  assert (K : forall pull push,
    match map eb_emb push with
    | [] => match map eb_emb pull with
            | [] => s_touch_edge (emb e) sh
            | nb :: rest => if sk && (sb_color nb =? st_scan (s_check_offsets (emb e) nb))
                then match rest with [] => s_touch_edge (s_check_offsets (emb e) nb) sh | second :: _ => s_check_offsets (s_check_offsets (emb e) nb) second end
                else s_check_offsets (emb e) nb
            end
    | opp :: _ => let e1 := match map eb_emb pull with
            | [] => s_touch_edge (emb e) sh
            | nb :: rest => if sk && (sb_color nb =? st_scan (s_check_offsets (emb e) nb))
                then match rest with [] => s_touch_edge (s_check_offsets (emb e) nb) sh | second :: _ => s_check_offsets (s_check_offsets (emb e) nb) second end
                else s_check_offsets (emb e) nb
            end in if c =? sb_color opp then s_check_offsets e1 opp else e1
    end = emb match push with
    | [] => match pull with
            | [] => touch_edge e sh
            | nb :: rest => if sk && (eb_color nb =? et_scan (check_offsets e nb))
                then match rest with [] => touch_edge (check_offsets e nb) sh | second :: _ => check_offsets (check_offsets e nb) second end
                else check_offsets e nb
            end
    | opp :: _ => let e1 := match pull with
            | [] => touch_edge e sh
            | nb :: rest => if sk && (eb_color nb =? et_scan (check_offsets e nb))
                then match rest with [] => touch_edge (check_offsets e nb) sh | second :: _ => check_offsets (check_offsets e nb) second end
                else check_offsets e nb
            end in if c =? eb_color opp then check_offsets e1 opp else e1
    end).
  { intros pull push.
    assert (P : forall pull, match map eb_emb pull with
            | [] => s_touch_edge (emb e) sh
            | nb :: rest => if sk && (sb_color nb =? st_scan (s_check_offsets (emb e) nb))
                then match rest with [] => s_touch_edge (s_check_offsets (emb e) nb) sh | second :: _ => s_check_offsets (s_check_offsets (emb e) nb) second end
                else s_check_offsets (emb e) nb
            end = emb match pull with
            | [] => touch_edge e sh
            | nb :: rest => if sk && (eb_color nb =? et_scan (check_offsets e nb))
                then match rest with [] => touch_edge (check_offsets e nb) sh | second :: _ => check_offsets (check_offsets e nb) second end
                else check_offsets e nb
            end).
    { intros [|nb rest]; cbn [map]; [apply emb_touch|]. rewrite emb_check. cbn [eb_emb sb_color].
      change (st_scan (emb (check_offsets e nb))) with (et_scan (check_offsets e nb)).
      destruct (sk && _); [|reflexivity]. destruct rest as [|x rest]; cbn [map]; [apply emb_touch|apply emb_check]. }
    destruct push as [|opp push]; cbn [map]; [apply P|]. cbv zeta. rewrite P. cbn [eb_emb sb_color].
    destruct (c =? eb_color opp); [|reflexivity]. apply emb_check. }
  destruct sh; apply K.
Qed.

Lemma emb_pull pull scan sk :
  s_pull o (map eb_emb pull) scan sk
  = Got (let '(sc, pl, pb, n) := py_epull pull scan sk in (sc, map eb_emb pl, option_map eb_emb pb, I n)).
Proof.
  unfold s_pull, py_epull.
  assert (K : forall pl pb (n : Z),
    match map eb_emb pl with
    | [] => Got (0, map eb_emb pl, option_map eb_emb pb, I n)
    | np :: pl' => if negb (cnt_eqb (sb_count np) (I 1))
        then c <~ lift (o_sub o (sb_count np) (I 1)); Got (sb_color np, SB (sb_color np) c (sb_enum np) :: pl', option_map eb_emb pb, I n)
        else Got (sb_color np, pl', match option_map eb_emb pb with None => Some (SB (sb_color np) (I 0) (sb_enum np)) | Some b => Some b end, I n)
    end = Got (let '(sc, pl, pb, n) := match pl with
      | [] => (0, pl, pb, n)
      | np :: pl' => if negb (eb_count np =? 1)
        then (eb_color np, EB (eb_color np) (eb_count np - 1) (eb_enum np) :: pl', pb, n)
        else (eb_color np, pl', match pb with None => Some (EB (eb_color np) 0 (eb_enum np)) | Some b => Some b end, n)
      end in (sc, map eb_emb pl, option_map eb_emb pb, I n))).
  { intros [|np pl] pb n; cbn [map]; [reflexivity|]. cbn [eb_emb sb_count sb_color sb_enum cnt_eqb].
    destruct (eb_count np =? 1); cbn [negb].
    - destruct pb; reflexivity.
    - rewrite (io_sub o IO). reflexivity. }
  destruct pull as [|b pull]; cbn [map]; [apply (K [] None 1)|].
  cbn [eb_emb sb_color]. destruct (sk && (eb_color b =? scan)).
  - cbn [sb_count eb_emb]. change (sb_count (eb_emb b)) with (I (eb_count b)). rewrite (io_add o IO). apply (K pull (Some b) (1 + eb_count b)).
  - apply (K (b :: pull) None 1).
Qed.

Lemma emb_push push pb c n :
  s_push o (map eb_emb push) (option_map eb_emb pb) c (I n) = Got (map eb_emb (py_epush None push pb c n)).
Proof.
  unfold s_push, py_epush.
  assert (INS : s_insert o (map eb_emb push) (option_map eb_emb pb) c
    = Got (map eb_emb (match pb with None => EB c 1 None | Some b => EB c (eb_count b + 1) (eb_enum b) end :: push))).
  { unfold s_insert. destruct pb as [b|]; cbn; [rewrite (io_add o IO)|]; reflexivity. }
  destruct push as [|b push]; cbn [map] in *.
  - destruct (negb (c =? 0)); [exact INS|reflexivity].
  - cbn [eb_emb sb_color sb_count sb_enum] in *. destruct (eb_color b =? c); [|exact INS]. rewrite (io_add o IO). reflexivity.
Qed.

Lemma py_stepped_erase e sh c sk :
  snd (py_step (erase e) sh c sk) = (let '(_, _, _, n) := py_epull (if sh then et_r e else et_l e) (et_scan e) sk in n).
Proof.
  unfold py_step. cbn [erase t_lspan t_rspan t_scan].
  pose proof (py_epull_erase (if sh then et_r e else et_l e) (et_scan e) sk) as P.
  destruct sh; destruct (py_skip_block _ _ _) as [pb pull]; destruct (py_pull_one pull pb) as [[sc pull'] pb'];
    destruct (py_epull _ _ _) as [[[sc2 s2] pb2] n2]; inv P; reflexivity.
Qed.

Lemma emb_step e sh c sk :
  s_step o (emb e) sh c sk = Got (emb (py_estep None e sh c sk), I (snd (py_step (erase e) sh c sk))).
Proof.
  rewrite py_stepped_erase. unfold s_step, py_estep. rewrite emb_check_step.
  assert (SL : et_l (check_step e sh c sk) = et_l e) by apply (cs_span e sh c sk false).
  assert (SR : et_r (check_step e sh c sk) = et_r e) by apply (cs_span e sh c sk true).
  assert (SC : et_scan (check_step e sh c sk) = et_scan e) by apply cs_scan.
  set (e' := check_step e sh c sk) in *.
  change (st_r (emb e')) with (map eb_emb (et_r e')). change (st_l (emb e')) with (map eb_emb (et_l e')).
  change (st_scan (emb e')) with (et_scan e'). rewrite <- SL, <- SR, <- SC.
  destruct sh; rewrite emb_pull; cbn [obind];
    destruct (py_epull _ _ _) as [[[sc pl] pb] n]; rewrite emb_push; reflexivity.
Qed.

Lemma emb_sig e : s_signature (emb e) = t_signature (erase e).
Proof.
  unfold s_signature, t_signature. cbn. f_equal; unfold erase_span; rewrite !map_map; apply map_ext; intros b; unfold s_sig_block, sig_of_block; cbn; destruct (eb_count b =? 1); reflexivity.
Qed.
Lemma emb_counts e : s_counts (emb e) = (map I (fst (t_counts (erase e))), map I (snd (t_counts (erase e)))).
Proof. unfold s_counts, t_counts, erase, erase_span. cbn. rewrite !map_map. reflexivity. Qed.
Lemma emb_blank e : s_blank (emb e) = t_blank (erase e).
Proof. destruct e as [l s r ? ? ? ?]. destruct l, r; reflexivity. Qed.
Lemma emb_edge e sh : s_at_edge (emb e) sh = t_at_edge (erase e) sh.
Proof. destruct e as [l s r ? ? ? ?]. destruct sh, l, r; reflexivity. Qed.
Lemma emb_lens e : s_span_lens (emb e) = t_span_lens (erase e).
Proof. unfold s_span_lens, t_span_lens. cbn. unfold erase_span. now rewrite !map_length. Qed.
Lemma emb_enum e : s_to_enum (emb e) = emb (to_enum (erase e)).
Proof.
  assert (K : forall l side k, s_enumerate side k (map eb_emb l) = map eb_emb (enumerate side k (erase_span l))).
  { induction l as [|b l IH]; intros side k; cbn; [reflexivity|]. now rewrite IH. }
  unfold s_to_enum, to_enum, emb. cbn. now rewrite !K.
Qed.
Lemma emb_compatible e g : s_sig_compatible (emb e) g = t_sig_compatible (erase e) g.
Proof.
  unfold s_sig_compatible, t_sig_compatible. cbn [emb erase st_scan st_l st_r t_scan t_lspan t_rspan].
  assert (K : forall l g, s_span_compatible (map eb_emb l) g
    = (length g <=? length (erase_span l))%nat && span_compatible (firstn (length g) (erase_span l)) g).
  { induction l as [|b l IH]; intros [|c q]; try reflexivity.
    cbn [map s_span_compatible eb_emb sb_color length erase_span firstn]. rewrite IH.
    cbn [Nat.leb span_compatible b_color]. destruct (length q <=? length (map _ l))%nat eqn:E; unfold erase_span in *.
    - now rewrite E.
    - rewrite E. cbn. apply Bool.andb_false_r. }
  rewrite !K. destruct (et_scan e =? sg_scan g), (length (sg_l g) <=? length (erase_span (et_l e)))%nat,
    (length (sg_r g) <=? length (erase_span (et_r e)))%nat; cbn; rewrite ?Bool.andb_false_r, ?Bool.andb_true_r; reflexivity.
Qed.

(** ** Rules *)
Definition emb_apps (a : option (Z * index * Z)) : option (cnt * index * Z) :=
  match a with Some (t, p, r) => Some (I t, p, r) | None => None end.

Lemma nth_map {A B} (f : A -> B) l : forall n, nth_error (map f l) n = option_map f (nth_error l n).
Proof. induction l; intros [|n]; cbn; auto. Qed.
Lemma emb_get e i : s_get_count (emb e) i = option_map (fun x => (I (fst x), emb (snd x))) (e_get_count e i).
Proof.
  unfold s_get_count, e_get_count.
  replace (if fst i then st_r (emb e) else st_l (emb e)) with (map eb_emb (if fst i then et_r e else et_l e)) by (destruct (fst i); reflexivity).
  rewrite nth_map. destruct (nth_error _ _) as [b|]; cbn [option_map]; [|reflexivity]. rewrite emb_check. reflexivity.
Qed.
Lemma emb_sget e i : sget (s_counts (emb e)) i = option_map (fun x => I (fst x)) (e_get_count e i).
Proof.
  unfold sget, e_get_count, s_counts. cbn [fst snd].
  replace (if fst i then map sb_count (st_r (emb e)) else map sb_count (st_l (emb e))) with (map (fun b => I (eb_count b)) (if fst i then et_r e else et_l e))
    by (destruct (fst i); cbn; rewrite map_map; reflexivity).
  rewrite nth_map. destruct (nth_error _ _) as [b|]; reflexivity.
Qed.
Lemma emb_set e i v : s_set_count (emb e) i (I v) = option_map emb (e_set_count e i v).
Proof.
  assert (K : forall l n, s_set_nth (map eb_emb l) n (I v) = option_map (map eb_emb) (eset_nth l n v)).
  { induction l as [|b l IH]; intros [|n]; cbn; auto. rewrite IH. destruct (eset_nth l n v); reflexivity. }
  unfold s_set_count, e_set_count. destruct (fst i).
  - change (st_r (emb e)) with (map eb_emb (et_r e)). rewrite K. destruct (eset_nth (et_r e) (snd i) v); reflexivity.
  - change (st_l (emb e)) with (map eb_emb (et_l e)). rewrite K. destruct (eset_nth (et_l e) (snd i) v); reflexivity.
Qed.

Lemma emb_count_apps r : forall e apps, match py_ecount_apps r e apps with
  | None => True
  | Some (a, e') => s_count_apps fl o (same_rule r) (emb e) (emb_apps apps) = Got (emb_apps a, emb e')
  end.
Proof.
  induction r as [|[pos [d|m a]] r IH]; intros e apps; cbn [py_ecount_apps same_rule map s_count_apps fst snd same_op].
  - reflexivity.
  - destruct (0 <=? d) eqn:Ed; [apply IH|]. fold (same_rule r).
    destruct (e_get_count e pos) as [[c e1]|] eqn:G; [|exact Logic.I].
    unfold entry_apps. rewrite emb_sget, G. cbn [option_map fst].
    destruct (c <=? Z.abs d) eqn:C; cbn [obind].
    + rewrite emb_get, G. reflexivity.
    + destruct (0 <? c mod Z.abs d) eqn:R.
      * cbn [obind]. rewrite emb_get, G. cbn [option_map fst snd].
        destruct apps as [[[t0 p0] r0]|]; cbn [emb_apps].
        -- rewrite (io_lt o IO). cbn [lift obind]. destruct (c / Z.abs d <? t0); [apply (IH e1 (Some (c / Z.abs d, pos, c mod Z.abs d)))|apply (IH e1 (Some (t0, p0, r0)))].
        -- apply (IH e1 (Some (c / Z.abs d, pos, c mod Z.abs d))).
      * rewrite (io_sub o IO). cbn [lift obind]. rewrite emb_get, G. cbn [option_map fst snd].
        destruct apps as [[[t0 p0] r0]|]; cbn [emb_apps].
        -- rewrite (io_lt o IO). cbn [lift obind]. destruct (c / Z.abs d - 1 <? t0); [apply (IH e1 (Some (c / Z.abs d - 1, pos, Z.abs d)))|apply (IH e1 (Some (t0, p0, r0)))].
        -- apply (IH e1 (Some (c / Z.abs d - 1, pos, Z.abs d))).
  - apply IH.
Qed.

(** The position that allows the fewest applications is that of an entry that decreases. *)
Lemma apps_from r : forall e apps t p rs e', py_ecount_apps r e apps = Some (Some (t, p, rs), e') ->
  (exists d, In (p, Plus d) r /\ d < 0) \/ exists t0 r0, apps = Some (t0, p, r0).
Proof.
  induction r as [|[pos [d|m a]] r IH]; intros e apps t p rs e' E; cbn [py_ecount_apps] in E.
  - inv E. right. eauto.
  - destruct (Z.leb_spec 0 d).
    + destruct (IH _ _ _ _ _ _ E) as [(d' & X & Y)|X]; [left; exists d'; split; [right|]; auto|right; auto].
    + destruct (e_get_count e pos) as [[c e1]|]; [|discriminate]. destruct (c <=? Z.abs d); [discriminate|].
      destruct (if 0 <? c mod Z.abs d then _ else _) as [times mres].
      destruct (IH _ _ _ _ _ _ E) as [(d' & X & Y)|(t0 & r0 & X)]; [left; exists d'; split; [right|]; auto|].
      destruct apps as [[[t1 p1] r1]|].
      * destruct (times <? t1); inv X; [left; exists d; split; [left|]; auto|right; eauto].
      * inv X. left. exists d. split; [left|]; auto.
  - destruct (IH _ _ _ _ _ _ E) as [(d' & X & Y)|X]; [left; exists d'; split; [right|]; auto|right; auto].
Qed.

Lemma emb_apply_loop times p rs : forall r e,
  (forall d, In (p, Plus d) r -> d < 0) ->
  match py_eapply_loop r e times p rs with
  | EaApplied k e' => s_apply_loop fl o (same_rule r) (emb e) (I times) p rs = Got (emb e') /\ k = times
  | _ => True
  end.
Proof.
  induction r as [|[pos op] r IH]; intros e M; cbn [py_eapply_loop same_rule map s_apply_loop fst snd].
  - auto.
  - fold (same_rule r). rewrite emb_get. destruct (e_get_count e pos) as [[c e1]|]; [|exact Logic.I]. cbn [option_map fst snd].
    assert (M' : forall d, In (p, Plus d) r -> d < 0) by (intros d X; apply M; right; auto).
    destruct op as [d|m a]; cbn [same_op entry_result].
    + destruct (index_eqb pos p) eqn:Ep; cbn [negb].
      * destruct (Z.ltb_spec d 0) as [Ld|Ld].
        -- cbn [obind]. rewrite emb_set. destruct (e_set_count e1 pos rs) as [e2|]; cbn [option_map]; [apply IH; auto|exact Logic.I].
        -- exfalso. assert (pos = p).
           { unfold index_eqb in Ep. apply Bool.andb_true_iff in Ep. destruct Ep as [A B]. destruct pos, p; cbn in *.
             apply Bool.eqb_prop in A. apply Nat.eqb_eq in B. congruence. }
           subst pos. specialize (M d (or_introl eq_refl)). lia.
      * rewrite (io_mul o IO). cbn [lift obind]. rewrite (io_add o IO). cbn [lift obind]. rewrite emb_set.
        destruct (e_set_count e1 pos (c + d * times)) as [e2|]; cbn [option_map]; [apply IH; auto|exact Logic.I].
    + destruct (mult_int times m a) eqn:MI; [|exact Logic.I]. apply Bool.andb_true_iff in MI as [T1 T2].
      apply Z.eqb_eq in T1. subst times.
      assert (V : apply_smult fl o (I c) (I 1) m a = Got (I (apply_mult c 1 m a))).
      { unfold apply_smult, apply_mult. cbn [is_int negb andb cnt_eqb]. replace (1 =? 1) with true by reflexivity. cbn [obind].
        rewrite (io_mul o IO). cbn [lift obind]. destruct (a =? 0) eqn:A0; [reflexivity|].
        rewrite (io_sub o IO). cbn [lift obind]. rewrite (io_div o IO) by (destruct (Z.eqb_spec m 1); cbn in T2; [congruence|lia]).
        cbn [lift obind]. rewrite (io_add o IO). cbn [lift obind]. rewrite (io_mul o IO). cbn [lift obind]. rewrite (io_add o IO). reflexivity. }
      rewrite V. cbn [obind]. rewrite emb_set. destruct (e_set_count e1 pos (apply_mult c 1 m a)) as [e2|]; cbn [option_map]; [apply IH; auto|exact Logic.I].
Qed.

Definition uniq (r : rule) : Prop := NoDup (map fst r).
Lemma uniq_in r p a b : uniq r -> In (p, a) r -> In (p, b) r -> a = b.
Proof.
  unfold uniq. induction r as [|[q x] r IH]; cbn; [tauto|]. intros N. inversion N as [|? ? N1 N2]; subst.
  intros [X|X] [Y|Y]; [congruence| | |auto].
  - inv X. exfalso. apply N1. apply in_map_iff. exists (p, b). auto.
  - inv Y. exfalso. apply N1. apply in_map_iff. exists (p, a). auto.
Qed.
Lemma emb_apply_rule r e : uniq r -> match py_eapply_rule r e with
  | EaErr => True
  | EaNone e' => s_apply_rule fl o (same_rule r) (emb e) = Got (None, emb e')
  | EaApplied k e' => s_apply_rule fl o (same_rule r) (emb e) = Got (Some (I k), emb e')
  end.
Proof.
  intros U. unfold py_eapply_rule, s_apply_rule. pose proof (emb_count_apps r e None) as CA. cbn [emb_apps] in CA.
  destruct (py_ecount_apps r e None) as [[[[[t p] rs]|] e1]|] eqn:E; [|rewrite CA; reflexivity|exact Logic.I].
  rewrite CA. cbn [obind emb_apps].
  destruct (apps_from _ _ _ _ _ _ _ E) as [(d & Ind & Ld)|(t0 & r0 & X)]; [|discriminate].
  assert (M : forall d', In (p, Plus d') r -> d' < 0).
  { intros d' X. pose proof (uniq_in r p _ _ U Ind X) as Y. inv Y. auto. }
  pose proof (emb_apply_loop t p rs r e1 M) as AL.
  destruct (py_eapply_loop r e1 t p rs) as [|e2|k e2] eqn:L; [exact Logic.I|destruct (eloop_not_none _ _ _ _ _ _ L)|].
  destruct AL as [AL ->]. rewrite AL. reflexivity.
Qed.

(** ** Marks forgotten *)
Lemma eget_erase e i : get_count (erase e) i = option_map fst (e_get_count e i).
Proof.
  unfold get_count, t_get_count, e_get_count, erase, erase_span. cbn [t_lspan t_rspan].
  replace (if fst i then map _ (et_r e) else map _ (et_l e)) with (map (fun b => Blk (eb_color b) (eb_count b)) (if fst i then et_r e else et_l e)) by (destruct (fst i); reflexivity).
  rewrite nth_map. destruct (nth_error _ _); reflexivity.
Qed.
Lemma co_erase e b : erase (check_offsets e b) = erase e.
Proof. unfold check_offsets. destruct (eb_enum b) as [[[] k]|]; reflexivity. Qed.
Lemma eget_same e i c e' : e_get_count e i = Some (c, e') -> erase e' = erase e.
Proof. unfold e_get_count. destruct (nth_error _ _); [|discriminate]. intros X. inv X. apply co_erase. Qed.
Lemma eset_erase e i v : set_count (erase e) i v = option_map erase (e_set_count e i v).
Proof.
  assert (K : forall l n, set_nth_count (erase_span l) n v = option_map erase_span (eset_nth l n v)).
  { induction l as [|b l IH]; intros [|n]; cbn; auto. change (map _ l) with (erase_span l). rewrite IH. destruct (eset_nth l n v); reflexivity. }
  unfold set_count, t_set_count, e_set_count. cbn [erase t_lspan t_rspan t_scan]. destruct (fst i); rewrite K.
  - destruct (eset_nth (et_r e) (snd i) v); reflexivity.
  - destruct (eset_nth (et_l e) (snd i) v); reflexivity.
Qed.
Definition apps_of (a : option (Z * index * Z)) : apps_res := match a with Some (t, p, r) => ASome t p r | None => ANone end.
Lemma ecount_erase r : forall e apps, match py_ecount_apps r e apps with
  | None => py_count_apps r (erase e) (apps_of apps) = AIndex
  | Some (a, e') => py_count_apps r (erase e) (apps_of apps) = apps_of a /\ erase e' = erase e
  end.
Proof.
  induction r as [|[pos [d|m a]] r IH]; intros e apps; cbn [py_ecount_apps py_count_apps]; [auto| |apply IH].
  destruct (0 <=? d); [apply IH|]. rewrite eget_erase. destruct (e_get_count e pos) as [[c e1]|] eqn:G; cbn [option_map fst]; [|reflexivity].
  pose proof (eget_same _ _ _ _ G) as S1. destruct (c <=? Z.abs d); [auto|].
  destruct (if 0 <? c mod Z.abs d then _ else _) as [times mres].
  set (a := match apps with Some (t0, _, _) => if times <? t0 then Some (times, pos, mres) else apps | None => Some (times, pos, mres) end).
  replace (match apps_of apps with ASome t0 _ _ => if times <? t0 then ASome times pos mres else apps_of apps | _ => ASome times pos mres end) with (apps_of a).
  - specialize (IH e1 a). rewrite S1 in IH. exact IH.
  - unfold a. destruct apps as [[[t0 p0] r0]|]; cbn; [destruct (times <? t0)|]; reflexivity.
Qed.
Lemma eloop_erase times p rs : forall r e, match py_eapply_loop r e times p rs with
  | EaErr => py_apply_loop r (erase e) times p rs = EvIndex \/ py_apply_loop r (erase e) times p rs = EvSymbolic
  | EaNone _ => False
  | EaApplied k e' => py_apply_loop r (erase e) times p rs = EvApplied k (erase e')
  end.
Proof.
  induction r as [|[pos op] r IH]; intros e; cbn [py_eapply_loop py_apply_loop]; [reflexivity|].
  rewrite eget_erase. destruct (e_get_count e pos) as [[c e1]|] eqn:G; cbn [option_map fst]; [|auto].
  pose proof (eget_same _ _ _ _ G) as S1.
  assert (K : forall v, match match e_set_count e1 pos v with None => EaErr | Some e => py_eapply_loop r e times p rs end with
     | EaErr => match set_count (erase e) pos v with None => EvIndex | Some t => py_apply_loop r t times p rs end = EvIndex
             \/ match set_count (erase e) pos v with None => EvIndex | Some t => py_apply_loop r t times p rs end = EvSymbolic
     | EaNone _ => False
     | EaApplied k e' => match set_count (erase e) pos v with None => EvIndex | Some t => py_apply_loop r t times p rs end = EvApplied k (erase e')
     end).
  { intros v. rewrite <- S1, eset_erase. destruct (e_set_count e1 pos v) as [e2|]; cbn [option_map]; [apply IH|auto]. }
  destruct op; [apply K|]. destruct (mult_int times m a); [apply K|auto].
Qed.
Lemma eapply_erase r e : match py_eapply_rule r e with
  | EaErr => py_apply_rule r (erase e) = EvIndex \/ py_apply_rule r (erase e) = EvSymbolic
  | EaNone e' => py_apply_rule r (erase e) = EvNone /\ erase e' = erase e
  | EaApplied k e' => py_apply_rule r (erase e) = EvApplied k (erase e')
  end.
Proof.
  unfold py_eapply_rule, py_apply_rule. pose proof (ecount_erase r e None) as CA. cbn [apps_of] in CA.
  destruct (py_ecount_apps r e None) as [[[[[t p] rs]|] e1]|]; [|destruct CA as [-> ?]; auto|rewrite CA; auto].
  destruct CA as [-> S1]. cbn [apps_of]. pose proof (eloop_erase t p rs r e1) as L. rewrite S1 in L.
  destruct (py_eapply_loop r e1 t p rs); auto. destruct L.
Qed.

Definition sim_map (x : sim_res etape) : sim_res tape :=
  match x with SimEnd q e => SimEnd q (erase e) | SimKey e => SimKey (erase e) | SimLoop => SimLoop | SimErr => SimErr end.
Lemma esim_erase pv n : forall q e, py_simulate comp pv n q (erase e) = sim_map (py_esimulate comp pv n q e).
Proof.
  induction n as [|n IH]; intros q e; cbn [py_simulate py_esimulate]; [reflexivity|].
  assert (GO : forall e, match comp q (t_scan (erase e)) with
     | LKey _ => SimKey (erase e) | LLoop => SimLoop
     | LGot (c, sh, nx) => py_simulate comp pv n nx (fst (py_step (erase e) sh c (q =? nx)))
     end = sim_map match comp q (et_scan e) with
     | LKey _ => SimKey e | LLoop => SimLoop
     | LGot (c, sh, nx) => py_esimulate comp pv n nx (py_estep None e sh c (q =? nx))
     end).
  { intros e0. cbn [erase t_scan]. destruct (comp q (et_scan e0)) as [[[c sh] nx]| |]; try reflexivity.
    rewrite <- IH, (py_estep_erase None). reflexivity. }
  change (t_scan (erase e)) with (et_scan e).
  destruct (get_rule pv q (et_scan e) (t_signature (erase e))) as [r|]; [|apply GO].
  pose proof (eapply_erase r e) as A. destruct (py_eapply_rule r e) as [|e'|k e'].
  - destruct A as [->| ->]; reflexivity.
  - destruct A as [-> S1]. assert (SC : et_scan e' = et_scan e) by (change (t_scan (erase e') = t_scan (erase e)); now rewrite S1).
    rewrite <- SC, <- S1. apply GO.
  - rewrite A. apply IH.
Qed.

(** ** The prover *)
Definition rules_ok (pv : prover) : Prop := forall s l m r, In (s, l) (pv_rules pv) -> In (m, r) l -> uniq r.

Lemma emb_get_rule pv q sc g : s_get_rule (same_prover pv) q sc g = option_map same_rule (get_rule pv q sc g).
Proof.
  unfold s_get_rule, get_rule. cbn [same_prover sp_rules].
  induction (pv_rules pv) as [|[k v] rs IH]; cbn [map s_rules_at rules_at fst snd]; [reflexivity|].
  destruct (slot_eqb k (q, sc)); [|exact IH]. clear IH.
  induction v as [|[[[s0 ls rs0] [lx rx]] r] v IH]; cbn [map s_match_rule match_rule fst snd]; [reflexivity|].
  destruct (_ && _); [reflexivity|exact IH].
Qed.
Lemma get_rule_uniq pv q sc g r : rules_ok pv -> get_rule pv q sc g = Some r -> uniq r.
Proof.
  unfold get_rule, rules_ok. intros OK. destruct (rules_at (pv_rules pv) (q, sc)) as [l|] eqn:E; [|discriminate].
  assert (L : exists s, In (s, l) (pv_rules pv)).
  { clear OK. revert E. induction (pv_rules pv) as [|[k v] rs IH]; cbn; [discriminate|].
    destruct (slot_eqb k (q, sc)); [intros X; inv X; eauto|]. intros X. destruct (IH X) as [s Y]. eauto. }
  destruct L as [s L]. intros M.
  assert (X : exists m, In (m, r) l).
  { clear OK E L. revert M. induction l as [|[[[s0 ls rs0] [lx rx]] r0] l IH]; cbn; [discriminate|].
    destruct (_ && _); [intros X; inv X; eauto|]. intros X. destruct (IH X) as [m Y]. eauto. }
  destruct X as [m X]. eapply OK; eauto.
Qed.

Lemma emb_simulate pv n : rules_ok pv -> forall q e, match py_esimulate comp pv n q e with
  | SimEnd q' e' => s_simulate fl o comp (same_prover pv) n q (emb e) = Got (YEnd q' (emb e'))
  | SimKey e' => s_simulate fl o comp (same_prover pv) n q (emb e) = Got (YKey (emb e'))
  | SimLoop => s_simulate fl o comp (same_prover pv) n q (emb e) = Got YLoop
  | SimErr => True
  end.
Proof.
  intros OK. induction n as [|n IH]; intros q e; cbn [py_esimulate s_simulate]; [reflexivity|].
  assert (GO : forall e, match match comp q (et_scan e) with
     | LKey _ => SimKey e | LLoop => SimLoop
     | LGot (c, sh, nx) => py_esimulate comp pv n nx (py_estep None e sh c (q =? nx))
     end with
     | SimErr => True
     | res => match comp q (st_scan (emb e)) with
        | LKey _ => Got (YKey (emb e)) | LLoop => Got YLoop
        | LGot (c, sh, nx) => x <~ s_step o (emb e) sh c (q =? nx); s_simulate fl o comp (same_prover pv) n nx (fst x)
        end = match res with SimEnd q' e' => Got (YEnd q' (emb e')) | SimKey e' => Got (YKey (emb e')) | SimLoop => Got YLoop | SimErr => SFail end
     end).
  { intros e0. change (st_scan (emb e0)) with (et_scan e0). destruct (comp q (et_scan e0)) as [[[c sh] nx]| |]; try reflexivity.
    rewrite emb_step. cbn [obind fst]. specialize (IH nx (py_estep None e0 sh c (q =? nx))).
    destruct (py_esimulate comp pv n nx _); auto. }
  rewrite emb_sig, emb_get_rule. change (st_scan (emb e)) with (et_scan e).
  destruct (get_rule pv q (et_scan e) (t_signature (erase e))) as [r|] eqn:G; cbn [option_map].
  2:{ specialize (GO e). destruct (match comp q (et_scan e) with LGot _ => _ | LKey _ => _ | LLoop => _ end); exact GO. }
  pose proof (emb_apply_rule r e (get_rule_uniq _ _ _ _ _ OK G)) as A.
  destruct (py_eapply_rule r e) as [|e'|k e']; [exact Logic.I| |]; rewrite A; cbn [obind].
  - specialize (GO e'). destruct (match comp q (et_scan e') with LGot _ => _ | LKey _ => _ | LLoop => _ end); exact GO.
  - apply IH.
Qed.

Lemma emb_deltas pv q g : rules_ok pv -> forall ds e, match py_delta_counts comp pv q g ds (erase e) with
  | inr TErr => True
  | inl cs => s_delta_counts fl o comp (same_prover pv) q g ds (emb e) = Got (inl (map (fun c => (map I (fst c), map I (snd c))) cs))
  | inr TNone => s_delta_counts fl o comp (same_prover pv) q g ds (emb e) = Got (inr YNone)
  | inr TLoop => s_delta_counts fl o comp (same_prover pv) q g ds (emb e) = Got (inr YMacroLoop)
  | inr _ => False
  end.
Proof.
  intros OK. induction ds as [|d ds IH]; intros e; cbn [py_delta_counts s_delta_counts]; [reflexivity|].
  rewrite esim_erase. pose proof (emb_simulate pv (Z.to_nat d) OK q e) as S.
  destruct (py_esimulate comp pv (Z.to_nat d) q e) as [q' e'|e'| |]; cbn [sim_map]; try exact Logic.I; rewrite S; cbn [obind]; try reflexivity.
  rewrite emb_compatible. destruct (negb (q' =? q) || _); [reflexivity|]. specialize (IH e').
  destruct (py_delta_counts comp pv q g ds (erase e')) as [cs|[]]; try exact Logic.I; try contradiction; rewrite IH; cbn [obind]; try reflexivity.
  rewrite emb_counts. reflexivity.
Qed.

Lemma emb_side s : forall a b c d i, match py_rule_side s i (zip4 a b c d) with
  | RRule r => rule_side fl o s i (map I a) (map I b) (map I c) (map I d) = Got (same_rule r)
  | RNone => rule_side fl o s i (map I a) (map I b) (map I c) (map I d) = SUnknown
  | RSuspected x y => rule_side fl o s i (map I a) (map I b) (map I c) (map I d) = SSuspected x y
  | RZeroDiv => True
  | RInfinite => False
  end.
Proof.
  induction a as [|x a IH]; intros [|y b] [|z c] [|w d] i; cbn [map zip4 py_rule_side rule_side]; try reflexivity.
  cbn [calculate_diff]. unfold int_diff. specialize (IH b c d (S i)).
  destruct (py_calculate_diff x y z w) as [ |[dl|m k]| | | ]; cbn [obind]; try reflexivity; try exact Logic.I;
    destruct (py_rule_side s (S i) (zip4 a b c d)); try exact Logic.I; try contradiction; rewrite IH; reflexivity.
Qed.
Lemma side_keys s : forall zs i r, py_rule_side s i zs = RRule r -> NoDup (map fst r) /\ forall k op, In (k, op) r -> fst k = s /\ (i <= snd k)%nat.
Proof.
  induction zs as [|[[[a b] c] d] zs IH]; intros i r E; cbn [py_rule_side] in E.
  - inv E. split; [constructor|intros ? ? []].
  - destruct (py_calculate_diff a b c d); try discriminate.
    + destruct (IH _ _ E) as [N K]. split; auto. intros k op X. destruct (K k op X). split; auto. lia.
    + destruct (py_rule_side s (S i) zs) as [r'| | | |] eqn:R; try discriminate. inv E. destruct (IH _ _ R) as [N K]. cbn. split.
      * constructor; auto. intros X. apply in_map_iff in X as ([k op] & Y & X). cbn in Y. subst k. destruct (K _ _ X). cbn in *. lia.
      * intros k op [X|X]; [inv X; cbn; auto with arith|]. destruct (K k op X). split; auto. lia.
Qed.
Lemma make_rule_uniq k1 k2 k3 k4 r : py_make_rule k1 k2 k3 k4 = RRule r -> uniq r.
Proof.
  unfold py_make_rule. destruct (py_rule_side false 0 _) as [r1| | | |] eqn:E1; try discriminate.
  destruct (py_rule_side true 0 _) as [r2| | | |] eqn:E2; try discriminate. destruct (forallb _ _); [discriminate|]. intros X; inv X.
  destruct (side_keys _ _ _ _ E1) as [N1 K1]. destruct (side_keys _ _ _ _ E2) as [N2 K2].
  unfold uniq. rewrite map_app. clear E1 E2. revert N1 K1. induction r1 as [|[k op] r1 IH]; cbn; intros N1 K1; [exact N2|].
  inversion N1 as [|? ? A B]; subst. constructor.
  - rewrite in_app_iff. intros [X|X]; [auto|]. apply in_map_iff in X as ([k' op'] & Y & X). cbn in Y. subst k'.
    destruct (K1 k op (or_introl eq_refl)). destruct (K2 _ _ X). congruence.
  - apply IH; auto. intros k' op' X. apply (K1 k' op'). right; auto.
Qed.
Definition zi (k : counts_t) : scounts := (map I (fst k), map I (snd k)).
Lemma emb_make_rule k1 k2 k3 k4 : match py_make_rule k1 k2 k3 k4 with
  | RRule r => make_srule fl o (zi k1) (zi k2) (zi k3) (zi k4) = Got (Some (same_rule r))
  | RNone => make_srule fl o (zi k1) (zi k2) (zi k3) (zi k4) = Got None
  | RInfinite => make_srule fl o (zi k1) (zi k2) (zi k3) (zi k4) = SInfinite
  | RSuspected x y => make_srule fl o (zi k1) (zi k2) (zi k3) (zi k4) = SSuspected x y
  | RZeroDiv => True
  end.
Proof.
  unfold py_make_rule, make_srule, zi. cbn [fst snd].
  pose proof (emb_side false (fst k1) (fst k2) (fst k3) (fst k4) 0) as A.
  pose proof (emb_side true (snd k1) (snd k2) (snd k3) (snd k4) 0) as B.
  destruct (py_rule_side false 0 _) as [r1| | | |]; try contradiction; try exact Logic.I; rewrite A; cbn [obind]; try reflexivity.
  destruct (py_rule_side true 0 _) as [r2| | | |]; try contradiction; try exact Logic.I; rewrite B; cbn [obind]; try reflexivity.
  replace (forallb (fun e => match snd e with SPlus d => 0 <=? d | _ => true end) (same_rule r1 ++ same_rule r2)) with (forallb nonneg_plus (r1 ++ r2)).
  - unfold same_rule. rewrite <- map_app. destruct (forallb nonneg_plus (r1 ++ r2)); reflexivity.
  - unfold same_rule. rewrite <- map_app. induction (r1 ++ r2) as [|[k [d|m a]] r IH]; cbn; [reflexivity| |]; rewrite IH; reflexivity.
Qed.

Lemma emb_swap r e : s_swap_rule (same_rule r) (emb e) = swap_rule r (erase e).
Proof.
  unfold s_swap_rule, swap_rule. rewrite emb_lens.
  destruct r as [|[k1 [d1|m1 a1]] [|[k2 [d2|m2 a2]] [|x r]]]; reflexivity.
Qed.
Lemma emb_min_sig pv n q e g : rules_ok pv -> match py_min_sig comp pv n q e g with
  | MsGot m => s_min_sig fl o comp (same_prover pv) n q (emb e) g = Got (Some m)
  | MsLoop => s_min_sig fl o comp (same_prover pv) n q (emb e) g = Got None
  | MsErr => True
  end.
Proof.
  intros OK. unfold py_min_sig, s_min_sig. pose proof (emb_simulate pv n OK q e) as E.
  destruct (py_esimulate comp pv n q e); try exact Logic.I; rewrite E; reflexivity.
Qed.
Lemma set_rule_same pv r q m : s_set_rule (same_prover pv) (same_rule r) q m = same_prover (set_rule pv r q m).
Proof.
  unfold s_set_rule, set_rule, same_prover. cbn [sp_rules sp_configs pv_rules pv_configs]. f_equal.
  induction (pv_rules pv) as [|[k v] rs IH]; cbn [map s_rules_add rules_add fst snd]; [reflexivity|].
  destruct (slot_eqb k _); cbn [map fst snd]; [now rewrite map_app|]. now rewrite IH.
Qed.
Lemma set_rule_ok pv r q m : rules_ok pv -> uniq r -> rules_ok (set_rule pv r q m).
Proof.
  unfold rules_ok, set_rule. cbn [pv_rules]. intros OK U. revert OK. generalize (q, sg_scan (fst m)) as k.
  induction (pv_rules pv) as [|[k v] rs IH]; intros k' OK s l m' r' X Y; cbn [rules_add] in X.
  - destruct X as [X|[]]. inv X. destruct Y as [Y|[]]. now inv Y.
  - destruct (slot_eqb k k').
    + destruct X as [X|X]; [|apply (OK s l m' r'); [right|]; auto]. inv X. apply in_app_iff in Y as [Y|[Y|[]]].
      * apply (OK s v m' r'); [left|]; auto.
      * now inv Y.
    + destruct X as [X|X].
      * inv X. apply (OK s l m' r'); [left|]; auto.
      * apply (IH k' (fun s0 l0 m0 r0 A B => OK s0 l0 m0 r0 (or_intror A) B) s l m' r' X Y).
Qed.

Definition same_try (x : try_res) (y : out s_try) : Prop :=
  match x with
  | TNone => y = Got YNone
  | TRule r => y = Got (YRule (same_rule r)) /\ uniq r
  | TInfinite => y = SInfinite
  | TMult => False
  | TConfigLimit => y = Got YConfigLimit
  | TSuspected a b => y = SSuspected a b
  | TLoop => y = Got YMacroLoop
  | TErr => True
  end.
Lemma emb_try pv cycle q e pv' x : rules_ok pv -> py_try_rule comp pv cycle q (erase e) = (pv', x) ->
  x = TErr \/ exists y, s_try_rule fl o comp (same_prover pv) cycle q (emb e) = (same_prover pv', y) /\ same_try x y /\ rules_ok pv'.
Proof.
  intros OK. unfold py_try_rule, s_try_rule. rewrite emb_sig, emb_get_rule.
  change (st_scan (emb e)) with (t_scan (erase e)).
  destruct (get_rule pv q (t_scan (erase e)) (t_signature (erase e))) as [r|] eqn:G; cbn [option_map].
  { intros X; inv X. right. eexists. split; [reflexivity|]. split; [split; [reflexivity|]|exact OK]. eapply get_rule_uniq; eauto. }
  change (sp_configs (same_prover pv)) with (pv_configs pv).
  destruct (cfg_get (pv_configs pv) (t_signature (erase e))) as [past|].
  2:{ destruct (100000 <? Z.of_nat (length (pv_configs pv))); intros X; inv X; right; eexists; (split; [reflexivity|split; [reflexivity|]]); [exact OK|exact OK]. }
  destruct (pcs_next_deltas past q cycle) as [past' d].
  set (pv1 := PV (pv_rules pv) (cfg_set (pv_configs pv) (t_signature (erase e)) past')).
  change (SPV (sp_rules (same_prover pv)) (cfg_set (pv_configs pv) (t_signature (erase e)) past')) with (same_prover pv1).
  assert (OK1 : rules_ok pv1) by exact OK.
  destruct d as [| |d1 d2 d3].
  1,2: intros X; inv X; try (left; reflexivity); right; eexists; (split; [reflexivity|split; [reflexivity|exact OK1]]).
  cbv zeta.
  pose proof (emb_deltas pv1 q (t_signature (erase e)) OK1 [d1; d2; d3] e) as D.
  destruct (py_delta_counts comp pv1 q (t_signature (erase e)) [d1; d2; d3] (erase e)) as [cs|[]]; try contradiction; rewrite ?D; cbn [obind].
  2,3: intros X; inv X; right; eexists; split; [reflexivity|split; [reflexivity|exact OK1]].
  2: intros X; inv X; auto.
  destruct cs as [|c1 [|c2 [|c3 [|c4 cs]]]]; cbn [map]; try (intros X; inv X; auto; fail).
  pose proof (emb_make_rule (t_counts (erase e)) c1 c2 c3) as MR. unfold zi in MR. rewrite emb_counts. cbn [obind].
  destruct (py_make_rule (t_counts (erase e)) c1 c2 c3) as [r| | |a b|] eqn:PM.
  5: intros X; inv X; auto.
  2,3,4: rewrite MR; cbn [obind]; intros X; inv X; right; eexists; split; [reflexivity|split; [reflexivity|exact OK1]].
  rewrite MR. cbn [obind]. rewrite emb_swap. destruct (swap_rule r (erase e)).
  { intros X; inv X; right; eexists; split; [reflexivity|split; [reflexivity|exact OK1]]. }
  cbn [pv_rules pv_configs pv1]. 
  set (pv2 := PV (pv_rules pv) (cfg_set (cfg_set (pv_configs pv) (t_signature (erase e)) past') (t_signature (erase e)) (pcs_delete past' q))).
  change (SPV (sp_rules (same_prover pv1)) (cfg_set (sp_configs (same_prover pv1)) (t_signature (erase e)) (pcs_delete past' q))) with (same_prover pv2).
  assert (OK2 : rules_ok pv2) by exact OK.
  pose proof (emb_min_sig pv2 (Z.to_nat d1) q (to_enum (erase e)) (t_signature (erase e)) OK2) as MS.
  rewrite emb_enum. 
  destruct (py_min_sig comp pv2 (Z.to_nat d1) q (to_enum (erase e)) (t_signature (erase e))) as [m| |].
  3: intros X; inv X; auto.
  - rewrite MS. rewrite set_rule_same. intros X; inv X. right. eexists. split; [reflexivity|]. pose proof (make_rule_uniq _ _ _ _ _ PM).
    split; [split; auto|]. now apply set_rule_ok.
  - rewrite MS. intros X; inv X. right. eexists. split; [reflexivity|split; [reflexivity|exact OK2]].
Qed.

(** ** The loop *)
Lemma emb_loop n : forall cycle pv e q step b ra sus, rules_ok pv ->
  m_end (py_machine_loop comp n cycle pv (erase e) q step b ra sus) <> MErr ->
  same_run (py_machine_loop comp n cycle pv (erase e) q step b ra sus)
           (s_machine_loop fl o comp n cycle (same_prover pv) (emb e) q step b (I ra) sus).
Proof.
  induction n as [|n IH]; intros cycle pv e q step b ra sus OK; cbn [py_machine_loop s_machine_loop].
  { intros _. repeat (split; [reflexivity|]). split; [apply same_emb|reflexivity]. }
  destruct (py_try_rule comp pv cycle q (erase e)) as [pv' x] eqn:T.
  destruct (emb_try _ _ _ _ _ _ OK T) as [->|(y & E & ST & OK')]; [cbn; congruence|]. rewrite E. clear E T.
  cbv zeta.
  assert (FIN : forall m e', erase e' = erase e -> forall sus, same_run (MachR m step cycle ra (erase e) b sus pv')
     (SMachR (same_end m) step cycle (I ra) q (emb e') b sus (same_prover pv'))).
  { intros m e' S1 sus'. repeat (split; [reflexivity|]). split; [|reflexivity]. cbn [m_tape sm_tape]. rewrite <- S1. apply same_emb. }
  assert (GO : forall e', erase e' = erase e -> forall sus,
    let p := match comp q (t_scan (erase e)) with
      | LKey s => MachR (MUndfnd s) step cycle ra (erase e) b sus pv'
      | LLoop => MachR MInfrul step cycle ra (erase e) b sus pv'
      | LGot (color, shift, next_state) =>
          if (q =? next_state) && t_at_edge (erase e) shift then MachR MSpnout step cycle ra (erase e) b sus pv'
          else let '(t, stepped) := py_step (erase e) shift color (q =? next_state) in
            if (color =? 0) && t_blank t
            then if blanks_has b next_state then MachR MInfrul (if step =? -1 then step else step + stepped) cycle ra t b sus pv'
                 else if next_state =? 0 then MachR MInfrul (if step =? -1 then step else step + stepped) cycle ra t ((next_state, if step =? -1 then step else step + stepped) :: b) sus pv'
                   else py_machine_loop comp n (cycle + 1) pv' t next_state (if step =? -1 then step else step + stepped) ((next_state, if step =? -1 then step else step + stepped) :: b) ra sus
            else py_machine_loop comp n (cycle + 1) pv' t next_state (if step =? -1 then step else step + stepped) b ra sus
      end in
    m_end p <> MErr ->
    same_run p
      match comp q (st_scan (emb e')) with
      | LKey s => SMachR (YUndfnd s) step cycle (I ra) q (emb e') b sus (same_prover pv')
      | LLoop => SMachR YInfrul step cycle (I ra) q (emb e') b sus (same_prover pv')
      | LGot (color, shift, next_state) =>
          if (q =? next_state) && s_at_edge (emb e') shift then SMachR YSpnout step cycle (I ra) q (emb e') b sus (same_prover pv')
          else match s_step o (emb e') shift color (q =? next_state) with
              | Got (t, stepped) =>
                  let next step :=
                    if (color =? 0) && s_blank t
                    then if blanks_has b next_state then SMachR YInfrul step cycle (I ra) next_state t b sus (same_prover pv')
                         else if next_state =? 0 then SMachR YInfrul step cycle (I ra) next_state t ((next_state, step) :: b) sus (same_prover pv')
                              else s_machine_loop fl o comp n (cycle + 1) (same_prover pv') t next_state step ((next_state, step) :: b) (I ra) sus
                    else s_machine_loop fl o comp n (cycle + 1) (same_prover pv') t next_state step b (I ra) sus in
                  if step =? -1 then next step
                  else match stepped with I n => next (step + n) | _ => SMachR YErr step cycle (I ra) q t b sus (same_prover pv') end
              | other => SMachR (match other with SFuel => YDeep | _ => YErr end) step cycle (I ra) q (emb e') b sus (same_prover pv')
              end
      end).
  { intros e' S1 sus'. cbv zeta. change (st_scan (emb e')) with (t_scan (erase e')). rewrite S1.
    destruct (comp q (t_scan (erase e))) as [[[c sh] nx]| |].
    2:{ intros _. apply (FIN (MUndfnd _) e' S1). }
    2:{ intros _. apply (FIN MInfrul e' S1). }
    rewrite emb_edge, S1. destruct ((q =? nx) && t_at_edge (erase e) sh). { intros _. apply (FIN MSpnout e' S1). }
    rewrite emb_step, S1. rewrite emb_blank.
    pose proof (py_estep_erase None e' sh c (q =? nx)) as PE. rewrite S1 in PE. rewrite PE.
    destruct (py_step (erase e) sh c (q =? nx)) as [t st]. cbn [fst snd] in *. rewrite <- PE.
    set (stp := if step =? -1 then step else step + st).
    assert (NX : forall s, m_end (if (c =? 0) && t_blank t
            then if blanks_has b nx then MachR MInfrul s cycle ra t b sus' pv'
                 else if nx =? 0 then MachR MInfrul s cycle ra t ((nx, s) :: b) sus' pv'
                   else py_machine_loop comp n (cycle + 1) pv' t nx s ((nx, s) :: b) ra sus'
            else py_machine_loop comp n (cycle + 1) pv' t nx s b ra sus') <> MErr ->
       same_run (if (c =? 0) && t_blank t
            then if blanks_has b nx then MachR MInfrul s cycle ra t b sus' pv'
                 else if nx =? 0 then MachR MInfrul s cycle ra t ((nx, s) :: b) sus' pv'
                   else py_machine_loop comp n (cycle + 1) pv' t nx s ((nx, s) :: b) ra sus'
            else py_machine_loop comp n (cycle + 1) pv' t nx s b ra sus')
         (if (c =? 0) && t_blank t
                    then if blanks_has b nx then SMachR YInfrul s cycle (I ra) nx (emb (py_estep None e' sh c (q =? nx))) b sus' (same_prover pv')
                         else if nx =? 0 then SMachR YInfrul s cycle (I ra) nx (emb (py_estep None e' sh c (q =? nx))) ((nx, s) :: b) sus' (same_prover pv')
                              else s_machine_loop fl o comp n (cycle + 1) (same_prover pv') (emb (py_estep None e' sh c (q =? nx))) nx s ((nx, s) :: b) (I ra) sus'
                    else s_machine_loop fl o comp n (cycle + 1) (same_prover pv') (emb (py_estep None e' sh c (q =? nx))) nx s b (I ra) sus')).
    { intros s. rewrite <- PE. 
      assert (SE : forall bb, same_run (MachR MInfrul s cycle ra (erase (py_estep None e' sh c (q =? nx))) bb sus' pv')
         (SMachR YInfrul s cycle (I ra) nx (emb (py_estep None e' sh c (q =? nx))) bb sus' (same_prover pv'))).
      { intros bb. repeat (split; [reflexivity|]). split; [apply same_emb|reflexivity]. }
      destruct ((c =? 0) && _); [|now apply IH]. destruct (blanks_has b nx); [intros _; apply SE|].
      destruct (nx =? 0); [intros _; apply SE|]. now apply IH. }
    rewrite PE. unfold stp. intros NE. destruct (step =? -1); apply NX; exact NE. }
  destruct x; cbn [same_try] in ST.
  - subst y. apply (GO e eq_refl sus).
  - destruct ST as [-> U]. pose proof (emb_apply_rule r e U) as A. pose proof (eapply_erase r e) as B.
    destruct (py_eapply_rule r e) as [|e'|k e'].
    + destruct B as [-> | ->]; cbn; congruence.
    + destruct B as [-> S1]. rewrite A. apply (GO e' S1 sus).
    + rewrite B, A. rewrite (io_add o IO). now apply IH.
  - subst y. intros _. apply (FIN MInfrul e eq_refl sus).
  - destruct ST.
  - subst y. intros _. apply (FIN MCfglim e eq_refl sus).
  - subst y. apply (GO e eq_refl (Some (a, b0))).
  - subst y. apply (GO e eq_refl sus).
  - cbn. congruence.
Qed.

Theorem int_run lim : m_end (py_machine_run comp lim) <> MErr ->
  same_run (py_machine_run comp lim) (s_machine_run fl o comp lim).
Proof. intros E. apply (emb_loop lim 0 pv_new (ET [] 0 [] 0 0 false false)); [intros ? ? ? ? []|exact E]. Qed.

(** ** Marks *)
Lemma same_span_marks l sl : Forall2 same_block l sl -> forall acc,
  s_span_marks o sl (I acc) = Got (I (acc + span_marks l)).
Proof.
  induction 1 as [|b s l sl [C N] F IH]; intros acc; cbn [s_span_marks span_marks]; [now rewrite Z.add_0_r|].
  rewrite C, N. destruct (b_color b =? 0); cbn [negb].
  - rewrite IH. reflexivity.
  - rewrite (io_add o IO). cbn [lift obind]. rewrite IH. do 2 f_equal. lia.
Qed.
Lemma same_marks t s : same_tape t s -> s_marks o s = Got (I (t_marks t)).
Proof.
  intros (C & L & R). unfold s_marks, t_marks. rewrite (same_span_marks _ _ L), (same_span_marks _ _ R). cbn [obind].
  rewrite C, !(io_add o IO). cbn [lift obind]. rewrite (io_add o IO). reflexivity.
Qed.
End Int.

Theorem int_runs fl n comp lim : let m := py_machine_run comp lim in
  m_end m <> MErr ->
  let s := s_machine_run fl (ops_at fl (S n)) comp lim in
  same_run m s /\ s_marks (ops_at fl (S n)) (sm_tape s) = Got (I (t_marks (m_tape m))).
Proof.
  cbv zeta. intros E. pose proof (int_run fl _ (ops_at_int fl n) comp lim E) as R. split; [exact R|].
  apply (same_marks _ (ops_at_int fl n)). apply R.
Qed.
