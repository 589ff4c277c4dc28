(** * Proofs about renamed programs *)
From Verif Require Import Base TM ProgModel TapeModel EnumModel RulesModel PastModel QuickModel ProverModel TermRecModel RenameSpec.

Section Renaming.
Variables f g : Z -> Z.
Hypothesis Hf : renaming f.
Hypothesis Hg : renaming g.

Lemma eqf a b : (f a =? f b) = (a =? b).
Proof. destruct (Z.eqb_spec a b) as [->|N]; [apply Z.eqb_refl|]. apply Z.eqb_neq. intros E. apply N, (proj2 Hf), E. Qed.
Lemma eqg a b : (g a =? g b) = (a =? b).
Proof. destruct (Z.eqb_spec a b) as [->|N]; [apply Z.eqb_refl|]. apply Z.eqb_neq. intros E. apply N, (proj2 Hg), E. Qed.
Lemma f0 a : (f a =? 0) = (a =? 0).
Proof. rewrite <- (proj1 Hf) at 1. apply eqf. Qed.
Lemma g0 a : (g a =? 0) = (a =? 0).
Proof. rewrite <- (proj1 Hg) at 1. apply eqg. Qed.
Lemma eqs a b : slot_eqb (named_slot f g a) (named_slot f g b) = slot_eqb a b.
Proof. unfold slot_eqb, named_slot; cbn. rewrite eqf, eqg. reflexivity. Qed.

(** ** Tapes *)

Notation rb := (fun b => Blk (g (b_color b)) (b_count b)).
Notation rt := (named_tape g).
Notation rs := (named_span g).

Lemma t_blank_rn t : t_blank (rt t) = t_blank t.
Proof. unfold t_blank, named_tape, named_span; cbn. rewrite g0. destruct (t_lspan t), (t_rspan t); reflexivity. Qed.
Lemma span_marks_rn s : span_marks (rs s) = span_marks s.
Proof. induction s as [|b s IH]; [reflexivity|]. cbn. rewrite g0. rewrite <- IH. reflexivity. Qed.
Lemma t_marks_rn t : t_marks (rt t) = t_marks t.
Proof. unfold t_marks; cbn. rewrite g0, !span_marks_rn. reflexivity. Qed.
Lemma t_edge_rn t e : t_at_edge (rt t) e = t_at_edge t e.
Proof. unfold t_at_edge; cbn. rewrite g0. destruct e; [destruct (t_rspan t)|destruct (t_lspan t)]; reflexivity. Qed.
Lemma t_lens_rn t : t_span_lens (rt t) = t_span_lens t.
Proof. unfold t_span_lens, named_tape, named_span; cbn. rewrite !map_length. reflexivity. Qed.
Lemma t_counts_rn t : t_counts (rt t) = t_counts t.
Proof. unfold t_counts, named_tape, named_span; cbn. rewrite !map_map. reflexivity. Qed.

Lemma rs_pull_rn s scan sk : rs_pull (rs s) (g scan) sk
  = (let '(c, n, s') := rs_pull s scan sk in (g c, n, rs s')).
Proof.
  unfold rs_pull. destruct s as [|b s]; cbn; [rewrite (proj1 Hg); reflexivity|]. rewrite eqg.
  destruct (sk && (b_color b =? scan)).
  - destruct s as [|c s]; cbn; [rewrite (proj1 Hg); reflexivity|]. destruct (b_count c >? 1); reflexivity.
  - cbn. destruct (b_count b >? 1); reflexivity.
Qed.
Lemma rs_push_rn s c n : rs_push (rs s) (g c) n = rs (rs_push s c n).
Proof.
  destruct s as [|b s]; cbn; [rewrite g0; destruct (negb (c =? 0)); reflexivity|].
  rewrite eqg. destruct (b_color b =? c); reflexivity.
Qed.
Lemma rs_step_rn t sh c sk : rs_step (rt t) sh (g c) sk = (rt (fst (rs_step t sh c sk)), snd (rs_step t sh c sk)).
Proof.
  unfold rs_step. destruct sh; cbn [named_tape t_rspan t_lspan t_scan]; rewrite rs_pull_rn;
    match goal with |- context[rs_pull ?a ?b ?d] => destruct (rs_pull a b d) as [[? ?] ?] end; cbn; rewrite rs_push_rn; reflexivity.
Qed.

Lemma py_step_rn t sh c sk : py_step (rt t) sh (g c) sk = (rt (fst (py_step t sh c sk)), snd (py_step t sh c sk)).
Proof.
  assert (SK : forall s scan, py_skip_block (rs s) (g scan) sk
             = (option_map rb (fst (py_skip_block s scan sk)), rs (snd (py_skip_block s scan sk)))).
  { intros s scan. destruct s as [|b s]; [reflexivity|]. cbn. rewrite eqg. destruct (sk && (b_color b =? scan)); reflexivity. }
  assert (ST : forall o, py_stepped (option_map rb o) = py_stepped o) by (intros [o|]; reflexivity).
  assert (PL : forall s o, py_pull_one (rs s) (option_map rb o)
             = (let '(c, s', o') := py_pull_one s o in (g c, rs s', option_map rb o'))).
  { intros s o. destruct s as [|b s]; cbn; [rewrite (proj1 Hg); reflexivity|].
    destruct (negb (b_count b =? 1)); [reflexivity|]. destruct o; reflexivity. }
  assert (PS : forall s o n, py_push (rs s) (option_map rb o) (g c) n = rs (py_push s o c n)).
  { intros s o n. destruct s as [|b s]; cbn.
    - rewrite g0. destruct (negb (c =? 0)); [|reflexivity]. unfold py_insert. destruct o; reflexivity.
    - rewrite eqg. destruct (b_color b =? c); [reflexivity|]. unfold py_insert. destruct o; reflexivity. }
  unfold py_step. destruct sh; cbn [named_tape t_rspan t_lspan t_scan]; rewrite SK;
    match goal with |- context[py_skip_block ?a ?b ?d] => destruct (py_skip_block a b d) as [o pl] end; cbn [fst snd];
    rewrite ST, PL; destruct (py_pull_one pl o) as [[c' s'] o']; rewrite PS; reflexivity.
Qed.

Lemma blanks_rn b s : blanks_has (named_blanks f b) (f s) = blanks_has b s.
Proof. induction b as [|[k v] b IH]; [reflexivity|]. cbn. rewrite eqf. f_equal. exact IH. Qed.

(** ** run_quick_machine *)

Lemma quick_rn p p' (Hp : forall s c, comp_get p' (f s, g c) = option_map (named_instr f g) (comp_get p (s, c))) fuel :
  forall cycle t blanks state steps,
  quick_loop p' fuel cycle (rt t) (named_blanks f blanks) (f state) steps = named_result f g (quick_loop p fuel cycle t blanks state steps).
Proof.
  induction fuel as [|fuel IH]; intros cycle t blanks state steps; cbn [quick_loop].
  - unfold named_result; cbn. rewrite t_marks_rn. reflexivity.
  - cbn [named_tape t_scan]. rewrite Hp. fold (rt t).
    destruct (comp_get p (state, t_scan t)) as [[[color sh] next]|]; cbn [option_map named_instr];
      [|unfold named_result; cbn; rewrite t_marks_rn; reflexivity].
    rewrite eqf, t_edge_rn. destruct ((state =? next) && t_at_edge t sh);
      [unfold named_result; cbn; rewrite t_marks_rn; reflexivity|].
    rewrite rs_step_rn. destruct (rs_step t sh color (state =? next)) as [t' st]. cbn [fst snd].
    rewrite g0, t_blank_rn, blanks_rn, f0.
    destruct ((color =? 0) && t_blank t'); [|apply IH].
    destruct (blanks_has blanks next); [unfold named_result; cbn; rewrite t_marks_rn; reflexivity|].
    destruct (next =? 0); [unfold named_result; cbn; rewrite t_marks_rn; reflexivity|].
    exact (IH (cycle + 1) t' ((next, steps + st) :: blanks) next (steps + st)).
Qed.

Lemma quick_named p p' lim : renamed f g (machine_of p) (machine_of p') ->
  run_quick_machine p' lim = named_result f g (run_quick_machine p lim).
Proof.
  intros Hp. pose proof (quick_rn p p' Hp lim 0 init_tape [] 0 0) as H.
  unfold named_tape, init_tape in H. cbn in H. rewrite (proj1 Hf), (proj1 Hg) in H. exact H.
Qed.

(** ** Enumerating tapes *)

Definition reb (b : eblock) : eblock := EB (g (eb_color b)) (eb_count b) (eb_enum b).
Definition ret (e : etape) : etape :=
  ET (map reb (et_l e)) (g (et_scan e)) (map reb (et_r e)) (et_loff e) (et_roff e) (et_ledge e) (et_redge e).

Lemma enumerate_rn side s : forall n, enumerate side n (rs s) = map reb (enumerate side n s).
Proof. induction s as [|b s IH]; intros n; [reflexivity|]. cbn. f_equal. apply IH. Qed.
Lemma to_enum_rn t : to_enum (rt t) = ret (to_enum t).
Proof. unfold to_enum, ret; cbn. rewrite !enumerate_rn. reflexivity. Qed.
Lemma erase_rn e : erase (ret e) = rt (erase e).
Proof. unfold erase, erase_span, ret, named_tape, named_span; cbn. rewrite !map_map. reflexivity. Qed.
Lemma touch_rn e sh : touch_edge (ret e) sh = ret (touch_edge e sh).
Proof. reflexivity. Qed.
Lemma offsets_rn e b : check_offsets (ret e) (reb b) = ret (check_offsets e b).
Proof. unfold check_offsets; cbn. destruct (eb_enum b) as [[[] n]|]; reflexivity. Qed.
Lemma offsets_keep e b : et_l (check_offsets e b) = et_l e /\ et_scan (check_offsets e b) = et_scan e /\ et_r (check_offsets e b) = et_r e.
Proof. unfold check_offsets. destruct (eb_enum b) as [[[] n]|]; auto. Qed.
Lemma check_rn e sh c sk : check_step (ret e) sh (g c) sk = ret (check_step e sh c sk).
Proof.
  unfold check_step.
  assert (E : forall pull push,
    (let e1 := match map reb pull with
               | [] => touch_edge (ret e) sh
               | nb :: rest => let e := check_offsets (ret e) nb in
                   if sk && (eb_color nb =? et_scan e) then match rest with [] => touch_edge e sh | sec :: _ => check_offsets e sec end else e
               end in
     match map reb push with [] => e1 | opp :: _ => if g c =? eb_color opp then check_offsets e1 opp else e1 end)
    = ret (let e1 := match pull with
               | [] => touch_edge e sh
               | nb :: rest => let e := check_offsets e nb in
                   if sk && (eb_color nb =? et_scan e) then match rest with [] => touch_edge e sh | sec :: _ => check_offsets e sec end else e
               end in
     match push with [] => e1 | opp :: _ => if c =? eb_color opp then check_offsets e1 opp else e1 end)).
  { intros pull push. cbv zeta.
    assert (E1 : match map reb pull with
               | [] => touch_edge (ret e) sh
               | nb :: rest =>
                   if sk && (eb_color nb =? et_scan (check_offsets (ret e) nb)) then match rest with [] => touch_edge (check_offsets (ret e) nb) sh | sec :: _ => check_offsets (check_offsets (ret e) nb) sec end else check_offsets (ret e) nb
               end = ret (match pull with
               | [] => touch_edge e sh
               | nb :: rest =>
                   if sk && (eb_color nb =? et_scan (check_offsets e nb)) then match rest with [] => touch_edge (check_offsets e nb) sh | sec :: _ => check_offsets (check_offsets e nb) sec end else check_offsets e nb
               end)).
    { destruct pull as [|nb rest]; [reflexivity|]. cbn [map]. rewrite offsets_rn.
      change (eb_color (reb nb)) with (g (eb_color nb)). change (et_scan (ret (check_offsets e nb))) with (g (et_scan (check_offsets e nb))).
      rewrite eqg. destruct (sk && (eb_color nb =? et_scan (check_offsets e nb))); [|reflexivity].
      destruct rest as [|sec rest]; [reflexivity|]. cbn [map]. apply offsets_rn. }
    rewrite E1. destruct push as [|opp push]; [reflexivity|]. cbn [map]. change (eb_color (reb opp)) with (g (eb_color opp)). rewrite eqg.
    destruct (c =? eb_color opp); [apply offsets_rn|reflexivity]. }
  destruct sh; cbn [ret et_l et_r]; apply E.
Qed.

Lemma py_epull_rn s scan sk : py_epull (map reb s) (g scan) sk
  = (let '(c, s', o, n) := py_epull s scan sk in (g c, map reb s', option_map reb o, n)).
Proof.
  unfold py_epull. destruct s as [|b s]; cbn; [rewrite (proj1 Hg); reflexivity|]. rewrite eqg.
  destruct (sk && (eb_color b =? scan)).
  - destruct s as [|c s]; cbn; [rewrite (proj1 Hg); reflexivity|]. destruct (negb (eb_count c =? 1)); reflexivity.
  - cbn. destruct (negb (eb_count b =? 1)); reflexivity.
Qed.
Lemma py_epush_rn fr s o c n : py_epush fr (map reb s) (option_map reb o) (g c) n = map reb (py_epush fr s o c n).
Proof.
  unfold py_epush. destruct s as [|b s]; cbn.
  - rewrite g0. destruct (negb (c =? 0)); [|reflexivity]. destruct o; reflexivity.
  - rewrite eqg. destruct (eb_color b =? c); [reflexivity|]. destruct o; reflexivity.
Qed.
Lemma py_estep_rn fr e sh c sk : py_estep fr (ret e) sh (g c) sk = ret (py_estep fr e sh c sk).
Proof.
  unfold py_estep. rewrite check_rn. generalize (check_step e sh c sk) as k. intros k.
  destruct sh; cbn [ret et_l et_r et_scan]; rewrite py_epull_rn;
    match goal with |- context[py_epull ?a ?b ?d] => destruct (py_epull a b d) as [[[? ?] ?] ?] end;
    rewrite py_epush_rn; reflexivity.
Qed.
Lemma rs_epull_rn s scan sk : rs_epull (map reb s) (g scan) sk
  = (let '(c, s', n) := rs_epull s scan sk in (g c, map reb s', n)).
Proof.
  unfold rs_epull. destruct s as [|b s]; cbn; [rewrite (proj1 Hg); reflexivity|]. rewrite eqg.
  destruct (sk && (eb_color b =? scan)).
  - destruct s as [|c s]; cbn; [rewrite (proj1 Hg); reflexivity|]. destruct (eb_count c >? 1); reflexivity.
  - cbn. destruct (eb_count b >? 1); reflexivity.
Qed.
Lemma rs_epush_rn s c n : rs_epush (map reb s) (g c) n = map reb (rs_epush s c n).
Proof.
  unfold rs_epush. destruct s as [|b s]; cbn.
  - rewrite g0. destruct (negb (c =? 0)); reflexivity.
  - rewrite eqg. destruct (eb_color b =? c); reflexivity.
Qed.
Lemma rs_estep_rn e sh c sk : rs_estep (ret e) sh (g c) sk = ret (rs_estep e sh c sk).
Proof.
  unfold rs_estep. rewrite check_rn. generalize (check_step e sh c sk) as k. intros k.
  destruct sh; cbn [ret et_l et_r et_scan]; rewrite rs_epull_rn;
    match goal with |- context[rs_epull ?a ?b ?d] => destruct (rs_epull a b d) as [[? ?] ?] end;
    rewrite rs_epush_rn; reflexivity.
Qed.

(** ** Signatures and rules *)

Definition rcc (c : colcount) : colcount := match c with Just c => Just (g c) | TapeModel.Mult c => TapeModel.Mult (g c) end.
Definition rsg (s : signature) : signature := Sig (g (sg_scan s)) (map rcc (sg_l s)) (map rcc (sg_r s)).
Definition rms (m : minsig) : minsig := (rsg (fst m), snd m).
Definition rrules (rs : list (slot * list (minsig * rule))) :=
  map (fun e : slot * list (minsig * rule) => (named_slot f g (fst e), map (fun x : minsig * rule => (rms (fst x), snd x)) (snd e))) rs.
Definition rpast (p : past_configs) : past_configs := map (fun e : Z * past_config => (f (fst e), snd e)) p.
Definition rcfgs (cs : list (signature * past_configs)) := map (fun e : signature * past_configs => (rsg (fst e), rpast (snd e))) cs.
Definition rpv (pv : prover) : prover := PV (rrules (pv_rules pv)) (rcfgs (pv_configs pv)).

Lemma sig_rn t : t_signature (rt t) = rsg (t_signature t).
Proof.
  unfold t_signature, rsg, named_tape, named_span; cbn. f_equal; rewrite !map_map; apply map_ext; intros b;
    unfold sig_of_block; cbn; destruct (b_count b =? 1); reflexivity.
Qed.
Lemma cc_rn a b : cc_eqb (rcc a) (rcc b) = cc_eqb a b.
Proof. destruct a, b; cbn; auto using eqg. Qed.
Lemma ccs_rn a : forall b, ccs_eqb (map rcc a) (map rcc b) = ccs_eqb a b.
Proof. induction a as [|x a IH]; intros [|y b]; cbn; auto. rewrite cc_rn, IH. reflexivity. Qed.
Lemma sigeq_rn a b : sig_eqb (rsg a) (rsg b) = sig_eqb a b.
Proof. unfold sig_eqb; cbn. rewrite eqg, !ccs_rn. reflexivity. Qed.
Lemma compat_span_rn s : forall gs, span_compatible (rs s) (map rcc gs) = span_compatible s gs.
Proof. induction s as [|b s IH]; intros [|c gs]; cbn; auto. rewrite <- IH. f_equal. destruct c; cbn; apply eqg. Qed.
Lemma compat_rn t s : t_sig_compatible (rt t) (rsg s) = t_sig_compatible t s.
Proof.
  unfold t_sig_compatible; cbn. rewrite eqg, !map_length. unfold named_span at 1 2. rewrite !map_length.
  assert (K : forall n x, firstn n (rs x) = rs (firstn n x)) by (intros; apply firstn_map).
  rewrite !K, !compat_span_rn. reflexivity.
Qed.

Lemma rules_at_rn rl s : rules_at (rrules rl) (named_slot f g s)
  = option_map (map (fun x : minsig * rule => (rms (fst x), snd x))) (rules_at rl s).
Proof. induction rl as [|[k v] rl IH]; [reflexivity|]. cbn [rrules map rules_at fst snd]. rewrite eqs. destruct (slot_eqb k s); [reflexivity|exact IH]. Qed.
Lemma match_rn sig temp : match_rule (rsg sig) (map (fun x : minsig * rule => (rms (fst x), snd x)) temp) = match_rule sig temp.
Proof.
  induction temp as [|[[[sc l r] [lex rex]] ru] temp IH]; [reflexivity|]. cbn. rewrite eqg, !map_length.
  assert (K : forall n x, firstn n (map rcc x) = map rcc (firstn n x)) by (intros; apply firstn_map).
  rewrite !K. destruct lex, rex; rewrite !ccs_rn, IH; reflexivity.
Qed.
Lemma get_rule_rn pv st sc sig : get_rule (rpv pv) (f st) (g sc) (rsg sig) = get_rule pv st sc sig.
Proof.
  unfold get_rule. change (f st, g sc) with (named_slot f g (st, sc)). cbn [rpv pv_rules]. rewrite rules_at_rn.
  destruct (rules_at (pv_rules pv) (st, sc)); [apply match_rn|reflexivity].
Qed.
Lemma rules_add_rn rl s e : rules_add (rrules rl) (named_slot f g s) (rms (fst e), snd e) = rrules (rules_add rl s e).
Proof.
  induction rl as [|[k v] rl IH]; [reflexivity|]. cbn [rrules map rules_add fst snd]. rewrite eqs.
  destruct (slot_eqb k s); cbn; [rewrite map_app; reflexivity|]. f_equal. exact IH.
Qed.
Lemma set_rule_rn pv r st m : set_rule (rpv pv) r (f st) (rms m) = rpv (set_rule pv r st m).
Proof. unfold set_rule, rpv; cbn. f_equal. exact (rules_add_rn (pv_rules pv) (st, sg_scan (fst m)) (m, r)). Qed.
Lemma cfg_get_rn cs s : cfg_get (rcfgs cs) (rsg s) = option_map rpast (cfg_get cs s).
Proof. induction cs as [|[k v] cs IH]; [reflexivity|]. cbn. rewrite sigeq_rn. destruct (sig_eqb k s); [reflexivity|exact IH]. Qed.
Lemma cfg_set_rn cs s p : cfg_set (rcfgs cs) (rsg s) (rpast p) = rcfgs (cfg_set cs s p).
Proof. induction cs as [|[k v] cs IH]; [reflexivity|]. cbn. rewrite sigeq_rn. destruct (sig_eqb k s); cbn; [reflexivity|]. f_equal. exact IH. Qed.
Lemma pcs_get_rn m s : pcs_get (rpast m) (f s) = pcs_get m s.
Proof. induction m as [|[k v] m IH]; [reflexivity|]. cbn. rewrite eqf. destruct (k =? s); [reflexivity|exact IH]. Qed.
Lemma pcs_remove_rn m s : pcs_remove (rpast m) (f s) = rpast (pcs_remove m s).
Proof. unfold pcs_remove. induction m as [|[k v] m IH]; [reflexivity|]. cbn. rewrite eqf. destruct (k =? s); cbn; [exact IH|]. f_equal. exact IH. Qed.
Lemma pcs_next_rn m s c : pcs_next_deltas (rpast m) (f s) c = (rpast (fst (pcs_next_deltas m s c)), snd (pcs_next_deltas m s c)).
Proof.
  unfold pcs_next_deltas. rewrite pcs_get_rn. destruct (pc_next_deltas _ c) as [cfg r]. cbn. unfold pcs_set. rewrite pcs_remove_rn. reflexivity.
Qed.

(** ** Rules on tapes *)

Lemma nth_rn s n : nth_error (rs s) n = option_map rb (nth_error s n).
Proof. apply nth_error_map. Qed.
Lemma get_count_rn t i : get_count (rt t) i = get_count t i.
Proof.
  unfold get_count, t_get_count. destruct (fst i); cbn [named_tape t_rspan t_lspan]; rewrite nth_rn;
    match goal with |- context[nth_error ?a ?b] => destruct (nth_error a b) end; reflexivity.
Qed.
Lemma set_nth_rn s v : forall n, set_nth_count (rs s) n v = option_map rs (set_nth_count s n v).
Proof.
  induction s as [|b s IH]; intros n; [reflexivity|]. destruct n; cbn; [reflexivity|]. fold (rs s). rewrite IH.
  destruct (set_nth_count s n v); reflexivity.
Qed.
Lemma set_count_rn t i v : set_count (rt t) i v = option_map rt (set_count t i v).
Proof.
  unfold set_count, t_set_count. destruct (fst i); cbn [named_tape t_rspan t_lspan]; rewrite set_nth_rn;
    match goal with |- context[set_nth_count ?a ?b ?c] => destruct (set_nth_count a b c) end; reflexivity.
Qed.
Lemma py_apps_rn r t : forall a, py_count_apps r (rt t) a = py_count_apps r t a.
Proof.
  induction r as [|[pos [d|m k]] r IH]; intros a; cbn [py_count_apps]; auto.
  destruct (0 <=? d); auto. rewrite get_count_rn. destruct (get_count t pos) as [n|]; auto.
  destruct (n <=? Z.abs d); auto. destruct (if 0 <? n mod Z.abs d then _ else _) as [times res]. apply IH.
Qed.
Definition ren_apply (x : apply_res) : apply_res := match x with EvApplied n t => EvApplied n (rt t) | e => e end.
Lemma py_loop_rn times mp mr r : forall t, py_apply_loop r (rt t) times mp mr = ren_apply (py_apply_loop r t times mp mr).
Proof.
  induction r as [|[pos o] r IH]; intros t; [reflexivity|]. cbn [py_apply_loop]. rewrite get_count_rn.
  destruct (get_count t pos) as [n|]; [|reflexivity]. destruct o as [d|m k].
  - rewrite set_count_rn. destruct (set_count t pos _); cbn; [apply IH|reflexivity].
  - destruct (mult_int times m k); [|reflexivity]. rewrite set_count_rn. destruct (set_count t pos _); cbn; [apply IH|reflexivity].
Qed.
Lemma py_apply_rn r t : py_apply_rule r (rt t) = ren_apply (py_apply_rule r t).
Proof. unfold py_apply_rule. rewrite py_apps_rn. destruct (py_count_apps r t ANone); try reflexivity. apply py_loop_rn. Qed.

Lemma rs_apps_rn r t : forall a, rs_count_apps r (rt t) a = rs_count_apps r t a.
Proof.
  induction r as [|[pos [d|m k]] r IH]; intros a; cbn [rs_count_apps]; auto.
  destruct (0 <=? d); auto. rewrite get_count_rn. destruct (get_count t pos) as [n|]; auto.
  destruct (n <=? Z.abs d); auto. destruct (if 0 <? n mod Z.abs d then _ else _) as [times res]. apply IH.
Qed.
Definition ren_rsapply (x : rs_apply_res) : rs_apply_res := match x with RsApplied n t => RsApplied n (rt t) | e => e end.
Lemma rs_loop_rn times mp mr r : forall t, rs_apply_loop r (rt t) times mp mr = ren_rsapply (rs_apply_loop r t times mp mr).
Proof.
  induction r as [|[pos [d|m k]] r IH]; intros t; [reflexivity| |reflexivity]. cbn [rs_apply_loop].
  destruct (index_eqb pos mp).
  - destruct (d <? 0); [|reflexivity]. rewrite set_count_rn. destruct (set_count t pos mr); cbn; [apply IH|reflexivity].
  - rewrite get_count_rn. destruct (get_count t pos) as [n|]; [|reflexivity].
    destruct (rs_apply_plus n d times) as [[v|]|]; try reflexivity.
    rewrite set_count_rn. destruct (set_count t pos v); cbn; [apply IH|reflexivity].
Qed.
Lemma rs_apply_rn r t : rs_apply_rule r (rt t) = ren_rsapply (rs_apply_rule r t).
Proof. unfold rs_apply_rule. rewrite rs_apps_rn. destruct (rs_count_apps r t RANone); try reflexivity. apply rs_loop_rn. Qed.

(** The same on enumerating tapes. *)

Lemma e_get_rn e i : e_get_count (ret e) i = option_map (fun x => (fst x, ret (snd x))) (e_get_count e i).
Proof.
  unfold e_get_count. destruct (fst i); cbn [ret et_l et_r]; rewrite nth_error_map;
    match goal with |- context[nth_error ?a ?b] => destruct (nth_error a b) end; try reflexivity;
    cbn [option_map]; fold (ret e); rewrite offsets_rn; reflexivity.
Qed.
Lemma eset_nth_rn s v : forall n, eset_nth (map reb s) n v = option_map (map reb) (eset_nth s n v).
Proof.
  induction s as [|b s IH]; intros n; [reflexivity|]. destruct n; cbn; [reflexivity|]. rewrite IH.
  destruct (eset_nth s n v); reflexivity.
Qed.
Lemma e_set_rn e i v : e_set_count (ret e) i v = option_map ret (e_set_count e i v).
Proof.
  unfold e_set_count. destruct (fst i); cbn [ret et_l et_r]; rewrite eset_nth_rn;
    match goal with |- context[eset_nth ?a ?b ?c] => destruct (eset_nth a b c) end; reflexivity.
Qed.
Lemma py_eapps_rn r : forall e a, py_ecount_apps r (ret e) a = option_map (fun x => (fst x, ret (snd x))) (py_ecount_apps r e a).
Proof.
  induction r as [|[pos [d|m k]] r IH]; intros e a; cbn [py_ecount_apps]; auto.
  destruct (0 <=? d); auto. rewrite e_get_rn. destruct (e_get_count e pos) as [[n e']|]; auto. cbn [option_map fst snd].
  destruct (n <=? Z.abs d); auto. destruct (if 0 <? n mod Z.abs d then _ else _) as [times res]. apply IH.
Qed.
Definition ren_eapply (x : eapply_res) : eapply_res :=
  match x with EaErr => EaErr | EaNone e => EaNone (ret e) | EaApplied n e => EaApplied n (ret e) end.
Lemma py_eloop_rn times mp mr r : forall e, py_eapply_loop r (ret e) times mp mr = ren_eapply (py_eapply_loop r e times mp mr).
Proof.
  induction r as [|[pos o] r IH]; intros e; [reflexivity|]. cbn [py_eapply_loop]. rewrite e_get_rn.
  destruct (e_get_count e pos) as [[n e']|]; [|reflexivity]. cbn [option_map fst snd]. destruct o as [d|m k].
  - rewrite e_set_rn. destruct (e_set_count e' pos _); cbn; [apply IH|reflexivity].
  - destruct (mult_int times m k); [|reflexivity]. rewrite e_set_rn. destruct (e_set_count e' pos _); cbn; [apply IH|reflexivity].
Qed.
Lemma py_eapply_rn r e : py_eapply_rule r (ret e) = ren_eapply (py_eapply_rule r e).
Proof.
  unfold py_eapply_rule. rewrite py_eapps_rn. destruct (py_ecount_apps r e None) as [[[[[times pos] res]|] e']|]; try reflexivity.
  apply py_eloop_rn.
Qed.

Definition ren_sim {T} (h : T -> T) (x : sim_res T) : sim_res T :=
  match x with SimEnd s t => SimEnd (f s) (h t) | SimKey t => SimKey (h t) | SimLoop => SimLoop | SimErr => SimErr end.

(** ** The Python prover and machine *)

Section Python.
Variables comp comp' : Z -> Z -> lookup.
Variable ks : slot -> slot.
Hypothesis Hc : forall s c, comp' (f s) (g c) = keyed_lookup f g ks (comp s c).

Lemma py_sim_rn pv steps : forall st t, py_simulate comp' (rpv pv) steps (f st) (rt t) = ren_sim rt (py_simulate comp pv steps st t).
Proof.
  induction steps as [|steps IH]; intros st t; [reflexivity|]. cbn [py_simulate].
  assert (GO : match comp' (f st) (t_scan (rt t)) with
               | LGot (color, shift, next_state) => py_simulate comp' (rpv pv) steps next_state (fst (py_step (rt t) shift color (f st =? next_state)))
               | LKey _ => SimKey (rt t) | LLoop => SimLoop end
             = ren_sim rt match comp st (t_scan t) with
               | LGot (color, shift, next_state) => py_simulate comp pv steps next_state (fst (py_step t shift color (st =? next_state)))
               | LKey _ => SimKey t | LLoop => SimLoop end).
  { cbn [named_tape t_scan]. rewrite Hc. fold (rt t). destruct (comp st (t_scan t)) as [[[c sh] nx]|s|]; cbn [keyed_lookup named_instr]; try reflexivity.
    rewrite eqf, py_step_rn. cbn [fst]. apply IH. }
  rewrite sig_rn. change (t_scan (rt t)) with (g (t_scan t)) at 1. rewrite get_rule_rn.
  destruct (get_rule pv st (t_scan t) (t_signature t)) as [r|]; [|exact GO].
  rewrite py_apply_rn. destruct (py_apply_rule r t) as [| | |n t']; try reflexivity; [exact GO|apply IH].
Qed.

Lemma py_esim_rn pv steps : forall st e, py_esimulate comp' (rpv pv) steps (f st) (ret e) = ren_sim ret (py_esimulate comp pv steps st e).
Proof.
  induction steps as [|steps IH]; intros st e; [reflexivity|]. cbn [py_esimulate].
  assert (GO : forall e, match comp' (f st) (et_scan (ret e)) with
               | LGot (color, shift, next_state) => py_esimulate comp' (rpv pv) steps next_state (py_estep None (ret e) shift color (f st =? next_state))
               | LKey _ => SimKey (ret e) | LLoop => SimLoop end
             = ren_sim ret match comp st (et_scan e) with
               | LGot (color, shift, next_state) => py_esimulate comp pv steps next_state (py_estep None e shift color (st =? next_state))
               | LKey _ => SimKey e | LLoop => SimLoop end).
  { intros k. cbn [ret et_scan]. rewrite Hc. fold (ret k). destruct (comp st (et_scan k)) as [[[c sh] nx]|s|]; cbn [keyed_lookup named_instr]; try reflexivity.
    rewrite eqf, py_estep_rn. apply IH. }
  rewrite erase_rn, sig_rn. change (et_scan (ret e)) with (g (et_scan e)) at 1. rewrite get_rule_rn.
  destruct (get_rule pv st (et_scan e) (t_signature (erase e))) as [r|]; [|apply GO].
  rewrite py_eapply_rn. destruct (py_eapply_rule r e) as [|e'|n e']; cbn [ren_eapply]; [reflexivity|apply GO|apply IH].
Qed.

Lemma slice_rn s e : sig_slice (rsg s) (ret e) = rms (sig_slice s e).
Proof. unfold sig_slice, rms, rsg; cbn. rewrite !firstn_map. reflexivity. Qed.
Definition ren_ms (m : minsig_res) : minsig_res := match m with MsGot m => MsGot (rms m) | m => m end.
Lemma py_min_rn pv n st e s : py_min_sig comp' (rpv pv) n (f st) (ret e) (rsg s) = ren_ms (py_min_sig comp pv n st e s).
Proof. unfold py_min_sig. rewrite py_esim_rn. destruct (py_esimulate comp pv n st e); cbn; rewrite ?slice_rn; reflexivity. Qed.

Lemma py_deltas_rn pv st s ds : forall t, py_delta_counts comp' (rpv pv) (f st) (rsg s) ds (rt t) = py_delta_counts comp pv st s ds t.
Proof.
  induction ds as [|d ds IH]; intros t; [reflexivity|]. cbn [py_delta_counts]. rewrite py_sim_rn.
  destruct (py_simulate comp pv (Z.to_nat d) st t) as [s' t'|t'| |]; cbn [ren_sim]; try reflexivity.
  rewrite eqf, compat_rn, IH, t_counts_rn. reflexivity.
Qed.
Lemma swap_rn r t : swap_rule r (rt t) = swap_rule r t.
Proof. unfold swap_rule. rewrite t_lens_rn. reflexivity. Qed.

Lemma py_try_rn pv cy st t : py_try_rule comp' (rpv pv) cy (f st) (rt t)
  = (rpv (fst (py_try_rule comp pv cy st t)), snd (py_try_rule comp pv cy st t)).
Proof.
  unfold py_try_rule. rewrite sig_rn. change (t_scan (rt t)) with (g (t_scan t)). rewrite get_rule_rn.
  destruct (get_rule pv st (t_scan t) (t_signature t)) as [r|]; [reflexivity|].
  cbn [rpv pv_configs pv_rules]. rewrite cfg_get_rn.
  destruct (cfg_get (pv_configs pv) (t_signature t)) as [past|]; cbn [option_map].
  - rewrite pcs_next_rn. destruct (pcs_next_deltas past st cy) as [past' d]. cbn [fst snd].
    rewrite cfg_set_rn. change (PV (rrules (pv_rules pv)) (rcfgs ?x)) with (rpv (PV (pv_rules pv) x)).
    destruct d as [| |d1 d2 d3]; try reflexivity.
    rewrite py_deltas_rn. destruct (py_delta_counts comp _ st (t_signature t) [d1; d2; d3] t) as [cs|r]; [|reflexivity].
    destruct cs as [|c1 [|c2 [|c3 [|c4 cs]]]]; try reflexivity. rewrite t_counts_rn.
    destruct (py_make_rule (t_counts t) c1 c2 c3) as [r| | | |]; try reflexivity.
    rewrite swap_rn. destruct (swap_rule r t); [reflexivity|].
    unfold pcs_delete. rewrite pcs_remove_rn. cbn [rpv pv_configs pv_rules]. rewrite cfg_set_rn.
    change (PV (rrules (pv_rules pv)) (rcfgs ?x)) with (rpv (PV (pv_rules pv) x)).
    rewrite to_enum_rn, py_min_rn. destruct (py_min_sig comp _ (Z.to_nat d1) st (to_enum t) (t_signature t)); cbn [ren_ms]; try reflexivity.
    rewrite set_rule_rn. reflexivity.
  - unfold rcfgs at 1. rewrite map_length. destruct (100000 <? _); [reflexivity|]. cbn [fst snd].
    change (pcs_new (f st) cy) with (rpast (pcs_new st cy)). rewrite cfg_set_rn. reflexivity.
Qed.

Definition ren_mach (m : mach) : mach :=
  MachR (keyed_end ks (m_end m)) (m_steps m) (m_cycles m) (m_rulapp m) (rt (m_tape m)) (named_blanks f (m_blanks m)) (m_susrul m)
        (rpv (m_prover m)).
Lemma py_mach_rn fuel : forall cy pv t st step bl ra sus,
  py_machine_loop comp' fuel cy (rpv pv) (rt t) (f st) step (named_blanks f bl) ra sus
  = ren_mach (py_machine_loop comp fuel cy pv t st step bl ra sus).
Proof.
  induction fuel as [|fuel IH]; intros cy pv t st step bl ra sus; [reflexivity|]. cbn [py_machine_loop].
  rewrite py_try_rn. destruct (py_try_rule comp pv cy st t) as [pv' tr]. cbn [fst snd].
  assert (GO : forall sus,
    match comp' (f st) (t_scan (rt t)) with
    | LKey s => MachR (MUndfnd s) step cy ra (rt t) (named_blanks f bl) sus (rpv pv')
    | LLoop => MachR MInfrul step cy ra (rt t) (named_blanks f bl) sus (rpv pv')
    | LGot (color, shift, next_state) =>
        if (f st =? next_state) && t_at_edge (rt t) shift then MachR MSpnout step cy ra (rt t) (named_blanks f bl) sus (rpv pv')
        else
          let '(t, stepped) := py_step (rt t) shift color (f st =? next_state) in
          let step := if step =? -1 then step else step + stepped in
          let fin e b := MachR e step cy ra t b sus (rpv pv') in
          if (color =? 0) && t_blank t
          then if blanks_has (named_blanks f bl) next_state then fin MInfrul (named_blanks f bl)
               else let blanks := (next_state, step) :: named_blanks f bl in
                    if next_state =? 0 then fin MInfrul blanks
                    else py_machine_loop comp' fuel (cy + 1) (rpv pv') t next_state step blanks ra sus
          else py_machine_loop comp' fuel (cy + 1) (rpv pv') t next_state step (named_blanks f bl) ra sus
    end
    = ren_mach
    match comp st (t_scan t) with
    | LKey s => MachR (MUndfnd s) step cy ra t bl sus pv'
    | LLoop => MachR MInfrul step cy ra t bl sus pv'
    | LGot (color, shift, next_state) =>
        if (st =? next_state) && t_at_edge t shift then MachR MSpnout step cy ra t bl sus pv'
        else
          let '(t, stepped) := py_step t shift color (st =? next_state) in
          let step := if step =? -1 then step else step + stepped in
          let fin e b := MachR e step cy ra t b sus pv' in
          if (color =? 0) && t_blank t
          then if blanks_has bl next_state then fin MInfrul bl
               else let blanks := (next_state, step) :: bl in
                    if next_state =? 0 then fin MInfrul blanks
                    else py_machine_loop comp fuel (cy + 1) pv' t next_state step blanks ra sus
          else py_machine_loop comp fuel (cy + 1) pv' t next_state step bl ra sus
    end).
  { intros k. change (t_scan (rt t)) with (g (t_scan t)). rewrite Hc.
    destruct (comp st (t_scan t)) as [[[c sh] nx]|s|]; cbn [keyed_lookup named_instr]; try reflexivity.
    rewrite eqf, t_edge_rn. destruct ((st =? nx) && t_at_edge t sh); [reflexivity|].
    rewrite py_step_rn. destruct (py_step t sh c (st =? nx)) as [t' n]. cbn [fst snd]. cbv zeta.
    rewrite g0, t_blank_rn, blanks_rn, f0. destruct ((c =? 0) && t_blank t'); [|apply IH].
    destruct (blanks_has bl nx); [reflexivity|].
    destruct (nx =? 0); [reflexivity|].
    exact (IH (cy + 1) pv' t' nx _ ((nx, if step =? -1 then step else step + n) :: bl) ra k). }
  destruct tr; try reflexivity; try exact (GO sus).
  - rewrite py_apply_rn. destruct (py_apply_rule r t) as [| | |n t']; cbn [ren_apply]; try reflexivity; [exact (GO sus)|apply IH].
  - exact (GO (Some (a, b))).
Qed.

Lemma py_keyed lim : keyed_report f g ks (py_machine_run comp lim) (py_machine_run comp' lim).
Proof.
  pose proof (py_mach_rn lim 0 pv_new (Tape [] 0 []) 0 0 [] 0 None) as H.
  unfold named_tape in H. cbn in H. rewrite (proj1 Hf), (proj1 Hg) in H.
  unfold keyed_report, py_machine_run. change pv_new with (rpv pv_new) at 1 3 5 7 9 11 13.
  change (rpv pv_new) with (PV [] []) in H. change (rpv pv_new) with (PV [] []). unfold pv_new in *.
  rewrite H. repeat split; reflexivity.
Qed.
End Python.

Lemma py_named comp comp' (Hc : renamed_lookups f g comp comp') lim : same_report f g (py_machine_run comp lim) (py_machine_run comp' lim).
Proof. exact (py_keyed comp comp' (named_slot f g) Hc lim). Qed.

(** ** run_prover and run_for_infrul *)

Section Rust.
Variables M M' : program.
Hypothesis HM : renamed f g M M'.

Lemma rs_sim_rn pv steps : forall st t, rs_simulate M' (rpv pv) steps (f st) (rt t) = ren_sim rt (rs_simulate M pv steps st t).
Proof.
  induction steps as [|steps IH]; intros st t; [reflexivity|]. cbn [rs_simulate].
  assert (GO : forall t, match M' (f st) (t_scan (rt t)) with
               | Some (color, shift, next_state) => rs_simulate M' (rpv pv) steps next_state (fst (rs_step (rt t) shift color (f st =? next_state)))
               | None => SimKey (rt t) end
             = ren_sim rt match M st (t_scan t) with
               | Some (color, shift, next_state) => rs_simulate M pv steps next_state (fst (rs_step t shift color (st =? next_state)))
               | None => SimKey t end).
  { intros k. change (t_scan (rt k)) with (g (t_scan k)). rewrite HM. destruct (M st (t_scan k)) as [[[c sh] nx]|]; cbn [option_map named_instr]; try reflexivity.
    rewrite eqf, rs_step_rn. cbn [fst]. apply IH. }
  rewrite sig_rn. change (t_scan (rt t)) with (g (t_scan t)) at 1. rewrite get_rule_rn.
  destruct (get_rule pv st (t_scan t) (t_signature t)) as [r|]; [|apply GO].
  rewrite rs_apply_rn. destruct (rs_apply_rule r t) as [[n|] t'|]; cbn [ren_rsapply]; [apply IH|apply GO|reflexivity].
Qed.

Lemma recount_rn s : forall p, recount (map reb s) (rs p) = map reb (recount s p).
Proof. induction s as [|b s IH]; intros [|c p]; cbn; try reflexivity. f_equal. apply IH. Qed.
Lemma e_recount_rn e t : e_recount (ret e) (rt t) = ret (e_recount e t).
Proof. unfold e_recount, ret; cbn. rewrite !recount_rn. reflexivity. Qed.

Lemma rs_esim_rn pv steps : forall st e, rs_esimulate M' (rpv pv) steps (f st) (ret e) = ren_sim ret (rs_esimulate M pv steps st e).
Proof.
  induction steps as [|steps IH]; intros st e; [reflexivity|]. cbn [rs_esimulate].
  assert (GO : forall e, match M' (f st) (et_scan (ret e)) with
               | Some (color, shift, next_state) => rs_esimulate M' (rpv pv) steps next_state (rs_estep (ret e) shift color (f st =? next_state))
               | None => SimKey (ret e) end
             = ren_sim ret match M st (et_scan e) with
               | Some (color, shift, next_state) => rs_esimulate M pv steps next_state (rs_estep e shift color (st =? next_state))
               | None => SimKey e end).
  { intros k. change (et_scan (ret k)) with (g (et_scan k)). rewrite HM. destruct (M st (et_scan k)) as [[[c sh] nx]|]; cbn [option_map named_instr]; try reflexivity.
    rewrite eqf, rs_estep_rn. apply IH. }
  rewrite erase_rn, sig_rn. change (et_scan (ret e)) with (g (et_scan e)) at 1. rewrite get_rule_rn.
  destruct (get_rule pv st (et_scan e) (t_signature (erase e))) as [r|]; [|apply GO].
  rewrite rs_apply_rn. destruct (rs_apply_rule r (erase e)) as [[n|] t'|]; cbn [ren_rsapply]; [| |reflexivity];
    rewrite e_recount_rn; [apply IH|apply GO].
Qed.

Lemma rs_min_rn pv n st e s : rs_min_sig M' (rpv pv) n (f st) (ret e) (rsg s) = ren_ms (rs_min_sig M pv n st e s).
Proof.
  unfold rs_min_sig. rewrite rs_esim_rn. destruct (rs_esimulate M pv n st e) as [s' e'| | |]; cbn [ren_sim]; try reflexivity.
  cbn [ret et_loff et_roff rsg sg_l sg_r]. rewrite !map_length. fold (ret e'). fold (rsg s).
  destruct (_ && _); [|reflexivity]. rewrite slice_rn. reflexivity.
Qed.
Lemma rs_deltas_rn pv st s ds : forall t, rs_delta_counts M' (rpv pv) (f st) (rsg s) ds (rt t) = rs_delta_counts M pv st s ds t.
Proof.
  induction ds as [|d ds IH]; intros t; [reflexivity|]. cbn [rs_delta_counts]. rewrite rs_sim_rn.
  destruct (rs_simulate M pv (Z.to_nat d) st t) as [s' t'|t'| |]; cbn [ren_sim]; try reflexivity.
  rewrite eqf, compat_rn, IH, t_counts_rn. reflexivity.
Qed.

Lemma rs_try_rn pv cy st t : rs_try_rule M' (rpv pv) cy (f st) (rt t)
  = (rpv (fst (rs_try_rule M pv cy st t)), snd (rs_try_rule M pv cy st t)).
Proof.
  unfold rs_try_rule. rewrite sig_rn. change (t_scan (rt t)) with (g (t_scan t)). rewrite get_rule_rn.
  destruct (get_rule pv st (t_scan t) (t_signature t)) as [r|]; [reflexivity|].
  cbn [rpv pv_configs pv_rules]. rewrite cfg_get_rn.
  destruct (cfg_get (pv_configs pv) (t_signature t)) as [past|]; cbn [option_map].
  - rewrite pcs_next_rn. destruct (pcs_next_deltas past st cy) as [past' d]. cbn [fst snd].
    rewrite cfg_set_rn. change (PV (rrules (pv_rules pv)) (rcfgs ?x)) with (rpv (PV (pv_rules pv) x)).
    destruct d as [| |d1 d2 d3]; try reflexivity.
    destruct ((90000 <? d1) || (90000 <? d2) || (90000 <? d3)); [reflexivity|].
    rewrite rs_deltas_rn. destruct (rs_delta_counts M _ st (t_signature t) [d1; d2; d3] t) as [cs|r]; [|reflexivity].
    destruct cs as [|c1 [|c2 [|c3 [|c4 cs]]]]; try reflexivity. rewrite t_counts_rn.
    destruct (rs_make_rule (t_counts t) c1 c2 c3) as [r| |]; try reflexivity.
    destruct (forallb nonneg_plus r); [reflexivity|]. destruct (existsb is_mult r); [reflexivity|].
    rewrite swap_rn. destruct (swap_rule r t); [reflexivity|].
    unfold pcs_delete. rewrite pcs_remove_rn. cbn [rpv pv_configs pv_rules]. rewrite cfg_set_rn.
    change (PV (rrules (pv_rules pv)) (rcfgs ?x)) with (rpv (PV (pv_rules pv) x)).
    rewrite to_enum_rn, rs_min_rn. destruct (rs_min_sig M _ (Z.to_nat d1) st (to_enum t) (t_signature t)); cbn [ren_ms]; try reflexivity.
    rewrite set_rule_rn. reflexivity.
  - unfold rcfgs at 1. rewrite map_length. destruct (100000 <? _); [reflexivity|]. cbn [fst snd].
    change (pcs_new (f st) cy) with (rpast (pcs_new st cy)). rewrite cfg_set_rn. reflexivity.
Qed.

Definition ren_out (x : option (machine_result * prover)) := option_map (fun y => (named_result f g (fst y), rpv (snd y))) x.
Lemma rs_mach_rn fuel : forall cy pv t st step bl ra,
  rs_prover_loop M' fuel cy (rpv pv) (rt t) (f st) step (named_blanks f bl) ra
  = ren_out (rs_prover_loop M fuel cy pv t st step bl ra).
Proof.
  induction fuel as [|fuel IH]; intros cy pv t st step bl ra; cbn [rs_prover_loop].
  { unfold ren_out, named_result. cbn. rewrite t_marks_rn. reflexivity. }
  rewrite rs_try_rn. destruct (rs_try_rule M pv cy st t) as [pv' tr]. cbn [fst snd].
  assert (FIN : forall e s c t b l, Some (MR e s c (t_marks (rt t)) ra (named_blanks f b) (option_map (named_slot f g) l), rpv pv')
               = ren_out (Some (MR e s c (t_marks t) ra b l, pv'))).
  { intros. unfold ren_out, named_result. cbn. rewrite t_marks_rn. reflexivity. }
  assert (GO : forall t,
    match M' (f st) (t_scan (rt t)) with
    | None => Some (MR undfnd step cy (t_marks (rt t)) ra (named_blanks f bl) (Some (f st, t_scan (rt t))), rpv pv')
    | Some (color, shift, next_state) =>
        if (f st =? next_state) && t_at_edge (rt t) shift then Some (MR spnout step cy (t_marks (rt t)) ra (named_blanks f bl) None, rpv pv')
        else
          let '(t, stepped) := rs_step (rt t) shift color (f st =? next_state) in
          let steps := step + stepped in
          if (color =? 0) && t_blank t
          then if blanks_has (named_blanks f bl) next_state then Some (MR infrul steps 0 (t_marks t) ra (named_blanks f bl) None, rpv pv')
               else let blanks := (next_state, steps) :: named_blanks f bl in
                    if next_state =? 0 then Some (MR infrul steps 0 (t_marks t) ra blanks None, rpv pv')
                    else rs_prover_loop M' fuel (cy + 1) (rpv pv') t next_state steps blanks ra
          else rs_prover_loop M' fuel (cy + 1) (rpv pv') t next_state steps (named_blanks f bl) ra
    end
    = ren_out
    match M st (t_scan t) with
    | None => Some (MR undfnd step cy (t_marks t) ra bl (Some (st, t_scan t)), pv')
    | Some (color, shift, next_state) =>
        if (st =? next_state) && t_at_edge t shift then Some (MR spnout step cy (t_marks t) ra bl None, pv')
        else
          let '(t, stepped) := rs_step t shift color (st =? next_state) in
          let steps := step + stepped in
          if (color =? 0) && t_blank t
          then if blanks_has bl next_state then Some (MR infrul steps 0 (t_marks t) ra bl None, pv')
               else let blanks := (next_state, steps) :: bl in
                    if next_state =? 0 then Some (MR infrul steps 0 (t_marks t) ra blanks None, pv')
                    else rs_prover_loop M fuel (cy + 1) pv' t next_state steps blanks ra
          else rs_prover_loop M fuel (cy + 1) pv' t next_state steps bl ra
    end).
  { intros k. change (t_scan (rt k)) with (g (t_scan k)). rewrite HM.
    destruct (M st (t_scan k)) as [[[c sh] nx]|]; cbn [option_map named_instr]; [|exact (FIN undfnd step cy k bl (Some (st, t_scan k)))].
    rewrite eqf, t_edge_rn. destruct ((st =? nx) && t_at_edge k sh); [exact (FIN spnout step cy k bl None)|].
    rewrite rs_step_rn. destruct (rs_step k sh c (st =? nx)) as [t' n]. cbn [fst snd]. cbv zeta.
    rewrite g0, t_blank_rn, blanks_rn, f0. destruct ((c =? 0) && t_blank t'); [|apply IH].
    destruct (blanks_has bl nx); [exact (FIN infrul (step + n) 0 t' bl None)|].
    destruct (nx =? 0); [exact (FIN infrul (step + n) 0 t' ((nx, step + n) :: bl) None)|].
    exact (IH (cy + 1) pv' t' nx (step + n) ((nx, step + n) :: bl) ra). }
  destruct tr; try reflexivity; try exact (GO t).
  - rewrite rs_apply_rn. destruct (rs_apply_rule r t) as [[n|] t'|]; cbn [ren_rsapply]; [apply IH|exact (GO t')|reflexivity].
  - exact (FIN infrul step cy t bl None).
  - exact (FIN mulrul step cy t bl None).
  - exact (FIN cfglim step cy t bl None).
Qed.

Lemma rs_named lim : rs_run_prover M' lim = option_map (named_result f g) (rs_run_prover M lim).
Proof.
  pose proof (rs_mach_rn lim 0 pv_new (Tape [] 0 []) 0 0 [] 0) as H.
  unfold named_tape in H. cbn in H. rewrite (proj1 Hf), (proj1 Hg) in H. change (rpv pv_new) with pv_new in H.
  unfold rs_run_prover. rewrite H. destruct (rs_prover_loop M lim 0 pv_new (Tape [] 0 []) 0 0 [] 0) as [[r pv]|]; reflexivity.
Qed.

Lemma rs_inf_rn fuel : forall cy pv t st,
  rs_infrul_loop M' fuel cy (rpv pv) (rt t) (f st) = rs_infrul_loop M fuel cy pv t st.
Proof.
  induction fuel as [|fuel IH]; intros cy pv t st; [reflexivity|]. cbn [rs_infrul_loop].
  rewrite rs_try_rn. destruct (rs_try_rule M pv cy st t) as [pv' tr]. cbn [fst snd].
  assert (GO : forall t,
    match M' (f st) (t_scan (rt t)) with
    | None => Some false
    | Some (color, shift, next_state) =>
        if (f st =? next_state) && t_at_edge (rt t) shift then Some false
        else rs_infrul_loop M' fuel (cy + 1) (rpv pv') (fst (rs_step (rt t) shift color (f st =? next_state))) next_state
    end
    = match M st (t_scan t) with
    | None => Some false
    | Some (color, shift, next_state) =>
        if (st =? next_state) && t_at_edge t shift then Some false
        else rs_infrul_loop M fuel (cy + 1) pv' (fst (rs_step t shift color (st =? next_state))) next_state
    end).
  { intros k. change (t_scan (rt k)) with (g (t_scan k)). rewrite HM.
    destruct (M st (t_scan k)) as [[[c sh] nx]|]; cbn [option_map named_instr]; [|reflexivity].
    rewrite eqf, t_edge_rn, rs_step_rn. destruct ((st =? nx) && t_at_edge k sh); [reflexivity|apply IH]. }
  destruct tr; try reflexivity; try exact (GO t).
  rewrite rs_apply_rn. destruct (rs_apply_rule r t) as [[n|] t'|]; cbn [ren_rsapply]; [apply IH|exact (GO t')|reflexivity].
Qed.

Lemma infrul_named lim : rs_run_for_infrul M' lim = rs_run_for_infrul M lim.
Proof.
  pose proof (rs_inf_rn lim 0 pv_new (Tape [] 0 []) 0) as H.
  unfold named_tape in H. cbn in H. rewrite (proj1 Hf), (proj1 Hg) in H. exact H.
Qed.
End Rust.

(** ** quick_term_or_rec *)

Notation rh := (fun t => HT (h_head t) (named_tape g (h_tape t))).
Lemma ht_step_rn t sh c sk : ht_step (rh t) sh (g c) sk = rh (ht_step t sh c sk).
Proof. unfold ht_step; cbn. rewrite rs_step_rn. destruct (rs_step (h_tape t) sh c sk). reflexivity. Qed.
Lemma map_repeat (x : Z) n : map g (repeat x n) = repeat (g x) n.
Proof. induction n; cbn; congruence. Qed.
Lemma near_rn s : forall n, slice_near (named_span g s) n = (map g (fst (slice_near s n)), snd (slice_near s n)).
Proof.
  induction s as [|b s IH]; intros n; [reflexivity|]. cbn [named_span map slice_near b_count b_color]. fold (named_span g s). rewrite IH.
  destruct (slice_near s (n - Z.min (b_count b) n)). cbn. rewrite map_app, map_repeat. reflexivity.
Qed.
Lemma far_rn s : slice_far (named_span g s) = map g (slice_far s).
Proof.
  induction s as [|b s IH]; [reflexivity|]. cbn [named_span map slice_far b_count b_color]. fold (named_span g s).
  rewrite IH, map_app, map_repeat. reflexivity.
Qed.
Lemma slice_of_rn t n ltr : ht_get_slice (rh t) n ltr = map g (ht_get_slice t n ltr).
Proof.
  unfold ht_get_slice. destruct ltr; cbn [h_tape h_head named_tape t_lspan t_rspan]; rewrite far_rn, map_app; f_equal;
    match goal with |- context[0 <? ?d] => destruct (0 <? d) end; try reflexivity; rewrite near_rn;
    match goal with |- context[slice_near ?a ?b] => destruct (slice_near a b) as [nr rem] end; cbn [fst snd];
    rewrite map_app; f_equal; destruct (0 <? rem); try reflexivity; rewrite map_repeat, (proj1 Hg); reflexivity.
Qed.
Lemma span_eqb_rn a : forall b, span_eqb (named_span g a) (named_span g b) = span_eqb a b.
Proof. induction a as [|x a IH]; intros [|y b]; try reflexivity. cbn. unfold block_eqb at 1; cbn. rewrite eqg. f_equal. apply IH. Qed.
Lemma slice_eqb_rn a : forall b, slice_eqb (map g a) (map g b) = slice_eqb a b.
Proof. induction a as [|x a IH]; intros [|y b]; try reflexivity. cbn. rewrite eqg. f_equal. apply IH. Qed.
Lemma aligns_rn t u l r : ht_aligns_with (rh t) (rh u) l r = ht_aligns_with t u l r.
Proof.
  unfold ht_aligns_with. rewrite !slice_of_rn, !slice_eqb_rn. cbn [h_tape h_head named_tape t_lspan t_rspan t_scan].
  rewrite !span_eqb_rn, eqg. unfold named_span. rewrite !map_length. reflexivity.
Qed.
Lemma tr_rn p p' (Hp : forall s c, comp_get p' (f s, g c) = option_map (named_instr f g) (comp_get p (s, c))) drop fuel :
  forall cy st t rst rtp l r k,
  tr_loop p' drop fuel cy (f st) (rh t) (f rst) (rh rtp) l r k = tr_loop p drop fuel cy st t rst rtp l r k.
Proof.
  induction fuel as [|fuel IH]; intros cy st t rst rtp l r k; [reflexivity|]. cbn [tr_loop h_tape named_tape t_scan]. rewrite Hp.
  destruct (comp_get p (st, t_scan (h_tape t))) as [[[c sh] nx]|]; cbn [option_map named_instr]; [|reflexivity].
  fold (named_tape g (h_tape t)). rewrite eqf, t_edge_rn, ht_step_rn. destruct ((st =? nx) && t_at_edge (h_tape t) sh); [reflexivity|].
  cbn [h_head]. destruct (k =? 0);
    match goal with |- context[if ?a <? ?b then _ else _] => destruct (a <? b); [|match goal with |- context[if ?a <? ?b then _ else _] => destruct (a <? b) end] end;
    rewrite eqf, aligns_rn;
    match goal with |- context[?a && ht_aligns_with ?b ?c ?d ?e] => destruct (a && ht_aligns_with b c d e) end; try reflexivity; apply IH.
Qed.
Lemma term_named p p' lim drop : renamed f g (machine_of p) (machine_of p') -> f 1 = 1 -> g 1 = 1 ->
  quick_term_or_rec p' lim drop = quick_term_or_rec p lim drop.
Proof.
  intros Hp F G. pose proof (tr_rn p p' Hp drop (lim - 1) 1 1 ht_init_stepped 1 ht_init_stepped 1 1 1) as H.
  unfold ht_init_stepped, named_tape, named_span in H. cbn in H. rewrite F, G, (proj1 Hg) in H. exact H.
Qed.

(** ** Programs and their runs *)

Lemma named_prog_ok p : renamed f g (machine_of p) (machine_of (named_prog f g p)).
Proof.
  intros s c. unfold machine_of. change (f s, g c) with (named_slot f g (s, c)).
  induction p as [|[k i] p IH]; [reflexivity|]. cbn [named_prog map comp_get fst snd]. rewrite eqs. destruct (slot_eqb k (s, c)); [reflexivity|exact IH].
Qed.
Lemma plain_named M M' : renamed f g M M' -> renamed_lookups f g (plain M) (plain M').
Proof. intros H s c. unfold plain. rewrite H. destruct (M s c) as [i|]; reflexivity. Qed.

Lemma runs_named M M' : renamed f g M M' -> runs_renamed f g M M'.
Proof.
  intros H n.
  assert (G : forall n c d, c_state d = f (c_state c) -> c_pos d = c_pos c -> (forall p, c_tape d p = g (c_tape c p)) ->
    match steps M n c, steps M' n d with
    | Some c, Some d => c_state d = f (c_state c) /\ c_pos d = c_pos c /\ forall p, c_tape d p = g (c_tape c p)
    | None, None => True
    | _, _ => False
    end).
  { clear n. induction n as [|n IH]; intros c d E1 E2 E3; cbn [steps]; [auto|]. unfold step. rewrite E1, E2, E3, H.
    destruct (M (c_state c) (c_tape c (c_pos c))) as [[[pr sh] tr]|]; cbn [option_map named_instr]; [|exact Logic.I].
    apply IH; cbn; auto. intros p. unfold write. destruct (p =? c_pos c); auto. }
  apply G; cbn; auto; [symmetry; apply (proj1 Hf)|]. intros p. symmetry. apply (proj1 Hg).
Qed.

End Renaming.
