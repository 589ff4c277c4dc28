(** * A larger limit never takes an answer back: proofs (C84) *)
From Verif Require Import Base TM ProgModel ParseModel NormModel TapeModel QuickModel TermRecModel RulesModel PastModel EnumModel ProverModel
  SegModel RecurModel IdrisModel InstrSeqModel MacroModel RsMacroModel NumModel SymModel SymMachModel.

Local Open Scope nat_scope.

Lemma quick_loop_more comp : forall n m cyc t b q s, n <= m ->
  mr_result (quick_loop comp n cyc t b q s) <> xlimit -> quick_loop comp m cyc t b q s = quick_loop comp n cyc t b q s.
Proof.
  induction n as [|n IH]; intros m cyc t b q s L; cbn [quick_loop]; [intros N; exfalso; now apply N|].
  destruct m as [|m]; [lia|]. apply le_S_n in L. cbn [quick_loop].
  destruct (comp_get comp (q, t_scan t)) as [[[c sh] nx]|]; [|reflexivity].
  destruct ((q =? nx)%Z && t_at_edge t sh); [reflexivity|].
  destruct (rs_step t sh c (q =? nx)%Z) as [t' st].
  destruct ((c =? 0)%Z && t_blank t'); [|apply IH; exact L].
  destruct (blanks_has b nx); [reflexivity|]. destruct (nx =? 0)%Z; [reflexivity|]. apply IH; exact L.
Qed.

Lemma tr_loop_more comp d : forall n m cyc q t rq rt lm rm rs, n <= m ->
  tr_loop comp d n cyc q t rq rt lm rm rs = true -> tr_loop comp d m cyc q t rq rt lm rm rs = true.
Proof.
  induction n as [|n IH]; intros m cyc q t rq rt lm rm rs L; cbn [tr_loop]; [discriminate|].
  destruct m as [|m]; [lia|]. apply le_S_n in L. cbn [tr_loop].
  destruct (comp_get comp (q, t_scan (h_tape t))) as [[[c sh] nx]|]; [|auto].
  destruct ((q =? nx)%Z && t_at_edge (h_tape t) sh); [auto|].
  destruct (if (rs =? 0)%Z then _ else _) as [[[[rq' rt'] lm'] rm'] rs'].
  destruct (if (_ <? lm')%Z then _ else _) as [lm'' rm''].
  destruct (_ && _); [auto|]. apply IH; exact L.
Qed.

Lemma prover_loop_more M : forall n m cyc pv t q s b ra r, n <= m ->
  rs_prover_loop M n cyc pv t q s b ra = r -> (forall x, r = Some x -> mr_result (fst x) <> xlimit) ->
  rs_prover_loop M m cyc pv t q s b ra = r.
Proof.
  induction n as [|n IH]; intros m cyc pv t q s b ra r L; cbn [rs_prover_loop]; [intros <- N; exfalso; now eapply N|].
  destruct m as [|m]; [lia|]. apply le_S_n in L. cbn [rs_prover_loop].
  destruct (rs_try_rule M pv cyc q t) as [pv' tr].
  assert (GO : forall t,
    match M q (t_scan t) with
    | None => Some (MR undfnd s cyc (t_marks t) ra b (Some (q, t_scan t)), pv')
    | Some (color, shift, next_state) =>
        if (q =? next_state)%Z && t_at_edge t shift then Some (MR spnout s cyc (t_marks t) ra b None, pv')
        else let '(t, stepped) := rs_step t shift color (q =? next_state)%Z in
             if (color =? 0)%Z && t_blank t
             then if blanks_has b next_state then Some (MR infrul (s + stepped)%Z 0 (t_marks t) ra b None, pv')
                  else if (next_state =? 0)%Z then Some (MR infrul (s + stepped)%Z 0 (t_marks t) ra ((next_state, (s + stepped)%Z) :: b) None, pv')
                       else rs_prover_loop M n (cyc + 1) pv' t next_state (s + stepped) ((next_state, (s + stepped)%Z) :: b) ra
             else rs_prover_loop M n (cyc + 1) pv' t next_state (s + stepped) b ra
    end = r -> (forall x, r = Some x -> mr_result (fst x) <> xlimit) ->
    match M q (t_scan t) with
    | None => Some (MR undfnd s cyc (t_marks t) ra b (Some (q, t_scan t)), pv')
    | Some (color, shift, next_state) =>
        if (q =? next_state)%Z && t_at_edge t shift then Some (MR spnout s cyc (t_marks t) ra b None, pv')
        else let '(t, stepped) := rs_step t shift color (q =? next_state)%Z in
             if (color =? 0)%Z && t_blank t
             then if blanks_has b next_state then Some (MR infrul (s + stepped)%Z 0 (t_marks t) ra b None, pv')
                  else if (next_state =? 0)%Z then Some (MR infrul (s + stepped)%Z 0 (t_marks t) ra ((next_state, (s + stepped)%Z) :: b) None, pv')
                       else rs_prover_loop M m (cyc + 1) pv' t next_state (s + stepped) ((next_state, (s + stepped)%Z) :: b) ra
             else rs_prover_loop M m (cyc + 1) pv' t next_state (s + stepped) b ra
    end = r).
  { intros t0. destruct (M q (t_scan t0)) as [[[c sh] nx]|]; [|auto].
    destruct (_ && t_at_edge t0 sh); [auto|]. destruct (rs_step t0 sh c _) as [t1 st].
    destruct (_ && t_blank t1); [|apply IH; exact L]. destruct (blanks_has b nx); [auto|].
    destruct (nx =? 0)%Z; [auto|]. apply IH; exact L. }
  destruct tr ; auto.
  destruct (rs_apply_rule _ t) as [[tm|] t1|]; auto.
Qed.

Lemma infrul_loop_more M : forall n m cyc pv t q, n <= m ->
  rs_infrul_loop M n cyc pv t q = Some true -> rs_infrul_loop M m cyc pv t q = Some true.
Proof.
  induction n as [|n IH]; intros m cyc pv t q L; cbn [rs_infrul_loop]; [discriminate|].
  destruct m as [|m]; [lia|]. apply le_S_n in L. cbn [rs_infrul_loop].
  destruct (rs_try_rule M pv cyc q t) as [pv' tr].
  assert (GO : forall t,
    match M q (t_scan t) with
    | None => Some false
    | Some (color, shift, next_state) =>
        if (q =? next_state)%Z && t_at_edge t shift then Some false
        else rs_infrul_loop M n (cyc + 1) pv' (fst (rs_step t shift color (q =? next_state)%Z)) next_state
    end = Some true ->
    match M q (t_scan t) with
    | None => Some false
    | Some (color, shift, next_state) =>
        if (q =? next_state)%Z && t_at_edge t shift then Some false
        else rs_infrul_loop M m (cyc + 1) pv' (fst (rs_step t shift color (q =? next_state)%Z)) next_state
    end = Some true).
  { intros t0. destruct (M q (t_scan t0)) as [[[c sh] nx]|]; [|auto]. destruct (_ && _); [auto|]. apply IH; exact L. }
  destruct tr ; auto.
  destruct (rs_apply_rule _ t) as [[tm|] t1|]; auto.
Qed.

Lemma strict_loop_more comp check : forall n m cyc h t q s b, n <= m ->
  (forall k, sr_end (strict_loop comp check n cyc h t q s b) <> SXlimit k) ->
  strict_loop comp check m cyc h t q s b = strict_loop comp check n cyc h t q s b.
Proof.
  induction n as [|n IH]; intros m cyc h t q s b L; cbn [strict_loop]; [intros N; exfalso; now eapply N|].
  destruct m as [|m]; [lia|]. apply le_S_n in L. cbn [strict_loop]. 
  assert (GO : forall h,
     (forall k, sr_end match comp_get comp (q, t_scan (h_tape t)) with
        | None => Strict (SUndfnd s (q, t_scan (h_tape t))) cyc b h
        | Some (color, shift, next) =>
            let '(tp, stepped) := hp_step t shift color (q =? next)%Z in
            strict_loop comp check n (cyc + 1) h tp next (s + stepped)
              (if (color =? 0)%Z && t_blank (h_tape tp) && negb (blanks_has b next) then (next, (s + stepped)%Z) :: b else b)
        end <> SXlimit k) ->
     match comp_get comp (q, t_scan (h_tape t)) with
        | None => Strict (SUndfnd s (q, t_scan (h_tape t))) cyc b h
        | Some (color, shift, next) =>
            let '(tp, stepped) := hp_step t shift color (q =? next)%Z in
            strict_loop comp check m (cyc + 1) h tp next (s + stepped)
              (if (color =? 0)%Z && t_blank (h_tape tp) && negb (blanks_has b next) then (next, (s + stepped)%Z) :: b else b)
        end =
     match comp_get comp (q, t_scan (h_tape t)) with
        | None => Strict (SUndfnd s (q, t_scan (h_tape t))) cyc b h
        | Some (color, shift, next) =>
            let '(tp, stepped) := hp_step t shift color (q =? next)%Z in
            strict_loop comp check n (cyc + 1) h tp next (s + stepped)
              (if (color =? 0)%Z && t_blank (h_tape tp) && negb (blanks_has b next) then (next, (s + stepped)%Z) :: b else b)
        end).
  { intros h0. destruct (comp_get _ _) as [[[c sh] nx]|]; [|reflexivity]. destruct (hp_step t sh c _) as [t1 st]. apply IH; exact L. }
  destruct (check <=? s)%Z; [|apply GO].
  destruct (check_rec _ _ _) as [[[x y]|]|]; [reflexivity| |reflexivity]. apply GO.
Qed.

Lemma loose_loop_more comp : forall n m cyc t q s b iq it lm rm rs, n <= m ->
  mr_result (loose_loop comp n cyc t q s b iq it lm rm rs) <> xlimit ->
  loose_loop comp m cyc t q s b iq it lm rm rs = loose_loop comp n cyc t q s b iq it lm rm rs.
Proof.
  induction n as [|n IH]; intros m cyc t q s b iq it lm rm rs L; cbn [loose_loop]; [intros N; exfalso; now apply N|].
  destruct m as [|m]; [lia|]. apply le_S_n in L. cbn [loose_loop].
  destruct (if (s <? rs)%Z then _ else _) as [[[[iq' it'] lm'] rm'] rs'].
  destruct (comp_get _ _) as [[[c sh] nx]|]; [|reflexivity].
  destruct (_ && t_at_edge _ _); [reflexivity|]. destruct (hp_step t sh c _) as [t1 st].
  assert (R : forall b,
    mr_result (let '(leftmost, rightmost) :=
                if (h_head t1 <? lm')%Z then (h_head t1, rm') else if (rm' <? h_head t1)%Z then (lm', h_head t1) else (lm', rm') in
               if (nx =? iq')%Z && (t_scan (h_tape t1) =? t_scan (h_tape it'))%Z && hp_aligns_with t1 it' leftmost rightmost
               then MR infrul (s + st) (cyc + 1) 0 0 b None
               else loose_loop comp n (cyc + 1) t1 nx (s + st) b iq' it' leftmost rightmost rs') <> xlimit ->
    (let '(leftmost, rightmost) :=
                if (h_head t1 <? lm')%Z then (h_head t1, rm') else if (rm' <? h_head t1)%Z then (lm', h_head t1) else (lm', rm') in
               if (nx =? iq')%Z && (t_scan (h_tape t1) =? t_scan (h_tape it'))%Z && hp_aligns_with t1 it' leftmost rightmost
               then MR infrul (s + st) (cyc + 1) 0 0 b None
               else loose_loop comp m (cyc + 1) t1 nx (s + st) b iq' it' leftmost rightmost rs') =
    (let '(leftmost, rightmost) :=
                if (h_head t1 <? lm')%Z then (h_head t1, rm') else if (rm' <? h_head t1)%Z then (lm', h_head t1) else (lm', rm') in
               if (nx =? iq')%Z && (t_scan (h_tape t1) =? t_scan (h_tape it'))%Z && hp_aligns_with t1 it' leftmost rightmost
               then MR infrul (s + st) (cyc + 1) 0 0 b None
               else loose_loop comp n (cyc + 1) t1 nx (s + st) b iq' it' leftmost rightmost rs')).
  { intros b0. destruct (if (h_head t1 <? lm')%Z then _ else _) as [l r]. destruct (_ && hp_aligns_with _ _ _ _); [reflexivity|]. apply IH; exact L. }
  cbv zeta. destruct (_ && t_blank _); [|apply R].
  destruct (blanks_has b nx); [reflexivity|]. destruct (nx =? 0)%Z; [reflexivity|]. apply R.
Qed.

Lemma irun_loop_more {T} (o : tape_ops T) prog : forall n m q t s, n <= m ->
  match irun_loop o n prog q t s with
  | ILimit => True
  | IHang => irun_loop o m prog q t s = IHang
  | IDone s' c t' => irun_loop o m prog q t s = IDone s' (c + (m - n)) t' /\ c <= n
  end.
Proof.
  induction n as [|n IH]; intros m q t s L; cbn [irun_loop]; [exact Logic.I|].
  destruct m as [|m]; [lia|]. cbn [irun_loop].
  destruct (exec o prog q t) as [[[[q' t'] st] rc]|]; [|reflexivity]. cbv zeta.
  destruct ((q' =? ihalt)%Z || tp_blank o t' || rc); [split; [f_equal; lia|lia]|].
  specialize (IH m q' t' (st + s)). destruct (irun_loop o n prog q' t' (st + s)); auto.
  - apply IH; lia.
  - destruct IH as [E C]; [lia|]. rewrite E. split; [f_equal; lia|lia].
Qed.
Lemma run_on_blank_more {T} (o : tape_ops T) prog n m : n <= m ->
  run_on_blank o n prog <> ILimit -> run_on_blank o m prog = run_on_blank o n prog.
Proof.
  intros L N. unfold run_on_blank in *. pose proof (irun_loop_more o prog n m 1%Z (tp_init o) 0 L) as E.
  destruct (irun_loop o n prog 1%Z (tp_init o) 0); [rewrite E; reflexivity|now destruct N|].
  destruct E as [E C]. rewrite E. f_equal. lia.
Qed.
Lemma run_double_more {T} (o : tape_ops T) prog : forall n m q t s q2 t2 s2, n <= m ->
  match run_double o n prog q t s q2 t2 s2 with
  | ILimit => True
  | IHang => run_double o m prog q t s q2 t2 s2 = IHang
  | IDone s' c t' => run_double o m prog q t s q2 t2 s2 = IDone s' (c + (m - n)) t' /\ c <= n
  end.
Proof.
  induction n as [|n IH]; intros m q t s q2 t2 s2 L; cbn [run_double]; [exact Logic.I|].
  destruct m as [|m]; [lia|]. cbn [run_double].
  destruct (exec o prog q t) as [[[[q' t'] st] rc]|]; [|reflexivity].
  destruct (if Nat.eqb (s mod 2) 0 then _ else _) as [[[[q2' t2'] st2] rc2]|]; [|reflexivity].
  destruct (_ && _); [split; [f_equal; lia|lia]|].
  specialize (IH m q' t' (st + s) q2' t2' (st2 + s2)). destruct (run_double o n prog q' t' (st + s) q2' t2' (st2 + s2)); auto.
  - apply IH; lia.
  - destruct IH as [E C]; [lia|]. rewrite E. split; [f_equal; lia|lia].
Qed.
Lemma run_double_on_blank_more {T} (o : tape_ops T) prog n m : n <= m ->
  run_double_on_blank o n prog <> ILimit -> run_double_on_blank o m prog = run_double_on_blank o n prog.
Proof.
  intros L N. unfold run_double_on_blank in *. pose proof (run_double_more o prog n m 1%Z (tp_init o) 0 1%Z (tp_init o) 0 L) as E.
  destruct (run_double o n prog 1%Z (tp_init o) 0 1%Z (tp_init o) 0); [rewrite E; reflexivity|now destruct N|].
  destruct E as [E C]. rewrite E. f_equal. lia.
Qed.
Lemma report_limit {T} (o : tape_ops T) r : report_of o r <> HitsLimit -> r <> ILimit.
Proof. intros N ->. now apply N. Qed.
Lemma run_single_more fuel mc prog n m : n <= m -> run_single fuel mc n prog <> HitsLimit ->
  run_single fuel mc m prog = run_single fuel mc n prog.
Proof.
  intros L N. destruct mc; cbn [run_single] in *; rewrite (run_on_blank_more _ prog n m L (report_limit _ _ N)); reflexivity.
Qed.
Lemma run_double_rec_more fuel mc prog n m : n <= m -> run_double_rec fuel mc n prog <> HitsLimit ->
  run_double_rec fuel mc m prog = run_double_rec fuel mc n prog.
Proof.
  intros L N. destruct mc; cbn [run_double_rec] in *; rewrite (run_double_on_blank_more _ prog n m L (report_limit _ _ N)); reflexivity.
Qed.

Lemma segs_loop_more prog params rf f : forall l l' s, segs_loop prog params rf f l = SegSome s ->
  segs_loop prog params rf f (l ++ l') = SegSome s.
Proof.
  induction l as [|x l IH]; intros l' s; cbn [segs_loop app]; [discriminate|].
  destruct (all_segments_reached prog params rf f (2 + x)) as [[]| | |]; auto; discriminate.
Qed.
Lemma range_more a b : (0 <= a <= b)%Z -> exists l, range b = range a ++ l.
Proof.
  intros L. unfold range. replace (Z.to_nat b) with (Z.to_nat a + (Z.to_nat b - Z.to_nat a)) by lia.
  rewrite seq_app, map_app. eexists; reflexivity.
Qed.

Lemma rfu_loop_more prog : forall n m t s q r, n <= m -> rfu_loop prog n t s q = Some r -> rfu_loop prog m t s q = Some r.
Proof.
  induction n as [|n IH]; intros m t s q r L; cbn [rfu_loop]; [discriminate|].
  destruct m as [|m]; [lia|]. apply le_S_n in L. cbn [rfu_loop].
  destruct (n_get prog q (t_scan t)) as [[[c sh] nx]|]; [|auto].
  destruct (_ && _); [auto|]. destruct (py_step t sh c _) as [t1 st]. apply IH; exact L.
Qed.
Lemma is_loop_more n m (L : n <= m) : forall fuel prog part, exists l, is_loop m fuel prog part = is_loop n fuel prog part ++ l.
Proof.
  induction fuel as [|fuel IH]; intros prog part; cbn [is_loop]; [now exists []|].
  destruct (run_for_undefined n part) as [[s sl]|] eqn:E; [|eexists; reflexivity].
  unfold run_for_undefined in *. rewrite (rfu_loop_more part n m _ _ _ _ L E).
  destruct (n_get prog (fst sl) (snd sl)) as [i|]; [|now exists []].
  destruct (n_set part sl i) as [p'|]; [|now exists []].
  destruct (IH prog p') as [l El]. exists l. rewrite El. reflexivity.
Qed.

Lemma machine_loop_more comp : forall n m cyc pv t q s b ra su, n <= m ->
  m_end (py_machine_loop comp n cyc pv t q s b ra su) <> MXlimit ->
  py_machine_loop comp m cyc pv t q s b ra su = py_machine_loop comp n cyc pv t q s b ra su.
Proof.
  induction n as [|n IH]; intros m cyc pv t q s b ra su L; cbn [py_machine_loop]; [intros N; exfalso; now apply N|].
  destruct m as [|m]; [lia|]. apply le_S_n in L. cbn [py_machine_loop].
  destruct (py_try_rule comp pv cyc q t) as [pv' tr]. cbv zeta.
  destruct tr; try reflexivity;
  try match goal with |- context [py_apply_rule ?r ?u] => destruct (py_apply_rule r u) end; try reflexivity; try (now apply IH);
  match goal with |- context [comp q (t_scan ?u)] =>
         destruct (comp q (t_scan u)) as [[[c sh] nx]| |]; try reflexivity;
         destruct (_ && t_at_edge u sh); try reflexivity; destruct (py_step u sh c _) as [t1 st] end;
  (destruct (_ && t_blank t1); [|now apply IH]);
  destruct (blanks_has b nx); try reflexivity;
  (destruct (nx =? 0)%Z; [reflexivity|now apply IH]).
Qed.

Lemma s_machine_loop_more fl o comp : forall n m cyc pv t q s b ra su, n <= m ->
  sm_end (s_machine_loop fl o comp n cyc pv t q s b ra su) <> YXlimit ->
  s_machine_loop fl o comp m cyc pv t q s b ra su = s_machine_loop fl o comp n cyc pv t q s b ra su.
Proof.
  induction n as [|n IH]; intros m cyc pv t q s b ra su L; cbn [s_machine_loop]; [intros N; exfalso; now apply N|].
  destruct m as [|m]; [lia|]. apply le_S_n in L. cbn [s_machine_loop].
  destruct (s_try_rule fl o comp pv cyc q t) as [pv' tr]. cbv zeta.
  destruct tr as [x| | | | | | ];
    try (destruct x as [ | r | | ]); try reflexivity;
    try match goal with |- context [s_apply_rule fl o ?r ?u] => destruct (s_apply_rule fl o r u) as [[[tm|] t']| | | | | |] end; try reflexivity;
    try match goal with |- context [o_add o ra ?u] => destruct (o_add o ra u); try reflexivity; now apply IH end;
  match goal with |- context [comp q (st_scan ?u)] =>
         destruct (comp q (st_scan u)) as [[[c sh] nx]| |]; try reflexivity;
         (destruct (_ && s_at_edge u sh); [reflexivity|]);
         destruct (s_step o u sh c _) as [[t1 st]| | | | | |]; try reflexivity end;
  (destruct (s =? -1)%Z; [|destruct st; try reflexivity]);
  (destruct (_ && s_blank t1); [|now apply IH]);
  (destruct (blanks_has b nx); [reflexivity|]; destruct (nx =? 0)%Z; [reflexivity|now apply IH]).
Qed.

Lemma sf_infrul_loop_more {St} (look : St -> Z -> Z -> St * rlook) : forall n m cyc pv x t q, n <= m ->
  sf_infrul_loop look n cyc pv x t q = Some true -> sf_infrul_loop look m cyc pv x t q = Some true.
Proof.
  induction n as [|n IH]; intros m cyc pv x t q L; cbn [sf_infrul_loop]; [discriminate|].
  destruct m as [|m]; [lia|]. apply le_S_n in L. cbn [sf_infrul_loop].
  destruct (sf_try_rule look pv x cyc q t) as [[pv' x'] tr]. cbv zeta.
  destruct tr; auto;
  try match goal with |- context [rs_apply_rule ?r ?u] => destruct (rs_apply_rule r u) as [[tm|] t'|] end; auto;
  match goal with |- context [look x' q (t_scan ?u)] => destruct (look x' q (t_scan u)) as [x'' [[[c sh] nx]| |]]; auto;
         destruct (_ && t_at_edge u sh); auto end.
Qed.

(** ** The runs themselves *)

Lemma run_quick_more comp n m : n <= m -> mr_result (run_quick_machine comp n) <> xlimit ->
  run_quick_machine comp m = run_quick_machine comp n.
Proof. apply quick_loop_more. Qed.
Lemma term_or_rec_more comp d n m : n <= m -> quick_term_or_rec comp n d = true -> quick_term_or_rec comp m d = true.
Proof. intros L. apply tr_loop_more. lia. Qed.
Lemma run_prover_more M n m r : n <= m -> rs_run_prover M n = r -> (forall x, r = Some x -> mr_result x <> xlimit) ->
  rs_run_prover M m = r.
Proof.
  intros L E N. unfold rs_run_prover in *. subst r.
  rewrite (prover_loop_more M n m _ _ _ _ _ _ _ _ L eq_refl); [reflexivity|].
  intros x Ex. apply N. rewrite Ex. reflexivity.
Qed.
Lemma py_run_more comp n m : n <= m -> m_end (py_machine_run comp n) <> MXlimit -> py_machine_run comp m = py_machine_run comp n.
Proof. apply machine_loop_more. Qed.
Lemma s_run_more fl o comp n m : n <= m -> sm_end (s_machine_run fl o comp n) <> YXlimit ->
  s_machine_run fl o comp m = s_machine_run fl o comp n.
Proof. apply s_machine_loop_more. Qed.
Lemma infrul_more M n m : n <= m -> rs_run_for_infrul M n = Some true -> rs_run_for_infrul M m = Some true.
Proof. apply infrul_loop_more. Qed.
Lemma sf_infrul_more {St} (look : St -> Z -> Z -> St * rlook) x n m : n <= m ->
  sf_run_for_infrul look x n = Some true -> sf_run_for_infrul look x m = Some true.
Proof. apply sf_infrul_loop_more. Qed.
Lemma segment_more prog params rf f (a b s : Z) : (a <= b)%Z -> segment_cant_halt prog params a rf f = SegSome s ->
  segment_cant_halt prog params b rf f = SegSome s.
Proof.
  intros L. unfold segment_cant_halt. destruct (Z.ltb_spec a 2); [discriminate|].
  destruct (Z.ltb_spec b 2); [lia|].
  destruct (range_more (a - 1) (b - 1)) as [l El]; [lia|]. rewrite El, map_app. apply segs_loop_more.
Qed.
Lemma strict_more comp check n m : n <= m -> (forall k, sr_end (strict_run comp n check) <> SXlimit k) ->
  strict_run comp m check = strict_run comp n check.
Proof. apply strict_loop_more. Qed.
Lemma loose_more comp n m : n <= m -> mr_result (run_loose_linrec_machine comp n) <> xlimit ->
  run_loose_linrec_machine comp m = run_loose_linrec_machine comp n.
Proof. intros L. apply loose_loop_more. lia. Qed.
Lemma instr_seq_more n m s l : n <= m -> instr_seq n s = Some l -> exists l', instr_seq m s = Some (l ++ l').
Proof.
  intros L. unfold instr_seq. destruct (parse s) as [g|]; [|discriminate]. destruct (n_colors _) as [cs|]; [|discriminate].
  destruct (n_init _ _) as [p|]; [|discriminate]. intros [= <-].
  destruct (is_loop_more n m L (length (n_states (norm_of g)) * length cs - 1) (norm_of g) p) as [l' E].
  exists l'. rewrite <- E. reflexivity.
Qed.
