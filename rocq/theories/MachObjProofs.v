(** * Proofs about Machine objects (C87) *)
From Verif Require Import Base TM ProgModel TapeModel RulesModel PastModel QuickModel ProverModel NumModel SymModel SymMachModel
  ParseModel NumShowModel LimitProofs MachObjModel MachObjSpec.

(** ** The count of rule applications and suspected rules do not matter *)
Definition ends (e : s_end) : Prop := e <> YErr /\ e <> YDeep.
Definition alike (a b : smach) : Prop :=
  sm_end a = sm_end b /\ sm_steps a = sm_steps b /\ sm_cycles a = sm_cycles b /\ sm_tape a = sm_tape b
  /\ sm_blanks a = sm_blanks b /\ sm_prover a = sm_prover b.
Lemma loop_alike fl o comp : forall n cyc pv t q s b ra su ra' su',
  ends (sm_end (s_machine_loop fl o comp n cyc pv t q s b ra su)) ->
  ends (sm_end (s_machine_loop fl o comp n cyc pv t q s b ra' su')) ->
  alike (s_machine_loop fl o comp n cyc pv t q s b ra su) (s_machine_loop fl o comp n cyc pv t q s b ra' su').
Proof.
  assert (K : forall e s c r q t b su r' su' p, alike (SMachR e s c r q t b su p) (SMachR e s c r' q t b su' p)) by (repeat split).
  induction n as [|n IH]; intros cyc pv t q s b ra su ra' su'; cbn [s_machine_loop]; [intros; apply K|].
  destruct (s_try_rule fl o comp pv cyc q t) as [pv' tr]. cbv zeta.
  destruct tr as [x| | | | | | ];
    try (destruct x as [ | r | | ]); try (intros; apply K; fail);
    try match goal with |- context [s_apply_rule fl o ?r ?u] => destruct (s_apply_rule fl o r u) as [[[tm|] t']| | | | | |] end; try (intros; apply K; fail);
    try match goal with |- context [o_add o ra ?u] => destruct (o_add o ra u), (o_add o ra' u);
       try (intros [E1 E2] [F1 F2]; cbn in *; congruence); now apply IH end;
  match goal with |- context [comp q (st_scan ?u)] =>
         destruct (comp q (st_scan u)) as [[[c sh] nx]| |]; try (intros; apply K; fail);
         (destruct (_ && s_at_edge u sh); [intros; apply K|]);
         destruct (s_step o u sh c _) as [[t1 st]| | | | | |]; try (intros; apply K; fail) end;
  (destruct (s =? -1)%Z; [|destruct st; try (intros; apply K; fail)]);
  (destruct (_ && s_blank t1); [|now apply IH]);
  (destruct (blanks_has b nx); [intros; apply K|]; destruct (nx =? 0)%Z; [intros; apply K|now apply IH]).
Qed.

Section Obj.
Variable fl : floats.
Variable o : ops.
Variable comp : comp_prog.
Variable msg : text.
Notation run := (mo_run fl o comp msg).
Notation runs := (mo_runs fl o comp msg).
Notation base := (s_machine_run fl o (plain (machine_of comp))).

Definition out_of (m : smach) : option outcome :=
  match sm_end m with
  | YUndfnd s => Some (Undfnd (sm_steps m) s) | YSpnout => Some (Spnout (sm_steps m)) | YXlimit => Some (Xlimit (sm_steps m))
  | YInfrul => Some (Infrul (sm_steps m)) | YCfglim => Some (Cfglim (sm_steps m)) | YLimrul => Some (Limrul msg)
  | YErr | YDeep => None
  end.
Theorem one_outcome lim ob : run mo_new lim = (ob, true) ->
  exists x, says ob x /\ mo_simple ob = stops_at x /\ (forall k, stops_at x = Some k -> mo_steps ob = Some k).
Proof.
  unfold mo_run. cbn [mo_new mo_rulapp mo_susrul mo_spnout mo_xlimit mo_undfnd mo_infrul mo_cfglim mo_limrul mo_steps mo_cycles].
  fold (base lim). intros H. destruct (out_of (base lim)) as [x|] eqn:E.
  - exists x. unfold out_of in E. destruct (sm_end (base lim)); inv H; inv E;
      (split; [repeat split|split; [reflexivity|]]); cbn; intros k X; inv X; reflexivity.
  - exfalso. unfold out_of in E. destruct (sm_end (base lim)); discriminate.
Qed.

(** What a run does to an object, by the outcome. *)
Definition upd (ob : mobj) (x : outcome) (a : mobj) : Prop :=
  mo_undfnd a = match x with Undfnd k s => Some (k, s) | _ => mo_undfnd ob end
  /\ mo_spnout a = match x with Spnout k => Some k | _ => mo_spnout ob end
  /\ mo_infrul a = match x with Infrul k => Some k | _ => mo_infrul ob end
  /\ mo_cfglim a = match x with Cfglim k => Some k | _ => mo_cfglim ob end
  /\ mo_limrul a = match x with Limrul w => Some w | _ => mo_limrul ob end.
Lemma run_upd ob lim a : run ob lim = (a, true) -> snd (run mo_new lim) = true ->
  exists x, out_of (base lim) = Some x /\ upd ob x a /\ left_alike a (fst (run mo_new lim)).
Proof.
  unfold mo_run. cbn [mo_new mo_rulapp mo_susrul mo_spnout mo_xlimit mo_undfnd mo_infrul mo_cfglim mo_limrul mo_steps mo_cycles].
  fold (base lim). set (m := s_machine_loop _ _ _ _ _ _ _ _ _ _ (mo_rulapp ob) _). cbn [snd fst]. intros A B.
  assert (AL : alike m (base lim)).
  { apply loop_alike.
    - fold m. inversion A as [[A1 A2]]. split; intros X; rewrite X in A2; discriminate.
    - change (ends (sm_end (base lim))). split; intros X; rewrite X in B; discriminate. }
  destruct AL as (E1 & E2 & E3 & E4 & E5 & E6).
  injection A as A1 A2. subst a. rewrite E1, E2, E3, E4, E5, E6 in *. unfold out_of.
  destruct (sm_end (base lim)); try discriminate; (eexists; split; [reflexivity|]); repeat split.
Qed.

(** Runs with other limits come to the same, or to the limit. *)
Lemma out_le n m : (n <= m)%nat -> (exists k, out_of (base n) = Some (Xlimit k)) \/ base m = base n.
Proof.
  intros L. destruct (sm_end (base n)) eqn:E; try (right; apply s_run_more; [exact L|rewrite E; discriminate]).
  left. unfold out_of. rewrite E. eauto.
Qed.

Lemma settled_runs : forall lims big ob a x, out_of (base big) = Some x -> (forall l, In l lims -> (l <= big)%nat /\ snd (run mo_new l) = true) ->
  runs ob lims = Some a -> upd mo_new x ob \/ (upd mo_new (Xlimit 0) ob) ->
  (upd mo_new x a \/ upd mo_new (Xlimit 0) a) /\ (upd mo_new x ob \/ In big lims -> upd mo_new x a).
Proof.
  induction lims as [|l lims IH]; intros big ob a x X LE R U; cbn [mo_runs] in R.
  - inv R. split; [exact U|]. intros [Y|[]]. exact Y.
  - destruct (run ob l) as [ob1 ok] eqn:E. destruct ok; [|discriminate].
    destruct (LE l (or_introl eq_refl)) as [Ll Nl].
    destruct (run_upd _ _ _ E Nl) as (y & Y & UY & _).
    assert (C : (upd mo_new x ob -> upd mo_new x ob1) /\ (upd mo_new (Xlimit 0) ob -> upd mo_new x ob1 \/ upd mo_new (Xlimit 0) ob1)
                /\ (l = big -> upd mo_new x ob1)).
    { unfold upd in *. cbn [mo_new mo_spnout mo_xlimit mo_undfnd mo_infrul mo_cfglim mo_limrul] in *.
      destruct UY as (A1 & A2 & A3 & A4 & A5).
      assert (D : y = x \/ (l <> big /\ exists k, y = Xlimit k) ).
      { destruct (Nat.eq_dec l big) as [->|NE]; [left; congruence|]. destruct (out_le l big Ll) as [[k Z]|Z]; [right; split; [auto|exists k; congruence]|left; congruence]. }
      assert (S1 : y = x -> (upd mo_new x ob \/ upd mo_new (Xlimit 0) ob) -> upd mo_new x ob1).
      { intros ->. unfold upd. cbn [mo_new mo_spnout mo_xlimit mo_undfnd mo_infrul mo_cfglim mo_limrul].
        intros [(B1 & B2 & B3 & B4 & B5)|(B1 & B2 & B3 & B4 & B5)]; rewrite A1, A2, A3, A4, A5; destruct x; auto 10. }
      unfold upd in S1. cbn [mo_new mo_spnout mo_xlimit mo_undfnd mo_infrul mo_cfglim mo_limrul] in S1.
      split; [|split].
      - intros B. destruct D as [D|[_ [k D]]]; [apply S1; auto|]. subst y. rewrite A1, A2, A3, A4, A5. exact B.
      - intros B. destruct D as [D|[_ [k D]]]; [left; apply S1; auto|]. subst y. right. rewrite A1, A2, A3, A4, A5. exact B.
      - intros ->. destruct D as [D|[D _]]; [|congruence]. apply S1; auto. }
    destruct C as (C1 & C2 & C3).
    assert (U1 : upd mo_new x ob1 \/ upd mo_new (Xlimit 0) ob1) by (destruct U; auto).
    destruct (IH big ob1 a x X (fun l' H => LE l' (or_intror H)) R U1) as [I1 I2]. split; [exact I1|].
    intros [B|[B|B]]; apply I2; auto.
Qed.

Theorem reruns lims ob : lims <> [] -> runs mo_new lims = Some ob -> (forall l, In l lims -> snd (run mo_new l) = true) ->
  (exists big, In big lims /\ (forall l, In l lims -> (l <= big)%nat) /\ settled_alike ob (fst (run mo_new big))
     /\ mo_simple ob = mo_simple (fst (run mo_new big)))
  /\ left_alike ob (fst (run mo_new (last lims 0%nat))).
Proof.
  intros N R OK. split.
  - assert (B : exists big, In big lims /\ forall l, In l lims -> (l <= big)%nat).
    { clear R OK. induction lims as [|l [|l2 lims] IH]; [congruence| |].
      - exists l. split; [left; auto|]. intros l' [<-|[]]. auto.
      - destruct IH as (b & B1 & B2); [discriminate|]. destruct (Nat.le_gt_cases l b) as [L|L].
        + exists b. split; [right; auto|]. intros l' [<-|H]; auto.
        + exists l. split; [left; auto|]. intros l' [<-|H]; auto. specialize (B2 _ H). lia. }
    destruct B as (big & Ib & Mb). exists big. split; [exact Ib|]. split; [exact Mb|].
    pose proof (OK _ Ib) as Ok. destruct (run mo_new big) as [f ok] eqn:F. cbn in Ok. subst ok.
    destruct (run_upd mo_new big f F) as (x & X & UX & _); [now rewrite F|].
    destruct (settled_runs lims big mo_new ob x X) as [_ S2]; [intros l H; split; [apply Mb; exact H|apply OK; exact H]|exact R|right; repeat split|].
    specialize (S2 (or_intror Ib)). cbn [fst]. assert (SA : settled_alike ob f).
    { destruct UX as (A1 & A2 & A3 & A4 & A5). destruct S2 as (B1 & B2 & B3 & B4 & B5). repeat split; congruence. }
    split; [exact SA|]. unfold mo_simple. destruct SA as (-> & -> & _). reflexivity.
  - revert R. generalize mo_new at 1 as ob0. induction lims as [|l lims IH]; [congruence|]. intros ob0 R. cbn [mo_runs] in R.
    destruct (run ob0 l) as [ob1 ok] eqn:E. destruct ok; [|discriminate].
    destruct lims as [|l2 lims].
    + inv R. cbn [last]. destruct (run_upd _ _ _ E (OK l (or_introl eq_refl))) as (x & _ & _ & LA). exact LA.
    + change (last (l :: l2 :: lims) 0%nat) with (last (l2 :: lims) 0%nat). apply (IH ltac:(discriminate) (fun l' H => OK l' (or_intror H)) ob1 R).
Qed.
End Obj.

(** ** Rust *)
Lemma quick_slot comp : forall n cyc t b q s, mr_result (quick_loop comp n cyc t b q s) = undfnd -> mr_last_slot (quick_loop comp n cyc t b q s) <> None.
Proof.
  induction n as [|n IH]; intros cyc t b q s; cbn [quick_loop]; [discriminate|].
  destruct (comp_get comp (q, t_scan t)) as [[[c sh] nx]|]; [|discriminate].
  destruct (_ && _); [discriminate|]. destruct (rs_step t sh c (q =? nx)) as [t' st]. cbv zeta.
  destruct (_ && _); [|apply IH]. destruct (blanks_has b nx); [discriminate|]. destruct (nx =? 0); [discriminate|apply IH].
Qed.
Lemma prover_slot M : forall n cyc pv t q s b ra r pv', rs_prover_loop M n cyc pv t q s b ra = Some (r, pv') ->
  mr_result r = undfnd -> mr_last_slot r <> None.
Proof.
  induction n as [|n IH]; intros cyc pv t q s b ra r pv'; cbn [rs_prover_loop]; [intros X; inv X; discriminate|].
  destruct (rs_try_rule M pv cyc q t) as [pv1 tr]. cbv zeta.
  assert (GO : forall t, match M q (t_scan t) with
        | None => Some (MR undfnd s cyc (t_marks t) ra b (Some (q, t_scan t)), pv1)
        | Some (color, shift, next_state) =>
            if (q =? next_state) && t_at_edge t shift then Some (MR spnout s cyc (t_marks t) ra b None, pv1)
            else let '(t, stepped) := rs_step t shift color (q =? next_state) in
              if (color =? 0) && t_blank t
              then if blanks_has b next_state then Some (MR infrul (s + stepped) 0 (t_marks t) ra b None, pv1)
                   else if next_state =? 0 then Some (MR infrul (s + stepped) 0 (t_marks t) ra ((next_state, s + stepped) :: b) None, pv1)
                        else rs_prover_loop M n (cyc + 1) pv1 t next_state (s + stepped) ((next_state, s + stepped) :: b) ra
              else rs_prover_loop M n (cyc + 1) pv1 t next_state (s + stepped) b ra
        end = Some (r, pv') -> mr_result r = undfnd -> mr_last_slot r <> None).
  { intros t0. destruct (M q (t_scan t0)) as [[[c sh] nx]|]; [|intros X; inv X; discriminate].
    destruct (_ && _); [intros X; inv X; discriminate|]. destruct (rs_step t0 sh c (q =? nx)) as [t' st].
    destruct (_ && _); [|apply IH]. destruct (blanks_has b nx); [intros X; inv X; discriminate|].
    destruct (nx =? 0); [intros X; inv X; discriminate|apply IH]. }
  destruct tr; try discriminate; try (intros X; inv X; discriminate).
  - apply GO.
  - destruct (rs_apply_rule r0 t) as [[times|] t'|]; [apply IH|apply GO|discriminate].
Qed.
Lemma one_of_slot r : (mr_result r = undfnd -> mr_last_slot r <> None) -> one_of r.
Proof.
  intros S. unfold one_of, mr_undfnd_panics, mr_halted, mr_simple, mr_undfnd, mr_infrul, mr_spnout, mr_xlimit, mr_cfglim.
  destruct r as [res st cy mk ra bl ls]; cbn [mr_result mr_last_slot mr_steps] in *.
  destruct res; (repeat (split; [try reflexivity|])); auto 12.
  all: destruct ls as [sl|]; [|exfalso; now apply S]; cbn; try reflexivity.
  left. repeat split. discriminate.
Qed.

Theorem rust_one_of : (forall comp lim, one_of (run_quick_machine comp lim))
  /\ forall M lim r, rs_run_prover M lim = Some r -> one_of r.
Proof.
  split.
  - intros comp lim. apply one_of_slot. apply quick_slot.
  - intros M lim r E. apply one_of_slot. unfold rs_run_prover in E. destruct (rs_prover_loop _ _ _ _ _ _ _ _ _) as [[r' pv]|] eqn:F; [|discriminate].
    inv E. eapply prover_slot; eauto.
Qed.
