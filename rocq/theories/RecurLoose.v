(** Lemmas about run_loose_linrec_machine. *)
From Verif Require Import Base TM TMFacts ProgModel TapeModel TapeSpec TapeProofs QuickModel QuickProofs TermRecModel TermRecSpec
  TermRecProofs BlocksProofs TermRecComplete RecurModel RecurSpec RecurProofs RecurStrict RecurComplete.

(** ** Slices *)
Lemma near_spec s : forall d, wf_span s -> 0 <= d -> length (hp_near s d) = Z.to_nat d
  /\ forall i, (i < Z.to_nat d)%nat -> nth i (hp_near s d) 0 = cell s (Z.of_nat i).
Proof.
  induction s as [|b s IH]; intros d W D; cbn [hp_near].
  - rewrite repeat_length. split; auto. intros i I. apply nth_repeat_lt. auto.
  - inv W. destruct (Z.leb_spec d (b_count b)) as [L|L].
    + rewrite repeat_length. split; auto. intros i I. rewrite nth_repeat_lt by auto. rewrite cell_ge.
      rewrite (proj2 (Z.ltb_lt _ _)) by lia. auto.
    + destruct (IH (d - b_count b) H2 ltac:(lia)) as (A & B). rewrite app_length, repeat_length, A. split; [lia|].
      intros i I. rewrite cell_ge. destruct (Z.ltb_spec (Z.of_nat i) (b_count b)) as [Q|Q].
      * rewrite app_nth1 by (rewrite repeat_length; lia). apply nth_repeat_lt. lia.
      * rewrite app_nth2 by (rewrite repeat_length; lia). rewrite repeat_length, B by lia. f_equal. lia.
Qed.

Lemma near_len s d : wf_span s -> length (if d >? 0 then hp_near s d else []) = Z.to_nat d.
Proof.
  intros W. destruct (Z.gtb_spec d 0); [apply near_spec; auto; lia|]. cbn. lia.
Qed.

Lemma slices_near s s' f f' d : wf_span s -> wf_span s' ->
  (if d >? 0 then hp_near s d else []) ++ f = (if d >? 0 then hp_near s' d else []) ++ f' ->
  f = f' /\ forall i, 0 <= i < d -> cell s i = cell s' i.
Proof.
  intros W W' E. assert (L : length (if d >? 0 then hp_near s d else []) = length (if d >? 0 then hp_near s' d else [])).
  { rewrite !near_len; auto. }
  assert (X : (if d >? 0 then hp_near s d else []) = (if d >? 0 then hp_near s' d else []) /\ f = f').
  { revert L E. generalize (if d >? 0 then hp_near s d else []) (if d >? 0 then hp_near s' d else []).
    induction l as [|x l IH]; intros [|y l'] L E; cbn in *; try discriminate; auto. injection E as <- E.
    destruct (IH l' ltac:(lia) E) as (<- & <-). auto. }
  destruct X as (X & ->). split; auto. intros i I. destruct (Z.gtb_spec d 0); [|lia].
  destruct (near_spec s d W ltac:(lia)) as (_ & A). destruct (near_spec s' d W' ltac:(lia)) as (_ & B).
  specialize (A (Z.to_nat i) ltac:(lia)). specialize (B (Z.to_nat i) ltac:(lia)). rewrite X, B in A.
  rewrite Z2Nat.id in A by lia. auto.
Qed.

Lemma unroll_cells s s' : wf_span s -> wf_span s' -> unroll_span s = unroll_span s' -> forall i, 0 <= i -> cell s i = cell s' i.
Proof. intros W W' E i I. rewrite !unroll_nth by auto. rewrite E. auto. Qed.

(** ** What an alignment says *)
Lemma hp_aligned c d lm rm ht hr :
  wf_tape (h_tape ht) -> wf_tape (h_tape hr) ->
  represents (h_tape hr) c -> represents (h_tape ht) d ->
  c_pos c = h_head hr -> c_pos d = h_head ht -> t_scan (h_tape ht) = t_scan (h_tape hr) ->
  hp_aligns_with ht hr lm rm = true ->
  let k := c_pos d - c_pos c in
  (k = 0 /\ forall p, c_tape d p = c_tape c p)
  \/ (0 < k /\ forall p, lm <= p -> c_tape d (p + k) = c_tape c p)
  \/ (k < 0 /\ forall p, p <= rm -> c_tape d (p + k) = c_tape c p).
Proof.
  intros Wd Wc Rc Rd Pc Pd ES H k. unfold hp_aligns_with in H.
  apply represents_iff in Rc. destruct Rc as (Sc & Hc). apply represents_iff in Rd. destruct Rd as (Sd & Hd).
  assert (X : forall e (dir : bool) p, (if dir then c_pos e < p else p < c_pos e) ->
     c_tape e p = half e dir (if dir then p - c_pos e - 1 else c_pos e - p - 1)).
  { intros e dir p L. unfold half. f_equal. destruct dir; lia. }
  replace (h_head ht - h_head hr) with k in H by (unfold k; lia).
  pose proof Wd as (WdL & WdR). pose proof Wc as (WcL & WcR).
  destruct (Z.ltb_spec 0 k) as [L|L]; [|destruct (Z.ltb_spec k 0) as [L'|L']].
  - right; left. split; auto. apply slice_eqb_eq in H. unfold hp_slice in H.
    replace (h_head ht - (lm + k)) with (h_head hr - lm) in H by (unfold k; lia).
    apply slices_near in H; auto. destruct H as (F & N). pose proof (unroll_cells _ _ WcR WdR F) as G.
    intros p Hp. destruct (Z.lt_trichotomy p (c_pos c)) as [Q|[Q|Q]].
    + rewrite (X d false), (X c false) by (unfold k in *; lia). rewrite Hd, Hc by (unfold k; lia). unfold side.
      rewrite N by lia. f_equal. unfold k. lia.
    + subst p. replace (c_pos c + k) with (c_pos d) by (unfold k; lia). congruence.
    + rewrite (X d true), (X c true) by (unfold k in *; lia). rewrite Hd, Hc by (unfold k; lia). unfold side.
      rewrite G by lia. f_equal. unfold k. lia.
  - right; right. split; auto. apply slice_eqb_eq in H. unfold hp_slice in H.
    replace (rm + k - h_head ht) with (rm - h_head hr) in H by (unfold k; lia).
    apply slices_near in H; auto. destruct H as (F & N). pose proof (unroll_cells _ _ WcL WdL F) as G.
    intros p Hp. destruct (Z.lt_trichotomy p (c_pos c)) as [Q|[Q|Q]].
    + rewrite (X d false), (X c false) by (unfold k in *; lia). rewrite Hd, Hc by (unfold k; lia). unfold side.
      rewrite G by lia. f_equal. unfold k. lia.
    + subst p. replace (c_pos c + k) with (c_pos d) by (unfold k; lia). congruence.
    + rewrite (X d true), (X c true) by (unfold k in *; lia). rewrite Hd, Hc by (unfold k; lia). unfold side.
      rewrite N by lia. f_equal. unfold k. lia.
  - left. split; [lia|]. unfold hp_eqb in H. apply andb_true_iff in H as (H & H4). apply andb_true_iff in H as (H & H3).
    apply andb_true_iff in H as (H1 & H2). apply span_eqb_eq in H1. apply span_eqb_eq in H3. assert (P : c_pos d = c_pos c) by (unfold k in *; lia).
    intros p. destruct (Z.lt_trichotomy p (c_pos c)) as [Q|[Q|Q]].
    + rewrite (X d false), (X c false) by lia. rewrite Hd, Hc by lia. unfold side. rewrite H1. f_equal. lia.
    + subst p. rewrite <- P at 1. congruence.
    + rewrite (X d true), (X c true) by lia. rewrite Hd, Hc by lia. unfold side. rewrite H3. f_equal. lia.
Qed.

Lemma hp_agree c d lm rm ht hr k :
  canon (h_tape ht) -> canon (h_tape hr) -> represents (h_tape hr) c -> represents (h_tape ht) d ->
  c_pos c = h_head hr -> c_pos d = h_head ht -> c_pos d = c_pos c + k -> lm <= c_pos c <= rm ->
  ((k = 0 /\ forall p, c_tape d p = c_tape c p)
   \/ (0 < k /\ forall p, lm <= p -> c_tape d (p + k) = c_tape c p)
   \/ (k < 0 /\ forall p, p <= rm -> c_tape d (p + k) = c_tape c p)) ->
  t_scan (h_tape ht) = t_scan (h_tape hr) /\ hp_aligns_with ht hr lm rm = true.
Proof.
  intros Cd Cc Rc Rd Pc Pd PK B H.
  pose proof (canon_wf _ Cd) as Wd. pose proof (canon_wf _ Cc) as Wc. pose proof Wd as (WdL & WdR). pose proof Wc as (WcL & WcR).
  apply represents_iff in Rc as (Sc & Rc). apply represents_iff in Rd as (Sd & Rd).
  assert (NE : forall s s' d, wf_span s -> wf_span s' -> (forall i, 0 <= i < d -> cell s i = cell s' i) ->
     (if d >? 0 then hp_near s d else []) = (if d >? 0 then hp_near s' d else [])).
  { intros s s' d0 W W' E. destruct (Z.gtb_spec d0 0); auto. destruct (near_spec s d0 W ltac:(lia)) as (A1 & A2).
    destruct (near_spec s' d0 W' ltac:(lia)) as (B1 & B2). apply (nth_ext _ _ 0 0); [lia|]. intros i I. rewrite A2, B2 by lia. apply E. lia. }
  split.
  { rewrite <- Sc, <- Sd. destruct H as [(K & H)|[(K & H)|(K & H)]]; [rewrite <- H|rewrite <- H by lia|rewrite <- H by lia]; f_equal; lia. }
  unfold hp_aligns_with. replace (h_head ht - h_head hr) with k by lia.
  destruct H as [(K & H)|[(K & H)|(K & H)]].
  - subst k. change (0 <? 0) with false. cbv iota. unfold hp_eqb.
    assert (EL : t_lspan (h_tape ht) = t_lspan (h_tape hr)).
    { apply (canon_unique (side (h_tape ht) false) (side (h_tape hr) false)); try (apply canon_side; auto).
      intros i I. rewrite <- Rc, <- Rd by auto. unfold half. rewrite <- H. f_equal. lia. }
    assert (ER : t_rspan (h_tape ht) = t_rspan (h_tape hr)).
    { apply (canon_unique (side (h_tape ht) true) (side (h_tape hr) true)); try (apply canon_side; auto).
      intros i I. rewrite <- Rc, <- Rd by auto. unfold half. rewrite <- H. f_equal. lia. }
    assert (ES : t_scan (h_tape ht) = t_scan (h_tape hr)) by (rewrite <- Sc, <- Sd, <- H; f_equal; lia).
    rewrite EL, ER, ES, !span_eqb_refl, Z.eqb_refl. cbn [andb]. apply Z.eqb_eq. lia.
  - rewrite (proj2 (Z.ltb_lt 0 k)) by lia.
    replace (hp_slice ht (lm + k) true) with (hp_slice hr lm true); [apply slice_eqb_refl|].
    unfold hp_slice. replace (h_head ht - (lm + k)) with (h_head hr - lm) by lia.
    f_equal.
    + apply NE; auto. intros i I. change (t_lspan (h_tape hr)) with (side (h_tape hr) false). change (t_lspan (h_tape ht)) with (side (h_tape ht) false).
      rewrite <- Rc, <- Rd by lia. unfold half. rewrite <- H by lia. f_equal. lia.
    + f_equal. symmetry. apply (canon_unique (side (h_tape ht) true) (side (h_tape hr) true)); try (apply canon_side; auto).
      intros i I. rewrite <- Rc, <- Rd by auto. unfold half. rewrite <- H by lia. f_equal. lia.
  - rewrite (proj2 (Z.ltb_ge 0 k)), (proj2 (Z.ltb_lt k 0)) by lia.
    replace (hp_slice ht (rm + k) false) with (hp_slice hr rm false); [apply slice_eqb_refl|].
    unfold hp_slice. replace (rm + k - h_head ht) with (rm - h_head hr) by lia.
    f_equal.
    + apply NE; auto. intros i I. change (t_rspan (h_tape hr)) with (side (h_tape hr) true). change (t_rspan (h_tape ht)) with (side (h_tape ht) true).
      rewrite <- Rc, <- Rd by lia. unfold half. rewrite <- H by lia. f_equal. lia.
    + f_equal. symmetry. apply (canon_unique (side (h_tape ht) false) (side (h_tape hr) false)); try (apply canon_side; auto).
      intros i I. rewrite <- Rc, <- Rd by auto. unfold half. rewrite <- H by lia. f_equal. lia.
Qed.

(** ** What a run reports *)
Definition loose_ok (M : program) (low : Z) (r : machine_result) : Prop :=
  0 <= mr_steps r /\ exists c, steps M (Z.to_nat (mr_steps r)) init = Some c /\ binv M (mr_blanks r) (Z.to_nat (mr_steps r))
  /\ match mr_result r with
     | undfnd => exists s, mr_last_slot r = Some s /\ halts_at M (Z.to_nat (mr_steps r)) s
     | spnout => spins_out_from M c
     | infrul => recurs M
     | xlimit => low <= mr_steps r
     | _ => False
     end.

(** Two blank tapes in the same state. *)
Lemma blanks_recur M n m c d : (n < m)%nat -> steps M n init = Some c -> steps M m init = Some d -> is_blank c -> is_blank d ->
  c_state c = c_state d -> recurs M.
Proof.
  intros L E F B D S. exists n, (m - n)%nat, c, d, (c_pos d - c_pos c). split; [lia|]. split; [auto|]. split.
  { rewrite <- F. replace m with (n + (m - n))%nat at 2 by lia. rewrite (steps_add_some _ _ _ _ _ E). auto. }
  split; [auto|]. split; [lia|].
  destruct (Z.lt_trichotomy (c_pos d - c_pos c) 0) as [Q|[Q|Q]]; [right; right|left|right; left]; (split; [auto|]); intros; rewrite B, D; auto.
Qed.

Lemma loose_loop_ok comp fuel : forall cycle tp state step blanks c rs rt lm rm reset tr cr,
  at_time (machine_of comp) state tp step c -> binv (machine_of comp) blanks step ->
  at_time (machine_of comp) rs rt tr cr -> (tr <= step)%nat ->
  (forall u e, (tr <= u <= step)%nat -> steps (machine_of comp) u init = Some e -> lm <= c_pos e <= rm) ->
  loose_ok (machine_of comp) (Z.of_nat step + Z.of_nat fuel) (loose_loop comp fuel cycle tp state (Z.of_nat step) blanks rs rt lm rm reset).
Proof.
  induction fuel as [|fuel IH]; intros cycle tp state step blanks c rs rt lm rm reset tr cr A BI AR LR GE; pose proof A as [A1 A2 A3 A4 A5].
  { cbn [loose_loop]. split; cbn [mr_steps mr_blanks mr_result]; [lia|]. exists c. rewrite Nat2Z.id. split; [auto|]. split; [auto|]. lia. }
  cbn [loose_loop].
  assert (SC : c_tape c (c_pos c) = t_scan (h_tape tp)) by (apply represents_iff; auto).
  assert (REF : exists rs' rt' lm' rm' reset' tr' cr',
     (if Z.of_nat step <? reset then (rs, rt, lm, rm, reset) else (state, tp, h_head tp, h_head tp, 2 * Z.of_nat step))
       = (rs', rt', lm', rm', reset')
     /\ at_time (machine_of comp) rs' rt' tr' cr' /\ (tr' <= step)%nat
     /\ (forall u e, (tr' <= u <= step)%nat -> steps (machine_of comp) u init = Some e -> lm' <= c_pos e <= rm')).
  { destruct (Z.of_nat step <? reset).
    - do 5 eexists. exists tr, cr. split; [reflexivity|]. auto.
    - do 5 eexists. exists step, c. split; [reflexivity|]. split; [auto|]. split; [auto|]. intros u e U E.
      replace u with step in E by lia. rewrite A1 in E. injection E as <-. lia. }
  clear AR LR GE. destruct REF as (rs' & rt' & lm' & rm' & reset' & tr' & cr' & -> & AR & LR & GE).
  destruct (comp_get comp (state, t_scan (h_tape tp))) as [[[color shift] next]|] eqn:EG.
  2:{ split; cbn [mr_steps mr_blanks mr_result mr_last_slot]; [lia|]. exists c. rewrite Nat2Z.id. split; [auto|]. split; [auto|].
      eexists. split; [reflexivity|]. exists c. cbn [fst snd]. auto. }
  destruct ((state =? next) && t_at_edge (h_tape tp) shift) eqn:EE.
  { split; cbn [mr_steps mr_blanks mr_result mr_last_slot]; [lia|]. exists c. rewrite Nat2Z.id. split; [auto|]. split; [auto|].
    apply andb_true_iff in EE. destruct EE as (Q & EE). apply Z.eqb_eq in Q. subst next.
    assert (S0 : t_scan (h_tape tp) = 0) by (unfold t_at_edge in EE; zb; auto).
    apply (spin_out_lemma _ _ shift color); [rewrite A5; rewrite S0 in EG; exact EG|].
    intros j J. eapply represents_edge; eauto. }
  destruct (hp_step tp shift color (state =? next)) as [tp' st] eqn:ES.
  destruct (hp_move comp state tp step c color shift next tp' st A EG ES) as (N & d & D1 & D2 & D3 & D4).
  pose proof (binv_step comp state tp step c color shift next tp' st blanks A EG ES BI) as BI'.
  replace (Z.of_nat step + st) with (Z.of_nat (step + Z.to_nat st)) by lia.
  pose proof D1 as [E1 E2 E3 E4 E5].
  assert (LMRM : exists lm2 rm2,
     (if h_head tp' <? lm' then (h_head tp', rm') else if rm' <? h_head tp' then (lm', h_head tp') else (lm', rm')) = (lm2, rm2)
     /\ lm2 <= lm' /\ rm' <= rm2 /\ lm2 <= h_head tp' <= rm2).
  { pose proof (GE step c ltac:(lia) A1). bdestr; do 2 eexists; (split; [reflexivity|lia]). }
  destruct LMRM as (lm2 & rm2 & EQ & L1 & L2 & L3).
  assert (GE' : forall u e, (tr' <= u <= step + Z.to_nat st)%nat -> steps (machine_of comp) u init = Some e -> lm2 <= c_pos e <= rm2).
  { intros u e U E. destruct (le_lt_dec u step) as [G|G]; [pose proof (GE u e ltac:(lia) E); lia|].
    assert (Ee : steps (machine_of comp) (u - step) c = Some e).
    { rewrite <- E. replace u with (step + (u - step))%nat at 2 by lia. rewrite (steps_add_some _ _ _ _ _ A1). auto. }
    pose proof (D3 (u - step)%nat e ltac:(lia) Ee) as X. pose proof (GE step c ltac:(lia) A1). unfold between in X. lia. }
  assert (REST : forall blanks', binv (machine_of comp) blanks' (step + Z.to_nat st) ->
    loose_ok (machine_of comp) (Z.of_nat step + Z.of_nat (S fuel))
      (let '(leftmost, rightmost) :=
         if h_head tp' <? lm' then (h_head tp', rm') else if rm' <? h_head tp' then (lm', h_head tp') else (lm', rm') in
       if (next =? rs') && (t_scan (h_tape tp') =? t_scan (h_tape rt')) && hp_aligns_with tp' rt' leftmost rightmost
       then MR infrul (Z.of_nat (step + Z.to_nat st)) (cycle + 1) 0 0 blanks' None
       else loose_loop comp fuel (cycle + 1) tp' next (Z.of_nat (step + Z.to_nat st)) blanks' rs' rt' leftmost rightmost reset')).
  { intros bl BI2. rewrite EQ.
    destruct ((next =? rs') && (t_scan (h_tape tp') =? t_scan (h_tape rt')) && hp_aligns_with tp' rt' lm2 rm2) eqn:EA.
    - split; cbn [mr_steps mr_blanks mr_result]; [lia|]. exists d. rewrite Nat2Z.id. split; [auto|]. split; [auto|].
      apply andb_true_iff in EA as (EA & AL). apply andb_true_iff in EA as (QS & QC). apply Z.eqb_eq in QS, QC.
      destruct AR as [R1 R2 R3 R4 R5].
      exists tr', (step + Z.to_nat st - tr')%nat, cr', d, (c_pos d - c_pos cr'). split; [lia|]. split; [auto|].
      assert (RD : steps (machine_of comp) (step + Z.to_nat st - tr') cr' = Some d).
      { rewrite <- E1. replace (step + Z.to_nat st)%nat with (tr' + (step + Z.to_nat st - tr'))%nat at 2 by lia.
        rewrite (steps_add_some _ _ _ _ _ R1). auto. }
      split; [exact RD|]. split; [congruence|]. split; [lia|].
      assert (GJ : forall j e, (j < step + Z.to_nat st - tr')%nat -> steps (machine_of comp) j cr' = Some e -> lm2 <= c_pos e <= rm2).
      { intros j e J Ee. apply (GE' (tr' + j)%nat); [lia|]. rewrite (steps_add_some _ _ _ _ _ R1). auto. }
      destruct (hp_aligned cr' d lm2 rm2 tp' rt') as [(K & X)|[(K & X)|(K & X)]]; auto using canon_wf; [right; left|right; right];
        (split; [auto|]); intros j e p J Ee P; apply X; pose proof (GJ j e J Ee); lia.
    - assert (OK : loose_ok (machine_of comp) (Z.of_nat (step + Z.to_nat st) + Z.of_nat fuel)
        (loose_loop comp fuel (cycle + 1) tp' next (Z.of_nat (step + Z.to_nat st)) bl rs' rt' lm2 rm2 reset')).
      { apply (IH _ _ _ _ _ d _ _ _ _ _ tr' cr'); auto. lia. }
      destruct OK as (O1 & c' & O2 & O3 & O4). split; [auto|]. exists c'. split; [auto|]. split; [auto|].
      destruct (mr_result _); auto. lia. }
  destruct ((color =? 0) && t_blank (h_tape tp')) eqn:EB; cbn [andb] in BI'; [|apply REST; exact BI'].
  apply andb_true_iff in EB as (Z0 & BL).
  assert (BD : is_blank d) by (eapply represents_blank; eauto).
  destruct (blanks_has blanks next) eqn:HB; cbn [negb] in BI'.
  - split; cbn [mr_steps mr_blanks mr_result]; [lia|]. exists d. rewrite Nat2Z.id. split; [auto|]. split; [exact BI'|].
    assert (IN : exists k', In (next, k') blanks).
    { clear -HB. induction blanks as [|[s' k'] l IH]; cbn in HB; [discriminate|]. apply orb_prop in HB.
      destruct HB as [HB|HB]; [zb; subst; exists k'; left; auto|]. destruct (IH HB) as (x & X). exists x. right. auto. }
    destruct IN as (k' & IN). destruct BI as (B1 & _). destruct (B1 _ _ IN) as (X & (_ & e & Ee & Se & Be & _)).
    eapply (blanks_recur _ (Z.to_nat k') (step + Z.to_nat st) e d); eauto; [lia|congruence].
  - destruct (Z.eqb_spec next 0) as [->|NZ]; [|apply REST; exact BI'].
    split; cbn [mr_steps mr_blanks mr_result]; [lia|]. exists d. rewrite Nat2Z.id. split; [auto|]. split; [exact BI'|].
    apply (blanks_recur _ 0 (step + Z.to_nat st) init d); auto; [lia|intros p; reflexivity].
Qed.

Lemma init_stepped_at comp : comp_get comp (0, 0) = Some (1, true, 1) -> exists c, at_time (machine_of comp) 1 ht_init_stepped 1 c.
Proof.
  intros H0. exists (Cfg 1 1 (write blank_tape 0 1)). constructor; auto.
  - cbn. unfold step. cbn. unfold blank_tape, machine_of. rewrite H0. reflexivity.
  - intro i. cbn. unfold write, blank_tape, tape_cell. cbn [cell b_count b_color t_scan t_lspan t_rspan]. bdestr; auto; lia.
  - cbn. repeat split; cbn; lia.
Qed.

Lemma loose_run_ok comp lim : comp_get comp (0, 0) = Some (1, true, 1) ->
  loose_ok (machine_of comp) (Z.of_nat lim) (run_loose_linrec_machine comp lim).
Proof.
  intros H0. destruct (init_stepped_at comp H0) as (c & A). unfold run_loose_linrec_machine. change 1 with (Z.of_nat 1) at 3.
  assert (BI : binv (machine_of comp) [] 1).
  { split; [intros s k []|]. intros j d J Ej B. replace j with 1%nat in Ej by lia. rewrite (at_run _ _ _ _ _ A) in Ej. injection Ej as <-.
    pose proof (proj2 (blank_tape_iff _ _ (at_can _ _ _ _ _ A) (at_rep _ _ _ _ _ A)) B) as X. discriminate. }
  pose proof (loose_loop_ok comp (lim - 1) 1 ht_init_stepped 1 1 [] c 1 ht_init_stepped 1 1 1 1 c A BI A (le_n _)) as OK.
  destruct OK as (O1 & c' & O2 & O3 & O4).
  { intros u e U Ee. replace u with 1%nat in Ee by lia. rewrite (at_run _ _ _ _ _ A) in Ee. injection Ee as <-.
    rewrite (at_pos _ _ _ _ _ A). cbn. lia. }
  split; [auto|]. exists c'. split; [auto|]. split; [auto|]. destruct (mr_result _); auto. lia.
Qed.

(** ** Every recurrence is found *)
Section comp.
Variable comp : comp_prog.
Let M := machine_of comp.
Hypothesis NH : never_halts M.
Hypothesis H0 : comp_get comp (0, 0) = Some (1, true, 1).
Local Notation C := (C comp).
Local Notation sT := (sT comp).
Local Notation sS := (sS comp).
Local Notation sH := (sH comp).

Definition done (r : machine_result) : Prop := mr_result r = infrul \/ mr_result r = spnout.

Lemma pass_one : sy comp 1 = (1, ht_init_stepped, 1%nat).
Proof. cbn [sy]. unfold sy_step, hp_init. cbn. rewrite H0. reflexivity. Qed.

Record lref (i j : nat) (lm rm reset : Z) : Prop := {
  lr_le : (1 <= i < j)%nat;
  lr_reset : reset = 2 * Z.of_nat (sT i);
  lr_in : Z.of_nat (sT (j - 1)) < reset;
  lr_geo : geo comp (sT i) (sT j) lm rm;
  lr_none : forall v, (i < v <= j)%nat -> ~ recurs_at M (sT i) (sT v - sT i)
}.

(** At pass j, with the reference at pass i. *)
Definition at_pass (j i : nat) (f : nat -> machine_result) : Prop :=
  (exists r, done r /\ forall x, f x = r)
  \/ exists blanks lm rm reset, lref i j lm rm reset /\
      forall x, f x = loose_loop comp x (Z.of_nat j) (sH j) (sS j) (Z.of_nat (sT j)) blanks (sS i) (sH i) lm rm reset.

(** One pass, with the reference as it is then. *)
Lemma loose_pass j i blanks lm rm reset rs rt lm0 rm0 reset0 :
  (1 <= i <= j)%nat ->
  (if Z.of_nat (sT j) <? reset0 then (rs, rt, lm0, rm0, reset0) else (sS j, sH j, h_head (sH j), h_head (sH j), 2 * Z.of_nat (sT j)))
    = (sS i, sH i, lm, rm, reset) ->
  reset = 2 * Z.of_nat (sT i) -> Z.of_nat (sT j) < reset -> geo comp (sT i) (sT j) lm rm ->
  (forall v, (i < v <= j)%nat -> ~ recurs_at M (sT i) (sT v - sT i)) ->
  at_pass (S j) i (fun x => loose_loop comp (S x) (Z.of_nat j) (sH j) (sS j) (Z.of_nat (sT j)) blanks rs rt lm0 rm0 reset0).
Proof.
  intros IJ EQ RS LT GE NO. pose proof (sy_at comp NH j) as A. destruct (sy_instr comp NH j A) as (color & shift & next & EG).
  unfold at_pass. cbn [loose_loop]. rewrite EQ, EG.
  destruct ((sS j =? next) && t_at_edge (h_tape (sH j)) shift) eqn:EE.
  { left. eexists. split; [|intros x; reflexivity]. right. reflexivity. }
  destruct (hp_step (sH j) shift color (sS j =? next)) as [tp' st] eqn:ES.
  pose proof (sy_next comp j _ _ _ _ _ EG ES) as E. rewrite sy_eq in E. injection E as E1 E2 E3.
  destruct (hp_move comp _ _ _ _ _ _ _ _ _ A EG ES) as (N & d & D1 & D2 & D3 & _).
  replace (Z.of_nat (sT j) + st) with (Z.of_nat (sT (S j))) by lia. rewrite <- E1, <- E2 in *.
  pose proof (sy_at comp NH (S j)) as A'.
  assert (d = C (sT (S j))).
  { pose proof (C_run comp NH (sT (S j))) as X. pose proof (at_run _ _ _ _ _ D1) as Y. rewrite <- E3 in Y. fold M in X. unfold M in *. congruence. }
  subst d.
  assert (LMRM : exists lm2 rm2,
     (if h_head (sH (S j)) <? lm then (h_head (sH (S j)), rm) else if rm <? h_head (sH (S j)) then (lm, h_head (sH (S j))) else (lm, rm)) = (lm2, rm2)
     /\ geo comp (sT i) (sT (S j)) lm2 rm2).
  { destruct GE as (G1 & (ul & U1 & U2) & (ur & V1 & V2)).
    pose proof (at_pos _ _ _ _ _ A') as PP. pose proof (sT_mono comp NH i j ltac:(lia)) as MO. pose proof (sT_S comp NH j) as MS.
    assert (IN : forall u, (sT j <= u <= sT (S j))%nat -> between (c_pos (C (sT j))) (c_pos (C (sT (S j)))) (c_pos (C u))).
    { intros u U. apply (D3 (u - sT j)%nat); [lia|]. rewrite (C_from comp NH). f_equal. f_equal. lia. }
    pose proof (G1 (sT j) ltac:(lia)) as GJ.
    assert (BOX : forall lm2 rm2, lm2 <= lm -> rm <= rm2 -> lm2 <= h_head (sH (S j)) <= rm2 ->
       forall u, (sT i <= u <= sT (S j))%nat -> lm2 <= c_pos (C u) <= rm2).
    { intros lm2 rm2 X1 X2 X3 u U. destruct (le_lt_dec u (sT j)) as [G|G]; [pose proof (G1 u ltac:(lia)); lia|].
      pose proof (IN u ltac:(lia)) as X. unfold between in X. lia. }
    destruct (Z.ltb_spec (h_head (sH (S j))) lm) as [Q|Q]; [|destruct (Z.ltb_spec rm (h_head (sH (S j)))) as [Q'|Q']];
      do 2 eexists; (split; [reflexivity|]); (split; [apply BOX; lia|]); split;
      first [exists (sT (S j)); split; [lia|exact PP] | exists ul; split; [lia|exact U2] | exists ur; split; [lia|exact V2]]. }
  destruct LMRM as (lm2 & rm2 & EQ2 & GE2). rewrite EQ2.
  assert (REST : forall bl, at_pass (S j) i (fun x =>
     if (sS (S j) =? sS i) && (t_scan (h_tape (sH (S j))) =? t_scan (h_tape (sH i))) && hp_aligns_with (sH (S j)) (sH i) lm2 rm2
     then MR infrul (Z.of_nat (sT (S j))) (Z.of_nat j + 1) 0 0 bl None
     else loose_loop comp x (Z.of_nat j + 1) (sH (S j)) (sS (S j)) (Z.of_nat (sT (S j))) bl (sS i) (sH i) lm2 rm2 reset)).
  { intros bl. unfold at_pass.
    destruct ((sS (S j) =? sS i) && (t_scan (h_tape (sH (S j))) =? t_scan (h_tape (sH i))) && hp_aligns_with (sH (S j)) (sH i) lm2 rm2) eqn:EA.
    { left. eexists. split; [|intros x; reflexivity]. left. reflexivity. }
    right. exists bl, lm2, rm2, reset. split; [|intros x; f_equal; lia]. constructor; auto.
    - lia.
    - replace (S j - 1)%nat with j by lia. auto.
    - intros v V RC. destruct (Nat.eq_dec v (S j)) as [->|NE]; [|apply (NO v); auto; lia].
      pose proof (sT_lt comp NH i (S j) ltac:(lia)) as LTT.
      destruct (recurs_run comp NH _ _ RC) as (k & R & _ & AG & IR & RG). destruct (AG (sT i) ltac:(lia)) as (ST & P & T).
      replace (sT i + (sT (S j) - sT i))%nat with (sT (S j)) in * by lia.
      pose proof (sy_at comp NH i) as [X1 X2 X3 X4 X5]. pose proof A' as [Y1 Y2 Y3 Y4 Y5].
      destruct GE2 as (G1 & (ul & U1 & U2) & (ur & V1 & V2)).
      pose proof (IR ul ltac:(lia)) as RL. rewrite U2 in RL. pose proof (IR ur ltac:(lia)) as RR. rewrite V2 in RR.
      destruct (hp_agree (C (sT i)) (C (sT (S j))) lm2 rm2 (sH (S j)) (sH i) k) as (Z1 & Z2); auto.
      { apply G1. lia. }
      { destruct RG as [(K & RG)|[(K & RG)|(K & RG)]]; [left|right; left|right; right]; (split; [auto|]).
        - intros p. rewrite <- (T p) by auto. f_equal. lia.
        - intros p LP. apply T, (RG lm2); auto.
        - intros p LP. apply T, (RG rm2); auto. }
      rewrite Z1, Z2, Z.eqb_refl in EA. rewrite <- X5, <- Y5, ST, Z.eqb_refl in EA. discriminate EA. }
  destruct ((color =? 0) && t_blank (h_tape (sH (S j)))); [|apply REST].
  destruct (blanks_has blanks (sS (S j))).
  { left. eexists. split; [|intros x; reflexivity]. left. reflexivity. }
  destruct (sS (S j) =? 0); [|apply REST].
  left. eexists. split; [|intros x; reflexivity]. left. reflexivity.
Qed.

Definition run_from (j x : nat) : machine_result := run_loose_linrec_machine comp (j + x).

Lemma loose_first : at_pass 2 1 (run_from 2).
Proof.
  pose proof pass_one as P1. rewrite sy_eq in P1. injection P1 as P1 P2 P3.
  pose proof (loose_pass 1 1 [] 1 1 2 1 ht_init_stepped 1 1 1) as X. rewrite P1, P2, P3 in X. change (Z.of_nat 1) with 1 in X.
  assert (GE : geo comp 1 1 1 1).
  { assert (Q : c_pos (C 1) = 1).
    { pose proof (at_pos _ _ _ _ _ (sy_at comp NH 1)) as Q. rewrite P2, P3 in Q. exact Q. }
    split; [|split; exists 1%nat; auto]. intros u U. replace u with 1%nat by lia. lia. }
  specialize (X ltac:(lia) eq_refl eq_refl ltac:(lia) GE ltac:(intros; lia)).
  destruct X as [(r & D & X)|X]; [left|right]; exact X || (exists r; split; auto).
Qed.

Lemma loose_next j i : at_pass j i (run_from j) -> at_pass (S j) i (run_from (S j)) \/ at_pass (S j) j (run_from (S j)).
Proof.
  intros [(r & D & X)|(blanks & lm & rm & reset & LR & X)].
  { left. left. exists r. split; auto. intros x. unfold run_from. replace (S j + x)%nat with (j + S x)%nat by lia. apply X. }
  destruct LR as [L1 L2 L3 L4 L5].
  assert (EX : forall x, run_from (S j) x = loose_loop comp (S x) (Z.of_nat j) (sH j) (sS j) (Z.of_nat (sT j)) blanks (sS i) (sH i) lm rm reset).
  { intros x. rewrite <- X. unfold run_from. f_equal. lia. }
  assert (T : forall f g i', (forall x, f x = g x) -> at_pass (S j) i' g -> at_pass (S j) i' f).
  { intros f g i' FG [(r & D & Y)|(b & l & r & s & Y1 & Y2)]; [left; exists r|right; exists b, l, r, s]; (split; [auto|]); intros x; rewrite FG; auto. }
  destruct (Z.ltb_spec (Z.of_nat (sT j)) reset) as [Q|Q].
  - left. apply (T _ _ _ EX). apply (loose_pass j i blanks lm rm reset); auto; [lia|]. rewrite (proj2 (Z.ltb_lt _ _)) by lia. auto.
  - right. apply (T _ _ _ EX). apply (loose_pass j j blanks (h_head (sH j)) (h_head (sH j)) (2 * Z.of_nat (sT j))); auto; try lia.
    + rewrite (proj2 (Z.ltb_ge _ _)) by lia. auto.
    + pose proof (at_pos _ _ _ _ _ (sy_at comp NH j)) as PP. split; [|split; exists (sT j); split; auto; lia].
      intros u U. replace u with (sT j) by lia. lia.
Qed.

Lemma loose_keeps j i : (exists r, done r /\ forall x, run_from (S j) x = r) \/ (forall blanks lm rm reset, lref i j lm rm reset ->
   (forall x, run_from j x = loose_loop comp x (Z.of_nat j) (sH j) (sS j) (Z.of_nat (sT j)) blanks (sS i) (sH i) lm rm reset) ->
   Z.of_nat (sT j) < reset -> at_pass (S j) i (run_from (S j))).
Proof.
  right. intros blanks lm rm reset [L1 L2 L3 L4 L5] X Q.
  assert (EX : forall x, run_from (S j) x = loose_loop comp (S x) (Z.of_nat j) (sH j) (sS j) (Z.of_nat (sT j)) blanks (sS i) (sH i) lm rm reset).
  { intros x. rewrite <- X. unfold run_from. f_equal. lia. }
  assert (Y : at_pass (S j) i (fun x => loose_loop comp (S x) (Z.of_nat j) (sH j) (sS j) (Z.of_nat (sT j)) blanks (sS i) (sH i) lm rm reset)).
  { apply (loose_pass j i blanks lm rm reset); auto; [lia|]. rewrite (proj2 (Z.ltb_lt _ _)) by lia. auto. }
  destruct Y as [(r & D & Y)|(b & l & r & s & Y1 & Y2)]; [left; exists r|right; exists b, l, r, s]; (split; [auto|]); intros x; rewrite EX; auto.
Qed.

Lemma loose_reach j : (2 <= j)%nat -> exists i, at_pass j i (run_from j).
Proof.
  induction 1 as [|j L (i & IH)]; [exists 1%nat; exact loose_first|]. destruct (loose_next j i IH); eauto.
Qed.

(** From a reference on, up to the pass at which its period is over. *)
Lemma loose_same i v : forall d j, (j + d = v)%nat -> (2 <= j)%nat -> at_pass j i (run_from j) ->
  Z.of_nat (sT (v - 1)) < 2 * Z.of_nat (sT i) -> at_pass v i (run_from v).
Proof.
  induction d as [|d IH]; intros j E L2 AP LT; [replace v with j by lia; auto|].
  apply (IH (S j)); auto; try lia. destruct AP as [(r & D & X)|(blanks & lm & rm & reset & LR & X)].
  - left. exists r. split; auto. intros x. unfold run_from. replace (S j + x)%nat with (j + S x)%nat by lia. apply X.
  - destruct (loose_keeps j i) as [K|K]; [left; auto|]. apply (K blanks lm rm reset); auto.
    rewrite (lr_reset _ _ _ _ _ LR). pose proof (sT_mono comp NH j (v - 1) ltac:(lia)). lia.
Qed.

Lemma loose_found n m : recurs_at M n m -> exists r L, done r /\ forall lim, (L <= lim)%nat -> run_loose_linrec_machine comp lim = r.
Proof.
  intros RC. assert (Hm : (0 < m)%nat) by (destruct RC as (? & ? & ? & ? & _); auto).
  pose proof (recurs_trace comp NH _ _ RC) as TM.
  set (N := (n + m + 2)%nat). set (J := (2 * N + 3)%nat). pose proof (sT_ge comp NH (J - 1)) as GJ.
  assert (FIN : forall j, (exists r, done r /\ forall x, run_from j x = r) ->
     exists r L, done r /\ forall lim, (L <= lim)%nat -> run_loose_linrec_machine comp lim = r).
  { intros j (r & D & X). exists r, j. split; auto. intros lim L. rewrite <- (X (lim - j)%nat). unfold run_from. f_equal. lia. }
  destruct (loose_reach J ltac:(lia)) as (i & AP). pose proof AP as [E|(blanks & lm & rm & reset & LR & X)]; [apply (FIN J); auto|].
  destruct LR as [L1 L2 L3 L4 L5]. clear X L4.
  assert (BIG : (N < sT i)%nat) by lia.
  destruct i as [|i']; [lia|]. set (i := S i') in *.
  assert (V : exists v, sT v = (sT i + m)%nat \/ edge comp i' = true).
  { destruct (pass_ends comp NH i') as [E|E]; [exists 0%nat; auto|].
    pose proof (sT_ge comp NH (S (sT i + m))) as GB.
    destruct (find_pass comp NH (sT i + m) (S (sT i + m)) i ltac:(lia)) as (u & U1 & U2). exists u. left.
    destruct (Nat.eq_dec (sT u) (sT i + m)) as [|Q]; auto. exfalso.
    destruct (pass_inside comp NH u (sT i + m) ltac:(lia)) as (_ & X). apply E. fold i.
    rewrite <- (TM (sT i)) by lia. rewrite <- X. rewrite <- (TM (sT i - 1)%nat) by lia. f_equal. lia. }
  destruct V as (v & [V|V]).
  - assert (RV : recurs_at M (sT i) (sT v - sT i)).
    { replace (sT v - sT i)%nat with m by lia. apply (recurs_later comp NH n); auto. lia. }
    assert (IV : (i < v)%nat) by (apply (sT_inj comp NH); lia).
    assert (JV : (J < v)%nat).
    { destruct (le_lt_dec v J) as [G|G]; auto. exfalso. apply (L5 v); auto. }
    assert (APv : at_pass v i (run_from v)).
    { apply (loose_same i v (v - J) J); auto; try lia. pose proof (sT_lt comp NH (v - 1) v ltac:(lia)). lia. }
    destruct APv as [E|(b & l & r & s & [Q1 Q2 Q3 Q4 Q5] & Q)]; [apply (FIN v); auto|]. exfalso. apply (Q5 v); auto; lia.
  - destruct (edge_spins comp NH i' V) as (E1 & E2). fold i in E1.
    exfalso. apply (L5 (S i)); [lia|].
    assert (E3 : sT (S i) = S (sT i)).
    { pose proof (pass_ends comp NH i) as [E|E]; [apply (edge_spins comp NH i E)|]. exfalso. apply E.
      pose proof (sT_S comp NH i). rewrite (E2 (sT (S i) - 1)%nat), (E2 (sT (S i))) by lia. auto. }
    rewrite E3. replace (S (sT i) - sT i)%nat with 1%nat by lia. apply (trace_recurs comp NH); [lia|].
    intros t T. rewrite (E2 (t + 1)%nat), (E2 t) by lia. auto.
Qed.
End comp.

Lemma loose_finds comp : comp_get comp (0, 0) = Some (1, true, 1) -> recurs (machine_of comp) ->
  exists r L, (mr_result r = infrul \/ mr_result r = spnout) /\ forall lim, (L <= lim)%nat -> run_loose_linrec_machine comp lim = r.
Proof.
  intros H0 RC. pose proof (recurs_never_halts _ RC) as NH. destruct RC as (n & m & c & d & k & H).
  apply (loose_found comp NH H0 n m). exists c, d, k. exact H.
Qed.

Lemma loose_says comp lim : comp_get comp (0, 0) = Some (1, true, 1) -> let r := run_loose_linrec_machine comp lim in
  0 <= mr_steps r /\ exists c, steps (machine_of comp) (Z.to_nat (mr_steps r)) init = Some c
  /\ match mr_result r with
     | undfnd => exists s, mr_last_slot r = Some s /\ halts_at (machine_of comp) (Z.to_nat (mr_steps r)) s
     | spnout => spins_out_from (machine_of comp) c
     | infrul => recurs (machine_of comp)
     | xlimit => Z.of_nat lim <= mr_steps r
     | _ => False
     end.
Proof.
  intros H0. cbn zeta. destruct (loose_run_ok comp lim H0) as (O1 & c & O2 & _ & O3). split; [auto|]. exists c. auto.
Qed.

Lemma spins_recurs comp n c : steps (machine_of comp) n init = Some c -> spins_out_from (machine_of comp) c -> recurs (machine_of comp).
Proof.
  intros E (dir & SP). apply (recurs_at_recurs _ n 1). apply recurs_at_trace; [lia|]. intros t L.
  destruct (SP (t - n)%nat) as (d & D1 & D2 & D3 & D4). destruct (SP (t - n + 1)%nat) as (e & E1 & E2 & E3 & E4).
  exists d, e. split; [rewrite <- D1; replace t with (n + (t - n))%nat at 1 by lia; rewrite (steps_add_some _ _ _ _ _ E); auto|].
  split; [rewrite <- E1; replace (t + 1)%nat with (n + (t - n + 1))%nat by lia; rewrite (steps_add_some _ _ _ _ _ E); auto|].
  split; congruence.
Qed.

Lemma loose_cyclers comp : comp_get comp (0, 0) = Some (1, true, 1) ->
  (exists lim, mr_result (run_loose_linrec_machine comp lim) = infrul \/ mr_result (run_loose_linrec_machine comp lim) = spnout)
  <-> recurs (machine_of comp).
Proof.
  intros H0. split.
  - intros (lim & H). destruct (loose_run_ok comp lim H0) as (O1 & c & O2 & _ & O3).
    destruct H as [H|H]; rewrite H in O3; [auto|]. eapply spins_recurs; eauto.
  - intros RC. destruct (loose_finds comp H0 RC) as (r & L & D & E). exists L. rewrite (E L (le_n _)). auto.
Qed.

Lemma loose_quick comp : comp_get comp (0, 0) = Some (1, true, 1) ->
  (exists lim, mr_result (run_loose_linrec_machine comp lim) = infrul \/ mr_result (run_loose_linrec_machine comp lim) = spnout)
  <-> (exists lim, quick_term_or_rec comp lim false = true).
Proof. intros H0. rewrite (loose_cyclers comp H0). symmetry. apply quick_term_or_rec_cyclers; auto. Qed.

Lemma loose_halts comp lim n s : comp_get comp (0, 0) = Some (1, true, 1) -> halts_at (machine_of comp) n s -> (n < lim)%nat ->
  let r := run_loose_linrec_machine comp lim in mr_result r = undfnd /\ mr_steps r = Z.of_nat n /\ mr_last_slot r = Some s.
Proof.
  intros H0 H L. cbn zeta. destruct (loose_says comp lim H0) as (O1 & c & O2 & O3).
  assert (HH : halts (machine_of comp)) by (exists n, s; auto).
  destruct (mr_result (run_loose_linrec_machine comp lim)) eqn:E; try (destruct O3; fail).
  - exfalso. destruct H as (d & D1 & D2 & D3 & D4).
    replace (Z.to_nat (mr_steps (run_loose_linrec_machine comp lim))) with (n + S (Z.to_nat (mr_steps (run_loose_linrec_machine comp lim)) - S n))%nat in O2 by lia.
    rewrite (steps_add_some _ _ _ _ _ D1) in O2.
    cbn [steps] in O2. unfold step in O2. rewrite D2, D3, D4 in O2. discriminate.
  - destruct (halts_not_never _ HH (recurs_never_halts _ O3)).
  - destruct (halts_not_never _ HH (spins_out_never_halts _ _ _ O2 O3)).
  - destruct O3 as (s' & S1 & S2). destruct (halts_at_unique _ _ _ _ _ H S2) as (X & Y). subst s'. split; [auto|]. split; [lia|auto].
Qed.

Lemma loose_blanks comp lim s k : comp_get comp (0, 0) = Some (1, true, 1) -> let r := run_loose_linrec_machine comp lim in
  In (s, k) (mr_blanks r) <-> 0 <= k <= mr_steps r /\ first_blank (machine_of comp) s (Z.to_nat k).
Proof.
  intros H0 r. destruct (loose_run_ok comp lim H0) as (O1 & c & O2 & (B1 & B2) & _). fold r in O1, O2, B1, B2. split.
  - intros I. destruct (B1 s k I) as (X & Y). split; [lia|auto].
  - intros (L & FB). pose proof FB as (N & d & D1 & D2 & D3 & D4).
    pose proof (B2 (Z.to_nat k) d ltac:(lia) D1 D3) as HB. rewrite D2 in HB.
    assert (IN : exists k', In (s, k') (mr_blanks r)).
    { clear -HB. induction (mr_blanks r) as [|[s' k'] l IH]; cbn in HB; [discriminate|]. apply orb_prop in HB.
      destruct HB as [HB|HB]; [zb; subst; exists k'; left; auto|]. destruct (IH HB) as (x & X). exists x. right. auto. }
    destruct IN as (k' & I'). replace k with k'; auto. destruct (B1 s k' I') as (X & (N' & d' & D1' & D2' & D3' & D4')).
    destruct (Nat.lt_trichotomy (Z.to_nat k) (Z.to_nat k')) as [LT|[EQ|LT]]; [|lia|]; exfalso.
    + apply (D4' (Z.to_nat k) d); auto; lia.
    + apply (D4 (Z.to_nat k') d'); auto; lia.
Qed.
