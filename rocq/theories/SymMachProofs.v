(** * Runs with symbolic counts stand for runs of the machine *)
From Coq Require Import QArith Znumtheory.
From Verif Require Import Base TM TMFacts ProgModel TapeModel TapeSpec TapeProofs RulesModel RulesSpec RulesProofs EnumModel EnumProofs
  PastModel QuickModel QuickProofs ProverModel MachineProofs EdgeProofs LawSpec LawProofs NumModel NumSpec NumProofs NumMore
  SymModel SymSpec SymProofs SymMachModel SymMachSpec.
Local Open Scope Z_scope.
Local Notation Zq := inject_Z.

Lemma F2_impl {A B} (P Q : A -> B -> Prop) l l' : (forall a b, P a b -> Q a b) -> Forall2 P l l' -> Forall2 Q l l'.
Proof. intros H. induction 1; constructor; auto. Qed.

(** ** The blocks of a tape without its numbers *)
Definition same_blocks (e e' : stape) : Prop := st_l e = st_l e' /\ st_scan e = st_scan e' /\ st_r e = st_r e'.
Lemma sb_refl e : same_blocks e e.
Proof. repeat split. Qed.
Lemma sb_trans a b c : same_blocks a b -> same_blocks b c -> same_blocks a c.
Proof. intros (A & B & C) (D & E & F). repeat split; congruence. Qed.
Lemma sb_co e b : same_blocks (s_check_offsets e b) e.
Proof. unfold s_check_offsets. destruct (sb_enum b) as [[[|] k]|]; repeat split. Qed.
Lemma sb_te e s : same_blocks (s_touch_edge e s) e.
Proof. repeat split. Qed.
Lemma sb_check e shift color skip : same_blocks (s_check_step e shift color skip) e.
Proof.
  unfold s_check_step. destruct (if shift then _ else _) as [pull push].
  match goal with |- context [match push with [] => ?x | _ => _ end] => set (e1 := x) end.
  assert (H : same_blocks e1 e).
  { unfold e1. destruct pull as [|b [|b2 rest]]; [apply sb_te| |].
    - destruct (_ && _); [eapply sb_trans; [apply sb_te|]|]; apply sb_co.
    - destruct (_ && _); [eapply sb_trans; [apply sb_co|]|]; apply sb_co. }
  destruct push as [|opp rest]; auto. destruct (color =? sb_color opp); auto. eapply sb_trans; [apply sb_co|auto].
Qed.
Lemma sb_counts e e' : same_blocks e e' -> s_counts e = s_counts e'.
Proof. intros (A & _ & B). unfold s_counts. congruence. Qed.
Lemma sb_signature e e' : same_blocks e e' -> s_signature e = s_signature e'.
Proof. intros (A & B & C). unfold s_signature. congruence. Qed.

(** ** Values of tapes *)
Section Prime.
Variable p : Z.
Hypothesis P : prime p.
Variable fl : floats.
Hypothesis FL : exact_roots fl.
Hypothesis F2 : exact_log2 fl.
Variable n : nat.
Notation good := (good p).
Notation o := (ops_at fl n).
Let SD : sound p o := ops_at_sound p P fl FL n.

Definition gblock (b : sblock) (b' : block) : Prop := sb_color b = b_color b' /\ good (sb_count b) (Zq (b_count b')).
Definition gspan : list sblock -> span -> Prop := Forall2 gblock.
Definition gtape (s : stape) (t : tape) : Prop := gspan (st_l s) (t_lspan t) /\ st_scan s = t_scan t /\ gspan (st_r s) (t_rspan t).

Lemma gtape_worth s t : gtape s t -> worth s t.
Proof.
  intros (A & B & C). split; [|split; auto].
  - eapply F2_impl; [|exact A]. intros b b' (X & Y & Z). split; auto.
  - eapply F2_impl; [|exact C]. intros b b' (X & Y & Z). split; auto.
Qed.
Lemma gtape_blocks s s' t : same_blocks s s' -> gtape s t -> gtape s' t.
Proof. intros (A & B & C). unfold gtape. rewrite A, B, C. auto. Qed.

(** No expression is worth 1. *)
Definition plain_one (s : list sblock) : Prop := forall b, In b s -> is_int (sb_count b) = false -> ~ val (sb_count b) (Zq 1).

Lemma one_test c z : good c (Zq z) -> (is_int c = false -> ~ val c (Zq 1)) -> cnt_eqb c (I 1) = (z =? 1).
Proof.
  intros (T & V) N. destruct c as [x| | | |]; cbn [cnt_eqb].
  - cbn in V. apply Zq_inj in V. subst. reflexivity.
  - symmetry. apply Z.eqb_neq. intros ->. apply N; auto.
  - symmetry. apply Z.eqb_neq. intros ->. apply N; auto.
  - symmetry. apply Z.eqb_neq. intros ->. apply N; auto.
  - symmetry. apply Z.eqb_neq. intros ->. apply N; auto.
Qed.

Lemma g_add a b x y c : good a (Zq x) -> good b (Zq y) -> lift (o_add o a b) = Got c -> good c (Zq (x + y)).
Proof. intros A B H. apply lift_ok in H. eapply good_eq; [exact (s_add _ _ SD _ _ _ _ _ A B H)|]. symmetry. apply Zq_add. Qed.
Lemma g_sub a b x y c : good a (Zq x) -> good b (Zq y) -> lift (o_sub o a b) = Got c -> good c (Zq (x - y)).
Proof. intros A B H. apply lift_ok in H. eapply good_eq; [exact (s_sub _ _ SD _ _ _ _ _ A B H)|]. symmetry. apply Zq_sub. Qed.

Definition goptb (b : option sblock) (b' : option block) : Prop :=
  match b, b' with None, None => True | Some b, Some b' => good (sb_count b) (Zq (b_count b')) | _, _ => False end.

Lemma pull_value pull pull' scan skip nx rest pb st :
  gspan pull pull' -> plain_one pull -> s_pull o pull scan skip = Got (nx, rest, pb, st) ->
  let '(pb1, pull1) := py_skip_block pull' scan skip in
  good st (Zq (py_stepped pb1))
  /\ let '(nx', rest', pb') := py_pull_one pull1 pb1 in nx = nx' /\ gspan rest rest' /\ goptb pb pb'.
Proof.
  intros G ONE E. unfold s_pull in E.
  assert (K : forall pb0 pull0 pb1 pull1, goptb pb0 pb1 -> gspan pull0 pull1 -> plain_one pull0 ->
    (stepped <~ match pb0 with None => Got (I 1) | Some b => lift (o_add o (I 1) (sb_count b)) end;
     match pull0 with
     | [] => Got (0, pull0, pb0, stepped)
     | next_pull :: pull' =>
         if negb (cnt_eqb (sb_count next_pull) (I 1))
         then
           c <~ lift (o_sub o (sb_count next_pull) (I 1));
           Got (sb_color next_pull, SB (sb_color next_pull) c (sb_enum next_pull) :: pull', pb0, stepped)
         else Got (sb_color next_pull, pull',
                   match pb0 with
                   | None => Some (SB (sb_color next_pull) (I 0) (sb_enum next_pull))
                   | Some b => Some b
                   end, stepped)
     end) = Got (nx, rest, pb, st) ->
    good st (Zq (py_stepped pb1))
    /\ let '(nx', rest', pb') := py_pull_one pull1 pb1 in nx = nx' /\ gspan rest rest' /\ goptb pb pb').
  { clear G ONE E pull pull'. intros pb0 pull0 pb1 pull1 GP GS ONE0 E.
    destruct (match pb0 with None => Got (I 1) | Some b => lift (o_add o (I 1) (sb_count b)) end) as [st0| | | | | |] eqn:ST;
      cbn [obind] in E; try discriminate.
    assert (GST : good st0 (Zq (py_stepped pb1))).
    { destruct pb0 as [b|], pb1 as [b'|]; cbn in GP; try contradiction; cbn [py_stepped].
      - eapply g_add; [apply good_I|exact GP|exact ST].
      - injection ST as <-. apply good_I. }
    destruct GS as [|c c' pull0 pull1 (C & V) GS]; cbn [py_pull_one].
    - injection E as <- <- <- <-. split; auto. split; auto. split; [constructor|auto].
    - rewrite (one_test _ _ V) in E by (apply ONE0; left; auto).
      destruct (b_count c' =? 1) eqn:Q; cbn [negb] in E |- *.
      + injection E as <- <- <- <-. split; auto. split; auto. split; auto.
        destruct pb0 as [b|], pb1 as [b'|]; cbn in GP |- *; try contradiction; auto. apply good_I.
      + ob E. injection E as <- <- <- <-. split; auto. split; auto. split; auto. constructor; auto. split; auto. cbn.
        eapply g_sub; [exact V|apply good_I|exact E0]. }
  destruct G as [|b b' pull pull' (C & V) G]; cbn [py_skip_block].
  - apply (K None [] None []); auto; [exact Logic.I|constructor].
  - rewrite C in E. destruct (skip && (b_color b' =? scan)).
    + apply (K (Some b) pull (Some b') pull'); auto. intros x I. apply ONE. right. auto.
    + apply (K None (b :: pull) None (b' :: pull')); auto; [exact Logic.I|]. constructor; auto. split; auto.
Qed.

Lemma push_value push push' pb pb' color st z r :
  gspan push push' -> goptb pb pb' -> good st (Zq z) -> s_push o push pb color st = Got r ->
  gspan r (py_push push' pb' color z).
Proof.
  intros G GP GS E.
  assert (INS : forall r, s_insert o push pb color = Got r -> gspan r (py_insert push' pb' color)).
  { clear E r. intros r E. unfold s_insert in E. unfold py_insert. destruct pb as [b|], pb' as [b'|]; cbn in GP; try contradiction.
    - ob E. injection E as <-. constructor; auto. split; auto. cbn. eapply g_add; [exact GP|apply good_I|exact E0].
    - injection E as <-. constructor; auto. split; auto. apply good_I. }
  unfold s_push in E. unfold py_push. destruct G as [|b b' push push' (C & V) G].
  - destruct (negb (color =? 0)); auto. injection E as <-. constructor.
  - rewrite C in E. destruct (b_color b' =? color); auto. ob E. injection E as <-. constructor; auto. split; auto. cbn.
    eapply g_add; eauto.
Qed.

Lemma step_value e t shift color skip e' st : gtape e t -> plain_one (st_l e) -> plain_one (st_r e) ->
  s_step o e shift color skip = Got (e', st) ->
  exists t' k, py_step t shift color skip = (t', k) /\ gtape e' t' /\ good st (Zq k).
Proof.
  intros G O1 O2 E. unfold s_step in E. pose proof (sb_check e shift color skip) as (B1 & B2 & B3).
  set (e0 := s_check_step e shift color skip) in *. destruct G as (G1 & G2 & G3).
  unfold py_step. destruct shift.
  - ob E. destruct a as [[[nx pull] pb] st0]. rewrite B3, B2 in E0.
    pose proof (pull_value _ _ _ _ _ _ _ _ G3 O2 E0) as X. rewrite <- G2.
    destruct (py_skip_block (t_rspan t) (st_scan e) skip) as [pb1 pull1]. destruct X as (X1 & X).
    destruct (py_pull_one pull1 pb1) as [[nx' rest'] pb']. destruct X as (-> & X2 & X3).
    ob E. injection E as <- <-. rewrite B1 in E1. pose proof (push_value _ _ _ _ _ _ _ _ G1 X3 X1 E1) as Y.
    eexists. eexists. split; [reflexivity|]. split; auto. repeat split; auto.
  - ob E. destruct a as [[[nx pull] pb] st0]. rewrite B1, B2 in E0.
    pose proof (pull_value _ _ _ _ _ _ _ _ G1 O1 E0) as X. rewrite <- G2.
    destruct (py_skip_block (t_lspan t) (st_scan e) skip) as [pb1 pull1]. destruct X as (X1 & X).
    destruct (py_pull_one pull1 pb1) as [[nx' rest'] pb']. destruct X as (-> & X2 & X3).
    ob E. injection E as <- <-. rewrite B3 in E1. pose proof (push_value _ _ _ _ _ _ _ _ G3 X3 X1 E1) as Y.
    eexists. eexists. split; [reflexivity|]. split; auto. repeat split; auto.
Qed.

Lemma span_marks_value s s' : gspan s s' -> forall acc z r, good acc (Zq z) -> s_span_marks o s acc = Got r ->
  good r (Zq (z + span_marks s')).
Proof.
  induction 1 as [|b b' s s' (C & V) G IH]; intros acc z r A E; cbn [s_span_marks span_marks] in *.
  - injection E as <-. rewrite Z.add_0_r. auto.
  - rewrite C in E. destruct (negb (b_color b' =? 0)) eqn:Q.
    + ob E. pose proof (g_add _ _ _ _ _ A V E0) as X. specialize (IH _ _ _ X E).
      replace (z + _) with (z + b_count b' + span_marks s'); auto.
      destruct (b_color b' =? 0); cbn in Q |- *; try discriminate; lia.
    + specialize (IH _ _ _ A E). destruct (b_color b' =? 0); cbn in Q |- *; try discriminate. auto.
Qed.
Lemma marks_value e t r : gtape e t -> s_marks o e = Got r -> good r (Zq (t_marks t)).
Proof.
  intros (A & B & C) E. unfold s_marks in E. ob E.
  pose proof (span_marks_value _ _ A _ _ _ (good_I p 0) E0) as X. pose proof (span_marks_value _ _ C _ _ _ (good_I p 0) E1) as Y.
  rewrite B in E2. pose proof (g_add _ _ _ _ _ (good_I p _) X E2) as Z. pose proof (g_add _ _ _ _ _ Z Y E) as W.
  replace (t_marks t) with ((if t_scan t =? 0 then 0 else 1) + (0 + span_marks (t_lspan t)) + (0 + span_marks (t_rspan t))); auto.
Qed.

Lemma gblock_at s s' k : gspan s s' -> match nth_error (map sb_count s) k, option_map b_count (nth_error s' k) with
  | Some c, Some z => good c (Zq z) | None, None => True | _, _ => False end.
Proof. intros G. revert k. induction G as [|b b' s s' (C & V) G IH]; intros [|k]; cbn; auto. apply IH. Qed.
Lemma gcount e t i : gtape e t -> match sget (s_counts e) i, get_count t i with
  | Some c, Some z => good c (Zq z) | None, None => True | _, _ => False end.
Proof. intros (A & _ & B). unfold sget, s_counts, get_count, t_get_count. cbn. destruct (fst i); apply gblock_at; auto. Qed.
Lemma gspan_at s : forall s', map sb_color s = map b_color s' -> (forall k, match nth_error (map sb_count s) k, option_map b_count (nth_error s' k) with
  | Some c, Some z => good c (Zq z) | None, None => True | _, _ => False end) -> gspan s s'.
Proof.
  induction s as [|b s IH]; intros [|b' s'] E H; cbn in E; try discriminate; constructor.
  - inversion E. split; auto. apply (H 0%nat).
  - inversion E. apply IH; auto. intros k. apply (H (S k)).
Qed.
Lemma gspan_colors s s' : gspan s s' -> map sb_color s = map b_color s'.
Proof. induction 1 as [|b b' s s' (C & V) G IH]; cbn; congruence. Qed.
Lemma gtape_at e t : st_scan e = t_scan t -> map sb_color (st_l e) = map b_color (t_lspan t) -> map sb_color (st_r e) = map b_color (t_rspan t) ->
  (forall i, match sget (s_counts e) i, get_count t i with
  | Some c, Some z => good c (Zq z) | None, None => True | _, _ => False end) -> gtape e t.
Proof.
  intros A B C H. split; [|split; auto].
  - apply gspan_at; auto. intros k. apply (H (false, k)).
  - apply gspan_at; auto. intros k. apply (H (true, k)).
Qed.

Definition plain_tape (e : stape) : Prop := plain_one (st_l e) /\ plain_one (st_r e).
Lemma sig_value_span s s' : gspan s s' -> plain_one s -> map s_sig_block s = map sig_of_block s'.
Proof.
  induction 1 as [|b b' s s' (C & V) G IH]; intros ONE; cbn; auto.
  rewrite IH by (intros x I; apply ONE; right; auto). f_equal. unfold s_sig_block, sig_of_block.
  rewrite (one_test _ _ V) by (apply ONE; left; auto). rewrite C. destruct (b_count b' =? 1); auto.
Qed.
Lemma sig_value e t : gtape e t -> plain_tape e -> s_signature e = t_signature t.
Proof. intros (A & B & C) (D & E). unfold s_signature, t_signature. rewrite B. f_equal; apply sig_value_span; auto. Qed.
End Prime.

(** ** Applying a rule *)
Lemma s_count_apps_is fl o : forall r e apps x e', s_count_apps fl o r e apps = Got (x, e') ->
  count_apps fl o r (s_counts e) apps = Got x /\ same_blocks e' e.
Proof.
  induction r as [|[i op] r IH]; intros e apps x e' E; cbn [s_count_apps count_apps] in *.
  - injection E as <- <-. split; auto. apply sb_refl.
  - destruct op as [d| |]; auto. destruct (0 <=? d); auto.
    destruct (entry_apps fl o (s_counts e) i d) as [y| | | | | |] eqn:EA; cbn [obind] in E |- *; try discriminate.
    destruct (s_get_count e i) as [[c e1]|] eqn:G; [|discriminate].
    assert (B : same_blocks e1 e).
    { unfold s_get_count in G. destruct (nth_error _ _) as [b|]; [|discriminate]. injection G as <- <-. apply sb_co. }
    assert (K : forall apps0, s_count_apps fl o r e1 apps0 = Got (x, e') -> count_apps fl o r (s_counts e) apps0 = Got x /\ same_blocks e' e).
    { intros apps0 X. destruct (IH _ _ _ _ X) as (U & V). rewrite (sb_counts _ _ B) in U. split; auto. eapply sb_trans; eauto. }
    destruct y as [[times res]|]; [|injection E as <- <-; split; auto].
    destruct apps as [[[t0 p0] r0]|]; auto.
    destruct (lift (o_lt o times t0)) as [l| | | | | |]; cbn [obind] in E |- *; try discriminate. auto.
Qed.

Definition same_colors (e e' : stape) : Prop :=
  st_scan e = st_scan e' /\ map sb_color (st_l e) = map sb_color (st_l e') /\ map sb_color (st_r e) = map sb_color (st_r e').
Lemma sc_refl e : same_colors e e.
Proof. repeat split. Qed.
Lemma sc_trans a b c : same_colors a b -> same_colors b c -> same_colors a c.
Proof. intros (A & B & C) (D & E & F). repeat split; congruence. Qed.
Lemma sc_blocks e e' : same_blocks e e' -> same_colors e e'.
Proof. intros (A & B & C). repeat split; congruence. Qed.

Lemma set_nth_is s : forall k v s', s_set_nth s k v = Some s' ->
  map sb_color s' = map sb_color s /\ map sb_count s' = put (map sb_count s) k v /\ map sb_enum s' = map sb_enum s.
Proof.
  induction s as [|b s IH]; intros [|k] v s' E; cbn in E; try discriminate; [injection E as <-; auto|].
  destruct (s_set_nth s k v) eqn:X; cbn in E; [|discriminate]. injection E as <-. destruct (IH _ _ _ X) as (A & B & C). cbn.
  rewrite A, B, C. auto.
Qed.
Lemma set_count_is e i v e' : s_set_count e i v = Some e' -> same_colors e' e /\ s_counts e' = sset (s_counts e) i v.
Proof.
  unfold s_set_count. intros E. destruct (fst i) eqn:S.
  - destruct (s_set_nth (st_r e) (snd i) v) as [s|] eqn:X; cbn in E; [|discriminate]. injection E as <-.
    destruct (set_nth_is _ _ _ _ X) as (A & B & _). unfold s_counts, sset. cbn. rewrite S. cbn. rewrite B. repeat split; auto.
  - destruct (s_set_nth (st_l e) (snd i) v) as [s|] eqn:X; cbn in E; [|discriminate]. injection E as <-.
    destruct (set_nth_is _ _ _ _ X) as (A & B & _). unfold s_counts, sset. cbn. rewrite S. cbn. rewrite B. repeat split; auto.
Qed.
Lemma get_count_is e i c e' : s_get_count e i = Some (c, e') -> sget (s_counts e) i = Some c /\ same_blocks e' e.
Proof.
  unfold s_get_count, sget, s_counts. intros E. destruct (nth_error _ _) as [b|] eqn:X; [|discriminate]. injection E as <- <-.
  split; [|apply sb_co]. cbn. destruct (fst i); rewrite nth_error_map, X; auto.
Qed.

Lemma s_apply_loop_is fl o times mp mr : forall r e e', s_apply_loop fl o r e times mp mr = Got e' ->
  apply_sloop fl o r (s_counts e) times mp mr = Got (s_counts e') /\ same_colors e' e.
Proof.
  induction r as [|[i op] r IH]; intros e e' E; cbn [s_apply_loop apply_sloop] in *.
  - injection E as <-. split; auto. apply sc_refl.
  - destruct (s_get_count e i) as [[c e1]|] eqn:G; [|discriminate]. destruct (get_count_is _ _ _ _ G) as (A & B). rewrite A.
    destruct (entry_result fl o c times mp mr i op) as [v| | | | | |]; cbn [obind] in E |- *; try discriminate.
    destruct (s_set_count e1 i v) as [e2|] eqn:S; [|discriminate]. destruct (set_count_is _ _ _ _ S) as (C & D).
    destruct (IH _ _ E) as (U & V). rewrite D, (sb_counts _ _ B) in U. split; auto.
    eapply sc_trans; [exact V|]. eapply sc_trans; [exact C|]. apply sc_blocks; auto.
Qed.

Lemma s_apply_is fl o r e x e' : s_apply_rule fl o r e = Got (x, e') ->
  match x with
  | None => same_blocks e' e
  | Some times => apply_srule fl o r (s_counts e) = Got (Some (times, s_counts e')) /\ same_colors e' e
  end.
Proof.
  unfold s_apply_rule, apply_srule. intros E. ob E. destruct a as [y e1]. destruct (s_count_apps_is _ _ _ _ _ _ _ E0) as (A & B).
  rewrite A. cbn [obind]. destruct y as [[[times mp] mr]|]; [|injection E as <- <-; auto].
  ob E. injection E as <- <-. destruct (s_apply_loop_is _ _ _ _ _ _ _ _ E1) as (C & D). rewrite (sb_counts _ _ B) in C. rewrite C. cbn [obind].
  split; auto. eapply sc_trans; [exact D|]. apply sc_blocks; auto.
Qed.

Lemma index_eq_dec (a b : index) : {a = b} + {a <> b}.
Proof. decide equality; [apply Nat.eq_dec|apply Bool.bool_dec]. Qed.
Lemma rule_is_in r r' i op : rule_is r r' -> In (i, op) r -> exists op', In (i, op') r' /\ entry_is (i, op) (i, op').
Proof.
  induction 1 as [|[j a] [j' a'] r r' (A & B) R IH]; intros I; [destruct I|]. cbn in A. subst j'. destruct I as [I|I].
  - injection I as <- <-. exists a'. split; [left; auto|]. split; auto.
  - destruct (IH I) as (op' & X & Y). exists op'. split; [right|]; auto.
Qed.
Lemma rule_is_in' r r' i op' : rule_is r r' -> In (i, op') r' -> exists op, In (i, op) r /\ entry_is (i, op) (i, op').
Proof.
  induction 1 as [|[j a] [j' a'] r r' (A & B) R IH]; intros I; [destruct I|]. cbn in A. subst j'. destruct I as [I|I].
  - injection I as <- <-. exists a. split; [left; auto|]. split; auto.
  - destruct (IH I) as (op & X & Y). exists op. split; [right|]; auto.
Qed.
Lemma rule_is_fst r r' : rule_is r r' -> map fst r = map fst r'.
Proof. induction 1 as [|a a' r r' (A & B) R IH]; cbn; congruence. Qed.
Lemma bump_n_at r k f i op c : rule_at r i = Some op -> f i = Some c -> bump_n r k f i = Some (Nat.iter k (bump_op op) c).
Proof.
  intros A B. induction k as [|k IH]; [exact B|]. rewrite bump_n_S. unfold bump. rewrite A, IH. reflexivity.
Qed.
Lemma iter_same op op' k z : entry_is op op' -> Nat.iter k (bump_op (snd op')) z = Nat.iter k (bump_sop (snd op)) z.
Proof.
  intros (_ & E). destruct (snd op) as [d|m a|]; [| |contradiction]; rewrite E; induction k; cbn; auto; unfold Nat.iter in IHk; rewrite IHk; auto.
Qed.

Section Apply.
Variable p : Z.
Hypothesis P : prime p.
Variable fl : floats.
Hypothesis FL : exact_roots fl.
Hypothesis F2 : exact_log2 fl.
Variable n : nat.
Variable M : program.
Notation o := (ops_at fl n).

Lemma srule_applied pv state e t ms r times e' : s_lawful p M pv -> clear pv e -> NoDup (map fst r) ->
  gtape p e t -> canon t -> s_holds pv (state, t_scan t) ms r -> covers ms t ->
  s_apply_rule fl o r e = Got (Some times, e') ->
  exists t', gtape p e' t' /\ canon t' /\ leads 1 M state t t'.
Proof.
  intros LW (ONE & CL) ND G C H CV E. destruct (s_apply_is _ _ _ _ _ _ E) as (A & SC). clear E.
  destruct (LW _ _ _ _ H) as (OV & r' & RI & DN & L). specialize (L t CV C).
  pose proof (gtape_worth p e t G) as W. pose proof (canon_wf _ C) as WF.
  assert (CT : forall i op, In (i, op) r -> (exists c, sget (s_counts e) i = Some c) ->
    sop_over p op /\ exists z, counted p (s_counts e) i op z /\ get_count t i = Some z
      /\ match op with SPlus d => d < 0 -> (forall x, sget (s_counts e) i <> Some (I x)) -> - d < z | _ => True end).
  { intros i op I (c & GC). split; [eauto|]. destruct (CL t _ ms r i op c W H CV I GC) as (z & ZV & X).
    pose proof (gcount p e t i G) as Y. rewrite GC in Y. destruct (get_count t i) as [z'|] eqn:GT; [|contradiction].
    assert (z' = z). { apply Zq_inj. eapply val_fun; [apply Y|apply zval_val; auto]. } subst z'.
    exists z. split; [|split; auto].
    - exists c. split; auto. split; [apply Y|]. split; auto. split; [eapply wf_count; eauto|]. destruct op; auto. intros D. apply X. auto.
    - destruct op; auto. intros D NI. apply X; auto. destruct c; auto. elim (NI z0); auto. }
  (* positions exist *)
  assert (EX : forall i op, In (i, op) r -> exists c, sget (s_counts e) i = Some c).
  { unfold apply_srule in A. ob A. destruct a as [[[ti mp] mr]|]; [|discriminate]. ob A.
    destruct (apply_sloop_ok _ _ _ _ _ _ _ _ ND E0) as (X & _). intros i op I. destruct (X i op I) as (c & v & Y & _). eauto. }
  assert (CT' : forall i op, In (i, op) r -> sop_over p op /\ exists z, counted p (s_counts e) i op z).
  { intros i op I. destruct (CT i op I (EX i op I)) as (X & z & Y & _). eauto. }
  assert (ONE' : forall i j op op', In (i, op) r -> In (j, op') r -> decreases op -> decreases op' -> i = j).
  { intros i j op op' I J D D'. destruct (rule_is_in _ _ _ _ RI I) as (o1 & I1 & E1). destruct (rule_is_in _ _ _ _ RI J) as (o2 & I2 & E2).
    destruct op as [d| |]; try contradiction. destruct op' as [d'| |]; try contradiction. destruct E1 as (_ & E1). destruct E2 as (_ & E2). cbn in *. subst.
    eapply DN; eauto. }
  destruct (apply_srule_exact p fl n r (s_counts e) times (s_counts e') P FL F2 ND CT' A) as (N & N0 & TT & TV & (i0 & d0 & z0 & I0 & D0 & C0 & L1 & L2) & RES & OTH).
  pose proof (apply_srule_positive p fl n r (s_counts e) times (s_counts e') P FL F2 ND CT' ONE' A) as POS.
  assert (N1 : 1 <= N).
  { destruct (CT i0 _ I0 (EX _ _ I0)) as (_ & z1 & C1 & _ & BIG).
    destruct C0 as (c0 & G0 & T0 & V0 & Z0 & S0). destruct C1 as (c1 & G1 & T1 & V1 & Z1 & S1).
    rewrite G0 in G1. injection G1 as <-. pose proof (zval_fun _ _ _ V0 V1). subst z1.
    enough (- d0 < z0) by nia.
    destruct c0 as [x| | | |]; try (apply BIG; [auto|intros y; congruence]).
    cbn in V0. subst x.
    unfold apply_srule in A. ob A. destruct a as [[[ti mp] mr]|]; [|discriminate].
    destruct (count_apps_chosen _ _ _ _ _ _ _ _ E) as [X|(d & I1 & D1 & EA)]; [discriminate|].
    assert (mp = i0) by (eapply ONE'; eauto; cbn; auto). subst mp.
    assert (X : SPlus d = SPlus d0) by (eapply entry_unique; eauto). injection X as ->.
    unfold entry_apps in EA. rewrite G0 in EA. cbn zeta in EA. destruct (Z.leb_spec z0 (Z.abs d0)); [discriminate|]. lia. }
  destruct (after_exists r' (Z.to_nat N) t) as (t' & AF).
  assert (DR : distinct r') by (unfold distinct; rewrite <- (rule_is_fst _ _ RI); auto).
  destruct (law_iterates M state r' t (Z.to_nat N) WF L) with (tn := t') as (W' & L'); auto.
  { intros k tk K (SK & CK) (i & d & c & I & Neg & GC & B).
    destruct (rule_is_in' _ _ _ _ RI I) as (op & I1 & (_ & E1)). destruct op as [d1| |]; [|discriminate|contradiction]. cbn in E1. injection E1 as <-.
    destruct (CT i _ I1 (EX _ _ I1)) as (_ & z & CZ & GT & _). destruct (POS i d z I1 CZ) as (N' & NV & X).
    assert (N' = N) by (apply Zq_inj; eapply val_fun; eauto). subst N'. specialize (X (Z.of_nat k + 1) ltac:(lia)).
    rewrite CK, (bump_n_Plus r' k _ i d z (rule_at_In _ _ _ DR I) GT) in GC. injection GC as <-. lia. }
  exists t'. destruct AF as ((S1 & S2 & S3) & CA).
  assert (C' : canon t') by (eapply canon_shape; [|exact C|exact W']; repeat split; auto).
  split; [|split; auto].
  - destruct G as (G1 & G2 & G3). destruct SC as (Q1 & Q2 & Q3).
    apply gtape_at.
    + congruence.
    + rewrite Q2, <- S2. apply (gspan_colors p); auto.
    + rewrite Q3, <- S3. apply (gspan_colors p); auto.
    + intros i. rewrite CA. destruct (in_dec index_eq_dec i (map fst r)) as [I|I].
      * apply in_map_iff in I as ((i1 & op) & X & I). cbn in X. subst i1.
        destruct (CT i op I (EX _ _ I)) as (_ & z & CZ & GT & _). destruct (RES i op z I CZ) as (c & GC & TC & VC). rewrite GC.
        destruct (rule_is_in _ _ _ _ RI I) as (op' & I' & EI). rewrite (bump_n_at r' _ _ i op' z (rule_at_In _ _ _ DR I') GT).
        pose proof (iter_same _ _ (Z.to_nat N) z EI) as IS. cbn in IS. rewrite IS. split; auto.
      * rewrite (OTH i I), bump_n_None.
        -- apply (gcount p e t i). split; auto.
        -- apply rule_at_None. intros op' I'. apply I. rewrite (rule_is_fst _ _ RI). change i with (fst (i, op')). apply in_map. auto.
  - intros c R S. destruct (L' c R S) as (m & c' & M1 & Y). exists m, c'. split; [lia|auto].
Qed.
End Apply.

(** ** Edges *)
Definition cap (c : cnt) : Z := if cnt_eqb c (I 1) then 1 else 2.
Definition em_span (s : list sblock) : list eblock := map (fun b => EB (sb_color b) (cap (sb_count b)) (sb_enum b)) s.
Definition em (e : stape) : etape := ET (em_span (st_l e)) (st_scan e) (em_span (st_r e)) (st_loff e) (st_roff e) (st_ledge e) (st_redge e).

Lemma em_enum s : map eb_enum (em_span s) = map sb_enum s.
Proof. unfold em_span. rewrite map_map. auto. Qed.
Lemma em_co e b : em (s_check_offsets e b) = check_offsets (em e) (EB (sb_color b) (cap (sb_count b)) (sb_enum b)).
Proof. unfold s_check_offsets, check_offsets. cbn. destruct (sb_enum b) as [[[|] k]|]; reflexivity. Qed.
Lemma em_te e s : em (s_touch_edge e s) = touch_edge (em e) s.
Proof. reflexivity. Qed.
Lemma em_check e shift color skip : em (s_check_step e shift color skip) = check_step (em e) shift color skip.
Proof.
  unfold s_check_step, check_step.
  replace (if shift then (et_r (em e), et_l (em e)) else (et_l (em e), et_r (em e)))
    with (em_span (if shift then st_r e else st_l e), em_span (if shift then st_l e else st_r e)) by (destruct shift; auto).
  replace (if shift then (st_r e, st_l e) else (st_l e, st_r e))
    with ((if shift then st_r e else st_l e), (if shift then st_l e else st_r e)) by (destruct shift; auto).
  destruct (if shift then st_r e else st_l e) as [|b [|b2 pull]]; destruct (if shift then st_l e else st_r e) as [|opp push]; cbn [em_span map]; auto.
  - cbn [eb_color]. destruct (color =? sb_color opp); rewrite ?em_co; auto.
  - rewrite co_scan. cbn [eb_color]. change (et_scan (em e)) with (st_scan e).
    pose proof (sb_co e b) as (_ & -> & _). destruct (skip && _); rewrite ?em_te, ?em_co; auto.
  - rewrite co_scan. cbn [eb_color]. change (et_scan (em e)) with (st_scan e).
    pose proof (sb_co e b) as (_ & -> & _). destruct (skip && _), (color =? sb_color opp); rewrite ?em_co, ?em_te, ?em_co; auto.
  - rewrite co_scan. cbn [eb_color]. change (et_scan (em e)) with (st_scan e).
    pose proof (sb_co e b) as (_ & -> & _). destruct (skip && _); rewrite ?em_co; auto.
  - rewrite co_scan. cbn [eb_color]. change (et_scan (em e)) with (st_scan e).
    pose proof (sb_co e b) as (_ & -> & _). destruct (skip && _), (color =? sb_color opp); rewrite ?em_co; auto.
Qed.

Lemma em_pull o pull scan skip nx rest pb st : s_pull o pull scan skip = Got (nx, rest, pb, st) ->
  exists rest' pb' k, py_epull (em_span pull) scan skip = (nx, rest', pb', k) /\ map eb_enum rest' = map sb_enum rest
    /\ option_map eb_enum pb' = option_map sb_enum pb.
Proof.
  unfold s_pull, py_epull. intros E.
  assert (CAP : forall c, negb (cap c =? 1) = negb (cnt_eqb c (I 1))) by (intros c; unfold cap; destruct (cnt_eqb c (I 1)); auto).
  destruct pull as [|b pull]; cbn [em_span map eb_color].
  - cbn in E. injection E as <- <- <- <-. eexists. eexists. eexists. split; [reflexivity|]. auto.
  - destruct (skip && (sb_color b =? scan)).
    + destruct (lift (o_add o (I 1) (sb_count b))) as [s| | | | | |]; cbn [obind] in E; try discriminate.
      destruct pull as [|b2 pull]; cbn [map eb_count eb_color eb_enum].
      * injection E as <- <- <- <-. eexists. eexists. eexists. split; [reflexivity|]. auto.
      * rewrite CAP. destruct (negb (cnt_eqb (sb_count b2) (I 1))).
        -- ob E. injection E as <- <- <- <-. eexists. eexists. eexists. split; [reflexivity|]. cbn. fold (em_span pull). rewrite em_enum. auto.
        -- injection E as <- <- <- <-. eexists. eexists. eexists. split; [reflexivity|]. cbn. fold (em_span pull). rewrite em_enum. auto.
    + cbn [obind] in E. cbn [eb_count eb_color eb_enum]. rewrite CAP. destruct (negb (cnt_eqb (sb_count b) (I 1))).
      * ob E. injection E as <- <- <- <-. eexists. eexists. eexists. split; [reflexivity|]. cbn. fold (em_span pull). rewrite em_enum. auto.
      * injection E as <- <- <- <-. eexists. eexists. eexists. split; [reflexivity|]. cbn. fold (em_span pull). rewrite em_enum. auto.
Qed.
Lemma em_push o push pb pb' color st k r : option_map eb_enum pb' = option_map sb_enum pb -> s_push o push pb color st = Got r ->
  map eb_enum (py_epush None (em_span push) pb' color k) = map sb_enum r.
Proof.
  intros PB E. unfold s_push, py_epush in *.
  assert (INS : forall r, s_insert o push pb color = Got r ->
    map eb_enum (match pb' with None => EB color 1 None | Some b => EB color (eb_count b + 1) (eb_enum b) end :: em_span push) = map sb_enum r).
  { clear E r. intros r E. unfold s_insert in E. destruct pb as [b|], pb' as [b'|]; cbn in PB; try discriminate.
    - ob E. injection E as <-. cbn. rewrite em_enum. congruence.
    - injection E as <-. cbn. rewrite em_enum. auto. }
  destruct push as [|b push]; cbn [em_span map eb_color].
  - destruct (negb (color =? 0)); auto. injection E as <-. auto.
  - destruct (sb_color b =? color); [|apply INS; auto]. ob E. injection E as <-. cbn. fold (em_span push). rewrite em_enum. auto.
Qed.

Lemma einv_ext N e e' : einv N e -> (forall d, map eb_enum (espan e d) = map eb_enum (espan e' d)) ->
  (forall d, eoff e d = eoff e' d) -> (forall d, eedge e d = eedge e' d) -> einv N e'.
Proof.
  intros [A B C D] S O E. constructor; intros d.
  - rewrite <- O. eapply un_enum; [apply S|apply A].
  - eapply tags_enum; [apply S|apply B].
  - rewrite <- O. auto.
  - rewrite <- O, <- E. auto.
Qed.

Lemma sinv_step o N e shift color skip e' st : einv N (em e) -> s_step o e shift color skip = Got (e', st) -> einv N (em e').
Proof.
  intros I E. apply (einv_step N (em e) shift color skip) in I. unfold s_step in E. unfold py_estep in I.
  rewrite <- em_check in I. set (e0 := s_check_step e shift color skip) in *.
  destruct shift.
  - ob E. destruct a as [[[nx pull] pb] st0]. ob E. injection E as <- <-.
    destruct (em_pull _ _ _ _ _ _ _ _ E0) as (rest' & pb' & k & X & Y & Z). cbn [em et_r et_l et_scan] in I. rewrite X in I.
    eapply einv_ext; [exact I| | |]; intros [|]; cbn; rewrite ?em_enum; auto. eapply em_push; eauto.
  - ob E. destruct a as [[[nx pull] pb] st0]. ob E. injection E as <- <-.
    destruct (em_pull _ _ _ _ _ _ _ _ E0) as (rest' & pb' & k & X & Y & Z). cbn [em et_r et_l et_scan] in I. rewrite X in I.
    eapply einv_ext; [exact I| | |]; intros [|]; cbn; rewrite ?em_enum; auto. eapply em_push; eauto.
Qed.
Lemma sinv_get N e i c e' : einv N (em e) -> s_get_count e i = Some (c, e') -> einv N (em e').
Proof.
  intros I E. unfold s_get_count in E. destruct (nth_error _ _) as [b|] eqn:X; [|discriminate]. injection E as <- <-.
  rewrite em_co. apply einv_co; auto. intros d k Y. apply (ei_tags _ _ I (fst i) (EB (sb_color b) (cap (sb_count b)) (sb_enum b)) d k); auto.
  apply nth_error_In in X. unfold espan. cbn. destruct (fst i); apply (in_map (fun b => EB (sb_color b) (cap (sb_count b)) (sb_enum b))) in X; auto.
Qed.
Lemma sinv_set N e i v e' : einv N (em e) -> s_set_count e i v = Some e' -> einv N (em e').
Proof.
  intros I E. unfold s_set_count in E. destruct (fst i).
  - destruct (s_set_nth (st_r e) (snd i) v) as [s|] eqn:X; cbn in E; [|discriminate]. injection E as <-.
    destruct (set_nth_is _ _ _ _ X) as (_ & _ & Y). eapply einv_ext; [exact I| | |]; intros [|]; cbn; rewrite ?em_enum; auto.
  - destruct (s_set_nth (st_l e) (snd i) v) as [s|] eqn:X; cbn in E; [|discriminate]. injection E as <-.
    destruct (set_nth_is _ _ _ _ X) as (_ & _ & Y). eapply einv_ext; [exact I| | |]; intros [|]; cbn; rewrite ?em_enum; auto.
Qed.
Lemma sinv_apps fl o N : forall r e apps a e', einv N (em e) -> s_count_apps fl o r e apps = Got (a, e') -> einv N (em e').
Proof.
  induction r as [|[i op] r IH]; intros e apps a e' I E; cbn [s_count_apps] in E.
  - injection E as <- <-. auto.
  - destruct op as [d| |]; eauto. destruct (0 <=? d); eauto. ob E. rename a0 into y.
    destruct (s_get_count e i) as [[c e1]|] eqn:G; [|discriminate]. pose proof (sinv_get _ _ _ _ _ I G) as I1.
    destruct y as [[times res]|]; [|injection E as <- <-; auto]. destruct apps as [[[t0 p0] r0]|]; eauto. ob E. eauto.
Qed.
Lemma sinv_loop fl o N times mp mr : forall r e e', einv N (em e) -> s_apply_loop fl o r e times mp mr = Got e' -> einv N (em e').
Proof.
  induction r as [|[i op] r IH]; intros e e' I E; cbn [s_apply_loop] in E.
  - injection E as <-. auto.
  - destruct (s_get_count e i) as [[c e1]|] eqn:G; [|discriminate]. pose proof (sinv_get _ _ _ _ _ I G) as I1. ob E.
    destruct (s_set_count e1 i a) as [e2|] eqn:S; [|discriminate]. eapply IH; [|exact E]. eapply sinv_set; eauto.
Qed.
Lemma sinv_apply fl o N r e x e' : einv N (em e) -> s_apply_rule fl o r e = Got (x, e') -> einv N (em e').
Proof.
  intros I E. unfold s_apply_rule in E. ob E. destruct a as [y e1]. pose proof (sinv_apps _ _ _ _ _ _ _ _ I E0) as I1.
  destruct y as [[[times mp] mr]|]; [|injection E as <- <-; auto]. ob E. injection E as <- <-. eapply sinv_loop; eauto.
Qed.
Lemma sinv_simulate fl o comp N pv : forall k state e y, einv N (em e) -> s_simulate fl o comp pv k state e = Got y ->
  match y with YEnd _ e' | YKey e' => einv N (em e') | YLoop => True end.
Proof.
  induction k as [|k IH]; intros state e y I E; cbn [s_simulate] in E; [injection E as <-; auto|].
  assert (G : forall e, einv N (em e) -> match comp state (st_scan e) with
     | LKey _ => Got (YKey e) | LLoop => Got YLoop
     | LGot (color, shift, next_state) => x <~ s_step o e shift color (state =? next_state); s_simulate fl o comp pv k next_state (fst x)
     end = Got y -> match y with YEnd _ e' | YKey e' => einv N (em e') | YLoop => True end).
  { clear e I E. intros e I E. destruct (comp state (st_scan e)) as [[[color shift] next]|s|]; [|injection E as <-; auto..].
    ob E. destruct a as [e1 st]. eapply IH; [|exact E]. eapply sinv_step; eauto. }
  destruct (s_get_rule pv state (st_scan e) (s_signature e)) as [r|]; [|apply (G e); auto].
  destruct (s_apply_rule fl o r e) as [[x e1]| | | | | |] eqn:AP; cbn [obind] in E; try discriminate.
  pose proof (sinv_apply _ _ _ _ _ _ _ I AP) as I1. destruct x as [times|]; [apply (IH _ _ _ I1 E)|apply (G e1); auto].
Qed.

Definition slens (e : stape) (d : bool) : nat := length (if d then st_r e else st_l e).
Lemma s_enumerate_enum d : forall s k, map sb_enum (s_enumerate d k s) = map (fun j => Some (d, j)) (seq k (length s)).
Proof. induction s as [|b s IH]; intros k; cbn; auto. f_equal. auto. Qed.
Lemma sinv_start t : einv (slens t) (em (s_to_enum t)).
Proof.
  constructor.
  - intros d. exists [], 0%nat. rewrite Nat.sub_0_r. cbn [app].
    split; [|destruct d; cbn; split; lia]. destruct d; cbn; rewrite em_enum; apply s_enumerate_enum.
  - intros d b d' k I E. assert (X : In (eb_enum b) (map eb_enum (espan (em (s_to_enum t)) d))) by (apply in_map; auto).
    rewrite E in X. destruct d; cbn in X; rewrite em_enum, s_enumerate_enum in X; apply in_map_iff in X as (k' & X & Y);
      injection X as <- <-; apply in_seq in Y; unfold slens; lia.
  - intros d. destruct d; cbn; lia.
  - intros d. destruct d; cbn; discriminate.
Qed.

(** The signature of the expressions, as that of their values. *)
Definition s_covers (ms : minsig) (g : signature) : Prop :=
  let '(Sig scan l r, (lex, rex)) := ms in
  scan = sg_scan g
  /\ (exists rest, sg_l g = l ++ rest /\ (lex = true -> rest = []))
  /\ (exists rest, sg_r g = r ++ rest /\ (rex = true -> rest = [])).
Lemma s_covers_t ms t : s_covers ms (t_signature t) <-> covers ms t.
Proof. destruct ms as [[scan l r] [lex rex]]. cbn. tauto. Qed.

Lemma s_min_sig_covers fl o comp pv k state t m :
  s_min_sig fl o comp pv k state (s_to_enum t) (s_signature t) = Got (Some m) -> s_covers m (s_signature t) /\ sg_scan (fst m) = st_scan t.
Proof.
  unfold s_min_sig. intros E. ob E. injection E as E. pose proof (sinv_simulate _ _ _ _ _ _ _ _ _ (sinv_start t) E0) as X.
  assert (G : forall e, einv (slens t) (em e) -> s_covers (s_sig_slice (s_signature t) e) (s_signature t)).
  { intros e I. cbn -[s_signature]. split; [auto|].
    split; [exists (skipn (st_loff e) (sg_l (s_signature t)))|exists (skipn (st_roff e) (sg_r (s_signature t)))]; rewrite firstn_skipn; split; auto; intros Y.
    - pose proof (ei_edge _ _ I false Y) as Z. cbn in Z. rewrite Z. apply skipn_all2. cbn. rewrite map_length. auto.
    - pose proof (ei_edge _ _ I true Y) as Z. cbn in Z. rewrite Z. apply skipn_all2. cbn. rewrite map_length. auto. }
  destruct a as [s e|e|]; try discriminate E; injection E as <-; split; auto.
Qed.

(** ** The rules held *)
Definition sp_distinct (pv : sprover) : Prop := forall s ms r, s_holds pv s ms r -> NoDup (map fst r).
Definition s_more (pv pv' : sprover) : Prop := forall s ms r, s_holds pv s ms r -> s_holds pv' s ms r.

Lemma s_rules_at_slot rs s v : s_rules_at rs s = Some v -> In (s, v) rs.
Proof.
  induction rs as [|[k w] rs IH]; cbn; [discriminate|]. destruct (slot_eqb k s) eqn:E.
  - intros X. injection X as <-. left. f_equal. unfold slot_eqb in E. destruct k, s. cbn in E. zb. congruence.
  - auto.
Qed.
Lemma s_match_covers g temp r : s_match_rule g temp = Some r -> exists ms, In (ms, r) temp /\ s_covers ms g.
Proof.
  induction temp as [|[[[sc l rr] [lex rex]] r1] temp IH]; cbn; [discriminate|].
  destruct (_ && _) eqn:E.
  - intros X. injection X as <-. eexists. split; [left; reflexivity|]. zb. apply ccs_eqb_eq in H0, H1. cbn.
    split; [auto|]. split.
    + destruct lex; [exists []; rewrite app_nil_r; auto|].
      exists (skipn (length l) (sg_l g)). split; [|discriminate]. rewrite H1 at 1. symmetry. apply firstn_skipn.
    + destruct rex; [exists []; rewrite app_nil_r; auto|].
      exists (skipn (length rr) (sg_r g)). split; [|discriminate]. rewrite H0 at 1. symmetry. apply firstn_skipn.
  - intros X. destruct (IH X) as (ms & A & B). exists ms. auto.
Qed.
Lemma s_get_rule_covers pv state scan g r : s_get_rule pv state scan g = Some r ->
  exists ms, s_holds pv (state, scan) ms r /\ s_covers ms g.
Proof.
  unfold s_get_rule. destruct (s_rules_at _ _) as [v|] eqn:A; [|discriminate]. intros E.
  destruct (s_match_covers _ _ _ E) as (ms & B & C). exists ms. split; auto. exists v. split; auto. apply s_rules_at_slot; auto.
Qed.
Lemma s_rules_add_in rs s e : exists v, In (s, v) (s_rules_add rs s e) /\ In e v.
Proof.
  induction rs as [|[k w] rs IH]; cbn.
  - exists [e]. cbn. auto.
  - destruct (slot_eqb k s) eqn:E.
    + exists (w ++ [e]). split; [left; f_equal; unfold slot_eqb in E; destruct k, s; cbn in E; zb; congruence|].
      apply in_or_app. right. left. auto.
    + destruct IH as (v & A & B). exists v. split; [right|]; auto.
Qed.
Lemma s_rules_add_keeps rs s e k v x : In (k, v) rs -> In x v -> exists v', In (k, v') (s_rules_add rs s e) /\ In x v'.
Proof.
  induction rs as [|[k' w] rs IH]; intros A B; [destruct A|]. cbn. destruct A as [A|A].
  - injection A as <- <-. destruct (slot_eqb k' s).
    + exists (w ++ [e]). split; [left; auto|]. apply in_or_app; auto.
    + exists w. split; [left|]; auto.
  - destruct (slot_eqb k' s).
    + exists v. split; [right|]; auto.
    + destruct (IH A B) as (v' & C & D). exists v'. split; [right|]; auto.
Qed.
Lemma s_rules_add_only rs s e k v x : In (k, v) (s_rules_add rs s e) -> In x v -> x = e \/ exists v', In (k, v') rs /\ In x v'.
Proof.
  induction rs as [|[k' w] rs IH]; cbn; intros A B.
  - destruct A as [A|[]]. injection A as <- <-. destruct B as [B|[]]; auto.
  - destruct (slot_eqb k' s).
    + destruct A as [A|A].
      * injection A as <- <-. apply in_app_or in B as [B|[B|[]]]; auto. right. exists w. auto.
      * right. exists v. auto.
    + destruct A as [A|A].
      * injection A as <- <-. right. exists w. auto.
      * destruct (IH A B) as [|(v' & C & D)]; auto. right. exists v'. auto.
Qed.

Lemma s_try_good fl o comp pv cycle state t pv' res : sp_distinct pv ->
  s_try_rule fl o comp pv cycle state t = (pv', res) ->
  s_more pv pv' /\ sp_distinct pv'
  /\ forall r, res = Got (YRule r) -> exists ms, s_holds pv' (state, st_scan t) ms r /\ s_covers ms (s_signature t).
Proof.
  intros D E. unfold s_try_rule in E.
  assert (SM : forall cf, s_more pv (SPV (sp_rules pv) cf) /\ sp_distinct (SPV (sp_rules pv) cf)) by (split; [intros ? ? ? X; exact X|exact D]).
  assert (S0 : s_more pv pv) by (intros ? ? ? X; exact X).
  destruct (s_get_rule pv state (st_scan t) (s_signature t)) as [r|] eqn:GR.
  { injection E as <- <-. split; auto. split; auto. intros r0 X. injection X as <-. apply s_get_rule_covers; auto. }
  assert (NO : forall cf (x : out s_try), (forall r, x <> Got (YRule r)) -> s_more pv (SPV (sp_rules pv) cf) /\ sp_distinct (SPV (sp_rules pv) cf)
    /\ forall r, x = Got (YRule r) -> exists ms, s_holds (SPV (sp_rules pv) cf) (state, st_scan t) ms r /\ s_covers ms (s_signature t)).
  { intros cf x X. destruct (SM cf). split; auto. split; auto. intros r Y. elim (X r Y). }
  destruct (cfg_get (sp_configs pv) (s_signature t)) as [past|].
  2:{ destruct (_ <? _); injection E as <- <-; [split; auto; split; auto; discriminate|]. apply NO. discriminate. }
  destruct (pcs_next_deltas past state cycle) as [past' d].
  set (pv1 := SPV (sp_rules pv) (cfg_set (sp_configs pv) (s_signature t) past')) in *.
  destruct d as [| |d1 d2 d3]; try (injection E as <- <-; apply NO; discriminate).
  set (made := obind _ _) in E.
  assert (MK : forall r, made = Got (inl (Some r)) -> NoDup (map fst r)).
  { intros r X. unfold made in X. ob X. destruct a as [[|c1 [|c2 [|c3 [|? ?]]]]|y]; try discriminate.
    ob X. injection X as ->. eapply make_srule_ok; eauto. }
  assert (MN : forall r, made <> Got (inr (YRule r))).
  { intros r X. unfold made in X. ob X. destruct a as [[|c1 [|c2 [|c3 [|? ?]]]]|y]; try discriminate.
    - ob X.
    - injection X as ->. clear - E0. set (ds := [d1; d2; d3]) in *. clearbody ds.
      revert E0. generalize t at 2 as u. induction ds as [|d ds IH]; intros u E; cbn [s_delta_counts] in E; [discriminate|].
      ob E. destruct a as [s u1| |]; try discriminate. destruct (_ || _); [discriminate|]. ob E.
      destruct a as [cs|y]; [discriminate|]. injection E as ->. eapply IH; eauto. }
  destruct made as [[[r|]|y]| | | | | |]; try (injection E as <- <-; apply NO; discriminate).
  2:{ injection E as <- <-. apply NO. intros r X. injection X as ->. apply (MN r). auto. }
  specialize (MK r eq_refl).
  destruct (s_swap_rule r t). { injection E as <- <-; apply NO; discriminate. }
  set (pv2 := SPV (sp_rules pv1) (cfg_set (sp_configs pv1) (s_signature t) (pcs_delete past' state))) in *.
  destruct (s_min_sig fl o comp pv2 (Z.to_nat d1) state (s_to_enum t) (s_signature t)) as [[m|]| | | | | |] eqn:MS;
    try (injection E as <- <-; apply NO; discriminate).
  injection E as <- <-. destruct (s_min_sig_covers _ _ _ _ _ _ _ _ MS) as (CV & SC).
  split; [|split].
  - intros s ms r' (v & A & B). destruct (s_rules_add_keeps _ (state, sg_scan (fst m)) (m, r) _ _ _ A B) as (v' & A' & B').
    exists v'. auto.
  - intros s ms r' (v & A & B). cbn [s_set_rule sp_rules] in A. destruct (s_rules_add_only _ _ _ _ _ _ A B) as [X|(v' & A' & B')].
    + injection X as -> ->. auto.
    + apply (D s ms r'). exists v'. auto.
  - intros r0 X. injection X as <-. exists m. split; auto. rewrite <- SC. apply s_rules_add_in.
Qed.

(** ** The loop *)
Definition s_go (o : ops) (comp : Z -> Z -> lookup) (next : Z -> sprover -> stape -> Z -> Z -> blanks_t -> cnt -> option (Z * Z) -> smach)
    (cycle : Z) (pv : sprover) (t : stape) (state step : Z) (blanks : blanks_t) (rulapp : cnt) (sus : option (Z * Z)) : smach :=
  let fin e t := SMachR e step cycle rulapp state t blanks sus pv in
  match comp state (st_scan t) with
  | LKey s => fin (YUndfnd s) t
  | LLoop => fin YInfrul t
  | LGot (color, shift, next_state) =>
      let same := state =? next_state in
      if same && s_at_edge t shift then fin YSpnout t
      else
        match s_step o t shift color same with
        | Got (t, stepped) =>
            let go step :=
              let fin e b := SMachR e step cycle rulapp next_state t b sus pv in
              if (color =? 0) && s_blank t
              then if blanks_has blanks next_state then fin YInfrul blanks
                   else let blanks := (next_state, step) :: blanks in
                        if next_state =? 0 then fin YInfrul blanks
                        else next (cycle + 1) pv t next_state step blanks rulapp sus
              else next (cycle + 1) pv t next_state step blanks rulapp sus in
            if step =? -1 then go step
            else match stepped with I n => go (step + n) | _ => fin YErr t end
        | other => fin (match other with SFuel => YDeep | _ => YErr end) t
        end
  end.

Lemma s_machine_loop_S fl o comp fuel cycle pv t state step blanks rulapp sus :
  s_machine_loop fl o comp (S fuel) cycle pv t state step blanks rulapp sus =
  let '(pv, tr) := s_try_rule fl o comp pv cycle state t in
  let fin e t sus := SMachR e step cycle rulapp state t blanks sus pv in
  let go t sus := s_go o comp (s_machine_loop fl o comp fuel) cycle pv t state step blanks rulapp sus in
  match tr with
  | SSuspected a b => go t (Some (a, b))
  | Got YNone | Got YMacroLoop => go t sus
  | Got YConfigLimit => fin YCfglim t sus
  | Got (YRule r) =>
      match s_apply_rule fl o r t with
      | Got (Some times, t) =>
          match o_add o rulapp times with
          | Ok rulapp => s_machine_loop fl o comp fuel (cycle + 1) pv t state (-1) blanks rulapp sus
          | Fuel => fin YDeep t sus
          | _ => fin YErr t sus
          end
      | Got (None, t) => go t sus
      | SLimit => fin YLimrul t sus
      | SFuel => fin YDeep t sus
      | _ => fin YErr t sus
      end
  | other => fin (s_stop other) t sus
  end.
Proof. reflexivity. Qed.

Lemma s_go_keeps o comp next pv : (forall cycle t state step blanks rulapp sus, s_more pv (sm_prover (next cycle pv t state step blanks rulapp sus))) ->
  forall cycle t state step blanks rulapp sus, s_more pv (sm_prover (s_go o comp next cycle pv t state step blanks rulapp sus)).
Proof.
  intros H cycle t state step blanks rulapp sus. assert (S0 : s_more pv pv) by (intros ? ? ? X; exact X).
  unfold s_go. destruct (comp state (st_scan t)) as [[[color shift] nx]|s|]; auto. cbn zeta.
  destruct (_ && s_at_edge _ _); auto. destruct (s_step _ _ _ _ _) as [[t' st]| | | | | |]; auto.
  destruct (step =? -1); [|destruct st; auto];
    (destruct (_ && s_blank _); [destruct (blanks_has _ _); [|destruct (nx =? 0)]|]; auto).
Qed.
Lemma s_loop_keeps fl o comp fuel : forall cycle pv t state step blanks rulapp sus, sp_distinct pv ->
  s_more pv (sm_prover (s_machine_loop fl o comp fuel cycle pv t state step blanks rulapp sus)).
Proof.
  induction fuel as [|fuel IH]; intros cycle pv t state step blanks rulapp sus D; [intros ? ? ? X; exact X|].
  rewrite s_machine_loop_S. destruct (s_try_rule fl o comp pv cycle state t) as [pv' tr] eqn:TR.
  destruct (s_try_good _ _ _ _ _ _ _ _ _ D TR) as (S1 & D' & _).
  enough (X : s_more pv' (sm_prover (
    let fin e t sus := SMachR e step cycle rulapp state t blanks sus pv' in
    let go t sus := s_go o comp (s_machine_loop fl o comp fuel) cycle pv' t state step blanks rulapp sus in
    match tr with
    | SSuspected a b => go t (Some (a, b))
    | Got YNone | Got YMacroLoop => go t sus
    | Got YConfigLimit => fin YCfglim t sus
    | Got (YRule r) =>
        match s_apply_rule fl o r t with
        | Got (Some times, t) =>
            match o_add o rulapp times with
            | Ok rulapp => s_machine_loop fl o comp fuel (cycle + 1) pv' t state (-1) blanks rulapp sus
            | Fuel => fin YDeep t sus
            | _ => fin YErr t sus
            end
        | Got (None, t) => go t sus
        | SLimit => fin YLimrul t sus
        | SFuel => fin YDeep t sus
        | _ => fin YErr t sus
        end
    | other => fin (s_stop other) t sus
    end))). { intros s ms r Y. apply X. apply S1. exact Y. }
  assert (S0 : s_more pv' pv') by (intros ? ? ? X; exact X).
  assert (GO : forall t sus, s_more pv' (sm_prover (s_go o comp (s_machine_loop fl o comp fuel) cycle pv' t state step blanks rulapp sus))).
  { intros. apply s_go_keeps. intros. apply IH. auto. }
  cbn zeta. destruct tr as [[ |r| | ]| | | |a b| | ]; auto.
  destruct (s_apply_rule fl o r t) as [[[times|] t']| | | | | |]; auto. destruct (o_add o rulapp times); auto.
Qed.

Section Loop.
Variable p : Z.
Hypothesis P : prime p.
Variable fl : floats.
Hypothesis FL : exact_roots fl.
Hypothesis F2 : exact_log2 fl.
Variable n : nat.
Variable M : program.
Notation o := (ops_at fl n).
Notation loop := (s_machine_loop fl o (plain M)).

Definition bl_ok (blanks : blanks_t) (k : nat) : Prop :=
  forall s j, In (s, j) blanks -> exists i, (1 <= i <= k)%nat /\ (j = -1 \/ j = Z.of_nat i) /\ blank_at M s (Z.of_nat i).

Record slinv (e : stape) (t : tape) (blanks : blanks_t) (state step : Z) (c : config) (k : nat) : Prop := {
  sl_run : steps M k init = Some c;
  sl_tape : gtape p e t;
  sl_rep : represents t c;
  sl_can : canon t;
  sl_st : c_state c = state;
  sl_step : step = -1 \/ step = Z.of_nat k;
  sl_bl : bl_ok blanks k
}.

Definition s_ok (m : smach) (least : nat) : Prop :=
  exists k c, steps M k init = Some c /\ (sm_steps m = -1 \/ sm_steps m = Z.of_nat k) /\ bl_ok (sm_blanks m) k
  /\ (fine (sm_end m) -> exists t, slinv (sm_tape m) t (sm_blanks m) (sm_state m) (sm_steps m) c k)
  /\ match sm_end m with
     | YUndfnd s => s = (c_state c, c_tape c (c_pos c)) /\ M (c_state c) (c_tape c (c_pos c)) = None
     | YSpnout => spins_out_from M c
     | YXlimit => (least <= k)%nat
     | _ => True
     end.

Lemma clear_plain pv e : clear pv e -> plain_tape e.
Proof.
  intros (A & _). split; intros b I; apply A; apply in_or_app; [left|right]; cbn; apply in_map; auto.
Qed.
Lemma clear_blocks pv e e' : same_blocks e e' -> clear pv e -> clear pv e'.
Proof.
  intros (A & B & C). unfold clear, s_counts, worth. rewrite A, B, C. auto.
Qed.
Lemma gnil {A B} (R : A -> B -> Prop) l l' : Forall2 R l l' -> is_nil l = is_nil l'.
Proof. destruct 1; auto. Qed.
Lemma gtape_blank e t : gtape p e t -> s_blank e = t_blank t.
Proof. intros (A & B & C). unfold s_blank, t_blank. rewrite B, (gnil _ _ _ A), (gnil _ _ _ C). auto. Qed.
Lemma gtape_edge e t d : gtape p e t -> s_at_edge e d = t_at_edge t d.
Proof. intros (A & B & C). unfold s_at_edge, t_at_edge. rewrite B. destruct d; [rewrite (gnil _ _ _ C)|rewrite (gnil _ _ _ A)]; auto. Qed.

Lemma s_go_law fuel PV :
  (forall cycle pv e state step blanks rulapp sus t c k,
     slinv e t blanks state step c k -> sp_distinct pv -> s_lawful p M PV ->
     s_more (sm_prover (loop fuel cycle pv e state step blanks rulapp sus)) PV ->
     (forall j, (j <= fuel)%nat -> clear PV (sm_tape (loop j cycle pv e state step blanks rulapp sus))) ->
     s_ok (loop fuel cycle pv e state step blanks rulapp sus) (k + fuel)) ->
  forall cycle pv e state step blanks rulapp sus t c k,
  slinv e t blanks state step c k -> sp_distinct pv -> s_lawful p M PV -> plain_tape e ->
  s_more (sm_prover (s_go o (plain M) (loop fuel) cycle pv e state step blanks rulapp sus)) PV ->
  (forall j, (j <= fuel)%nat -> clear PV (sm_tape (s_go o (plain M) (loop j) cycle pv e state step blanks rulapp sus))) ->
  s_ok (s_go o (plain M) (loop fuel) cycle pv e state step blanks rulapp sus) (k + S fuel).
Proof.
  intros IH cycle pv e state step blanks rulapp sus t c k I D LW PT MO CL. pose proof I as [Hr Ht Hrep Hc Hst Hs Hb].
  assert (HS : c_tape c (c_pos c) = t_scan t) by (apply represents_iff; auto).
  assert (SC : st_scan e = t_scan t) by apply Ht.
  assert (FIN : forall en e0 cyc su pvx, match en with
     | YUndfnd s => s = (state, t_scan t) /\ M state (t_scan t) = None
     | YSpnout => spins_out_from M c
     | YXlimit => False
     | _ => True
     end -> (fine en -> e0 = e) -> s_ok (SMachR en step cyc rulapp state e0 blanks su pvx) (k + S fuel)).
  { intros en e0 cyc su pvx A B. exists k, c. cbn. split; auto. split; auto. split; auto.
    split; [intros F; rewrite (B F); exists t; auto|].
    rewrite Hst, HS. destruct en; auto. contradiction. }
  unfold s_go in *. cbn zeta in *. unfold plain at 1. unfold plain at 1 in MO.
  assert (CL1 : forall j, (j <= fuel)%nat -> clear PV (sm_tape
    match match M state (st_scan e) with Some i => LGot i | None => LKey (state, st_scan e) end with
    | LGot (color, shift, next_state) =>
        if (state =? next_state) && s_at_edge e shift
        then SMachR YSpnout step cycle rulapp state e blanks sus pv
        else match s_step o e shift color (state =? next_state) with
             | Got (t, stepped) =>
               let go step :=
                 if (color =? 0) && s_blank t
                 then if blanks_has blanks next_state then SMachR YInfrul step cycle rulapp next_state t blanks sus pv
                      else if next_state =? 0 then SMachR YInfrul step cycle rulapp next_state t ((next_state, step) :: blanks) sus pv
                        else loop j (cycle + 1) pv t next_state step ((next_state, step) :: blanks) rulapp sus
                 else loop j (cycle + 1) pv t next_state step blanks rulapp sus in
               if step =? -1 then go step
               else match stepped with I n => go (step + n) | _ => SMachR YErr step cycle rulapp state t blanks sus pv end
             | other => SMachR (match other with SFuel => YDeep | _ => YErr end) step cycle rulapp state e blanks sus pv
             end
    | LKey s => SMachR (YUndfnd s) step cycle rulapp state e blanks sus pv
    | LLoop => SMachR YInfrul step cycle rulapp state e blanks sus pv
    end)) by exact CL.
  clear CL. rename CL1 into CL. cbn zeta in CL.
  rewrite SC in *.
  destruct (M state (t_scan t)) as [[[color shift] next]|] eqn:EG.
  2:{ apply FIN; auto. }
  rewrite (gtape_edge _ _ _ Ht) in *.
  destruct ((state =? next) && t_at_edge t shift) eqn:ES.
  { apply FIN; auto. zb. subst next. apply (spin_out_lemma _ c shift color).
    - unfold t_at_edge in H0. zb. rewrite H in EG. rewrite Hst. exact EG.
    - intros i Hi. eapply represents_edge; eauto. }
  destruct (s_step o e shift color (state =? next)) as [[e' st]| | | | | |] eqn:ESTEP; try (apply FIN; cbn; auto; contradiction).
  destruct (step_value p P fl FL n e t shift color (state =? next) e' st Ht (proj1 PT) (proj2 PT) ESTEP) as (tp' & i & PS & G' & GST).
  destruct (prog_step M _ _ _ _ _ _ _ _ Hc Hrep Hst EG PS) as (K & C' & c' & A' & R' & S').
  assert (RUN : steps M (k + Z.to_nat i) init = Some c') by (rewrite (steps_add_some _ _ _ _ _ Hr); auto).
  rewrite (gtape_blank _ _ G') in *.
  assert (NEXT : forall step', (step' = -1 \/ step' = Z.of_nat (k + Z.to_nat i)) ->
    s_more (sm_prover (
      if (color =? 0) && t_blank tp'
      then if blanks_has blanks next then SMachR YInfrul step' cycle rulapp next e' blanks sus pv
           else if next =? 0 then SMachR YInfrul step' cycle rulapp next e' ((next, step') :: blanks) sus pv
             else loop fuel (cycle + 1) pv e' next step' ((next, step') :: blanks) rulapp sus
      else loop fuel (cycle + 1) pv e' next step' blanks rulapp sus)) PV ->
    (forall j, (j <= fuel)%nat -> clear PV (sm_tape (
      if (color =? 0) && t_blank tp'
      then if blanks_has blanks next then SMachR YInfrul step' cycle rulapp next e' blanks sus pv
           else if next =? 0 then SMachR YInfrul step' cycle rulapp next e' ((next, step') :: blanks) sus pv
             else loop j (cycle + 1) pv e' next step' ((next, step') :: blanks) rulapp sus
      else loop j (cycle + 1) pv e' next step' blanks rulapp sus))) ->
    s_ok (
      if (color =? 0) && t_blank tp'
      then if blanks_has blanks next then SMachR YInfrul step' cycle rulapp next e' blanks sus pv
           else if next =? 0 then SMachR YInfrul step' cycle rulapp next e' ((next, step') :: blanks) sus pv
             else loop fuel (cycle + 1) pv e' next step' ((next, step') :: blanks) rulapp sus
      else loop fuel (cycle + 1) pv e' next step' blanks rulapp sus) (k + S fuel)).
  { clear CL MO. intros step' ST' MO CL.
    assert (BL : bl_ok blanks (k + Z.to_nat i)).
    { intros s j X. destruct (Hb s j X) as (k0 & Y & Z). exists k0. split; [lia|auto]. }
    assert (GO : forall b, bl_ok b (k + Z.to_nat i) ->
      s_more (sm_prover (loop fuel (cycle + 1) pv e' next step' b rulapp sus)) PV ->
      (forall j, (j <= fuel)%nat -> clear PV (sm_tape (loop j (cycle + 1) pv e' next step' b rulapp sus))) ->
      s_ok (loop fuel (cycle + 1) pv e' next step' b rulapp sus) (k + S fuel)).
    { intros b HB MO0 CL0. destruct (IH (cycle + 1) pv e' next step' b rulapp sus tp' c' (k + Z.to_nat i)%nat) as (k2 & c2 & X1 & X2 & X3 & X4 & X5); auto.
      { constructor; auto. }
      exists k2, c2. do 4 (split; auto). destruct (sm_end _); auto. lia. }
    destruct ((color =? 0) && t_blank tp') eqn:EB; [|apply GO; auto].
    zb. assert (BA : blank_at M next (Z.of_nat (k + Z.to_nat i))).
    { split; [lia|]. exists c'. rewrite Nat2Z.id. split; auto. split; auto. eapply represents_blank; eauto. }
    assert (B2 : bl_ok ((next, step') :: blanks) (k + Z.to_nat i)).
    { intros s j [X|X]; [|auto]. injection X as <- <-. exists (k + Z.to_nat i)%nat. split; [lia|]. split; auto. }
    assert (NH : forall b, bl_ok b (k + Z.to_nat i) -> s_ok (SMachR YInfrul step' cycle rulapp next e' b sus pv) (k + S fuel)).
    { intros b HB. exists (k + Z.to_nat i)%nat, c'. cbn. do 3 (split; auto). split; auto. intros _. exists tp'. constructor; auto. }
    destruct (blanks_has blanks next) eqn:EH; [apply NH; auto|].
    destruct (next =? 0) eqn:EZ; [apply NH; auto|apply GO; auto]. }
  destruct (Z.eqb_spec step (-1)) as [S1|S1].
  - apply NEXT; auto.
  - destruct st as [i'| | | |]; try (apply FIN; cbn; auto; contradiction).
    destruct GST as (_ & GST). cbn in GST. apply Zq_inj in GST. subst i'. apply NEXT; auto. right. destruct Hs; [contradiction|lia].
Qed.

Lemma s_loop_law fuel PV : forall cycle pv e state step blanks rulapp sus t c k,
  slinv e t blanks state step c k -> sp_distinct pv -> s_lawful p M PV ->
  s_more (sm_prover (loop fuel cycle pv e state step blanks rulapp sus)) PV ->
  (forall j, (j <= fuel)%nat -> clear PV (sm_tape (loop j cycle pv e state step blanks rulapp sus))) ->
  s_ok (loop fuel cycle pv e state step blanks rulapp sus) (k + fuel).
Proof.
  induction fuel as [|fuel IH]; intros cycle pv e state step blanks rulapp sus t c k I D LW MO CL; pose proof I as [Hr Ht Hrep Hc Hst Hs Hb].
  - exists k, c. cbn. split; auto. split; auto. split; auto. split; [eauto|lia].
  - pose proof (clear_plain _ _ (CL 0%nat ltac:(lia))) as PT. cbn in PT.
    pose proof (CL 0%nat ltac:(lia)) as CL0. cbn in CL0.
    assert (CL' : forall j, (j <= fuel)%nat -> clear PV (sm_tape (loop (S j) cycle pv e state step blanks rulapp sus))) by (intros j J; apply CL; lia).
    clear CL. rename CL' into CL. setoid_rewrite s_machine_loop_S in CL. rewrite s_machine_loop_S in *.
    assert (HS : c_tape c (c_pos c) = t_scan t) by (apply represents_iff; auto).
    assert (SC : st_scan e = t_scan t) by apply Ht.
    destruct (s_try_rule fl o (plain M) pv cycle state e) as [pv' tr] eqn:TR.
    destruct (s_try_good _ _ _ _ _ _ _ _ _ D TR) as (SM & D' & TG). cbn zeta in *.
    assert (BAD : forall en e0 cyc su pvx, match en with YUndfnd _ | YSpnout | YXlimit => False | _ => True end -> (fine en -> e0 = e) ->
      s_ok (SMachR en step cyc rulapp state e0 blanks su pvx) (k + S fuel)).
    { intros en e0 cyc su pvx A B. exists k, c. cbn. split; auto. split; auto. split; auto.
      split; [intros F; rewrite (B F); exists t; auto|]. destruct en; auto; contradiction. }
    assert (G : forall su e0, same_blocks e0 e ->
       s_more (sm_prover (s_go o (plain M) (loop fuel) cycle pv' e0 state step blanks rulapp su)) PV ->
       (forall j, (j <= fuel)%nat -> clear PV (sm_tape (s_go o (plain M) (loop j) cycle pv' e0 state step blanks rulapp su))) ->
       s_ok (s_go o (plain M) (loop fuel) cycle pv' e0 state step blanks rulapp su) (k + S fuel)).
    { intros su e0 (B1 & B2 & B3) MO0 CLX. 
      assert (I0 : slinv e0 t blanks state step c k).
      { constructor; auto. destruct Ht as (X & Y & Z). unfold gtape. rewrite B1, B2, B3. auto. }
      assert (PT0 : plain_tape e0) by (unfold plain_tape; rewrite B1, B3; auto).
      apply (s_go_law fuel PV IH cycle pv' e0 state step blanks rulapp su t c k); auto. }
    destruct tr as [[ |r| | ]| | | |a b| | ]; try (apply G; auto; apply sb_refl); try (apply BAD; cbn; auto; contradiction).
    destruct (s_apply_rule fl o r e) as [[[times|] e']| | | | | |] eqn:A; try (apply BAD; cbn; auto; contradiction).
    2:{ apply G; auto. apply (s_apply_is _ _ _ _ _ _ A). }
    destruct (o_add o rulapp times) as [ra| | | ]; try (apply BAD; cbn; auto; contradiction).
    destruct (TG r eq_refl) as (ms & H & CV). rewrite (sig_value p e t Ht PT) in CV. apply s_covers_t in CV. rewrite SC in H.
    assert (H' : s_holds PV (state, t_scan t) ms r).
    { apply MO. eapply s_loop_keeps; auto. }
    destruct (srule_applied p P fl FL F2 n M PV state e t ms r times e' LW CL0 (D' _ _ _ H) Ht Hc H' CV A) as (t' & G' & C' & LD).
    destruct (leads_go _ _ _ _ _ _ _ LD Hr Hrep Hst) as (k' & c' & N' & R' & S' & P').
    destruct (IH (cycle + 1) pv' e' state (-1) blanks ra sus t' c' k') as (k2 & c2 & X1 & X2 & X3 & X4 & X5); auto.
    { constructor; auto. intros s j X. destruct (Hb s j X) as (k0 & Y & Z). exists k0. split; [lia|auto]. }
    exists k2, c2. do 4 (split; auto). destruct (sm_end _); auto. lia.
Qed.

Lemma s_run_lawful lim : let run := s_machine_run fl o (plain M) in let m := run lim in
  s_lawful p M (sm_prover m) -> (forall j, (j <= lim)%nat -> clear (sm_prover m) (sm_tape (run j))) ->
  exists k c, steps M k init = Some c
  /\ (sm_steps m <> -1 -> sm_steps m = Z.of_nat k)
  /\ (fine (sm_end m) -> exists t, worth (sm_tape m) t /\ represents t c /\ canon t
        /\ forall x, s_marks o (sm_tape m) = Got x -> val x (inject_Z (t_marks t)) /\ marks_are (c_tape c) (t_marks t))
  /\ (forall s, sm_end m = YUndfnd s -> halts_at M k s)
  /\ (sm_end m = YSpnout -> never_halts M /\ spins_out_from M c)
  /\ (sm_end m = YXlimit -> (lim <= k)%nat)
  /\ (forall s j, In (s, j) (sm_blanks m) -> exists i d, (1 <= i <= k)%nat /\ (j <> -1 -> j = Z.of_nat i)
       /\ steps M i init = Some d /\ c_state d = s /\ is_blank d).
Proof.
  intros run m LW CL.
  destruct (s_loop_law lim (sm_prover m) 0 (SPV [] []) st_init 0 0 [] (I 0) None init_tape init 0) as (k & c & Hr & Hs & Hb & HT & E); auto.
  - constructor; auto using canon_init, represents_init.
    + repeat split; constructor.
    + intros s j [].
  - intros s ms r (v & [] & _).
  - intros s ms r X; exact X.
  - fold (s_machine_run fl o (plain M) lim) in Hs, Hb, HT, E. change (s_machine_run fl o (plain M) lim) with m in *.
    exists k, c. split; auto. split; [intros X; destruct Hs; [contradiction|auto]|].
    split; [|split; [|split; [|split]]].
    + intros F. destruct (HT F) as (t & I). exists t. split; [eapply gtape_worth; apply I|]. split; [apply I|]. split; [apply I|].
      intros x X. split.
      * apply (marks_value p P fl FL n _ _ _ (sl_tape _ _ _ _ _ _ _ I) X).
      * apply marks_represents; [apply canon_wf; apply I|apply I].
    + intros s X. rewrite X in E. destruct E as (-> & E). exists c. cbn. auto.
    + intros X. rewrite X in E. split; auto. eapply spins_out_never_halts; eauto.
    + intros X. rewrite X in E. cbn in E. auto.
    + intros s j X. destruct (Hb s j X) as (i & Y & Q & _ & d & D & R). rewrite Nat2Z.id in D. exists i, d. split; auto.
      split; [intros Z; destruct Q; [contradiction|auto]|auto].
Qed.
End Loop.
