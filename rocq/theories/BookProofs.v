(** * Proofs about the rule book and the records of a prover *)
From Verif Require Import Base TM ProgModel TapeModel RulesModel PastModel QuickModel ProverModel TreeModel TreeProofs LawProofs SigSpec SigProofs BookSpec.

Definition enter (pv : prover) (e : entry) : prover :=
  set_rule pv (e_rule e) (e_state e) (t_signature (e_seen e), (e_lend e, e_rend e)).

Lemma cc_eqb_refl a : cc_eqb a a = true.
Proof. destruct a; cbn; apply Z.eqb_refl. Qed.
Lemma ccs_eqb_iff a b : ccs_eqb a b = true <-> a = b.
Proof.
  split; [apply ccs_eqb_eq|]. intros <-. induction a as [|x a IH]; cbn; auto. rewrite cc_eqb_refl. auto.
Qed.
Lemma sig_eqb_iff a b : sig_eqb a b = true <-> a = b.
Proof.
  unfold sig_eqb. rewrite !andb_true_iff, Z.eqb_eq, !ccs_eqb_iff. destruct a, b; cbn. split; [intros ((-> & ->) & ->); auto|intros X; inversion X; auto].
Qed.

Lemma rules_at_add rs s e s' : rules_at (rules_add rs s e) s'
  = if slot_eqb s s' then Some (match rules_at rs s' with Some v => v | None => [] end ++ [e]) else rules_at rs s'.
Proof.
  induction rs as [|[k v] rs IH]; cbn.
  - destruct (slot_eqb s s'); auto.
  - destruct (slot_eqb k s) eqn:E; cbn.
    + apply slot_eqb_eq in E. subst k. destruct (slot_eqb s s'); auto.
    + destruct (slot_eqb k s') eqn:F.
      * apply slot_eqb_eq in F. subst k. destruct (slot_eqb s s') eqn:G; auto. apply slot_eqb_eq in G. subst s.
        rewrite slot_eqb_refl in E. discriminate.
      * exact IH.
Qed.

Lemma prefix_iff s seen : firstn (length seen) (map sig_of_block s) = map sig_of_block seen <-> begins_like false s seen.
Proof.
  rewrite firstn_map. split.
  - intros H. exists (firstn (length seen) s), (skipn (length seen) s). split; [symmetry; apply firstn_skipn|].
    split; [apply sig_span_iff; auto|discriminate].
  - intros (near & far & -> & F & _). rewrite firstn_app.
    assert (L : length near = length seen) by (clear -F; induction F; cbn; auto).
    rewrite L, Nat.sub_diag, <- L, firstn_all, firstn_O, app_nil_r. apply sig_span_iff. auto.
Qed.
Lemma whole_iff s seen : map sig_of_block s = map sig_of_block seen <-> begins_like true s seen.
Proof.
  rewrite sig_span_iff. split.
  - intros F. exists s, []. rewrite app_nil_r. auto.
  - intros (near & far & -> & F & X). rewrite (X eq_refl), app_nil_r. auto.
Qed.
Lemma side_iff (ends : bool) (s seen : list block) :
  ccs_eqb (map sig_of_block seen) (if ends then map sig_of_block s else firstn (length (map sig_of_block seen)) (map sig_of_block s)) = true
  <-> begins_like ends s seen.
Proof.
  rewrite ccs_eqb_iff, map_length. destruct ends; [rewrite <- whole_iff|rewrite <- prefix_iff]; split; intros H; symmetry; exact H.
Qed.

Definition slot_of (e : entry) : slot := (e_state e, t_scan (e_seen e)).
Definition kept (e : entry) : minsig * rule := ((t_signature (e_seen e), (e_lend e, e_rend e)), e_rule e).

Lemma book_at es s : forall pv0, pv_rules pv0 = [] ->
  (match rules_at (pv_rules (fold_left enter es pv0)) s with Some v => v | None => [] end)
  = map kept (filter (fun e => slot_eqb (slot_of e) s) es).
Proof.
  induction es as [|e es IH] using rev_ind; intros pv0 H; cbn.
  - rewrite H. reflexivity.
  - rewrite fold_left_app, filter_app, map_app, <- (IH pv0 H). cbn [fold_left]. unfold enter at 1, set_rule. cbn [pv_rules fst].
    rewrite rules_at_add. change (sg_scan (t_signature (e_seen e))) with (t_scan (e_seen e)). fold (slot_of e). cbn [filter].
    destruct (slot_eqb (slot_of e) s); cbn [map]; [reflexivity|rewrite app_nil_r; reflexivity].
Qed.

Lemma match_first es state t r :
  match_rule (t_signature t) (map kept (filter (fun e => slot_eqb (slot_of e) (state, t_scan t)) es)) = Some r
  <-> first_meant es state t r.
Proof.
  induction es as [|e es IH]; cbn [filter map].
  - split; [discriminate|]. intros (b & e & a & X & _). destruct b; discriminate.
  - assert (Step : forall (Y : ~ meant_for e state t), first_meant es state t r <-> first_meant (e :: es) state t r).
    { intros Y. split.
      - intros (b & x & a & -> & M & R & N). exists (e :: b), x, a. split; [reflexivity|]. split; [auto|]. split; [auto|].
        intros e' [<-|I]; auto.
      - intros (b & x & a & X & M & R & N). destruct b as [|e0 b]; cbn in X; injection X as X1 X2.
        + subst. tauto.
        + subst. exists b, x, a. split; [reflexivity|]. split; [auto|]. split; [auto|]. intros e' I. apply N. right. auto. }
    assert (Hit : meant_for e state t -> (Some (e_rule e) = Some r <-> first_meant (e :: es) state t r)).
    { intros Y. split.
      - intros X. injection X as X. exists [], e, es. split; [reflexivity|]. split; [auto|]. split; [auto|]. intros e' [].
      - intros (b & x & a & X & M & R & N). destruct b as [|e0 b]; cbn in X; injection X as X1 X2.
        + subst. reflexivity.
        + subst e0. destruct (N e (or_introl eq_refl) Y). }
    destruct (slot_eqb (slot_of e) (state, t_scan t)) eqn:E.
    + apply slot_eqb_eq in E. unfold slot_of in E. injection E as E1 E2. cbn [map]. unfold kept at 1. unfold t_signature at 2. cbn [match_rule].
      match goal with |- (if ?c then _ else _) = _ <-> _ => assert (C : c = true <-> meant_for e state t) end.
      { rewrite !andb_true_iff. unfold t_signature. cbn [sg_scan sg_l sg_r]. rewrite !side_iff, Z.eqb_eq. unfold meant_for.
        split; [intros ((A & B) & D)|intros (A & B & D & F)]; repeat split; auto. }
      destruct (_ && _).
      * apply Hit, C. reflexivity.
      * rewrite IH. apply Step. intros X. apply C in X. discriminate.
    + rewrite IH. apply Step. intros (A & B & _). unfold slot_of in E. rewrite A, <- B, slot_eqb_refl in E. discriminate.
Qed.

Lemma book_answers es state t r :
  get_rule (fold_left enter es pv_new) state (t_scan t) (t_signature t) = Some r <-> first_meant es state t r.
Proof.
  rewrite <- match_first, <- (book_at es (state, t_scan t) pv_new eq_refl). unfold get_rule.
  destruct (rules_at _ _) as [v|]; [reflexivity|]. cbn [match_rule]. reflexivity.
Qed.

Lemma book_silent_nat es state t :
  match_rule (t_signature t) (map kept (filter (fun e => slot_eqb (slot_of e) (state, t_scan t)) es)) = None
  <-> forall e, In e es -> ~ meant_for e state t.
Proof.
  destruct (match_rule _ _) as [r|] eqn:E.
  - apply match_first in E. destruct E as (b & e & a & -> & M & _). split; [discriminate|]. intros H.
    exfalso. apply (H e); auto. apply in_or_app. right. left. reflexivity.
  - split; auto. intros _. revert E. induction es as [|e es IH]; intros E x [].
    + subst x. intros Y. assert (X : first_meant (e :: es) state t (e_rule e)).
      { exists [], e, es. split; [reflexivity|]. split; [auto|]. split; [auto|]. intros e' []. }
      apply match_first in X. congruence.
    + apply IH; auto. destruct (match_rule _ _) as [r|] eqn:F in |- *; auto. exfalso. apply match_first in F.
      destruct F as (b & y & a & -> & M & R & N).
      clear IH. cbn [filter] in E. destruct (slot_eqb (slot_of e) (state, t_scan t)) eqn:G.
      * cbn [map] in E. unfold kept at 1 in E. unfold t_signature at 2 in E. cbn [match_rule] in E. destruct (_ && _) in E; [discriminate|].
        assert (Z : first_meant (b ++ y :: a) state t r) by (exists b, y, a; auto). apply match_first in Z. congruence.
      * assert (Z : first_meant (b ++ y :: a) state t r) by (exists b, y, a; auto). apply match_first in Z. congruence.
Qed.
Lemma book_silent es state t :
  get_rule (fold_left enter es pv_new) state (t_scan t) (t_signature t) = None <-> forall e, In e es -> ~ meant_for e state t.
Proof.
  rewrite <- book_silent_nat, <- (book_at es (state, t_scan t) pv_new eq_refl). unfold get_rule.
  destruct (rules_at _ _) as [v|]; reflexivity.
Qed.

Lemma records_kept cs t t' p :
  (like_tape like_block t t' -> cfg_get (cfg_set cs (t_signature t) p) (t_signature t') = Some p)
  /\ (~ like_tape like_block t t' -> cfg_get (cfg_set cs (t_signature t) p) (t_signature t') = cfg_get cs (t_signature t')).
Proof.
  rewrite <- !signature_iff. generalize (t_signature t) (t_signature t'). clear t t'. intros s s'. split.
  - intros <-. induction cs as [|[k v] cs IH]; cbn.
    + rewrite (proj2 (sig_eqb_iff s s) eq_refl). reflexivity.
    + destruct (sig_eqb k s) eqn:E; cbn; rewrite E; auto.
  - intros N. induction cs as [|[k v] cs IH]; cbn.
    + destruct (sig_eqb s s') eqn:E; auto. apply sig_eqb_iff in E. tauto.
    + destruct (sig_eqb k s) eqn:E; cbn.
      * destruct (sig_eqb k s') eqn:F; auto. apply sig_eqb_iff in E, F. subst. tauto.
      * rewrite IH. reflexivity.
Qed.
(** One signature more is counted exactly if none like it was recorded. *)
Lemma records_number cs t p : length (cfg_set cs (t_signature t) p)
  = (length cs + match cfg_get cs (t_signature t) with Some _ => 0 | None => 1 end)%nat.
Proof.
  induction cs as [|[k v] cs IH]; cbn; auto. destruct (sig_eqb k (t_signature t)); cbn; [lia|]. rewrite IH. lia.
Qed.

(** ** try_rule *)
Definition book (es : list entry) (pv : prover) : Prop := pv_rules pv = pv_rules (fold_left enter es pv_new).

Lemma book_get es pv state t : book es pv -> get_rule pv state (t_scan t) (t_signature t)
  = get_rule (fold_left enter es pv_new) state (t_scan t) (t_signature t).
Proof. unfold book, get_rule. intros ->. reflexivity. Qed.
Lemma book_known es pv state t r : book es pv -> get_rule pv state (t_scan t) (t_signature t) = Some r <-> first_meant es state t r.
Proof. intros B. rewrite (book_get es pv state t B). apply book_answers. Qed.
Lemma book_unknown es pv state t : book es pv -> get_rule pv state (t_scan t) (t_signature t) = None <-> forall e, In e es -> ~ meant_for e state t.
Proof. intros B. rewrite (book_get es pv state t B). apply book_silent. Qed.

Lemma like_block_refl s : Forall2 like_block s s.
Proof. induction s; constructor; auto. split; tauto. Qed.
Lemma cut_like lo (le : bool) s : (le = true -> lo = length s) -> begins_like le s (firstn lo s).
Proof.
  intros H. exists (firstn lo s), (skipn lo s). split; [symmetry; apply firstn_skipn|]. split; [apply like_block_refl|].
  intros X. rewrite (H X). apply skipn_all.
Qed.

(** What the answer of try_rule means for the book. *)
Definition told (es : list entry) (state : Z) (t : tape) (pv' : prover) (a : try_res) : Prop :=
  match a with
  | TRule r => (book es pv' /\ first_meant es state t r)
               \/ exists e, book (es ++ [e]) pv' /\ meant_for e state t /\ e_rule e = r /\ forall e', In e' es -> ~ meant_for e' state t
  | _ => book es pv' /\ forall e', In e' es -> ~ meant_for e' state t
  end.

Lemma set_told es pv state t r m lo ro (le re : bool) : book es pv -> (forall e', In e' es -> ~ meant_for e' state t) ->
  m = (Sig (t_scan t) (firstn lo (sg_l (t_signature t))) (firstn ro (sg_r (t_signature t))), (le, re)) ->
  (le = true -> lo = length (t_lspan t)) -> (re = true -> ro = length (t_rspan t)) ->
  told es state t (set_rule pv r state m) (TRule r).
Proof.
  intros B N E L R. right. exists (Entry state (cut_off lo ro t) le re r). split.
  - unfold book. rewrite fold_left_app. cbn [fold_left]. unfold enter at 1. cbn [e_rule e_state e_seen e_lend e_rend].
    unfold set_rule. cbn [pv_rules]. rewrite cut_signature, <- E, B. reflexivity.
  - split; [|split; auto]. split; [reflexivity|]. split; [reflexivity|]. cbn. split; apply cut_like; auto.
Qed.

Lemma py_dc_early comp pv state sig : forall l t x, py_delta_counts comp pv state sig l t = inr x -> x = TNone \/ x = TLoop \/ x = TErr.
Proof.
  induction l as [|d l IH]; intros t x; cbn [py_delta_counts]; [discriminate|].
  destruct (py_simulate _ _ _ _ _) as [s t1| | |]; try (intros X; injection X as <-; auto; fail).
  destruct (_ || _); try (intros X; injection X as <-; auto; fail).
  specialize (IH t1). destruct (py_delta_counts _ _ _ _ l t1) as [cs|y]; [discriminate|]. intros X. injection X as ->. apply IH. reflexivity.
Qed.
Lemma rs_dc_early M pv state sig : forall l t x, rs_delta_counts M pv state sig l t = inr x -> x = TNone \/ x = TLoop \/ x = TErr.
Proof.
  induction l as [|d l IH]; intros t x; cbn [rs_delta_counts]; [discriminate|].
  destruct (rs_simulate _ _ _ _ _) as [s t1| | |]; try (intros X; injection X as <-; auto; fail).
  destruct (_ || _); try (intros X; injection X as <-; auto; fail).
  specialize (IH t1). destruct (rs_delta_counts _ _ _ _ l t1) as [cs|y]; [discriminate|]. intros X. injection X as ->. apply IH. reflexivity.
Qed.

Lemma py_try_told comp es pv cycle state t pv' a : book es pv -> py_try_rule comp pv cycle state t = (pv', a) -> told es state t pv' a.
Proof.
  intros B. unfold py_try_rule. destruct (get_rule pv state (t_scan t) (t_signature t)) as [r|] eqn:G.
  { intros X. injection X as <- <-. left. split; auto. apply (book_known es pv state t r B). auto. }
  assert (N := proj1 (book_unknown es pv state t B) G).
  destruct (cfg_get _ _) as [past|].
  2:{ destruct (_ <? _); intros X; injection X as <- <-; split; auto. }
  destruct (pcs_next_deltas past state cycle) as [past' d]. destruct d as [| |d1 d2 d3]; try (intros X; injection X as <- <-; split; auto; fail).
  destruct (py_delta_counts _ _ _ _ _ _) as [[|c1 [|c2 [|c3 [|]]]]|x] eqn:D; try (intros X; injection X as <- <-; split; auto; fail).
  2:{ intros X. injection X as <- <-.
      destruct x; try (split; auto; fail). exfalso. destruct (py_dc_early _ _ _ _ _ _ _ D) as [X|[X|X]]; discriminate X. }
  destruct (py_make_rule _ _ _ _); try (intros X; injection X as <- <-; split; auto; fail).
  destruct (swap_rule _ _); try (intros X; injection X as <- <-; split; auto; fail).
  match goal with |- context [py_min_sig ?a ?b ?c ?d ?e ?f] => destruct (py_min_sig a b c d e f) as [m| |] eqn:MS end;
    intros X; injection X as <- <-; try (split; auto; fail).
  apply EdgeProofs.min_sig_edges in MS. destruct MS as (lo & ro & le & re & E & L & R).
  apply (set_told es _ state t _ m lo ro le re); auto.
Qed.

Lemma rs_try_told M es pv cycle state t pv' a : book es pv -> rs_try_rule M pv cycle state t = (pv', a) -> told es state t pv' a.
Proof.
  intros B. unfold rs_try_rule. destruct (get_rule pv state (t_scan t) (t_signature t)) as [r|] eqn:G.
  { intros X. injection X as <- <-. left. split; auto. apply (book_known es pv state t r B). auto. }
  assert (N := proj1 (book_unknown es pv state t B) G).
  destruct (cfg_get _ _) as [past|].
  2:{ destruct (_ <? _); intros X; injection X as <- <-; split; auto. }
  destruct (pcs_next_deltas past state cycle) as [past' d]. destruct d as [| |d1 d2 d3]; try (intros X; injection X as <- <-; split; auto; fail).
  destruct (_ || _); try (intros X; injection X as <- <-; split; auto; fail).
  destruct (rs_delta_counts _ _ _ _ _ _) as [[|c1 [|c2 [|c3 [|]]]]|x] eqn:D; try (intros X; injection X as <- <-; split; auto; fail).
  2:{ intros X. injection X as <- <-.
      destruct x; try (split; auto; fail). exfalso. destruct (rs_dc_early _ _ _ _ _ _ _ D) as [X|[X|X]]; discriminate X. }
  destruct (rs_make_rule _ _ _ _); try (intros X; injection X as <- <-; split; auto; fail).
  destruct (forallb _ _); try (intros X; injection X as <- <-; split; auto; fail).
  destruct (existsb _ _); try (intros X; injection X as <- <-; split; auto; fail).
  destruct (swap_rule _ _); try (intros X; injection X as <- <-; split; auto; fail).
  match goal with |- context [rs_min_sig ?a ?b ?c ?d ?e ?f] => destruct (rs_min_sig a b c d e f) as [m| |] eqn:MS end;
    intros X; injection X as <- <-; try (split; auto; fail).
  apply EdgeProofs.rs_min_sig_edges in MS. destruct MS as (lo & ro & le & re & E & L & R).
  apply (set_told es _ state t _ m lo ro le re); auto.
Qed.

(** ** The number of records *)
Lemma set_same_number cs t p q : cfg_get cs (t_signature t) = Some p -> length (cfg_set cs (t_signature t) q) = length cs.
Proof. intros H. rewrite records_number, H. lia. Qed.
Lemma set_twice_number cs t p q r : cfg_get cs (t_signature t) = Some p ->
  length (cfg_set (cfg_set cs (t_signature t) q) (t_signature t) r) = length cs.
Proof.
  intros H. rewrite (set_same_number _ t q r); [apply (set_same_number _ _ _ _ H)|]. apply records_kept.
  split; [reflexivity|]. split; apply like_block_refl.
Qed.
(** More records only where there was none of a like tape and the limit was not passed; past it the answer says so. *)
Definition counted (pv pv' : prover) (state : Z) (t : tape) (a : try_res) : Prop :=
  (a = TConfigLimit <-> get_rule pv state (t_scan t) (t_signature t) = None /\ cfg_get (pv_configs pv) (t_signature t) = None
     /\ 100000 < Z.of_nat (length (pv_configs pv)))
  /\ (length (pv_configs pv') = length (pv_configs pv)
      \/ length (pv_configs pv') = Datatypes.S (length (pv_configs pv)) /\ cfg_get (pv_configs pv) (t_signature t) = None
         /\ Z.of_nat (length (pv_configs pv)) <= 100000).

Lemma py_try_counted comp pv cycle state t pv' a : py_try_rule comp pv cycle state t = (pv', a) -> counted pv pv' state t a.
Proof.
  unfold py_try_rule, counted. destruct (get_rule pv state (t_scan t) (t_signature t)) as [r|] eqn:G.
  { intros X. injection X as <- <-. split; [split; [discriminate|intros (A & _); discriminate]|auto]. }
  destruct (cfg_get (pv_configs pv) (t_signature t)) as [past|] eqn:C.
  2:{ destruct (Z.ltb_spec 100000 (Z.of_nat (length (pv_configs pv)))) as [L|L]; intros X; injection X as <- <-.
      - split; [split; auto|auto].
      - split; [split; [discriminate|intros (_ & _ & A); lia]|]. right. cbn [pv_configs]. rewrite records_number, C. split; [lia|auto]. }
  assert (F : forall p q, p = pv_configs pv' -> a <> TConfigLimit ->
    (p = cfg_set (pv_configs pv) (t_signature t) q \/ exists q', p = cfg_set (cfg_set (pv_configs pv) (t_signature t) q') (t_signature t) q) ->
    (a = TConfigLimit <-> @None rule = None /\ Some past = None /\ 100000 < Z.of_nat (length (pv_configs pv)))
    /\ (length (pv_configs pv') = length (pv_configs pv)
      \/ length (pv_configs pv') = Datatypes.S (length (pv_configs pv)) /\ Some past = None /\ Z.of_nat (length (pv_configs pv)) <= 100000)).
  { intros p q <- NA [->|(q' & ->)]; (split; [split; [intros X; destruct (NA X)|intros (_ & A & _); discriminate]|left]).
    - apply (set_same_number _ _ _ _ C).
    - apply (set_twice_number _ _ _ _ _ C). }
  destruct (pcs_next_deltas past state cycle) as [past' d].
  assert (F1 : forall rs, pv' = PV rs (cfg_set (pv_configs pv) (t_signature t) past') -> a <> TConfigLimit -> _)
    by (intros rs E NA; apply (F (pv_configs pv') past' eq_refl NA); left; rewrite E; reflexivity).
  assert (F2 : forall rs q, pv' = PV rs (cfg_set (cfg_set (pv_configs pv) (t_signature t) past') (t_signature t) q) -> a <> TConfigLimit -> _)
    by (intros rs q E NA; apply (F (pv_configs pv') q eq_refl NA); right; exists past'; rewrite E; reflexivity).
  clear F. destruct d as [| |d1 d2 d3]; try (intros X; injection X as X <-; eapply F1; [symmetry; exact X|discriminate]).
  destruct (py_delta_counts _ _ _ _ _ _) as [[|c1 [|c2 [|c3 [|]]]]|x] eqn:D;
    try (intros X; injection X as X <-; eapply F1; [symmetry; exact X|discriminate]).
  2:{ intros X. injection X as X <-. eapply F1; [symmetry; exact X|]. destruct (py_dc_early _ _ _ _ _ _ _ D) as [Y|[Y|Y]]; rewrite Y; discriminate. }
  destruct (py_make_rule _ _ _ _); try (intros X; injection X as X <-; eapply F1; [symmetry; exact X|discriminate]).
  destruct (swap_rule _ _); try (intros X; injection X as X <-; eapply F1; [symmetry; exact X|discriminate]).
  destruct (py_min_sig _ _ _ _ _ _) as [m| |];
    intros X; injection X as X <-; (eapply F2; [symmetry; exact X|discriminate]).
Qed.

Lemma rs_try_counted M pv cycle state t pv' a : rs_try_rule M pv cycle state t = (pv', a) -> counted pv pv' state t a.
Proof.
  unfold rs_try_rule, counted. destruct (get_rule pv state (t_scan t) (t_signature t)) as [r|] eqn:G.
  { intros X. injection X as <- <-. split; [split; [discriminate|intros (A & _); discriminate]|auto]. }
  destruct (cfg_get (pv_configs pv) (t_signature t)) as [past|] eqn:C.
  2:{ destruct (Z.ltb_spec 100000 (Z.of_nat (length (pv_configs pv)))) as [L|L]; intros X; injection X as <- <-.
      - split; [split; auto|auto].
      - split; [split; [discriminate|intros (_ & _ & A); lia]|]. right. cbn [pv_configs]. rewrite records_number, C. split; [lia|auto]. }
  assert (F : forall p q, p = pv_configs pv' -> a <> TConfigLimit ->
    (p = cfg_set (pv_configs pv) (t_signature t) q \/ exists q', p = cfg_set (cfg_set (pv_configs pv) (t_signature t) q') (t_signature t) q) ->
    (a = TConfigLimit <-> @None rule = None /\ Some past = None /\ 100000 < Z.of_nat (length (pv_configs pv)))
    /\ (length (pv_configs pv') = length (pv_configs pv)
      \/ length (pv_configs pv') = Datatypes.S (length (pv_configs pv)) /\ Some past = None /\ Z.of_nat (length (pv_configs pv)) <= 100000)).
  { intros p q <- NA [->|(q' & ->)]; (split; [split; [intros X; destruct (NA X)|intros (_ & A & _); discriminate]|left]).
    - apply (set_same_number _ _ _ _ C).
    - apply (set_twice_number _ _ _ _ _ C). }
  destruct (pcs_next_deltas past state cycle) as [past' d].
  assert (F1 : forall rs, pv' = PV rs (cfg_set (pv_configs pv) (t_signature t) past') -> a <> TConfigLimit -> _)
    by (intros rs E NA; apply (F (pv_configs pv') past' eq_refl NA); left; rewrite E; reflexivity).
  assert (F2 : forall rs q, pv' = PV rs (cfg_set (cfg_set (pv_configs pv) (t_signature t) past') (t_signature t) q) -> a <> TConfigLimit -> _)
    by (intros rs q E NA; apply (F (pv_configs pv') q eq_refl NA); right; exists past'; rewrite E; reflexivity).
  clear F. destruct d as [| |d1 d2 d3]; try (intros X; injection X as X <-; eapply F1; [symmetry; exact X|discriminate]).
  destruct (_ || _); try (intros X; injection X as X <-; eapply F1; [symmetry; exact X|discriminate]).
  destruct (rs_delta_counts _ _ _ _ _ _) as [[|c1 [|c2 [|c3 [|]]]]|x] eqn:D;
    try (intros X; injection X as X <-; eapply F1; [symmetry; exact X|discriminate]).
  2:{ intros X. injection X as X <-. eapply F1; [symmetry; exact X|]. destruct (rs_dc_early _ _ _ _ _ _ _ D) as [Y|[Y|Y]]; rewrite Y; discriminate. }
  destruct (rs_make_rule _ _ _ _); try (intros X; injection X as X <-; eapply F1; [symmetry; exact X|discriminate]).
  destruct (forallb _ _); try (intros X; injection X as X <-; eapply F1; [symmetry; exact X|discriminate]).
  destruct (existsb _ _); try (intros X; injection X as X <-; eapply F1; [symmetry; exact X|discriminate]).
  destruct (swap_rule _ _); try (intros X; injection X as X <-; eapply F1; [symmetry; exact X|discriminate]).
  destruct (rs_min_sig _ _ _ _ _ _) as [m| |];
    intros X; injection X as X <-; (eapply F2; [symmetry; exact X|discriminate]).
Qed.
