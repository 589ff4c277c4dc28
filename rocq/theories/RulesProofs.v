(** Lemmas about rules on integer counts. *)
From Verif Require Import Base TapeModel RulesModel RulesSpec.
Ltac Zify.zify_post_hook ::= Z.div_mod_to_equations.

Lemma index_eqb_spec a b : reflect (a = b) (index_eqb a b).
Proof.
  destruct a as [s i], b as [s' i']. unfold index_eqb. cbn.
  destruct (Bool.eqb_spec s s'), (Nat.eqb_spec i i'); cbn; constructor; congruence.
Qed.

(** ** get and set *)

Lemma set_nth_get s : forall i v s', set_nth_count s i v = Some s' ->
  map b_color s' = map b_color s
  /\ forall j, option_map b_count (nth_error s' j) =
       if Nat.eqb j i then Some v else option_map b_count (nth_error s j).
Proof.
  induction s as [|b s IH]; intros [|i] v s' E; cbn in E; try discriminate.
  - inv E. split; auto. intros [|j]; auto.
  - destruct (set_nth_count s i v) as [s1|] eqn:E1; [|discriminate]. cbn in E. inv E.
    destruct (IH _ _ _ E1) as (A & B). split; [cbn; congruence|].
    intros [|j]; cbn [nth_error Nat.eqb]; auto.
Qed.

Lemma set_nth_defined s : forall i v, nth_error s i <> None -> exists s', set_nth_count s i v = Some s'.
Proof.
  induction s as [|b s IH]; intros [|i] v H; cbn in *; try congruence; eauto.
  destruct (IH i v H) as (s' & ->). cbn. eauto.
Qed.

Lemma set_count_spec t i v n : get_count t i = Some n ->
  exists t', set_count t i v = Some t' /\ same_shape t t'
    /\ forall j, get_count t' j = if index_eqb j i then Some v else get_count t j.
Proof.
  destruct i as [s i]. unfold get_count, set_count, t_get_count, t_set_count. cbn. intros H.
  assert (D : nth_error (if s then t_rspan t else t_lspan t) i <> None)
    by (destruct (nth_error (if s then t_rspan t else t_lspan t) i); [discriminate|discriminate]).
  destruct (set_nth_defined _ _ v D) as (s' & E).
  destruct (set_nth_get _ _ _ _ E) as (A & B).
  destruct s; rewrite E; cbn; eexists; (split; [reflexivity|]).
  - split; [repeat split; cbn; auto|]. intros [[|] j]; unfold index_eqb; cbn; [apply B|auto].
  - split; [repeat split; cbn; auto|]. intros [[|] j]; unfold index_eqb; cbn; [auto|apply B].
Qed.

Lemma same_shape_refl t : same_shape t t.
Proof. repeat split. Qed.
Lemma same_shape_trans a b c : same_shape a b -> same_shape b c -> same_shape a c.
Proof. intros (A & B & C) (A' & B' & C'). repeat split; congruence. Qed.

(** ** count_apps *)

Lemma apps_entry count d : d < 0 -> (count <=? Z.abs d) = false ->
  let '(times, res) := if 0 <? count mod Z.abs d then (count / Z.abs d, count mod Z.abs d)
                       else (count / Z.abs d - 1, Z.abs d) in
  1 <= times /\ res = count + d * times /\ 1 <= res <= - d.
Proof.
  intros Hd Hc. zb. replace (Z.abs d) with (- d) in * by lia.
  set (a := - d) in *. assert (Ha : 0 < a) by lia.
  pose proof (Z.div_mod count a ltac:(lia)). pose proof (Z.mod_pos_bound count a Ha).
  set (q := count / a) in *. set (m := count mod a) in *. replace d with (- a) by lia. clearbody q m a.
  destruct (Z.ltb_spec 0 m); nia.
Qed.

Definition apps_ok (r : rule) (t : tape) (T : Z) (p : index) (res : Z) : Prop :=
  exists d c, In (p, Plus d) r /\ d < 0 /\ get_count t p = Some c /\ res = c + d * T /\ 1 <= res <= - d.

Definition fits (r : rule) (t : tape) (T : Z) : Prop :=
  forall i d c, In (i, Plus d) r -> d < 0 -> get_count t i = Some c -> 1 <= c + d * T.

Lemma count_apps_spec r t : forall apps, addressed r t ->
  match apps with AIndex => False | ANone => True | ASome T0 _ _ => 1 <= T0 end ->
  match py_count_apps r t apps with
  | AIndex => False
  | ANone => blocked r t \/ (apps = ANone /\ nothing_decreases r)
  | ASome T p res =>
      1 <= T /\ (apps = ASome T p res \/ apps_ok r t T p res) /\ fits r t T
      /\ match apps with ASome T0 _ _ => T <= T0 | _ => True end
      /\ ~ blocked r t
  end.
Proof.
  induction r as [|[i o] r IH]; intros apps AD H0.
  - cbn. destruct apps; auto.
    + right. split; auto. intros ? ? [].
    + repeat split; auto; try lia. { intros ? ? ? []. } { intros (? & ? & ? & [] & _). }
  - assert (AD' : addressed r t) by (intros j o' Hj; apply (AD j o'); right; auto).
    assert (SK : forall apps', (forall d, o = Plus d -> 0 <= d) ->
       match apps' with AIndex => False | ANone => True | ASome T0 _ _ => 1 <= T0 end ->
       match py_count_apps r t apps' with
       | AIndex => False
       | ANone => blocked ((i, o) :: r) t \/ (apps' = ANone /\ nothing_decreases ((i, o) :: r))
       | ASome T p res =>
           1 <= T /\ (apps' = ASome T p res \/ apps_ok ((i, o) :: r) t T p res) /\ fits ((i, o) :: r) t T
           /\ match apps' with ASome T0 _ _ => T <= T0 | _ => True end
           /\ ~ blocked ((i, o) :: r) t
       end).
    { intros apps' Ho H0'. specialize (IH apps' AD' H0').
      destruct (py_count_apps r t apps') as [| |T p res]; auto.
      - destruct IH as [(j & d & n & A & B)|(A & B)].
        + left. exists j, d, n. split; [right; auto|auto].
        + right. split; auto. intros j d [X|X]; [inv X; auto|eapply B; eauto].
      - destruct IH as (A & B & C & D & E). repeat split; auto.
        + destruct B as [B|(d & c & B1 & B2)]; auto. right. exists d, c. split; [right; auto|auto].
        + intros j d c [X|X] Hd; [inv X; specialize (Ho d eq_refl); lia|eapply C; eauto].
        + intros (j & d & n & [X|X] & Y); [inv X; specialize (Ho d eq_refl); lia|].
          apply E. exists j, d, n. auto. }
    destruct o as [d|m a]; cbn [py_count_apps].
    2:{ apply SK; auto. intros d X; discriminate. }
    destruct (Z.leb_spec 0 d) as [Hd|Hd].
    { apply SK; auto. intros d' X. inv X. auto. }
    destruct (AD i (Plus d) (or_introl eq_refl)) as (c & Gc & Pc). rewrite Gc.
    destruct (c <=? Z.abs d) eqn:EC.
    { left. exists i, d, c. zb. split; [left; auto|]. repeat split; auto; lia. }
    pose proof (apps_entry c d Hd EC) as AE.
    destruct (if 0 <? c mod Z.abs d then (c / Z.abs d, c mod Z.abs d) else (c / Z.abs d - 1, Z.abs d)) as [ti res0].
    destruct AE as (A1 & A2 & A3).
    set (apps' := match apps with
                  | ASome t0 _ _ => if ti <? t0 then ASome ti i res0 else apps
                  | _ => ASome ti i res0
                  end).
    assert (HT : exists T0 p0 r0, apps' = ASome T0 p0 r0 /\ 1 <= T0 <= ti
               /\ (apps = ASome T0 p0 r0 \/ (T0 = ti /\ p0 = i /\ r0 = res0))
               /\ match apps with ASome T1 _ _ => T0 <= T1 | _ => True end).
    { unfold apps'. destruct apps as [| |T1 p1 r1]; [tauto| |].
      - do 3 eexists. split; [reflexivity|]. split; [lia|]. split; auto.
      - destruct (Z.ltb_spec ti T1); do 3 eexists; (split; [reflexivity|]); (split; [lia|]); split; auto; lia. }
    destruct HT as (T0 & p0 & r0 & EQ & HT0 & HO & HL).
    specialize (IH apps' AD'). rewrite EQ in IH |- *. specialize (IH ltac:(lia)).
    destruct (py_count_apps r t (ASome T0 p0 r0)) as [| |T p res]; auto.
    + destruct IH as [(j & d' & n & A & B)|(A & _)]; [|discriminate].
      left. exists j, d', n. split; [right; auto|auto].
    + destruct IH as (A & B & C & D & E). split; [auto|]. split; [|split; [|split]].
      * destruct B as [B|(d' & c' & B1 & B2)].
        -- inv B. destruct HO as [HO|(X1 & X2 & X3)]; auto. subst. right.
           exists d, c. split; [left; auto|auto].
        -- right. exists d', c'. split; [right; auto|auto].
      * intros j d' c' [X|X] Hd' Hc'; [|eapply C; eauto].
        inv X. rewrite Gc in Hc'. inv Hc'. nia.
      * destruct apps; lia.
      * intros (j & d' & n & [X|X] & Y1 & Y2 & Y3).
        -- inv X. rewrite Gc in Y2. inv Y2. zb. lia.
        -- apply E. exists j, d', n. auto.
Qed.

(** ** apply_rule *)

Lemma rule_at_In r i o : distinct r -> In (i, o) r -> rule_at r i = Some o.
Proof.
  induction r as [|[j o'] r IH]; intros D H; [destruct H|]. cbn. inv D.
  destruct (index_eqb_spec j i) as [->|N].
  - destruct H as [X|X]; [congruence|]. exfalso. apply H2. apply (in_map fst) in X. auto.
  - destruct H as [X|X]; [congruence|]. auto.
Qed.

Lemma rule_at_None r i : (forall o, ~ In (i, o) r) -> rule_at r i = None.
Proof.
  induction r as [|[j o'] r IH]; intros H; auto. cbn.
  destruct (index_eqb_spec j i) as [->|N].
  - exfalso. apply (H o'). left; auto.
  - apply IH. intros o X. apply (H o). right; auto.
Qed.

Lemma rule_at_some_In r i o : rule_at r i = Some o -> In (i, o) r.
Proof.
  induction r as [|[j o'] r IH]; cbn; [discriminate|].
  destruct (index_eqb_spec j i) as [->|N]; [intros X; inv X; auto|auto].
Qed.

Lemma bump_n_None r n f i : rule_at r i = None -> bump_n r n f i = f i.
Proof.
  intros H. induction n; auto. unfold bump_n in *. cbn [Nat.iter nat_rect].
  unfold Nat.iter in *. cbn. unfold bump at 1. rewrite H. auto.
Qed.

Lemma bump_n_Plus r n f i d c : rule_at r i = Some (Plus d) -> f i = Some c ->
  bump_n r n f i = Some (c + d * Z.of_nat n).
Proof.
  intros H Hf. induction n.
  - cbn. rewrite Hf. f_equal. lia.
  - unfold bump_n in *. cbn. unfold bump at 1. rewrite H. unfold Nat.iter in IHn. rewrite IHn. cbn. f_equal. lia.
Qed.

(** The value given to each position. *)
Definition target (T : Z) (p : index) (res : Z) (i : index) (o : op) (c : Z) : Z :=
  match o with
  | Plus d => if negb (index_eqb i p) then c + d * T else res
  | Mult m a => apply_mult c T m a
  end.

Lemma apply_loop_spec T p res : forall r t, distinct r -> addressed r t ->
  match py_apply_loop r t T p res with
  | EvIndex => False
  | EvNone => False
  | EvSymbolic => exists i m a, In (i, Mult m a) r
  | EvApplied T' t' => T' = T /\ same_shape t t' /\ ((exists i m a, In (i, Mult m a) r) -> T = 1)
      /\ (forall i o c, In (i, o) r -> get_count t i = Some c -> get_count t' i = Some (target T p res i o c))
      /\ (forall i, (forall o, ~ In (i, o) r) -> get_count t' i = get_count t i)
  end.
Proof.
  induction r as [|[i o] r IH]; intros t D AD.
  - cbn. split; auto. split; [apply same_shape_refl|]. split; [intros (? & ? & ? & [])|].
    split; [intros ? ? ? []|auto].
  - cbn [py_apply_loop].
    destruct (AD i o (or_introl eq_refl)) as (c & Gc & Pc). rewrite Gc.
    inv D.
    set (v := target T p res i o c).
    destruct (set_count_spec t i v c Gc) as (t1 & S1 & SH & G1).
    assert (AD1 : addressed r t1).
    { intros j o' Hj. rewrite G1. destruct (index_eqb_spec j i) as [->|N].
      - exfalso. apply H1. apply (in_map fst) in Hj. auto.
      - apply (AD j o'). right; auto. }
    specialize (IH t1 H2 AD1).
    assert (KEY : (forall m a, o = Mult m a -> T = 1) ->
      match py_apply_loop r t1 T p res with
      | EvIndex => False
      | EvNone => False
      | EvSymbolic => exists j m a, In (j, Mult m a) ((i, o) :: r)
      | EvApplied T' t' => T' = T /\ same_shape t t' /\ ((exists j m a, In (j, Mult m a) ((i, o) :: r)) -> T = 1)
          /\ (forall j o' c', In (j, o') ((i, o) :: r) -> get_count t j = Some c' -> get_count t' j = Some (target T p res j o' c'))
          /\ (forall j, (forall o', ~ In (j, o') ((i, o) :: r)) -> get_count t' j = get_count t j)
      end).
    { intros HM. destruct (py_apply_loop r t1 T p res) as [| | |T' t']; auto.
      - destruct IH as (j & m & a & B). exists j, m, a. right; auto.
      - destruct IH as (A & B & C & E & F). split; auto. split; [eapply same_shape_trans; eauto|].
        split; [|split].
        + intros (j & m & a & [X|X]); [inv X; eauto|eauto].
        + intros j o' c' [X|X] Gj.
          * inv X. rewrite Gc in Gj. inv Gj. rewrite F.
            -- rewrite G1. destruct (index_eqb_spec j j); [auto|congruence].
            -- intros o X. apply H1. apply (in_map fst) in X. auto.
          * apply E; auto. rewrite G1. destruct (index_eqb_spec j i) as [->|N]; auto.
            exfalso. apply H1. apply (in_map fst) in X. auto.
        + intros j Hj. rewrite F.
          * rewrite G1. destruct (index_eqb_spec j i) as [->|N]; auto.
            exfalso. apply (Hj o). left; auto.
          * intros o' X. apply (Hj o'). right; auto. }
    destruct o as [d|m a].
    + change (if negb (index_eqb i p) then c + d * T else res) with v. rewrite S1.
      apply KEY. intros; discriminate.
    + destruct (mult_int T m a) eqn:E.
      * change (apply_mult c T m a) with v. rewrite S1. apply KEY. intros _ _ _.
        apply Bool.andb_true_iff in E. apply Z.eqb_eq. tauto.
      * exists i, m, a. left; auto.
Qed.

Lemma apply_mult_1 c m a : apply_mult c 1 m a = m * c + a.
Proof.
  unfold apply_mult. replace (1 =? 1) with true by reflexivity.
  rewrite Z.sub_diag. replace (0 / (m - 1)) with 0 by (destruct (m - 1); reflexivity).
  bdestr; lia.
Qed.

Lemma py_apply_rule_spec r t : distinct r -> addressed r t ->
  match py_apply_rule r t with
  | EvIndex => False
  | EvSymbolic => exists i m a, In (i, Mult m a) r
  | EvNone => blocked r t \/ nothing_decreases r
  | EvApplied times t' =>
      exists n, times = Z.of_nat n /\ (1 <= n)%nat /\ same_shape t t'
        /\ (forall i, get_count t' i = bump_n r n (get_count t) i)
        /\ (forall i d k, (k <= n)%nat -> In (i, Plus d) r ->
              exists c, bump_n r k (get_count t) i = Some c /\ 1 <= c)
        /\ (exists i d c, In (i, Plus d) r /\ bump_n r (S n) (get_count t) i = Some c /\ c < 1)
  end.
Proof.
  intros D AD. unfold py_apply_rule.
  pose proof (count_apps_spec r t ANone AD I) as CA.
  destruct (py_count_apps r t ANone) as [| |T p res]; auto.
  - destruct CA as [?|(_ & ?)]; auto.
  - destruct CA as (T1 & [X|(d0 & c0 & I0 & Hd0 & G0 & R0 & B0)] & FT & _ & NB); [discriminate|].
    pose proof (apply_loop_spec T p res r t D AD) as AL.
    destruct (py_apply_loop r t T p res) as [| | |T' t']; try tauto.
    destruct AL as (-> & SH & HM & GI & GO).
    exists (Z.to_nat T). assert (ET : Z.of_nat (Z.to_nat T) = T) by lia.
    split; [lia|]. split; [lia|]. split; auto. split; [|split].
    + intros i. destruct (rule_at r i) as [o|] eqn:EO.
      * apply rule_at_some_In in EO as IO.
        destruct (AD i o IO) as (c & Gc & Pc).
        rewrite (GI i o c IO Gc). destruct o as [d|m a]; cbn [target].
        -- rewrite (bump_n_Plus r _ _ i d c EO Gc), ET.
           destruct (index_eqb_spec i p) as [->|N]; cbn [negb]; auto.
           rewrite G0 in Gc. inv Gc.
           rewrite (rule_at_In r p (Plus d0) D I0) in EO. inv EO. auto.
        -- assert (T = 1) by (apply HM; eauto). subst T.
           replace (Z.to_nat 1) with 1%nat by reflexivity. cbn. unfold bump. rewrite EO, Gc. cbn.
           rewrite apply_mult_1. auto.
      * rewrite bump_n_None by auto. apply GO. intros o X. rewrite (rule_at_In _ _ _ D X) in EO. discriminate.
    + intros i d k Hk II. destruct (AD i (Plus d) II) as (c & Gc & Pc).
      exists (c + d * Z.of_nat k). split.
      * apply bump_n_Plus; auto. apply rule_at_In; auto.
      * destruct (Z.le_gt_cases 0 d); [nia|]. specialize (FT i d c II ltac:(lia) Gc). nia.
    + exists p, d0, (c0 + d0 * Z.of_nat (S (Z.to_nat T))). split; auto. split.
      * apply bump_n_Plus; auto. apply rule_at_In; auto.
      * nia.
Qed.
