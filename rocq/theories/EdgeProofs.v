(** * An edge that was reached is the end of the tape that the enumeration started with *)
From Verif Require Import Base TM TapeModel RulesModel EnumModel EnumProofs ProverModel.

(** The blocks that were not reached yet are still there, in order, at the end of the span. *)
Definition unreached (d : bool) (N : nat) (s : list eblock) (off : nat) : Prop :=
  exists pre j, map eb_enum s = pre ++ map (fun k => Some (d, k)) (seq (S j) (N - j))
    /\ (j <= N)%nat /\ (j <= off)%nat.

Definition tags_ok (N : bool -> nat) (s : list eblock) : Prop :=
  forall b d k, In b s -> eb_enum b = Some (d, k) -> (k <= N d)%nat.

Record einv (N : bool -> nat) (e : etape) : Prop := EInv {
  ei_un : forall d, unreached d (N d) (espan e d) (eoff e d);
  ei_tags : forall d, tags_ok N (espan e d);
  ei_off : forall d, (eoff e d <= N d)%nat;
  ei_edge : forall d, eedge e d = true -> eoff e d = N d
}.

Lemma un_pop d N b s off off' : unreached d N (b :: s) off -> (off <= off')%nat ->
  (forall k, eb_enum b = Some (d, k) -> (k <= off')%nat) -> unreached d N s off'.
Proof.
  intros (pre & j & E & J1 & J2) L K. cbn [map] in E. destruct pre as [|p pre]; cbn [app] in E.
  - destruct (N - j)%nat as [|m] eqn:X; cbn [seq map] in E; [discriminate|]. inv E.
    exists [], (S j). cbn [app]. replace (N - S j)%nat with m by lia. split; auto. split; [lia|]. auto.
  - inv E. exists pre, j. split; auto. split; lia.
Qed.
Lemma un_le d N s off off' : unreached d N s off -> (off <= off')%nat -> unreached d N s off'.
Proof. intros (pre & j & E & J1 & J2) L. exists pre, j. split; auto. split; lia. Qed.
Lemma un_cons d N b s off : unreached d N s off -> unreached d N (b :: s) off.
Proof. intros (pre & j & E & J). exists (eb_enum b :: pre), j. split; auto. cbn. rewrite E. auto. Qed.
Lemma un_enum d N s s' off : map eb_enum s = map eb_enum s' -> unreached d N s off -> unreached d N s' off.
Proof. unfold unreached. intros ->. auto. Qed.
Lemma un_nil d N off : unreached d N [] off -> (N <= off)%nat.
Proof.
  intros (pre & j & E & J1 & J2). cbn in E. symmetry in E. apply app_eq_nil in E as (_ & E).
  apply map_eq_nil in E. destruct (N - j)%nat eqn:X; [lia|discriminate].
Qed.

Lemma enum_enumerate d n s : map eb_enum (enumerate d n s) = map (fun k => Some (d, k)) (seq n (length s)).
Proof. revert n. induction s as [|b s IH]; intros n; cbn; auto. f_equal. auto. Qed.

Definition lens (t : tape) (d : bool) : nat := length (if d then t_rspan t else t_lspan t).

Lemma einv_start t : einv (lens t) (to_enum t).
Proof.
  constructor.
  - intros d. exists [], 0%nat. rewrite Nat.sub_0_r. cbn [app].
    split; [|destruct d; cbn; split; lia]. destruct d; cbn; apply enum_enumerate.
  - intros d b d' k I E. assert (X : In (eb_enum b) (map eb_enum (espan (to_enum t) d))) by (apply in_map; auto).
    rewrite E in X. destruct d; cbn in X; rewrite enum_enumerate in X; apply in_map_iff in X as (k' & X & Y);
      inv X; apply in_seq in Y; unfold lens; lia.
  - intros d. destruct d; cbn; lia.
  - intros d. destruct d; cbn; discriminate.
Qed.

Lemma co_off_le N e b d : (forall d k, eb_enum b = Some (d, k) -> (k <= N d)%nat) -> (forall d, (eoff e d <= N d)%nat) ->
  (eoff (check_offsets e b) d <= N d)%nat.
Proof.
  intros T O. pose proof (O d). unfold check_offsets. destruct (eb_enum b) as [[[|] o]|] eqn:X; destruct d;
    cbn [eoff et_roff et_loff] in *; try lia;
    repeat match goal with |- context [Nat.ltb ?a ?b] => destruct (Nat.ltb_spec a b) end; try lia;
    exact (T _ _ eq_refl).
Qed.

Lemma einv_co N e b : (forall d k, eb_enum b = Some (d, k) -> (k <= N d)%nat) -> einv N e -> einv N (check_offsets e b).
Proof.
  intros T [A B C D]. constructor.
  - intros d. rewrite co_span. eapply un_le; [apply A|apply co_off].
  - intros d. rewrite co_span. apply B.
  - intros d. apply co_off_le; auto.
  - intros d. rewrite co_edge. intros X. pose proof (co_off b e d). pose proof (co_off_le N e b d T C).
    rewrite (D d X) in *. lia.
Qed.

Lemma einv_te N e s : einv N e -> eoff e s = N s -> einv N (touch_edge e s).
Proof.
  intros [A B C D] E. constructor.
  - intros d. rewrite te_span, te_off. auto.
  - intros d. rewrite te_span. auto.
  - intros d. rewrite te_off. auto.
  - intros d. rewrite te_off. destruct d, s; cbn [eedge touch_edge et_redge et_ledge] in *; auto; intros X; try (apply (D true)); try (apply (D false)); auto.
Qed.

(** What check_step leaves, besides the invariant: the offsets reach the blocks that the step may use up. *)
Lemma einv_check N e shift color skip : einv N e ->
  let e' := check_step e shift color skip in
  einv N e' /\ (forall d, espan e' d = espan e d) /\ et_scan e' = et_scan e
  /\ match espan e shift with
     | [] => True
     | b :: rest =>
         (forall k, eb_enum b = Some (shift, k) -> (k <= eoff e' shift)%nat)
         /\ (skip && (eb_color b =? et_scan e) = true ->
             match rest with [] => True | b2 :: _ => forall k, eb_enum b2 = Some (shift, k) -> (k <= eoff e' shift)%nat end)
     end.
Proof.
  intros I. unfold check_step.
  replace (if shift then (et_r e, et_l e) else (et_l e, et_r e)) with (espan e shift, espan e (negb shift))
    by (destruct shift; auto).
  pose proof (ei_tags _ _ I shift) as TG. pose proof (ei_tags _ _ I (negb shift)) as TG'.
  pose proof (ei_un _ _ I shift) as UN.
  set (e1 := match espan e shift with [] => touch_edge e shift | _ => _ end).
  assert (I1 : einv N e1 /\ (forall d, espan e1 d = espan e d) /\ et_scan e1 = et_scan e
    /\ match espan e shift with
       | [] => True
       | b :: rest =>
           (forall k, eb_enum b = Some (shift, k) -> (k <= eoff e1 shift)%nat)
           /\ (skip && (eb_color b =? et_scan e) = true ->
               match rest with [] => True | b2 :: _ => forall k, eb_enum b2 = Some (shift, k) -> (k <= eoff e1 shift)%nat end)
       end).
  { unfold e1. clear e1. destruct (espan e shift) as [|b rest] eqn:P.
    - split; [|split; [intros d; apply te_span|split; auto]].
      apply einv_te; auto. pose proof (un_nil _ _ _ UN). pose proof (ei_off _ _ I shift). lia.
    - assert (TB : forall d k, eb_enum b = Some (d, k) -> (k <= N d)%nat) by (intros d k; apply TG; left; auto).
      pose proof (einv_co N e b TB I) as IC. rewrite co_scan.
      assert (KB : forall k, eb_enum b = Some (shift, k) -> (k <= eoff (check_offsets e b) shift)%nat) by (intros k; apply co_tag).
      destruct (skip && (eb_color b =? et_scan e)) eqn:SK.
      + destruct rest as [|b2 rest].
        * split; [|split; [|split; [|split; [|auto]]]].
          -- apply einv_te; auto.
             assert (UN' : unreached shift (N shift) [] (eoff (check_offsets e b) shift)).
             { eapply un_pop; [exact UN|apply co_off|exact KB]. }
             pose proof (un_nil _ _ _ UN'). pose proof (ei_off _ _ IC shift). lia.
          -- intros d. rewrite te_span. apply co_span.
          -- cbn. apply co_scan.
          -- intros k X. rewrite te_off. auto.
        * assert (TB2 : forall d k, eb_enum b2 = Some (d, k) -> (k <= N d)%nat) by (intros d k; apply TG; right; left; auto).
          split; [apply einv_co; auto|]. split; [intros d; rewrite !co_span; auto|]. split; [rewrite !co_scan; auto|].
          split; [|intros _ k; apply co_tag].
          intros k X. pose proof (co_off b2 (check_offsets e b) shift). specialize (KB k X). lia.
      + split; auto. split; [intros d; apply co_span|]. split; [apply co_scan|]. split; auto. discriminate. }
  destruct (espan e (negb shift)) as [|opp rest']; [exact I1|].
  destruct (color =? eb_color opp); [|exact I1].
  destruct I1 as (A & B & C & D). split.
  { apply einv_co; auto. intros d k. apply TG'. left; auto. }
  split; [intros d; rewrite co_span; auto|]. split; [rewrite co_scan; auto|].
  pose proof (co_off opp e1 shift) as CO. destruct (espan e shift) as [|b rest]; auto.
  destruct D as (D1 & D2). split; [intros k X; specialize (D1 k X); lia|].
  intros X. specialize (D2 X). destruct rest; auto. intros k Y. specialize (D2 k Y). lia.
Qed.

Lemma epull_un N s scan skip d off nx s' pb stepped :
  unreached d (N d) s off -> tags_ok N s ->
  match s with
  | [] => True
  | b :: rest =>
      (forall k, eb_enum b = Some (d, k) -> (k <= off)%nat)
      /\ (skip && (eb_color b =? scan) = true ->
          match rest with [] => True | b2 :: _ => forall k, eb_enum b2 = Some (d, k) -> (k <= off)%nat end)
  end ->
  py_epull s scan skip = (nx, s', pb, stepped) ->
  unreached d (N d) s' off /\ tags_ok N s'
  /\ match pb with None => True | Some b => forall d k, eb_enum b = Some (d, k) -> (k <= N d)%nat end.
Proof.
  intros U T K E. unfold py_epull in E. destruct s as [|b s].
  { inv E. auto. }
  assert (TB : forall d k, eb_enum b = Some (d, k) -> (k <= N d)%nat) by (intros d' k; apply T; left; auto).
  assert (TS : tags_ok N s) by (intros x d' k X; apply T; right; auto).
  destruct K as (K1 & K2).
  assert (US : unreached d (N d) s off) by (eapply un_pop; eauto).
  assert (CNT : forall c s0 n, s = c :: s0 -> tags_ok N (EB (eb_color c) n (eb_enum c) :: s0)).
  { intros c s0 n -> x d' k [<-|X] Y; [apply (TS c); [left; auto|exact Y]|apply (TS x); [right; auto|exact Y]]. }
  destruct (skip && (eb_color b =? scan)) eqn:SK.
  - specialize (K2 eq_refl). destruct s as [|c s0].
    + inv E. auto.
    + destruct (negb (eb_count c =? 1)) eqn:CC; inv E.
      * split; [|split; eauto]. eapply un_enum; [|exact US]. reflexivity.
      * split; [|split; auto]. { eapply un_pop; [exact US|auto|exact K2]. } intros x d' k X. apply TS. right; auto.
  - destruct (negb (eb_count b =? 1)) eqn:CC; inv E.
    + split; [|split; auto]. { eapply un_enum; [|exact U]. reflexivity. }
      intros x d' k [<-|X] Y; [apply (TB d' k); exact Y|apply (TS x); auto].
    + split; auto.
Qed.

Lemma epush_un N s pb color stepped d off :
  unreached d (N d) s off -> tags_ok N s ->
  match pb with None => True | Some b => forall d k, eb_enum b = Some (d, k) -> (k <= N d)%nat end ->
  unreached d (N d) (py_epush None s pb color stepped) off /\ tags_ok N (py_epush None s pb color stepped).
Proof.
  intros U T K. unfold py_epush.
  set (ins := match pb with None => _ | Some b => _ end).
  assert (KI : forall d k, eb_enum ins = Some (d, k) -> (k <= N d)%nat).
  { unfold ins. destruct pb; cbn; [exact K|discriminate]. }
  assert (INS : unreached d (N d) (ins :: s) off /\ tags_ok N (ins :: s)).
  { split; [apply un_cons; auto|]. intros x d' k [<-|X]; [apply KI|apply T; auto]. }
  destruct s as [|b s]; [destruct (negb (color =? 0)); auto|].
  destruct (eb_color b =? color); [|exact INS].
  split; [eapply un_enum; [|exact U]; reflexivity|].
  intros x d' k [<-|X] Y; [apply (T b); [left; auto|exact Y]|apply (T x); [right; auto|exact Y]].
Qed.

Lemma einv_step N e shift color skip : einv N e -> einv N (py_estep None e shift color skip).
Proof.
  intros I. destruct (einv_check N e shift color skip I) as (I' & SP & SC & K).
  unfold py_estep. set (e' := check_step e shift color skip) in *.
  replace (if shift then (et_r e', et_l e') else (et_l e', et_r e')) with (espan e' shift, espan e' (negb shift))
    by (destruct shift; auto).
  destruct (py_epull (espan e' shift) (et_scan e') skip) as [[[nx s'] pb] stepped] eqn:EP.
  assert (K' : match espan e' shift with
     | [] => True
     | b :: rest =>
         (forall k, eb_enum b = Some (shift, k) -> (k <= eoff e' shift)%nat)
         /\ (skip && (eb_color b =? et_scan e') = true ->
             match rest with [] => True | b2 :: _ => forall k, eb_enum b2 = Some (shift, k) -> (k <= eoff e' shift)%nat end)
     end) by (rewrite SP, SC; exact K).
  destruct (epull_un N _ _ _ shift (eoff e' shift) _ _ _ _ (ei_un _ _ I' shift) (ei_tags _ _ I' shift) K' EP) as (P1 & P2 & P3).
  destruct (epush_un N (espan e' (negb shift)) pb color stepped (negb shift) (eoff e' (negb shift))
    (ei_un _ _ I' (negb shift)) (ei_tags _ _ I' (negb shift)) P3) as (Q1 & Q2).
  pose proof (ei_off _ _ I') as OF. pose proof (ei_edge _ _ I') as ED.
  constructor; intros d; specialize (OF d); specialize (ED d); destruct shift, d; auto.
Qed.

Lemma eset_nth_enum s : forall i v s', eset_nth s i v = Some s' -> map eb_enum s' = map eb_enum s.
Proof.
  induction s as [|b s IH]; intros [|i] v s' E; cbn in E; try discriminate; [inv E; auto|].
  destruct (eset_nth s i v) eqn:X; cbn in E; [|discriminate]. inv E. cbn. f_equal. eauto.
Qed.

Lemma tags_enum N s s' : map eb_enum s = map eb_enum s' -> tags_ok N s -> tags_ok N s'.
Proof.
  intros E T b d k I X. assert (Y : In (eb_enum b) (map eb_enum s')) by (apply in_map; auto).
  rewrite <- E in Y. apply in_map_iff in Y as (b' & Y1 & Y2). apply (T b'); congruence.
Qed.

Lemma einv_set N e i v e' : einv N e -> e_set_count e i v = Some e' -> einv N e'.
Proof.
  intros [A B C D] E. unfold e_set_count in E. destruct (fst i).
  - destruct (eset_nth (et_r e) (snd i) v) as [s|] eqn:X; cbn in E; [|discriminate]. inv E.
    apply eset_nth_enum in X. constructor; intros d; [specialize (A d)|specialize (B d)|specialize (C d)|specialize (D d)]; destruct d; auto.
    + eapply un_enum; [symmetry; exact X|exact A].
    + eapply tags_enum; [symmetry; exact X|exact B].
  - destruct (eset_nth (et_l e) (snd i) v) as [s|] eqn:X; cbn in E; [|discriminate]. inv E.
    apply eset_nth_enum in X. constructor; intros d; [specialize (A d)|specialize (B d)|specialize (C d)|specialize (D d)]; destruct d; auto.
    + eapply un_enum; [symmetry; exact X|exact A].
    + eapply tags_enum; [symmetry; exact X|exact B].
Qed.

Lemma einv_get N e i c e' : einv N e -> e_get_count e i = Some (c, e') -> einv N e'.
Proof.
  intros I E. unfold e_get_count in E.
  destruct (nth_error (if fst i then et_r e else et_l e) (snd i)) as [b|] eqn:X; [|discriminate]. inv E.
  apply einv_co; auto. intros d k. apply (ei_tags _ _ I (fst i)). unfold espan. eapply nth_error_In; eauto.
Qed.

Lemma einv_apps N r : forall e apps a e', einv N e -> py_ecount_apps r e apps = Some (a, e') -> einv N e'.
Proof.
  induction r as [|[i [d|m k]] r IH]; intros e apps a e' I E; cbn [py_ecount_apps] in E.
  - inv E. auto.
  - destruct (0 <=? d); [eauto|]. destruct (e_get_count e i) as [[c e1]|] eqn:G; [|discriminate].
    pose proof (einv_get _ _ _ _ _ I G) as I1.
    destruct (c <=? Z.abs d); [inv E; auto|]. cbn zeta in E. destruct (0 <? c mod Z.abs d); eauto.
  - eauto.
Qed.

Lemma einv_loop N r : forall e times p res times' e', einv N e -> py_eapply_loop r e times p res = EaApplied times' e' -> einv N e'.
Proof.
  induction r as [|[i o] r IH]; intros e times p res times' e' I E; cbn [py_eapply_loop] in E.
  - inv E. auto.
  - destruct (e_get_count e i) as [[c e1]|] eqn:G; [|discriminate]. pose proof (einv_get _ _ _ _ _ I G) as I1.
    destruct o as [d|m k].
    + destruct (e_set_count _ _ _) as [e2|] eqn:X; [|discriminate]. eapply IH; [|exact E]. eapply einv_set; eauto.
    + destruct (mult_int _ _ _); [|discriminate]. destruct (e_set_count _ _ _) as [e2|] eqn:X; [|discriminate].
      eapply IH; [|exact E]. eapply einv_set; eauto.
Qed.

Lemma eloop_not_none r : forall e times p res e', py_eapply_loop r e times p res <> EaNone e'.
Proof.
  induction r as [|[i o] r IH]; intros e times p res e' E; cbn [py_eapply_loop] in E; [discriminate|].
  destruct (e_get_count e i) as [[c e1]|]; [|discriminate]. destruct o.
  - destruct (e_set_count _ _ _); [|discriminate]. eapply IH; eauto.
  - destruct (mult_int _ _ _); [|discriminate]. destruct (e_set_count _ _ _); [|discriminate]. eapply IH; eauto.
Qed.

Lemma einv_apply N r e : einv N e ->
  match py_eapply_rule r e with EaErr => True | EaNone e' => einv N e' | EaApplied _ e' => einv N e' end.
Proof.
  intros I. unfold py_eapply_rule. destruct (py_ecount_apps r e None) as [[[[[times p] res]|] e']|] eqn:X; auto.
  - apply einv_apps with (N := N) in X; auto.
    destruct (py_eapply_loop r e' times p res) eqn:Y; auto.
    + destruct (eloop_not_none _ _ _ _ _ _ Y).
    + eapply einv_loop; eauto.
  - eapply einv_apps; eauto.
Qed.

Lemma einv_simulate N comp pv : forall n state e, einv N e ->
  match py_esimulate comp pv n state e with SimEnd _ e' | SimKey e' => einv N e' | _ => True end.
Proof.
  induction n as [|n IH]; intros state e I; cbn [py_esimulate]; auto.
  assert (G : forall e, einv N e -> match
      match comp state (et_scan e) with
      | LGot (color, shift, next_state) =>
          py_esimulate comp pv n next_state (py_estep None e shift color (state =? next_state))
      | LKey _ => SimKey e | LLoop => SimLoop
      end with SimEnd _ e' | SimKey e' => einv N e' | _ => True end).
  { intros e0 I0. destruct (comp state (et_scan e0)) as [[[color shift] next]|s|]; auto. apply IH. apply einv_step; auto. }
  destruct (get_rule _ _ _ _) as [r|]; [|apply G; auto].
  pose proof (einv_apply N r e I) as A. destruct (py_eapply_rule r e); [auto|apply G; auto|apply IH; auto].
Qed.

(** The signature recorded with a rule is one that the tape itself has. *)
Lemma min_sig_edges comp pv n state t m :
  py_min_sig comp pv n state (to_enum t) (t_signature t) = MsGot m ->
  exists lo ro (le re : bool),
    m = (Sig (t_scan t) (firstn lo (sg_l (t_signature t))) (firstn ro (sg_r (t_signature t))), (le, re))
    /\ (le = true -> lo = length (t_lspan t)) /\ (re = true -> ro = length (t_rspan t)).
Proof.
  unfold py_min_sig. intros E. pose proof (einv_simulate _ comp pv n state _ (einv_start t)) as X.
  assert (G : forall e, einv (lens t) e -> exists lo ro (le re : bool),
    sig_slice (t_signature t) e = (Sig (t_scan t) (firstn lo (sg_l (t_signature t))) (firstn ro (sg_r (t_signature t))), (le, re))
    /\ (le = true -> lo = length (t_lspan t)) /\ (re = true -> ro = length (t_rspan t))).
  { intros e I. exists (et_loff e), (et_roff e), (et_ledge e), (et_redge e). split; [reflexivity|].
    split; [apply (ei_edge _ _ I false)|apply (ei_edge _ _ I true)]. }
  destruct (py_esimulate comp pv n state (to_enum t)) as [s e|e| |]; try discriminate; inv E; apply G; auto.
Qed.

(** ** The same of src/tape.rs *)
Lemma rs_epull_un N s scan skip d off nx s' stepped :
  unreached d (N d) s off -> tags_ok N s ->
  match s with
  | [] => True
  | b :: rest =>
      (forall k, eb_enum b = Some (d, k) -> (k <= off)%nat)
      /\ (skip && (eb_color b =? scan) = true ->
          match rest with [] => True | b2 :: _ => forall k, eb_enum b2 = Some (d, k) -> (k <= off)%nat end)
  end ->
  rs_epull s scan skip = (nx, s', stepped) -> unreached d (N d) s' off /\ tags_ok N s'.
Proof.
  intros U T K E. unfold rs_epull in E. destruct s as [|b s].
  { inv E. auto. }
  assert (TB : forall d k, eb_enum b = Some (d, k) -> (k <= N d)%nat) by (intros d' k; apply T; left; auto).
  assert (TS : tags_ok N s) by (intros x d' k X; apply T; right; auto).
  destruct K as (K1 & K2).
  assert (US : unreached d (N d) s off) by (eapply un_pop; eauto).
  destruct (skip && (eb_color b =? scan)) eqn:SK.
  - specialize (K2 eq_refl). destruct s as [|c s0].
    + inv E. auto.
    + destruct (eb_count c >? 1) eqn:CC; inv E.
      * split. { eapply un_enum; [|exact US]. reflexivity. }
        intros x d' k [<-|X] Y; [apply (TS c); [left; auto|exact Y]|apply (TS x); [right; auto|exact Y]].
      * split. { eapply un_pop; [exact US|auto|exact K2]. } intros x d' k X. apply TS. right; auto.
  - destruct (eb_count b >? 1) eqn:CC; inv E.
    + split. { eapply un_enum; [|exact U]. reflexivity. }
      intros x d' k [<-|X] Y; [apply (TB d' k); exact Y|apply (TS x); auto].
    + split; auto.
Qed.

Lemma rs_epush_un N s color stepped d off :
  unreached d (N d) s off -> tags_ok N s ->
  unreached d (N d) (rs_epush s color stepped) off /\ tags_ok N (rs_epush s color stepped).
Proof.
  intros U T. unfold rs_epush.
  assert (INS : unreached d (N d) (EB color stepped None :: s) off /\ tags_ok N (EB color stepped None :: s)).
  { split; [apply un_cons; auto|]. intros x d' k [<-|X]; [discriminate|apply T; auto]. }
  destruct s as [|b s]; [destruct (negb (color =? 0)); auto|].
  destruct (eb_color b =? color); [|exact INS].
  split; [eapply un_enum; [|exact U]; reflexivity|].
  intros x d' k [<-|X] Y; [apply (T b); [left; auto|exact Y]|apply (T x); [right; auto|exact Y]].
Qed.

Lemma rs_einv_step N e shift color skip : einv N e -> einv N (rs_estep e shift color skip).
Proof.
  intros I. destruct (einv_check N e shift color skip I) as (I' & SP & SC & K).
  unfold rs_estep. set (e' := check_step e shift color skip) in *.
  replace (if shift then (et_r e', et_l e') else (et_l e', et_r e')) with (espan e' shift, espan e' (negb shift))
    by (destruct shift; auto).
  destruct (rs_epull (espan e' shift) (et_scan e') skip) as [[nx s'] stepped] eqn:EP.
  assert (K' : match espan e' shift with
     | [] => True
     | b :: rest =>
         (forall k, eb_enum b = Some (shift, k) -> (k <= eoff e' shift)%nat)
         /\ (skip && (eb_color b =? et_scan e') = true ->
             match rest with [] => True | b2 :: _ => forall k, eb_enum b2 = Some (shift, k) -> (k <= eoff e' shift)%nat end)
     end) by (rewrite SP, SC; exact K).
  destruct (rs_epull_un N _ _ _ shift (eoff e' shift) _ _ _ (ei_un _ _ I' shift) (ei_tags _ _ I' shift) K' EP) as (P1 & P2).
  destruct (rs_epush_un N (espan e' (negb shift)) color stepped (negb shift) (eoff e' (negb shift))
    (ei_un _ _ I' (negb shift)) (ei_tags _ _ I' (negb shift))) as (Q1 & Q2).
  pose proof (ei_off _ _ I') as OF. pose proof (ei_edge _ _ I') as ED.
  constructor; intros d; specialize (OF d); specialize (ED d); destruct shift, d; auto.
Qed.

Lemma recount_enum s : forall p, map eb_enum (recount s p) = map eb_enum s.
Proof. induction s as [|b s IH]; intros [|c p]; cbn; auto. f_equal. auto. Qed.

Lemma einv_recount N e t : einv N e -> einv N (e_recount e t).
Proof.
  intros [A B C D]. constructor; intros d; [specialize (A d)|specialize (B d)|specialize (C d)|specialize (D d)]; destruct d; auto;
    cbn [espan e_recount et_l et_r] in *;
    (eapply un_enum; [symmetry; apply recount_enum|exact A]) || (eapply tags_enum; [symmetry; apply recount_enum|exact B]).
Qed.

Lemma rs_einv_simulate N M pv : forall n state e, einv N e ->
  match rs_esimulate M pv n state e with SimEnd _ e' => einv N e' | _ => True end.
Proof.
  induction n as [|n IH]; intros state e I; cbn [rs_esimulate]; auto.
  assert (G : forall e, einv N e -> match
      match M state (et_scan e) with
      | Some (color, shift, next_state) =>
          rs_esimulate M pv n next_state (rs_estep e shift color (state =? next_state))
      | None => SimKey e
      end with SimEnd _ e' => einv N e' | _ => True end).
  { intros e0 I0. destruct (M state (et_scan e0)) as [[[color shift] next]|]; auto. apply IH. apply rs_einv_step; auto. }
  destruct (get_rule _ _ _ _) as [r|]; [|apply G; auto].
  destruct (rs_apply_rule r (erase e)) as [[times|] t|]; auto; [apply IH|apply G]; apply einv_recount; auto.
Qed.

Lemma rs_min_sig_edges M pv n state t m :
  rs_min_sig M pv n state (to_enum t) (t_signature t) = MsGot m ->
  exists lo ro (le re : bool),
    m = (Sig (t_scan t) (firstn lo (sg_l (t_signature t))) (firstn ro (sg_r (t_signature t))), (le, re))
    /\ (le = true -> lo = length (t_lspan t)) /\ (re = true -> ro = length (t_rspan t)).
Proof.
  unfold rs_min_sig. intros E. pose proof (rs_einv_simulate _ M pv n state _ (einv_start t)) as X.
  destruct (rs_esimulate M pv n state (to_enum t)) as [s e|e| |]; try discriminate.
  destruct (_ && _); [|discriminate]. inv E.
  exists (et_loff e), (et_roff e), (et_ledge e), (et_redge e). split; [reflexivity|].
  split; [apply (ei_edge _ _ X false)|apply (ei_edge _ _ X true)].
Qed.
