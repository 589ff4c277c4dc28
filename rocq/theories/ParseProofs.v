(** Lemmas about reading and showing programs. *)
From Verif Require Import Base TM ProgModel ParseModel ParseSpec.

Definition nosp (s : text) : Prop := Forall (fun c => c <> SPACE) s.

Lemma split1_word s t : nosp s -> split1 (s ++ SPACE :: t) = s :: split1 t.
Proof.
  induction s as [|c s IH]; intros H; cbn [app split1].
  - rewrite Z.eqb_refl. reflexivity.
  - inv H. rewrite (proj2 (Z.eqb_neq c SPACE)) by auto. rewrite IH; auto.
Qed.

Lemma split1_last s : nosp s -> split1 s = [s].
Proof.
  induction s as [|c s IH]; intros H; cbn [split1]; auto.
  inv H. rewrite (proj2 (Z.eqb_neq c SPACE)) by auto. rewrite IH; auto.
Qed.

(** No two spaces in a row and not ending with one. *)
Fixpoint good (s : text) : Prop :=
  match s with
  | [] => True
  | c :: t => match t with [] => c <> SPACE | d :: _ => ~ (c = SPACE /\ d = SPACE) end /\ good t
  end.

Lemma split2_row s t : good s -> split2 (s ++ SPACE :: SPACE :: t) = s :: split2 t.
Proof.
  induction s as [|c s IH]; intros H.
  - cbn. reflexivity.
  - destruct H as [H1 H2]. specialize (IH H2). destruct s as [|d s].
    + cbn [app] in *. cbn [split2] in *. change (SPACE =? SPACE) with true in *. cbn [andb] in *.
      rewrite (proj2 (Z.eqb_neq c SPACE)) by auto. cbn [andb]. reflexivity.
    + cbn [app] in *. cbn [split2]. cbn [split2] in IH.
      replace ((c =? SPACE) && (d =? SPACE)) with false by (unfold SPACE in *; lia).
      rewrite IH. reflexivity.
Qed.

Lemma split2_last s : good s -> split2 s = [s].
Proof.
  induction s as [|c s IH]; intros H; auto.
  destruct H as [H1 H2]. specialize (IH H2). destruct s as [|d s]; [reflexivity|].
  cbn [split2]. cbn [split2] in IH.
  replace ((c =? SPACE) && (d =? SPACE)) with false by (unfold SPACE in *; lia).
  rewrite IH. reflexivity.
Qed.

Lemma good_nosp s : nosp s -> good s.
Proof.
  induction s as [|c s IH]; intros H; cbn; auto. inv H. split; auto. destruct s; auto. tauto.
Qed.

Lemma good_app s t : nosp s -> s <> [] -> good t -> (forall c t', t = c :: t' -> c <> SPACE) -> t <> [] -> good (s ++ SPACE :: t).
Proof.
  induction s as [|c s IH]; intros H1 H2 H3 H4 H5; [contradiction|]. inv H1.
  destruct s as [|d s].
  - cbn. split; [tauto|]. split; auto. destruct t as [|e t]; [contradiction|]. specialize (H4 _ _ eq_refl). tauto.
  - cbn [app]. cbn [app] in IH. split; [tauto|]. apply IH; auto. discriminate.
Qed.

(** Cells *)
Lemma cell_nosp i s : cell_text i s -> nosp s /\ s <> [].
Proof.
  destruct i as [[[c sh] tr]|]; cbn; intros H.
  - destruct H as (H1 & H2 & ->). split; [|discriminate]. unfold nosp, SPACE. repeat constructor; try destruct sh; lia.
  - subst s. split; [|discriminate]. unfold nosp, SPACE. repeat constructor; lia.
Qed.

Lemma cell_read i s : cell_text i s -> read_instr s = Some i.
Proof.
  destruct i as [[[c sh] tr]|]; cbn; intros H.
  - destruct H as (H1 & H2 & ->). unfold read_instr, UNDF. cbn [existsb].
    replace (46 =? 48 + c) with false by lia. replace (46 =? 65 + tr) with false by lia.
    replace (46 =? (if sh then 82 else 76)) with false by (destruct sh; reflexivity). cbn [orb].
    unfold read_color. replace ((48 <=? 48 + c) && (48 + c <=? 57)) with true by lia.
    unfold read_shift, RIGHT, read_state. rewrite (Z.mod_small (65 + tr)) by lia. rewrite Z.mod_small by lia.
    replace (48 + c - 48) with c by lia. replace (65 + tr - 65) with tr by lia. destruct sh; reflexivity.
  - subst s. reflexivity.
Qed.

Lemma cell_ends i s : cell_text i s ->
  (exists c s', s = c :: s' /\ is_whitespace c = false /\ c <> SPACE) /\ (exists c s', s = s' ++ [c] /\ is_whitespace c = false).
Proof.
  destruct i as [[[c sh] tr]|]; cbn; intros H.
  - destruct H as (H1 & H2 & ->). split.
    + do 2 eexists. split; [reflexivity|]. unfold is_whitespace, SPACE. lia.
    + exists (65 + tr), [48 + c; if sh then 82 else 76]. split; [reflexivity|]. unfold is_whitespace. lia.
  - subst s. split; [do 2 eexists; split; [reflexivity|split; [reflexivity|discriminate]]|].
    exists 46, [46; 46]. auto.
Qed.

Lemma cell_fun i s s' : cell_text i s -> cell_text i s' -> s = s'.
Proof.
  destruct i as [[[c sh] tr]|]; cbn; [intros (_ & _ & ->) (_ & _ & ->)|intros -> ->]; reflexivity.
Qed.

(** Rows *)
Lemma row_ends r s : row_text r s ->
  (exists c s', s = c :: s' /\ is_whitespace c = false /\ c <> SPACE) /\ (exists c s', s = s' ++ [c] /\ is_whitespace c = false).
Proof.
  induction 1 as [i s H|i s r t H HR IH].
  - eapply cell_ends; eauto.
  - destruct (cell_ends _ _ H) as [(c & s' & -> & H1) _]. destruct IH as [_ (d & t' & -> & H2)].
    split; [exists c; eexists; split; [reflexivity|auto]|].
    exists d, ((c :: s') ++ [32] ++ t'). split; auto. rewrite <- !app_assoc. reflexivity.
Qed.

Lemma row_good r s : row_text r s -> good s /\ s <> [].
Proof.
  induction 1 as [i s H|i s r t H HR [IH1 IH2]].
  - destruct (cell_nosp _ _ H). split; auto. apply good_nosp; auto.
  - destruct (cell_nosp _ _ H). split; [|destruct s; discriminate].
    apply good_app; auto. intros c t' ->. destruct (row_ends _ _ HR) as [(d & u & E & _ & N) _]. inv E. auto.
Qed.

Lemma row_split r s : row_text r s -> Forall2 cell_text r (split1 s).
Proof.
  induction 1 as [i s H|i s r t H HR IH].
  - rewrite split1_last by (eapply cell_nosp; eauto). auto.
  - change (s ++ [32] ++ t) with (s ++ SPACE :: t). rewrite split1_word by (eapply cell_nosp; eauto). auto.
Qed.

Lemma row_fun r s : row_text r s -> forall s', row_text r s' -> s = s'.
Proof.
  induction 1 as [i s H|i s r t H HR IH]; intros s' H'.
  - inv H'; [eapply cell_fun; eauto|]. match goal with K : row_text [] _ |- _ => inv K end.
  - inv H'; [inv HR|]. rewrite (cell_fun i s s0) by auto. rewrite (IH t0) by auto. reflexivity.
Qed.

Lemma prog_ends g s : prog_text g s ->
  (exists c s', s = c :: s' /\ is_whitespace c = false) /\ (exists c s', s = s' ++ [c] /\ is_whitespace c = false).
Proof.
  induction 1 as [i s H|r s g t H HR IH].
  - destruct (row_ends _ _ H) as [(c & s' & E & W & _) E2]. split; [exists c, s'; auto|auto].
  - destruct (row_ends _ _ H) as [(c & s' & -> & W & _) _]. destruct IH as [_ (d & t' & -> & H2)].
    split; [exists c; eexists; split; [reflexivity|auto]|].
    exists d, ((c :: s') ++ [32; 32] ++ t'). split; auto. rewrite <- !app_assoc. reflexivity.
Qed.

Lemma prog_split g s : prog_text g s -> Forall2 row_text g (split2 s).
Proof.
  induction 1 as [i s H|r s g t H HR IH].
  - rewrite split2_last by (eapply row_good; eauto). auto.
  - change (s ++ [32; 32] ++ t) with (s ++ SPACE :: SPACE :: t). rewrite split2_row by (eapply row_good; eauto). auto.
Qed.

Lemma prog_fun g s : prog_text g s -> forall s', prog_text g s' -> s = s'.
Proof.
  induction 1 as [i s H|i s r t H HR IH]; intros s' H'.
  - inv H'; [eapply row_fun; eauto|]. match goal with K : prog_text [] _ |- _ => inv K end.
  - inv H'; [inv HR|]. rewrite (row_fun i s H s0) by auto. rewrite (IH t0) by auto. reflexivity.
Qed.

Lemma trim_id s : (exists c s', s = c :: s' /\ is_whitespace c = false) ->
  (exists c s', s = s' ++ [c] /\ is_whitespace c = false) -> trim s = s.
Proof.
  intros (c & s' & -> & H1) (d & t & E & H2). unfold trim. cbn [trim_start]. rewrite H1.
  rewrite E, rev_app_distr. cbn [rev app trim_start]. rewrite H2.
  change (d :: rev t) with ([d] ++ rev t). rewrite rev_app_distr, rev_involutive. reflexivity.
Qed.

(** Reading tables *)
Lemma read_row_ok st r : forall ws co, Forall2 cell_text r ws ->
  exists p, read_row st co ws = Some p /\
    forall s c, comp_get p (s, c) = if (s =? st) && (co <=? c) then nth (Z.to_nat (c - co)) r None else None.
Proof.
  induction r as [|i r IH]; intros ws co H; inv H.
  - exists []. split; auto. intros s c. cbn. destruct ((s =? st) && (co <=? c)); auto. destruct (Z.to_nat (c - co)); auto.
  - destruct (IH l' (co + 1) H4) as (p & E & G). cbn [read_row]. rewrite (cell_read _ _ H2), E.
    assert (T : forall s c, comp_get p (s, c) =
      if (s =? st) && (co <=? c) && negb (c =? co) then nth (Z.to_nat (c - co)) (i :: r) None else None).
    { intros s c. rewrite G. destruct (s =? st); cbn [andb]; auto.
      destruct (Z.eqb_spec c co) as [->|N].
      - replace (co + 1 <=? co) with false by lia. replace (co <=? co) with true by lia. reflexivity.
      - destruct (Z.leb_spec (co + 1) c).
        + replace (co <=? c) with true by lia. cbn [andb negb].
          replace (Z.to_nat (c - co)) with (S (Z.to_nat (c - (co + 1)))) by lia. reflexivity.
        + replace (co <=? c) with false by lia. reflexivity. }
    destruct i as [i|].
    + exists (((st, co), i) :: p). split; auto. intros s c. cbn [comp_get]. unfold slot_eqb. cbn [fst snd].
      rewrite T. rewrite (Z.eqb_sym st s), (Z.eqb_sym co c).
      destruct (s =? st); cbn [andb]; auto. destruct (Z.eqb_spec c co) as [->|N].
      * replace (co <=? co) with true by lia. rewrite Z.sub_diag. reflexivity.
      * cbn [negb]. rewrite Bool.andb_true_r. reflexivity.
    + exists p. split; auto. intros s c. rewrite T. destruct (s =? st); cbn [andb]; auto.
      destruct (Z.eqb_spec c co) as [->|N].
      * replace (co <=? co) with true by lia. rewrite Z.sub_diag. reflexivity.
      * cbn [negb]. rewrite Bool.andb_true_r. reflexivity.
Qed.

Lemma comp_get_app p q s : comp_get (p ++ q) s = match comp_get p s with Some i => Some i | None => comp_get q s end.
Proof. induction p as [|[k v] p IH]; cbn; auto. destruct (slot_eqb k s); auto. Qed.

Lemma read_rows_ok g : forall rs st, Forall2 row_text g rs ->
  exists p, read_rows st rs = Some p /\
    forall s c, comp_get p (s, c) =
      if (st <=? s) && (0 <=? c) then nth (Z.to_nat c) (nth (Z.to_nat (s - st)) g []) None else None.
Proof.
  induction g as [|r g IH]; intros rs st H; inv H.
  - exists []. split; auto. intros s c. cbn. destruct ((st <=? s) && (0 <=? c)); auto.
    destruct (Z.to_nat (s - st)), (Z.to_nat c); auto.
  - destruct (IH l' (st + 1) H4) as (q & E & G). cbn [read_rows].
    destruct (read_row_ok st r (split1 y) 0 (row_split _ _ H2)) as (p & E' & G').
    rewrite E', E. exists (p ++ q). split; auto. intros s c. rewrite comp_get_app, G', G.
    destruct (Z.eqb_spec s st) as [->|N].
    + replace (st + 1 <=? st) with false by lia. replace (st <=? st) with true by lia. cbn [andb].
      rewrite Z.sub_diag, Z.sub_0_r. change (Z.to_nat 0) with 0%nat. cbn [nth].
      destruct (0 <=? c); auto. destruct (nth (Z.to_nat c) r None); auto.
    + cbn [andb]. destruct (Z.leb_spec (st + 1) s).
      * replace (st <=? s) with true by lia. replace (Z.to_nat (s - st)) with (S (Z.to_nat (s - (st + 1)))) by lia. reflexivity.
      * replace (st <=? s) with false by lia. reflexivity.
Qed.

Lemma parse_table g s : prog_text g s -> exists p, from_str s = Some p /\ forall sl, comp_get p sl = table_get g sl.
Proof.
  intros H. unfold from_str. destruct (prog_ends _ _ H). rewrite trim_id by auto.
  destruct (read_rows_ok g _ 0 (prog_split _ _ H)) as (p & E & G). exists p. split; auto.
  intros [st co]. rewrite G. unfold table_get. cbn [fst snd]. rewrite Z.sub_0_r. reflexivity.
Qed.

(** Showing *)
Lemma show_cell i : (forall c sh tr, i = Some (c, sh, tr) -> 0 <= c < 10 /\ 0 <= tr < 26) -> cell_text i (show_instr i).
Proof.
  destruct i as [[[c sh] tr]|]; intros H; cbn; [|reflexivity].
  destruct (H _ _ _ eq_refl) as [H1 H2]. split; auto. split; auto.
  unfold show_num, show_num_go. replace (c <? 10) with true by lia. cbn [app].
  rewrite (Z.mod_small tr) by lia. rewrite Z.mod_small by lia. rewrite (Z.add_comm tr). destruct sh; reflexivity.
Qed.

Lemma join_row (l : list (option instr)) : l <> [] -> (forall i, In i l -> cell_text i (show_instr i)) ->
  row_text l (join [SPACE] (map show_instr l)).
Proof.
  induction l as [|i l IH]; intros H1 H2; [contradiction|].
  destruct l as [|j l].
  - cbn. constructor. apply H2. left; auto.
  - cbn [map]. change (join [SPACE] (show_instr i :: show_instr j :: map show_instr l)) with
      (show_instr i ++ [32] ++ join [SPACE] (map show_instr (j :: l))). constructor; [apply H2; left; auto|].
    apply IH; [discriminate|]. intros k Hk. apply H2. right; auto.
Qed.

Lemma join_prog (g : list (list (option instr))) : g <> [] ->
  (forall r, In r g -> row_text r (join [SPACE] (map show_instr r))) ->
  prog_text g (join [SPACE; SPACE] (map (fun r => join [SPACE] (map show_instr r)) g)).
Proof.
  induction g as [|r g IH]; intros H1 H2; [contradiction|].
  destruct g as [|q g].
  - cbn. constructor. apply H2. left; auto.
  - cbn [map]. set (F := fun r : list (option instr) => join [SPACE] (map show_instr r)) in *.
    change (join [SPACE; SPACE] (F r :: F q :: map F g)) with (F r ++ [32; 32] ++ join [SPACE; SPACE] (map F (q :: g))).
    constructor; [apply H2; left; auto|]. apply IH; [discriminate|]. intros k Hk. apply H2. right; auto.
Qed.

Definition table_of (p : comp_prog) (ms mc : Z) : list (list (option instr)) :=
  map (fun s => map (fun c => comp_get p (s, c)) (range mc)) (range ms).

Lemma range_nonempty n : 1 <= n -> range n <> [].
Proof. intros H E. unfold range in E. apply map_eq_nil in E. assert (L : length (seq 0 (Z.to_nat n)) = 0%nat) by (rewrite E; auto). rewrite seq_length in L. lia. Qed.

Lemma show_text p ms mc : 1 <= ms -> 1 <= mc -> shows_ok p -> prog_text (table_of p ms mc) (show_comp p (Some (ms, mc))).
Proof.
  intros H1 H2 HS. unfold show_comp.
  replace (map (fun state => join [SPACE] (map (fun color => show_instr (comp_get p (state, color))) (range mc))) (range ms))
    with (map (fun r => join [SPACE] (map show_instr r)) (table_of p ms mc)).
  2:{ unfold table_of. rewrite map_map. apply map_ext. intros s. rewrite map_map. reflexivity. }
  apply join_prog.
  - unfold table_of. intros E. apply map_eq_nil in E. exact (range_nonempty _ H1 E).
  - intros r Hr. unfold table_of in Hr. apply in_map_iff in Hr as (s & <- & Hs). apply join_row.
    + intros E. apply map_eq_nil in E. exact (range_nonempty _ H2 E).
    + intros i Hi. apply in_map_iff in Hi as (c & <- & Hc). apply show_cell. intros pr sh tr E. eapply HS; eauto.
Qed.

Lemma range_nth n k d : (k < Z.to_nat n)%nat -> nth k (range n) d = Z.of_nat k.
Proof.
  intros H. unfold range. rewrite (nth_indep _ d (Z.of_nat 0)) by (rewrite map_length, seq_length; auto).
  rewrite map_nth, seq_nth by auto. reflexivity.
Qed.

Lemma range_length n : length (range n) = Z.to_nat n.
Proof. unfold range. rewrite map_length, seq_length. reflexivity. Qed.

Lemma nth_map_range {A} (f : Z -> A) n k d : nth k (map f (range n)) d = if (k <? Z.to_nat n)%nat then f (Z.of_nat k) else d.
Proof.
  destruct (Nat.ltb_spec k (Z.to_nat n)).
  - rewrite (nth_indep _ d (f 0)) by (rewrite map_length, range_length; auto). rewrite map_nth, range_nth by auto. reflexivity.
  - apply nth_overflow. rewrite map_length, range_length. auto.
Qed.

Lemma table_of_get p ms mc sl : fits p ms mc -> table_get (table_of p ms mc) sl = comp_get p sl.
Proof.
  destruct sl as [s c]. intros HF. unfold table_get, table_of. cbn [fst snd]. rewrite nth_map_range.
  destruct (comp_get p (s, c)) as [i|] eqn:E.
  - destruct (HF _ _ _ E) as [H1 H2]. replace ((0 <=? s) && (0 <=? c)) with true by lia.
    replace (Z.to_nat s <? Z.to_nat ms)%nat with true by (symmetry; apply Nat.ltb_lt; lia).
    rewrite nth_map_range. replace (Z.to_nat c <? Z.to_nat mc)%nat with true by (symmetry; apply Nat.ltb_lt; lia).
    rewrite !Z2Nat.id by lia. auto.
  - destruct ((0 <=? s) && (0 <=? c)) eqn:EB; auto.
    destruct (Z.to_nat s <? Z.to_nat ms)%nat; [|destruct (Z.to_nat c); auto].
    rewrite nth_map_range. destruct (Z.to_nat c <? Z.to_nat mc)%nat; auto.
    rewrite !Z2Nat.id by lia. auto.
Qed.

(** C23 *)
Lemma parse_show p ms mc : 1 <= ms -> 1 <= mc -> shows_ok p -> fits p ms mc ->
  exists q, from_str (show_comp p (Some (ms, mc))) = Some q /\ forall sl, comp_get q sl = comp_get p sl.
Proof.
  intros H1 H2 HS HF. destruct (parse_table _ _ (show_text p ms mc H1 H2 HS)) as (q & E & G).
  exists q. split; auto. intros sl. rewrite G. apply table_of_get; auto.
Qed.

Lemma max_params_fits p : forall ms mc, 1 <= ms -> 1 <= mc ->
  let '(ms', mc') := fold_left (fun acc (e : slot * instr) =>
      let '(ms, mc) := acc in
      let '((ss, sc), ((ic, _), is)) := e in
      (Z.max (Z.max ms ss) is, Z.max (Z.max mc sc) ic)) p (ms, mc) in
  ms <= ms' /\ mc <= mc' /\ forall s c i, comp_get p (s, c) = Some i -> s <= ms' /\ c <= mc'.
Proof.
  induction p as [|[[s0 c0] [[pr sh] tr]] p IH]; intros ms mc H1 H2.
  - cbn. split; [lia|]. split; [lia|]. discriminate.
  - cbn [fold_left]. specialize (IH (Z.max (Z.max ms s0) tr) (Z.max (Z.max mc c0) pr) ltac:(lia) ltac:(lia)).
    destruct (fold_left _ p _) as [ms' mc']. destruct IH as (G1 & G2 & G3). split; [lia|]. split; [lia|].
    intros s c i. cbn [comp_get]. unfold slot_eqb. cbn [fst snd].
    destruct ((s0 =? s) && (c0 =? c)) eqn:E; [|apply G3]. intros _. lia.
Qed.

Lemma parse_show_inferred p : shows_ok p -> (forall s c i, comp_get p (s, c) = Some i -> 0 <= s /\ 0 <= c) ->
  exists q, from_str (show_comp p None) = Some q /\ forall sl, comp_get q sl = comp_get p sl.
Proof.
  intros HS HN. change (show_comp p None) with (show_comp p (Some (max_params p))).
  pose proof (max_params_fits p 1 1 ltac:(lia) ltac:(lia)) as H. unfold max_params.
  destruct (fold_left _ p _) as [ms mc]. destruct H as (G1 & G2 & G3).
  apply parse_show; auto; try lia. intros s c i E. specialize (HN _ _ _ E). specialize (G3 _ _ _ E). lia.
Qed.

(** C24 *)
Lemma table_of_rect p g cols : rectangular g cols -> (forall sl, comp_get p sl = table_get g sl) ->
  table_of p (Z.of_nat (length g)) (Z.of_nat cols) = g.
Proof.
  intros HR HG. unfold table_of.
  apply (nth_ext _ _ [] []); [rewrite map_length, range_length; lia|].
  rewrite map_length, range_length. intros n Hn. rewrite nth_map_range.
  replace (n <? Z.to_nat (Z.of_nat (length g)))%nat with true by (symmetry; apply Nat.ltb_lt; lia).
  assert (HL : length (nth n g []) = cols).
  { unfold rectangular in HR. rewrite Forall_forall in HR. apply HR. apply nth_In. lia. }
  apply (nth_ext _ _ None None); [rewrite map_length, range_length; lia|].
  rewrite map_length, range_length. intros m Hm. rewrite nth_map_range.
  replace (m <? Z.to_nat (Z.of_nat cols))%nat with true by (symmetry; apply Nat.ltb_lt; lia).
  rewrite HG. unfold table_get. cbn [fst snd]. replace ((0 <=? Z.of_nat n) && (0 <=? Z.of_nat m)) with true by lia.
  rewrite !Nat2Z.id. reflexivity.
Qed.

Lemma text_shows_ok g s : prog_text g s -> forall sl pr sh tr, table_get g sl = Some (pr, sh, tr) -> 0 <= pr < 10 /\ 0 <= tr < 26.
Proof.
  intros H [st co] pr sh tr. unfold table_get. cbn [fst snd]. destruct ((0 <=? st) && (0 <=? co)); [|discriminate].
  generalize (Z.to_nat st) as n, (Z.to_nat co) as m. clear st co. intros n m E.
  assert (ROW : forall r t, row_text r t -> forall m, nth m r None = Some (pr, sh, tr) -> 0 <= pr < 10 /\ 0 <= tr < 26).
  { clear. intros r t. induction 1 as [i s H|i s r t H HR IH]; intros [|m] E; cbn in E; subst; try (destruct m; discriminate).
    - cbn in H. tauto.
    - cbn in H. tauto.
    - eauto. }
  revert n E. induction H as [r s H|r s g t H HR IH]; intros [|n] E; cbn in E.
  - eauto.
  - destruct n, m; discriminate.
  - eauto.
  - eauto.
Qed.

Lemma show_parse g s cols : prog_text g s -> rectangular g cols -> (1 <= cols)%nat ->
  exists p, from_str s = Some p /\ (forall sl, comp_get p sl = table_get g sl) /\
    show_comp p (Some (Z.of_nat (length g), Z.of_nat cols)) = s.
Proof.
  intros H HR HC. destruct (parse_table _ _ H) as (p & E & G). exists p. split; auto. split; auto.
  assert (HL : 1 <= Z.of_nat (length g)) by (inv H; cbn; lia).
  assert (HS : shows_ok p). { intros st co pr sh tr E'. rewrite G in E'. eapply text_shows_ok; eauto. }
  pose proof (show_text p _ (Z.of_nat cols) HL ltac:(lia) HS) as HT.
  rewrite (table_of_rect p g cols HR G) in HT. eapply prog_fun; eauto.
Qed.

Lemma slot_roundtrip s c : 0 <= s < 191 -> 0 <= c < 10 -> read_slot (show_slot (s, c)) = Some (s, c).
Proof.
  intros H1 H2. unfold show_slot, show_num, show_num_go. cbn [fst snd]. replace (c <? 10) with true by lia. cbn.
  unfold read_color. replace ((48 <=? 48 + c) && (48 + c <=? 57)) with true by lia.
  unfold read_state. rewrite (Z.mod_small s) by lia. rewrite !(Z.mod_small (s + 65)) by lia.
  rewrite (Z.mod_small (s + 65 - 65)) by lia. f_equal. f_equal; lia.
Qed.

Lemma slot_text_roundtrip l d : 65 <= l <= 90 -> 48 <= d <= 57 ->
  exists s, read_slot [l; d] = Some s /\ show_slot s = [l; d].
Proof.
  intros H1 H2. cbn. unfold read_color. replace ((48 <=? d) && (d <=? 57)) with true by lia.
  eexists. split; [reflexivity|]. unfold show_slot, show_num, show_num_go, read_state, show_state. cbn [fst snd].
  replace (d - 48 <? 10) with true by lia. rewrite (Z.mod_small l) by lia. rewrite (Z.mod_small (l - 65)) by lia.
  rewrite (Z.mod_small (l - 65)) by lia. rewrite Z.mod_small by lia. f_equal; [lia|]. f_equal. lia.
Qed.

Lemma instr_roundtrip i : (forall c sh tr, i = Some (c, sh, tr) -> 0 <= c < 10 /\ 0 <= tr < 191) ->
  read_instr (show_instr i) = Some i.
Proof.
  destruct i as [[[c sh] tr]|]; intros H; [|reflexivity]. destruct (H _ _ _ eq_refl) as [H1 H2].
  unfold show_instr, show_num, show_num_go. replace (c <? 10) with true by lia. cbn [app].
  unfold show_state, LEFT, RIGHT. rewrite (Z.mod_small tr) by lia. rewrite Z.mod_small by lia.
  unfold read_instr, UNDF. cbn [existsb].
  replace (46 =? 48 + c) with false by lia. replace (46 =? tr + 65) with false by lia.
  replace (46 =? (if sh then 82 else 76)) with false by (destruct sh; reflexivity). cbn [orb].
  unfold read_color. replace ((48 <=? 48 + c) && (48 + c <=? 57)) with true by lia.
  unfold read_shift, RIGHT, read_state. rewrite (Z.mod_small (tr + 65)) by lia. rewrite Z.mod_small by lia.
  replace (48 + c - 48) with c by lia. replace (tr + 65 - 65) with tr by lia. destruct sh; reflexivity.
Qed.

Lemma instr_text_roundtrip i s : cell_text i s -> read_instr s = Some i /\ show_instr i = s.
Proof.
  intros H. split; [apply cell_read; auto|]. apply (cell_fun i); auto. apply show_cell.
  intros c sh tr ->. cbn in H. tauto.
Qed.
