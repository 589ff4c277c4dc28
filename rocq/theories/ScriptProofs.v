(** * Proofs about the command line tools *)
From Verif Require Import Base TM TMFacts ProgModel ParseModel ParseSpec ParseProofs NormModel NormFull GraphModel CModel DotModel InstrSeqModel.
From Verif Require Import NormSpec.
From Verif Require Import ExpandModel ExpandSpec ExpandProofs NumShowModel ReasonModel ReasonSpec SegModel SegSpec.
From Verif Require TreeProofs.
From Verif Require Import ApiModel ApiSpec ApiProofs ScriptSpec ScriptModel.
Local Open Scope string_scope.
Local Open Scope Z_scope.
Local Open Scope list_scope.

Lemma forall2_impl {A B} (R S : A -> B -> Prop) l l' : (forall a b, R a b -> S a b) -> Forall2 R l l' -> Forall2 S l l'.
Proof. induction 2; constructor; auto. Qed.

(** ** Lines *)
Definition no_feed (s : text) : Prop := Forall (fun c => c <> 10) s.
Lemma lines_cons s t : no_feed s -> stdin_lines (s ++ [10] ++ t) = (s ++ [10]) :: stdin_lines t.
Proof.
  induction 1 as [|c s N F IH]; cbn [app stdin_lines].
  - reflexivity.
  - rewrite (proj2 (Z.eqb_neq c 10)) by auto. cbn [app] in IH. rewrite IH. reflexivity.
Qed.
Lemma lines_file ss : Forall no_feed ss -> stdin_lines (file_of ss) = map (fun s => s ++ [10]) ss.
Proof.
  induction 1 as [|s ss N F IH]; cbn; auto. rewrite <- app_assoc. change ([10] ++ _) with ([10] ++ file_of ss).
  rewrite lines_cons by auto. rewrite IH. reflexivity.
Qed.

Lemma loop_file f ss outs : Forall no_feed ss -> Forall2 (fun s o => f (s ++ [10]) = Some (o ++ [10])) ss outs ->
  for_lines f (stdin_lines (file_of ss)) = (file_of outs, true).
Proof.
  intros N H. rewrite lines_file by auto. clear N. induction H as [|s o ss outs E H IH]; cbn [map for_lines]; auto.
  rewrite E, IH. reflexivity.
Qed.

(** ** Tables *)
Definition plain_char (c : Z) : Prop := 32 <= c < 127 /\ c <> 34 /\ c <> 39 /\ c <> 92.
Lemma cell_chars i s : cell_text i s -> Forall plain_char s.
Proof.
  destruct i as [[[c sh] tr]|]; cbn; [intros (A & B & ->)|intros ->]; repeat constructor; try destruct sh; lia.
Qed.
Lemma row_chars r s : row_text r s -> Forall plain_char s.
Proof.
  induction 1 as [i s H|i s r t H R IH]; [eapply cell_chars; eauto|]. rewrite !Forall_app. split; [eapply cell_chars; eauto|].
  split; auto. repeat constructor; lia.
Qed.
Lemma prog_chars g s : prog_text g s -> Forall plain_char s.
Proof.
  induction 1 as [r s H|r s g t H R IH]; [eapply row_chars; eauto|]. rewrite !Forall_app. split; [eapply row_chars; eauto|].
  split; auto. repeat constructor; lia.
Qed.
Lemma table_no_feed s : table_text s -> no_feed s.
Proof. intros (g & H). eapply Forall_impl; [|apply (prog_chars _ _ H)]. unfold plain_char. cbn. intros; lia. Qed.

Lemma good_feed s : good s -> good (s ++ [10]).
Proof.
  induction s as [|c s IH]; cbn [app good].
  - intros _. split; auto. discriminate.
  - intros (A & B). split; auto. destruct s as [|d s]; cbn [app]; auto. unfold SPACE. lia.
Qed.
Lemma nosp_feed s : nosp s -> nosp (s ++ [10]).
Proof. intros H. apply Forall_app. split; auto. repeat constructor. discriminate. Qed.

Lemma cell_feed i s : cell_text i s -> read_instr (s ++ [10]) = Some i.
Proof.
  intros H. pose proof (cell_read _ _ H) as R. revert R. destruct i as [[[c sh] tr]|]; cbn in H.
  - destruct H as (A & B & ->). unfold read_instr. cbn [app existsb]. rewrite ?orb_false_r. auto.
  - subst s. auto.
Qed.
Lemma row_feed r s : row_text r s -> map_opt read_instr (split1 (s ++ [10])) = Some r.
Proof.
  induction 1 as [i s H|i s r t H R IH].
  - rewrite split1_last by (apply nosp_feed; eapply cell_nosp; eauto). cbn [map_opt]. rewrite (cell_feed _ _ H). reflexivity.
  - rewrite <- !app_assoc. change ([32] ++ t ++ [10]) with (SPACE :: t ++ [10]). rewrite split1_word by (eapply cell_nosp; eauto).
    cbn [map_opt]. rewrite IH, (cell_read _ _ H). reflexivity.
Qed.
Lemma parse_feed g s : prog_text g s -> parse (s ++ [10]) = parse s.
Proof.
  intros H. rewrite (parse_text _ _ H). unfold parse. induction H as [r s H|r s g t H R IH].
  - rewrite split2_last by (apply good_feed; eapply row_good; eauto). cbn [map_opt]. rewrite (row_feed _ _ H). reflexivity.
  - rewrite <- !app_assoc. change ([32; 32] ++ t ++ [10]) with (SPACE :: SPACE :: t ++ [10]).
    rewrite split2_row by (eapply row_good; eauto). cbn [map_opt]. rewrite IH.
    rewrite (map_opt_Forall2 cell_text _ r _ (row_split _ _ H) cell_read). reflexivity.
Qed.

Lemma space_feed s : existsb (Z.eqb SPACE) (s ++ [10]) = existsb (Z.eqb SPACE) s.
Proof. rewrite existsb_app. cbn. apply orb_false_r. Qed.
Lemma table_space s : table_text2 s -> existsb (Z.eqb SPACE) s = true.
Proof.
  intros (g & H & L). apply existsb_exists. exists SPACE. split; [|reflexivity]. inv H.
  - inv H0.
    + cbn in L. lia.
    + rewrite !in_app_iff. right. left. left. reflexivity.
  - rewrite !in_app_iff. right. left. left. reflexivity.
Qed.

(** ** normalize.py *)
Lemma norm_file ss outs :
  Forall2 (fun s o => (table_text2 s /\ normalize s = Some o) \/ ((exists g, compact_text g s) /\ expand s = Some o)) ss outs ->
  normalize_py false (file_of ss) = (file_of outs, true).
Proof.
  intros H. unfold normalize_py. apply loop_file.
  - clear - H. induction H as [|s o ss outs [((g & E & _) & _)|((g & E) & _)] F IH]; constructor; auto.
    + apply table_no_feed. exists g; auto.
    + destruct (prog_inner _ _ E) as (I0 & _). eapply Forall_impl; [|exact I0]. cbn. intros; lia.
  - eapply forall2_impl; [|exact H]. clear. intros s o [(T & E)|((g & G) & E)]; unfold normalizer; rewrite space_feed.
    + rewrite (table_space s T). destruct T as (g & P & _). unfold normalize in *. rewrite (parse_feed _ _ P), E. reflexivity.
    + destruct (prog_inner _ _ G) as (I0 & N). pose proof (no_space [] s [] (Forall_nil _) (Forall_nil _) I0) as X.
      rewrite app_nil_r in X. cbn [app] in X. rewrite X. unfold expand in *. rewrite space_feed, X. rewrite X in E. inv E.
      pose proof (strip_around [] s [] (Forall_nil _) (Forall_nil _) I0 N) as S1.
      pose proof (strip_around [] s [10] (Forall_nil _) ltac:(constructor; [auto|constructor]) I0 N) as S2.
      rewrite app_nil_r in S1. cbn [app] in S1, S2. rewrite S1, S2. reflexivity.
Qed.

Lemma tree_file ss outs : Forall2 (fun s o => table_text s /\ tree_norm s = Some o) ss outs ->
  normalize_py true (file_of ss) = (file_of outs, true).
Proof.
  intros H. unfold normalize_py. apply loop_file.
  - clear - H. induction H as [|s o ss outs (T & _) F IH]; constructor; auto. apply table_no_feed; auto.
  - eapply forall2_impl; [|exact H]. clear. intros s o ((g & P) & E). unfold normalizer, tree_norm in *.
    rewrite (parse_feed _ _ P), E. reflexivity.
Qed.

(** ** c_prog.py *)
Lemma strip_pad s b : (exists c s', s = c :: s' /\ py_space c = false) -> (exists c s', s = s' ++ [c] /\ py_space c = false) ->
  b = [] \/ b = [10] -> strip (s ++ b) = s.
Proof.
  intros (c & s' & E & W) (d & t & E2 & W2) B. unfold strip.
  assert (X : lstrip (s ++ b) = s ++ b) by (rewrite E; cbn [app lstrip]; rewrite W; reflexivity). rewrite X, rev_app_distr.
  assert (Y : lstrip (rev s) = rev s) by (rewrite E2, rev_app_distr; cbn [rev app lstrip]; rewrite W2; reflexivity).
  destruct B as [->| ->]; cbn [rev app lstrip py_space]; [|change (py_space 10) with true; cbv iota]; rewrite Y; apply rev_involutive.
Qed.
Lemma py_space_plain c : plain_char c -> c <> 32 -> py_space c = false.
Proof. intros (A & _) N. apply inner_space. lia. Qed.
Lemma is_ws_32 : is_whitespace 32 = true.
Proof. reflexivity. Qed.
Lemma table_strip s b : table_text s -> b = [] \/ b = [10] -> strip (s ++ b) = s.
Proof.
  intros (g & P). pose proof (prog_chars _ _ P) as C. destruct (prog_ends _ _ P) as ((c & s' & E & W) & (d & t & E2 & W2)).
  apply strip_pad.
  - exists c, s'. split; auto. rewrite E in C. inv C. apply py_space_plain; auto. intros ->. discriminate.
  - exists d, t. split; auto. rewrite E2 in C. apply Forall_app in C. destruct C as (_ & C). inv C.
    apply py_space_plain; auto. intros ->. discriminate.
Qed.
Lemma c_file ss outs : Forall2 (fun s o => table_text s /\ make_c s = Some o) ss outs ->
  c_prog_py (file_of ss) = (file_of outs, true).
Proof.
  intros H. unfold c_prog_py. apply loop_file.
  - clear - H. induction H as [|s o ss outs (T & _) F IH]; constructor; auto. apply table_no_feed; auto.
  - eapply forall2_impl; [|exact H]. clear. intros s o (T & E). rewrite table_strip by auto. rewrite E. reflexivity.
Qed.

(** ** just_so.py *)
Definition writes_line s M : table_text s -> (forall st co g, prog_text g s -> M st co = table_get g (st, co)) -> writes (s ++ [10]) M.
Proof.
  intros (g & P) H. exists [], s, [10], g. split; auto. split; [constructor|]. split; [|split; auto].
  constructor; [right; right; left; reflexivity|constructor].
Qed.

Lemma map_opt_all {A B} (f : A -> option B) l outs : map_opt f l = Some outs -> Forall2 (fun a b => f a = Some b) l outs.
Proof.
  revert outs. induction l as [|a l IH]; cbn [map_opt]; intros outs E; [inv E; constructor|].
  destruct (f a) as [b|] eqn:F; try discriminate. destruct (map_opt f l) as [r|]; try discriminate. inv E. constructor; auto.
Qed.

Lemma just_lines which cycles rf fu ss outs : Forall table_text ss -> just_so_py which cycles rf fu (file_of ss) = Some outs ->
  Forall2 (fun s o => (o = s ++ [10] /\ cant_reach which rf fu (js_cycles which cycles) (s ++ [10]) = Some false)
                   \/ (o = [] /\ cant_reach which rf fu (js_cycles which cycles) (s ++ [10]) = Some true)) ss outs.
Proof.
  intros T E. unfold just_so_py in E. rewrite lines_file in E by (eapply Forall_impl; [|exact T]; apply table_no_feed).
  apply map_opt_all in E. revert outs E. induction T as [|s ss TS T IH]; intros outs E; inv E; constructor; auto.
  unfold worker in H1. destruct (cant_reach _ _ _ _ _) as [[]|] eqn:C; inv H1; auto. left. split; auto. unfold print.
  rewrite table_strip; auto.
Qed.

Lemma just_in which cycles rf fu ss outs s : Forall table_text ss -> just_so_py which cycles rf fu (file_of ss) = Some outs -> In s ss ->
  cant_reach which rf fu (js_cycles which cycles) (s ++ [10]) <> Some true -> In (s ++ [10]) outs.
Proof.
  intros T E I0 N. pose proof (just_lines _ _ _ _ _ _ T E) as F. clear T E. induction F as [|x o ss outs [(-> & C)|(-> & C)] F IH].
  - destruct I0.
  - destruct I0 as [->|I0]; [left; reflexivity|right; auto].
  - destruct I0 as [->|I0]; [contradiction|right; auto].
Qed.

Lemma writes_table s M : writes s M -> table_text s -> writes (s ++ [10]) M.
Proof.
  intros (a & s' & b & g & -> & A & B & P & T) _. exists a, s', (b ++ [10]), g. rewrite <- !app_assoc. split; auto. split; auto.
  split; auto. apply Forall_app. split; auto. constructor; [right; right; left; reflexivity|constructor].
Qed.

Lemma just_keeps cycles rf fu ss outs s M : Forall table_text ss -> In s ss -> writes s M ->
  (just_so_py RHalt cycles rf fu (file_of ss) = Some outs -> restartable M -> named M -> ~ never_halts M -> In (s ++ [10]) outs)
  /\ (just_so_py RBlank cycles rf fu (file_of ss) = Some outs -> restartable M -> ~ never_erases M -> In (s ++ [10]) outs)
  /\ (just_so_py RSpinout cycles rf fu (file_of ss) = Some outs -> restartable M -> ~ never_spins_out M -> In (s ++ [10]) outs)
  /\ (just_so_py RNone cycles rf fu (file_of ss) = Some outs -> restartable M -> ~ never_spins_out M -> In (s ++ [10]) outs)
  /\ (just_so_py RSegment cycles rf fu (file_of ss) = Some outs -> named M -> ~ never_halts M -> In (s ++ [10]) outs).
Proof.
  intros T I0 W. assert (TS : table_text s) by (rewrite Forall_forall in T; auto). pose proof (writes_table _ _ W TS) as W'.
  repeat apply conj; intros E.
  - intros R N H. apply (just_in _ _ _ _ _ _ _ T E I0). cbn [cant_reach]. intros C. apply H.
    destruct (py_cant_halt (s ++ [10]) _) as [[r| |]|] eqn:D; try discriminate. eapply api_halt; eauto.
  - intros R H. apply (just_in _ _ _ _ _ _ _ T E I0). cbn [cant_reach]. intros C. apply H.
    destruct (py_cant_blank (s ++ [10]) _) as [[r| |]|] eqn:D; try discriminate. eapply api_blank; eauto.
  - intros R H. apply (just_in _ _ _ _ _ _ _ T E I0). cbn [cant_reach]. intros C. apply H.
    destruct (py_cant_spin_out (s ++ [10]) _) as [[r| |]|] eqn:D; try discriminate. eapply api_spin; eauto.
  - intros R H. apply (just_in _ _ _ _ _ _ _ T E I0). cbn [cant_reach]. intros C. apply H.
    destruct (py_cant_spin_out (s ++ [10]) _) as [[r| |]|] eqn:D; try discriminate. eapply api_spin; eauto.
  - intros N H. apply (just_in _ _ _ _ _ _ _ T E I0). cbn [cant_reach]. intros C. apply H.
    destruct (py_segments (s ++ [10]) _ _ _) as [[r| | |]|] eqn:D; try discriminate. eapply api_segments; eauto.
Qed.

Lemma map_opt_some {A B} (f : A -> option B) l : (forall a, In a l -> exists b, f a = Some b) -> exists outs, map_opt f l = Some outs.
Proof.
  induction l as [|a l IH]; intros H; cbn [map_opt]; [eauto|]. destruct (H a (or_introl eq_refl)) as (b & ->).
  destruct IH as (r & ->); [intros x X; apply H; right; auto|]. eauto.
Qed.
Lemma just_answers which cycles rf fu ss : which <> RSegment -> Forall table_text ss ->
  exists outs, just_so_py which cycles rf fu (file_of ss) = Some outs
  /\ Forall2 (fun s o => o = s ++ [10] \/ o = []) ss outs.
Proof.
  intros W T.
  assert (E : exists outs, just_so_py which cycles rf fu (file_of ss) = Some outs).
  { unfold just_so_py. rewrite lines_file by (eapply Forall_impl; [|exact T]; apply table_no_feed). apply map_opt_some.
    intros x X. apply in_map_iff in X. destruct X as (s & <- & X). rewrite Forall_forall in T. specialize (T _ X).
    assert (WS : exists M, writes (s ++ [10]) M).
    { destruct T as (g & P). exists (fun st co => table_get g (st, co)). exists [], s, [10], g. split; auto. split; [constructor|].
      split; [|auto]. constructor; [right; right; left; reflexivity|constructor]. }
    destruct WS as (M & WS). destruct (api_answers (s ++ [10]) M (js_cycles which cycles) WS) as (a & b & c & A & B & C & PA & PB & PC).
    unfold worker, cant_reach. destruct which; rewrite ?A, ?B, ?C; [destruct a|destruct b|destruct c|congruence|destruct c];
      try congruence; eauto. }
  destruct E as (outs & E). exists outs. split; auto. eapply forall2_impl; [|apply (just_lines _ _ _ _ _ _ T E)].
  intros s o [(-> & _)|(-> & _)]; auto.
Qed.

Lemma trim_line s : table_text s -> from_str (s ++ [10]) = from_str s.
Proof.
  intros (g & P). destruct (prog_ends _ _ P) as (A & B). unfold from_str.
  pose proof (trim_padded [] s [10] (Forall_nil _) ltac:(constructor; [right; right; left; reflexivity|constructor]) A B) as X.
  cbn [app] in X. rewrite X, trim_id by auto. reflexivity.
Qed.
Lemma cycles_used n rfuel fuel s : table_text s -> n <> 0%nat ->
  (exists o, py_cant_halt s n = Some o /\ (just_so_py RHalt (Some n) rfuel fuel (file_of [s]) = Some [[]] <-> exists r, o = OSome r))
  /\ (exists o, py_cant_blank s n = Some o /\ (just_so_py RBlank (Some n) rfuel fuel (file_of [s]) = Some [[]] <-> exists r, o = OSome r))
  /\ (exists o, py_cant_spin_out s n = Some o /\ (just_so_py RSpinout (Some n) rfuel fuel (file_of [s]) = Some [[]] <-> exists r, o = OSome r)).
Proof.
  intros T N. destruct n as [|n]; [contradiction|].
  assert (WS : exists M, writes s M).
  { destruct T as (g & P). exists (fun st co => table_get g (st, co)). exists [], s, [], g. rewrite app_nil_r. repeat (split; auto). }
  destruct WS as (M & WS). destruct (api_answers s M (S n) WS) as (a & b & c & A & B & C & _).
  assert (L : stdin_lines (file_of [s]) = [s ++ [10]]) by (apply lines_file; constructor; [apply table_no_feed; auto|constructor]).
  assert (PR : forall x : text, print x <> []) by (intros [|]; discriminate).
  unfold just_so_py, worker. rewrite L. cbn [map_opt cant_reach js_cycles].
  repeat apply conj; [exists a|exists b|exists c]; (split; [auto|]);
    unfold py_cant_halt, py_cant_blank, py_cant_spin_out, on_text in *; rewrite trim_line by auto; rewrite ?A, ?B, ?C.
  - destruct a; split; try discriminate; eauto; try (intros (r & X); congruence). intros X. inv X. elim (PR _ H0).
  - destruct b; split; try discriminate; eauto; try (intros (r & X); congruence). intros X. inv X. elim (PR _ H0).
  - destruct c; split; try discriminate; eauto; try (intros (r & X); congruence). intros X. inv X. elim (PR _ H0).
Qed.

(** ** dump_graphs.py *)
Definition word (w : text) : Prop := Forall (fun c => 32 < c /\ c <> 34 /\ c <> 39 /\ c <> 92) w.
Lemma shlex_word : forall w acc s, word w -> shlex_go (Some acc) (w ++ s) = shlex_go (Some (acc ++ w)) s.
Proof.
  induction w as [|c w IH]; intros acc s H; cbn [app shlex_go]; [rewrite app_nil_r; auto|]. inv H.
  replace ((c =? 32) || (c =? 9) || (c =? 10) || (c =? 13)) with false by lia. rewrite IH by auto. rewrite <- app_assoc. reflexivity.
Qed.
Lemma shlex_start w s : word w -> w <> [] -> shlex_go None (w ++ s) = shlex_go (Some w) s.
Proof.
  intros H N. destruct w as [|c w]; [contradiction|]. inv H. cbn [app shlex_go].
  replace ((c =? 32) || (c =? 9) || (c =? 10) || (c =? 13)) with false by lia. cbn [app]. rewrite shlex_word by auto. reflexivity.
Qed.
Lemma shlex_gap w c s : c = 32 \/ c = 10 -> shlex_go (Some w) (c :: s) = w :: shlex_go None s.
Proof. intros [->| ->]; reflexivity. Qed.

Lemma under_word s : Forall plain_char s -> word (underscored s).
Proof.
  induction 1 as [|c s (A & B & C & D) F IH]; cbn; constructor; auto. unfold SPACE. destruct (Z.eqb_spec c 32); lia.
Qed.
Lemma under_app s t : underscored (s ++ t) = underscored s ++ underscored t.
Proof. apply map_app. Qed.

Lemma no_quotes l : Forall (fun c => c <> 34 /\ c <> 39 /\ c <> 92) l ->
  existsb (fun c => (c =? 34) || (c =? 39) || (c =? 92)) l = false.
Proof.
  intros H. destruct (existsb _ l) eqn:E; auto. apply existsb_exists in E. destruct E as (c & X & Y). rewrite Forall_forall in H.
  specialize (H _ X). cbn in H. lia.
Qed.
Lemma word_quotes w : word w -> Forall (fun c => c <> 34 /\ c <> 39 /\ c <> 92) w.
Proof. apply Forall_impl. intros; lia. Qed.
Lemma wordb w : forallb (fun c => (32 <? c) && negb ((c =? 34) || (c =? 39) || (c =? 92))) w = true -> word w.
Proof. intros H. rewrite forallb_forall in H. apply Forall_forall. intros c X. specialize (H _ X). cbn in H. lia. Qed.
Lemma unquotedb w : forallb (fun c => negb ((c =? 34) || (c =? 39) || (c =? 92))) w = true -> Forall (fun c => c <> 34 /\ c <> 39 /\ c <> 92) w.
Proof. intros H. rewrite forallb_forall in H. apply Forall_forall. intros c X. specialize (H _ X). cbn in H. lia. Qed.

Lemma dump_args path s : word path -> path <> [] -> table_text s ->
  shlex_split (lit "dot " ++ path ++ lit " -T png -o " ++ underscored (s ++ [10]) ++ lit ".png")
    = Some [lit "dot"; path; lit "-T"; lit "png"; lit "-o"; underscored s; lit ".png"]
  /\ shlex_split (lit "dot " ++ path ++ lit " -T png -o " ++ underscored s ++ lit ".png")
    = Some [lit "dot"; path; lit "-T"; lit "png"; lit "-o"; underscored s ++ lit ".png"].
Proof.
  intros WP NP (g & P). pose proof (under_word s (prog_chars _ _ P)) as WS.
  assert (NS : underscored s <> []).
  { destruct (prog_ends _ _ P) as ((c & s' & -> & _) & _). discriminate. }
  assert (Q1 : forall x, Forall (fun c => c <> 34 /\ c <> 39 /\ c <> 92) x ->
     Forall (fun c => c <> 34 /\ c <> 39 /\ c <> 92) (lit "dot " ++ path ++ lit " -T png -o " ++ x ++ lit ".png")).
  { intros x X. rewrite !Forall_app. repeat split; auto; first [apply word_quotes; assumption|apply unquotedb; reflexivity]. }
  assert (GO : forall x, shlex_go None (lit "dot " ++ path ++ lit " -T png -o " ++ x)
     = lit "dot" :: path :: lit "-T" :: lit "png" :: lit "-o" :: shlex_go None x).
  { intros x. change (lit "dot " ++ path ++ lit " -T png -o " ++ x) with (lit "dot" ++ 32 :: path ++ 32 :: lit "-T" ++ 32 :: lit "png" ++ 32 :: lit "-o" ++ 32 :: x).
    rewrite shlex_start by first [apply wordb; reflexivity|discriminate]. rewrite shlex_gap by auto.
    rewrite shlex_start by auto. rewrite shlex_gap by auto.
    rewrite shlex_start by first [apply wordb; reflexivity|discriminate]. rewrite shlex_gap by auto.
    rewrite shlex_start by first [apply wordb; reflexivity|discriminate]. rewrite shlex_gap by auto.
    rewrite shlex_start by first [apply wordb; reflexivity|discriminate]. rewrite shlex_gap by auto. reflexivity. }
  unfold shlex_split. split.
  - rewrite no_quotes.
    2:{ apply Q1. rewrite under_app, Forall_app. split; [apply word_quotes; auto|]. repeat constructor; discriminate. }
    rewrite GO, under_app. cbn [underscored map]. change (10 =? SPACE) with false. cbv iota. rewrite <- app_assoc.
    rewrite shlex_start by auto. cbn [app]. rewrite shlex_gap by auto. reflexivity.
  - rewrite no_quotes by (apply Q1, word_quotes; auto). rewrite GO, shlex_start by auto.
    rewrite <- (app_nil_r (lit ".png")) at 1. rewrite shlex_word by (apply wordb; reflexivity). reflexivity.
Qed.

Lemma lines_last s : no_feed s -> s <> [] -> stdin_lines s = [s].
Proof.
  induction 1 as [|c s N F IH]; intros X; [contradiction|]. cbn [stdin_lines]. rewrite (proj2 (Z.eqb_neq c 10)) by auto.
  destruct s as [|d s]; [reflexivity|]. rewrite IH by discriminate. reflexivity.
Qed.
Lemma underscored_spec s : spaces_underscored s (underscored s).
Proof.
  induction s as [|c s IH]; constructor; auto. unfold SPACE. destruct (Z.eqb_spec c 32); split; intros; congruence.
Qed.
Lemma dump_last path s d : word path -> path <> [] -> table_text s -> make_dot s = Some d ->
  exists name, spaces_underscored s name
  /\ dump_graphs_py path s = Some [(d, [text_of "dot"; path; text_of "-T"; text_of "png"; text_of "-o"; name ++ text_of ".png"])].
Proof.
  intros W N T D. exists (underscored s). split; [apply underscored_spec|]. unfold dump_graphs_py. rewrite lines_last.
  - cbn [map_opt]. unfold draw_line. rewrite D, (proj2 (dump_args path s W N T)). reflexivity.
  - apply table_no_feed; auto.
  - destruct T as (g & P). destruct (prog_ends _ _ P) as ((c & s' & -> & _) & _). discriminate.
Qed.
Lemma dump_lines path ss l : word path -> path <> [] -> Forall table_text ss -> dump_graphs_py path (file_of ss) = Some l ->
  Forall2 (fun s e => make_dot (s ++ [10]) = Some (fst e) /\ exists name, spaces_underscored s name
    /\ snd e = [text_of "dot"; path; text_of "-T"; text_of "png"; text_of "-o"; name; text_of ".png"]) ss l.
Proof.
  intros W N T E. unfold dump_graphs_py in E. rewrite lines_file in E by (eapply Forall_impl; [|exact T]; apply table_no_feed).
  apply map_opt_all in E. revert l E. induction T as [|s ss TS T IH]; intros l E; inv E; constructor; auto.
  unfold draw_line in H1. rewrite (proj1 (dump_args path s W N TS)) in H1. destruct (make_dot (s ++ [10])); inv H1.
  split; [reflexivity|]. exists (underscored s). split; [apply underscored_spec|reflexivity].
Qed.

(** ** branch_last *)
Lemma range_iff n x : In x (range (Z.of_nat n)) <-> 0 <= x < Z.of_nat n.
Proof.
  unfold range. rewrite Nat2Z.id, in_map_iff. split.
  - intros (k & <- & X). apply in_seq in X. lia.
  - intros H. exists (Z.to_nat x). split; [lia|]. apply in_seq. lia.
Qed.
Lemma range_nodup n : NoDup (range n).
Proof. unfold range. apply FinFun.Injective_map_NoDup; [intros a b; lia|apply seq_NoDup]. Qed.

Lemma all_instrs_lists states colors : lists_instrs (Z.of_nat states) (Z.of_nat colors) (all_instrs states colors).
Proof.
  split.
  - unfold all_instrs. apply (TreeProofs.NoDup_flat_map _ (fun i : instr => fst (fst i))).
    + apply range_nodup.
    + intros c i H. apply in_flat_map in H. destruct H as (sh & _ & H). apply in_map_iff in H. destruct H as (x & <- & _). reflexivity.
    + intros c. apply (TreeProofs.NoDup_flat_map _ (fun i : instr => snd (fst i))).
      * repeat constructor; cbn; intuition discriminate.
      * intros sh i H. apply in_map_iff in H. destruct H as (x & <- & _). reflexivity.
      * intros sh. apply FinFun.Injective_map_NoDup; [intros a b E; congruence|apply range_nodup].
  - intros pr sh tr. unfold all_instrs. rewrite in_flat_map. split.
    + intros (c & C & H). apply in_flat_map in H. destruct H as (d & D & H). apply in_map_iff in H. destruct H as (x & E & X). inv E.
      apply range_iff in C, X. auto.
    + intros (A & B). exists pr. split; [apply range_iff; auto|]. apply in_flat_map. exists sh. split; [destruct sh; cbn; auto|].
      apply in_map_iff. exists tr. split; auto. apply range_iff. auto.
Qed.

Lemma filter_one {A} (f : A -> bool) (l : list A) o : NoDup l -> In o l -> (forall x, In x l -> f x = true <-> x = o) -> filter f l = [o].
Proof.
  induction 1 as [|a l N ND IH]; intros I0 H; [destruct I0|]. cbn [filter]. destruct (f a) eqn:E.
  - assert (a = o) by (apply (H a); [left|]; auto). subst a. f_equal.
    assert (X : forall x, In x l -> f x = false).
    { intros x X. destruct (f x) eqn:F; auto. apply (H x) in F; [|right; auto]. subst x. contradiction. }
    clear - X. induction l as [|b l IH]; auto. cbn [filter]. rewrite X by (left; auto). apply IH. intros x Y. apply X. right; auto.
  - destruct I0 as [->|I0]; [rewrite (proj2 (H o (or_introl eq_refl)) eq_refl) in E; discriminate|].
    apply IH; auto. intros x X. apply H. right; auto.
Qed.

Lemma slot_eqb_eq a b : slot_eqb a b = true <-> a = b.
Proof. destruct a, b. unfold slot_eqb. cbn [fst snd]. rewrite andb_true_iff, !Z.eqb_eq. split; [intros (-> & ->); auto|intros E; inv E; auto]. Qed.
Lemma comp_get_snoc p o i sl : comp_get p o = None -> comp_get (p ++ [(o, i)]) sl = if slot_eqb o sl then Some i else comp_get p sl.
Proof.
  induction p as [|[k v] p IH]; cbn [app comp_get]; intros H.
  - reflexivity.
  - destruct (slot_eqb k o) eqn:E; [discriminate|]. rewrite IH by auto. destruct (slot_eqb k sl) eqn:F; auto.
    destruct (slot_eqb o sl) eqn:G; auto. apply slot_eqb_eq in F, G. subst. rewrite (proj2 (slot_eqb_eq _ _) eq_refl) in E. discriminate.
Qed.

Lemma branch_ok g s cols b o : prog_text g s -> rectangular g cols -> (1 <= cols <= 10)%nat -> (length g <= 26)%nat -> b = [] \/ b = [10] ->
  0 <= fst o < Z.of_nat (length g) -> 0 <= snd o < Z.of_nat cols ->
  (forall st co, 0 <= st < Z.of_nat (length g) -> 0 <= co < Z.of_nat cols -> table_get g (st, co) = None <-> (st, co) = o) ->
  exists l is, branch_last (s ++ b) = Some l /\ lists_instrs (Z.of_nat (length g)) (Z.of_nat cols) is
    /\ Forall2 (fun i t => writes t (filled (fun st co => table_get g (st, co)) o i)) is l.
Proof.
  intros P R C L B O1 O2 U.
  assert (W : writes (s ++ b) (fun st co => table_get g (st, co))).
  { exists [], s, b, g. split; auto. split; [constructor|]. split; [|auto].
    destruct B as [->| ->]; [constructor|constructor; [right; right; left; reflexivity|constructor]]. }
  destruct (read_writes _ _ W) as (p & E & ND & PM).
  assert (PG : forall sl, comp_get p sl = table_get g sl) by (intros [st co]; apply PM).
  assert (PAR : get_params (s ++ b) = Some (length g, cols)).
  { unfold get_params. replace (parse (s ++ b)) with (parse s).
    - rewrite (parse_text _ _ P). destruct g as [|r g]; [inv P|]. inv R. reflexivity.
    - destruct B as [->| ->]; [rewrite app_nil_r; auto|symmetry; eapply parse_feed; eauto]. }
  unfold branch_last, tcompile. rewrite E, PAR.
  rewrite (filter_one _ _ o).
  - exists (map (fun i => py_show_comp (p ++ [(o, i)]) None) (all_instrs (length g) cols)), (all_instrs (length g) cols).
    split; auto. split; [apply all_instrs_lists|]. destruct (all_instrs_lists (length g) cols) as (_ & A).
    assert (ON : comp_get p o = None). { rewrite PG. destruct o as [st co]. apply U; auto. }
    assert (Q : forall i, In i (all_instrs (length g) cols) ->
       writes (py_show_comp (p ++ [(o, i)]) None) (filled (fun st co => table_get g (st, co)) o i)).
    { intros [[pr sh] tr] I0. apply A in I0. set (q := p ++ [(o, (pr, sh, tr))]).
      assert (G : forall sl, comp_get q sl = if slot_eqb o sl then Some (pr, sh, tr) else table_get g sl).
      { intros sl. unfold q. rewrite comp_get_snoc by auto. rewrite PG. reflexivity. }
      assert (SO : shows_ok q).
      { intros st co pr' sh' tr'. rewrite G. destruct (slot_eqb o (st, co)); [intros X; inv X; lia|]. apply (text_shows_ok _ _ P). }
      assert (FT : forall st co i, comp_get q (st, co) = Some i -> 0 <= st /\ 0 <= co).
      { intros st co i. rewrite G. destruct (slot_eqb o (st, co)) eqn:F.
        - apply slot_eqb_eq in F. subst o. cbn [fst snd] in *. lia.
        - unfold table_get. cbn [fst snd]. destruct ((0 <=? st) && (0 <=? co)) eqn:F'; [|discriminate]. lia. }
      assert (WQ : writes (py_show_comp q None) (machine_of q)).
      { unfold py_show_comp. change (show_comp q None) with (show_comp q (Some (max_params q))).
        pose proof (max_params_fits q 1 1 ltac:(lia) ltac:(lia)) as MF. unfold max_params.
        destruct (fold_left _ q _) as [ms mc]. destruct MF as (G1 & G2 & G3).
        pose proof (writes_shown [] [] q (1 + ms) (1 + mc) (Forall_nil _) (Forall_nil _)) as X. rewrite app_nil_r in X.
        apply X; auto; try lia. intros st co i Y. specialize (FT _ _ _ Y). specialize (G3 _ _ _ Y). lia. }
      destruct WQ as (a & s' & b' & g' & E' & A' & B' & P' & T'). exists a, s', b', g'. repeat (split; auto).
      intros st co. rewrite <- T'. unfold machine_of. rewrite G. unfold filled, slot_eqb. destruct o as [ost oco]; cbn [fst snd].
      rewrite (Z.eqb_sym st ost), (Z.eqb_sym co oco). destruct ((ost =? st) && (oco =? co)); reflexivity. }
    clear - Q. induction (all_instrs (length g) cols) as [|i l IH]; constructor; [apply Q; left; auto|]. apply IH. intros; apply Q; right; auto.
  - apply (TreeProofs.NoDup_flat_map _ fst).
    + apply range_nodup.
    + intros st x H. apply in_map_iff in H. destruct H as (co & <- & _). reflexivity.
    + intros st. apply FinFun.Injective_map_NoDup; [intros x y H; congruence|apply range_nodup].
  - apply in_flat_map. exists (fst o). split; [apply range_iff; auto|]. apply in_map_iff. exists (snd o). split; [destruct o; auto|].
    apply range_iff. auto.
  - intros [st co] H. apply in_flat_map in H. destruct H as (x & X & H). apply in_map_iff in H. destruct H as (y & Y & H). inv Y.
    apply range_iff in X, H. rewrite PG. rewrite <- (U st co) by auto. destruct (table_get g (st, co)); split; congruence.
Qed.

(** ** instr_seq.py *)
Lemma decimal_spec : forall fuel n acc, 0 <= n < 2 ^ Z.of_nat fuel -> (0 < fuel)%nat ->
  exists ds, decimal fuel n acc = ds ++ acc /\ numeral ds n.
Proof.
  induction fuel as [|fuel IH]; intros n acc B F; [lia|]. cbn [decimal].
  destruct (Z.ltb_spec n 10) as [L|L].
  - exists [48 + n]. rewrite Z.mod_small by lia. split; auto. split; [repeat constructor; lia|]. split; [cbn [fold_left]; lia|].
    destruct (Z.eq_dec n 0) as [->|N]; [left; reflexivity|right]. exists (48 + n), []. split; auto. lia.
  - pose proof (Z.div_mod n 10 ltac:(lia)) as DM. pose proof (Z.mod_pos_bound n 10 ltac:(lia)) as MB.
    assert (P : 2 ^ Z.of_nat (Datatypes.S fuel) = 2 * 2 ^ Z.of_nat fuel) by (rewrite Nat2Z.inj_succ, Z.pow_succ_r by lia; reflexivity).
    destruct fuel as [|fuel]; [change (2 ^ Z.of_nat 1) with 2 in B; lia|].
    destruct (IH (n / 10) ((48 + n mod 10) :: acc)) as (ds & E & D1 & D2 & D3).
    { split; [apply Z.div_pos; lia|]. lia. }
    { lia. }
    exists (ds ++ [48 + n mod 10]). split; [rewrite E, <- app_assoc; reflexivity|]. split; [|split].
    + apply Forall_app. split; auto. repeat constructor; lia.
    + rewrite fold_left_app. rewrite D2. cbn [fold_left]. lia.
    + right. destruct D3 as [->|(d & ds' & -> & N)]; [|exists d; eexists; split; [reflexivity|auto]].
      exfalso. cbn in D2. assert (1 <= n / 10) by (apply Z.div_le_lower_bound; lia). lia.
Qed.
Lemma str_int_numeral n : 0 <= n -> numeral (str_int n) n.
Proof.
  intros H. unfold str_int. replace (n <? 0) with false by lia.
  destruct (decimal_spec (Datatypes.S (Z.to_nat (Z.log2 n))) n []) as (ds & E & N); [|lia|rewrite E, app_nil_r; auto].
  split; [lia|]. rewrite Nat2Z.inj_succ, Z2Nat.id by apply Z.log2_nonneg.
  destruct (Z.eq_dec n 0) as [->|]; [reflexivity|]. apply Z.log2_spec. lia.
Qed.

Lemma repeat_all (c : Z) n : Forall (fun x => x = c) (repeat c n).
Proof. induction n; constructor; auto. Qed.

Lemma seq_line_says partial step st co : 0 <= step -> 0 <= st < 26 -> 0 <= co < 10 -> says_entry (seq_line (partial, step, (st, co))) partial step (st, co).
Proof.
  intros A B C. exists (repeat SPACE (2 - length (str_int step))), (str_int step), [48 + co]. split; [|split; [|split; [|split; [|split]]]].
  - unfold seq_line, print, two_wide, show_slot, show_state, show_num. cbn [fst snd show_num_go]. replace (co <? 10) with true by lia.
    rewrite (Z.mod_small st), Z.mod_small by lia. rewrite (Z.add_comm st). rewrite <- !app_assoc. reflexivity.
  - apply str_int_numeral; auto.
  - split; [repeat constructor; cbn [snd]; lia|]. split; [cbn [fold_left snd]; lia|].
    destruct (Z.eq_dec co 0) as [->|N]; [left; reflexivity|right; exists (48 + co), []; split; auto; lia].
  - apply repeat_all.
  - rewrite app_length, repeat_length. lia.
  - rewrite app_length, repeat_length. destruct (str_int step) as [|a [|b l]]; cbn [length]; [right; lia|right; lia|left]. reflexivity.
Qed.

Lemma seq_file lim ss ls : Forall2 (fun s l => table_text s /\ instr_seq lim s = Some l
    /\ Forall (fun e => 0 <= snd (fst e) /\ 0 <= fst (snd e) < 26 /\ 0 <= snd (snd e) < 10) l) ss ls ->
  exists outs, instr_seq_py lim (file_of ss) = (concat outs, true) /\ Forall2 (fun out sl => says_sequence out (fst sl) (snd sl)) outs (combine ss ls).
Proof.
  intros H. unfold instr_seq_py. rewrite lines_file.
  - induction H as [|s l ss ls (T & E & R) F (outs & IH & S2)]; cbn [map for_lines].
    + exists []. split; [reflexivity|constructor].
    + pose proof (table_strip s [10] T (or_intror eq_refl)) as S1. unfold format_sequence at 1. rewrite S1.
      replace (instr_seq lim (s ++ [10])) with (Some l).
      2:{ rewrite <- E. unfold instr_seq. destruct T as (g & P). rewrite (parse_feed _ _ P). reflexivity. }
      cbn [option_map]. rewrite IH. eexists (_ :: outs). split; [reflexivity|]. cbn [combine]. constructor; auto.
      exists (map seq_line l). cbn [fst snd]. split.
      * unfold print. rewrite <- !app_assoc. reflexivity.
      * clear - R. induction R as [|[[pa st] [a b]] l (A & B & C) F IH]; cbn [map]; constructor; auto. apply seq_line_says; auto.
  - clear - H. induction H as [|s o ss outs (T & _) F IH]; constructor; auto. apply table_no_feed; auto.
Qed.
