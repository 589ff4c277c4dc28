(** * The C text is read back as intended, and does what the machine does *)
From Verif Require Import Base TM TMFacts ProgModel ParseModel ParseSpec NormModel NormSpec CModel CSpec.

Local Open Scope string_scope.

(** ** Lines and tokens *)
Lemma lines_ne t : exists l ls, lines t = l :: ls.
Proof. induction t as [|c t (l & ls & E)]; cbn; [eauto|]. destruct (c =? 10); eauto. rewrite E. eauto. Qed.

Lemma lines_app a b : lines (a ++ 10 :: b) = lines a ++ lines b.
Proof.
  induction a as [|c a IH]; [reflexivity|]. cbn [app lines]. rewrite IH. destruct (c =? 10); [reflexivity|].
  destruct (lines_ne a) as (l & ls & ->). reflexivity.
Qed.

Lemma lines_cons c t : lines (c :: t) =
  if c =? 10 then [] :: lines t else match lines t with l :: ls => (c :: l) :: ls | [] => [[c]] end.
Proof. reflexivity. Qed.

Lemma replace_cons c t : replace_halt (c :: t) =
  match t with
  | d :: s => if (c =? 32) && (d =? 95) then 32 :: 72 :: replace_halt s else c :: replace_halt t
  | [] => [c]
  end.
Proof. destruct t; reflexivity. Qed.

Lemma lines_replace : forall n t, (length t <= n)%nat -> lines (replace_halt t) = map replace_halt (lines t).
Proof.
  induction n as [|n IH]; intros [|c t] L; cbn [length] in L; try reflexivity; [lia|].
  rewrite replace_cons. destruct t as [|d s].
  { rewrite !lines_cons. destruct (c =? 10); reflexivity. }
  cbn [length] in L.
  assert (E1 := IH (d :: s) ltac:(cbn [length]; lia)). assert (E2 := IH s ltac:(lia)).
  destruct ((c =? 32) && (d =? 95)) eqn:X.
  - zb. subst. rewrite !lines_cons. change (32 =? 10) with false. change (72 =? 10) with false. change (95 =? 10) with false.
    cbn iota. rewrite E2. destruct (lines_ne s) as (l & ls & ->). reflexivity.
  - rewrite lines_cons, E1, (lines_cons c). destruct (Z.eqb_spec c 10); [reflexivity|].
    destruct (lines_ne (d :: s)) as (l & ls & E). rewrite E. cbn [map]. rewrite replace_cons.
    destruct l as [|d' l]; [reflexivity|].
    assert (d' = d).
    { rewrite lines_cons in E. destruct (d =? 10); [discriminate|]. destruct (lines s); congruence. }
    subst d'. rewrite X. reflexivity.
Qed.

Definition TR (t : text) (ts : list token) : Prop := tokens (map replace_halt (lines t)) = Some ts.

Lemma tokens_app a : forall b x y, tokens a = Some x -> tokens b = Some y -> tokens (a ++ b) = Some (x ++ y).
Proof.
  induction a as [|l a IH]; intros b x y X Y; cbn [tokens app] in *; [injection X as <-; auto|].
  destruct (token_of (strip l)) as [t|]; [|discriminate].
  destruct (tokens a) as [ts|]; [|destruct t; discriminate].
  rewrite (IH b ts y eq_refl Y). destruct t; injection X as <-; reflexivity.
Qed.

Lemma TR_nl a b x y : TR a x -> TR b y -> TR (a ++ 10 :: b) (x ++ y).
Proof. unfold TR. intros X Y. rewrite lines_app, map_app. apply tokens_app; auto. Qed.

Lemma TR_join sp : forall l x, Forall2 (fun t ts => TR (sp ++ t) ts) l x -> l <> [] ->
  TR (sp ++ join (10 :: sp) l) (concat x).
Proof.
  induction l as [|t l IH]; intros x F N; [contradiction|]. inversion F as [|? ts ? x' F1 F2]; subst.
  destruct l as [|t' l].
  - inversion F2; subst. cbn [concat join]. rewrite app_nil_r. auto.
  - change (join (10 :: sp) (t :: t' :: l)) with (t ++ 10 :: (sp ++ join (10 :: sp) (t' :: l))).
    rewrite app_assoc. cbn [concat]. apply TR_nl; auto. apply IH; auto. discriminate.
Qed.

(** ** One instruction *)
Definition lab (tr : Z) : Z := if (tr <? 0) || (tr =? 30) then 72 else 65 + tr.

Definition k_instr (co : Z) (i : instr) (binary skip : bool) : list ccmd :=
  let '(pr, sh, tr) := i in
  (if co =? pr then [] else [KWrite (if binary then (if pr =? 1 then 1 else 0) else pr)])
  ++ [KShift sh] ++ (if skip then [] else [KGoto (lab tr)]).

Definition target_ok (tr : Z) : Prop := -1 <= tr < 8 \/ tr = 30.

Ltac enum_z x := let H := fresh in
  assert (H : x = -1 \/ x = 0 \/ x = 1 \/ x = 2 \/ x = 3 \/ x = 4 \/ x = 5 \/ x = 6 \/ x = 7 \/ x = 8 \/ x = 9 \/ x = 30) by lia;
  repeat (destruct H as [H|H]; [subst x|]); [..|subst x]; try lia.

Lemma TR_comment n st co : n = 2%nat \/ n = 4%nat \/ n = 6%nat -> 0 <= st < 7 -> 0 <= co < 10 ->
  TR (spaces n ++ make_comment st co) [].
Proof. intros N S C. destruct N as [->|[->| ->]]; enum_z st; enum_z co; vm_compute; reflexivity. Qed.

Lemma TR_shift n sh : n = 2%nat \/ n = 4%nat \/ n = 6%nat -> TR (spaces n ++ make_shift sh) [TCmd (KShift sh)].
Proof. intros N. destruct N as [->|[->| ->]]; destruct sh; vm_compute; reflexivity. Qed.

Lemma TR_write n pr (binary : bool) : n = 2%nat \/ n = 4%nat \/ n = 6%nat -> 0 <= pr < 10 ->
  TR (spaces n ++ (if binary then make_binary_write pr else make_n_way_write pr))
     [TCmd (KWrite (if binary then (if pr =? 1 then 1 else 0) else pr))].
Proof. intros N P. destruct N as [->|[->| ->]]; destruct binary; enum_z pr; vm_compute; reflexivity. Qed.

Lemma TR_trans n tr : n = 2%nat \/ n = 4%nat \/ n = 6%nat -> target_ok tr ->
  TR (spaces n ++ make_trans tr) [TCmd (KGoto (lab tr))].
Proof. unfold target_ok. intros N P. destruct N as [->|[->| ->]]; enum_z tr; vm_compute; reflexivity. Qed.

Definition instr_ok (i : instr) : Prop := let '(pr, _, tr) := i in 0 <= pr < 10 /\ target_ok tr.

Lemma TR_instruction n st co i binary skip : n = 2%nat \/ n = 4%nat \/ n = 6%nat ->
  0 <= st < 7 -> 0 <= co < 10 -> instr_ok i ->
  TR (spaces n ++ indent n (make_instruction st co i binary skip)) (map TCmd (k_instr co i binary skip)).
Proof.
  intros N S C O. destruct i as [[pr sh] tr]. destruct O as [P T].
  assert (F : Forall2 (fun t ts => TR (spaces n ++ t) ts) (make_instruction st co (pr, sh, tr) binary skip)
    ([[]] ++ (if co =? pr then [] else [[TCmd (KWrite (if binary then (if pr =? 1 then 1 else 0) else pr))]])
     ++ [[TCmd (KShift sh)]] ++ (if skip then [] else [[TCmd (KGoto (lab tr))]]))).
  { unfold make_instruction. apply Forall2_app; [repeat constructor; apply TR_comment; auto|].
    apply Forall2_app; [destruct (co =? pr); repeat constructor; apply TR_write; auto|].
    apply Forall2_app; [repeat constructor; apply TR_shift; auto|].
    destruct skip; repeat constructor. apply TR_trans; auto. }
  apply TR_join in F; [|discriminate]. unfold indent, nl. cbn [app].
  replace (map TCmd (k_instr co (pr, sh, tr) binary skip)) with
    (concat ([[]] ++ (if co =? pr then [] else [[TCmd (KWrite (if binary then (if pr =? 1 then 1 else 0) else pr))]])
     ++ [[TCmd (KShift sh)]] ++ (if skip then [] else [[TCmd (KGoto (lab tr))]]))); [exact F|].
  unfold k_instr. destruct (co =? pr); destruct skip; reflexivity.
Qed.

(** ** Statements *)
Definition stmt_tokens (s : cstmt) : list token :=
  match s with
  | KIf a b => TIf :: TOpen :: map TCmd a ++ TClose :: TElse :: TOpen :: map TCmd b ++ [TClose]
  | KWhile m a b => TWhile m :: map TCmd a ++ TClose :: map TCmd b
  | KSwitch cs => TSwitch :: flat_map (fun c => TCase (fst c) :: map TCmd (snd c)) cs ++ [TClose]
  end.

Definition k_stmt (st : Z) (instrs : list instr) : cstmt :=
  match instrs with
  | [in0; in1] =>
      if st =? snd in0 then KWhile false (k_instr 0 in0 true true) (k_instr 1 in1 true false)
      else if st =? snd in1 then KWhile true (k_instr 1 in1 true true) (k_instr 0 in0 true false)
      else KIf (k_instr 0 in0 true false) (k_instr 1 in1 true false)
  | _ => KSwitch (map (fun e => (fst e, k_instr (fst e) (snd e) false false)) (enum 0 instrs))
  end.

Lemma TR_nil : TR [] [].
Proof. reflexivity. Qed.

Lemma TR_while st l r (m : bool) : 0 <= st < 7 -> instr_ok l -> instr_ok r ->
  forall pre t0, TR pre t0 ->
  TR (pre ++ make_while st l r m) (t0 ++ stmt_tokens (KWhile m (k_instr (if m then 1 else 0) l true true) (k_instr (if m then 0 else 1) r true false))).
Proof.
  intros S L R pre t0 P. unfold make_while, while_template. cbn [stmt_tokens].
  apply TR_nl; auto.
  assert (A : TR (spaces 4 ++ indent 4 (make_instruction st (if m then 1 else 0) l true true)) (map TCmd (k_instr (if m then 1 else 0) l true true)))
    by (apply TR_instruction; auto; destruct m; lia).
  assert (B : TR (spaces 2 ++ indent 2 (make_instruction st (1 - (if m then 1 else 0)) r true false)) (map TCmd (k_instr (if m then 0 else 1) r true false))).
  { replace (1 - (if m then 1 else 0)) with (if m then 0 else 1) by (destruct m; reflexivity).
    apply TR_instruction; auto; destruct m; lia. }
  rewrite (app_assoc (lit "  while (")), (app_assoc (_ ++ _) (lit ") {")). unfold nl. cbn [app].
  apply (TR_nl _ _ [TWhile m]); [destruct m; reflexivity|].
  rewrite (app_assoc (spaces 4)). apply TR_nl; [exact A|].
  apply (TR_nl _ _ [TClose]); [reflexivity|]. change (10 :: spaces 2 ++ ?x) with ([] ++ 10 :: (spaces 2 ++ x)).
  apply (TR_nl _ _ []); [reflexivity|]. rewrite (app_assoc (spaces 2)).
  rewrite <- (app_nil_r (map TCmd (k_instr _ r true false))). apply TR_nl; [exact B|reflexivity].
Qed.

Lemma TR_if st a b : 0 <= st < 7 -> instr_ok a -> instr_ok b -> forall pre t0, TR pre t0 ->
  TR (pre ++ if_template (indent 6 (make_instruction st 0 a true false)) (indent 6 (make_instruction st 1 b true false)))
     (t0 ++ stmt_tokens (KIf (k_instr 0 a true false) (k_instr 1 b true false))).
Proof.
  intros S A B pre t0 P. unfold if_template. cbn [stmt_tokens]. unfold nl. cbn [app].
  apply TR_nl; auto.
  assert (A' : TR (spaces 6 ++ indent 6 (make_instruction st 0 a true false)) (map TCmd (k_instr 0 a true false)))
    by (apply TR_instruction; auto; lia).
  assert (B' : TR (spaces 6 ++ indent 6 (make_instruction st 1 b true false)) (map TCmd (k_instr 1 b true false)))
    by (apply TR_instruction; auto; lia).
  apply (TR_nl _ _ [TIf]); [reflexivity|]. apply (TR_nl _ _ [TOpen]); [reflexivity|].
  rewrite (app_assoc (spaces 6)). apply TR_nl; [exact A'|].
  apply (TR_nl _ _ [TClose]); [reflexivity|]. apply (TR_nl _ _ [TElse]); [reflexivity|].
  apply (TR_nl _ _ [TOpen]); [reflexivity|]. rewrite (app_assoc (spaces 6)).
  apply TR_nl; [exact B'|]. apply (TR_nl _ _ [TClose] []); reflexivity.
Qed.

Lemma TR_case st co i : 0 <= st < 7 -> 0 <= co < 10 -> instr_ok i ->
  TR (make_case st co i) (TCase co :: map TCmd (k_instr co i false false)).
Proof.
  intros S C O. unfold make_case, case_template. rewrite (app_assoc (lit "    case ")), (app_assoc (_ ++ _) (lit ":")).
  unfold nl. cbn [app]. apply (TR_nl _ _ [TCase co]); [enum_z co; vm_compute; reflexivity|].
  apply TR_instruction; auto.
Qed.

Lemma TR_cases st : 0 <= st < 7 -> forall l k, 0 <= k -> k + Z.of_nat (length l) <= 10 -> Forall instr_ok l -> l <> [] ->
  TR (join (nl ++ nl) (map (fun e => make_case st (fst e) (snd e)) (enum k l)))
     (flat_map (fun c => TCase (fst c) :: map TCmd (snd c)) (map (fun e => (fst e, k_instr (fst e) (snd e) false false)) (enum k l))).
Proof.
  intros S. induction l as [|i l IH]; intros k K L F N; [contradiction|]. inversion F; subst.
  cbn [length] in L. destruct l as [|j l].
  - cbn [enum map join flat_map fst snd]. rewrite app_nil_r. apply TR_case; auto. lia.
  - cbn [enum map]. cbn [flat_map fst snd]. change (join (nl ++ nl) (?x :: ?y :: ?r)) with (x ++ 10 :: ([] ++ 10 :: join (nl ++ nl) (y :: r))).
    apply TR_nl; [apply TR_case; auto; lia|]. apply (TR_nl [] _ []); [reflexivity|].
    apply (IH (k + 1)); [lia|cbn [length] in *; lia|auto|discriminate].
Qed.

Lemma TR_switch st instrs : 0 <= st < 7 -> (1 <= length instrs <= 10)%nat -> Forall instr_ok instrs ->
  TR (make_label st ++ make_switch st instrs) (TLabel (65 + st) :: stmt_tokens (k_stmt st instrs)).
Proof.
  intros S L F.
  assert (P : TR (make_label st) [TLabel (65 + st)]) by (enum_z st; vm_compute; reflexivity).
  assert (SW : instrs <> [] -> TR (make_label st ++ make_n_way_switch st instrs)
    ([TLabel (65 + st)] ++ stmt_tokens (KSwitch (map (fun e => (fst e, k_instr (fst e) (snd e) false false)) (enum 0 instrs))))).
  { intros N. unfold make_n_way_switch, switch_template. cbn [stmt_tokens]. unfold nl at 1 2 5 6. cbn [app].
    apply (TR_nl _ _ [TLabel (65 + st)]); [auto|]. apply (TR_nl _ _ [TSwitch]); [reflexivity|].
    apply TR_nl; [apply TR_cases; auto; lia|]. apply (TR_nl _ _ [TClose] []); reflexivity. }
  change (TLabel (65 + st) :: stmt_tokens (k_stmt st instrs)) with ([TLabel (65 + st)] ++ stmt_tokens (k_stmt st instrs)).
  destruct instrs as [|a [|b [|c instrs]]]; try (apply SW; discriminate); [cbn in L; lia|].
  inversion F as [|? ? F1 F2]; subst. inversion F2 as [|? ? F3 F4]; subst. unfold make_switch, make_if_else, k_stmt.
  destruct a as [[pa sa] ta]. destruct b as [[pb sb] tb]. cbn [snd].
  destruct (st =? ta); [exact (TR_while st _ _ false S F1 F3 _ _ P)|].
  destruct (st =? tb); [exact (TR_while st _ _ true S F3 F1 _ _ P)|].
  apply TR_if; auto.
Qed.

(** ** The whole text *)
Definition compiled (g : list (list (option instr))) : cprog :=
  map (fun e => (65 + fst e, k_stmt (fst e) (map or_halt (snd e)))) (enum 0 g).

Lemma TR_labels : forall g k, 0 <= k -> k + Z.of_nat (length g) <= 7 ->
  Forall (fun r => (1 <= length r <= 10)%nat /\ Forall (fun i => instr_ok (or_halt i)) r) g -> g <> [] ->
  TR (join nl (map (fun e => make_label (fst e) ++ make_switch (fst e) (map or_halt (snd e))) (enum k g)))
     (flat_map (fun e => TLabel (fst e) :: stmt_tokens (snd e)) (map (fun e => (65 + fst e, k_stmt (fst e) (map or_halt (snd e)))) (enum k g))).
Proof.
  induction g as [|r g IH]; intros k K L F N; [contradiction|]. inversion F as [|? ? F1 F2]; subst. destruct F1 as [F1 F3].
  assert (A : TR (make_label k ++ make_switch k (map or_halt r)) (TLabel (65 + k) :: stmt_tokens (k_stmt k (map or_halt r)))).
  { apply TR_switch; [cbn [length] in L; lia|rewrite map_length; auto|]. apply Forall_map. exact F3. }
  cbn [length] in L. destruct g as [|r' g].
  - cbn [enum map join flat_map fst snd]. rewrite app_nil_r. exact A.
  - cbn [enum map flat_map fst snd]. change (join nl (?x :: ?y :: ?r)) with (x ++ 10 :: join nl (y :: r)).
    apply TR_nl; [exact A|]. apply (IH (k + 1)); [lia|cbn [length] in *; lia|auto|discriminate].
Qed.

Lemma or_halt_ok g k : c_fits g k -> Forall (fun r => (1 <= length r <= 10)%nat /\ Forall (fun i => instr_ok (or_halt i)) r) g.
Proof.
  intros (L & C & F). rewrite Forall_forall in F |- *. intros r I. destruct (F r I) as (E & R). split; [lia|].
  rewrite Forall_forall in R |- *. intros i J. specialize (R i J). destruct i as [[[pr sh] tr]|]; cbn [or_halt instr_ok]; unfold target_ok; lia.
Qed.

Lemma p_cmds_app ks : forall ts, (match ts with TCmd _ :: _ => False | _ => True end) -> p_cmds (map TCmd ks ++ ts) = (ks, ts).
Proof.
  induction ks as [|k ks IH]; intros ts N; [destruct ts as [|[]]; try reflexivity; contradiction|].
  cbn [map app p_cmds]. rewrite IH; auto.
Qed.

Lemma p_cases_app : forall cs fuel ts, (length cs <= fuel)%nat ->
  p_cases fuel (flat_map (fun c => TCase (fst c) :: map TCmd (snd c)) cs ++ TClose :: ts) = Some (cs, ts).
Proof.
  induction cs as [|[c ks] cs IH]; intros fuel ts L; [destruct fuel; reflexivity|].
  destruct fuel as [|fuel]; [cbn in L; lia|]. cbn [flat_map fst snd app p_cases]. rewrite <- app_assoc, p_cmds_app.
  - rewrite IH; [reflexivity|cbn in L; lia].
  - destruct cs; exact Logic.I.
Qed.

Lemma p_stmt_app s ts : (match ts with TCmd _ :: _ => False | _ => True end) -> p_stmt (stmt_tokens s ++ ts) = Some (s, ts).
Proof.
  intros N. destruct s as [a b|m a b|cs]; cbn [stmt_tokens app p_stmt].
  - rewrite <- !app_assoc. rewrite p_cmds_app by exact Logic.I. cbn [app]. rewrite <- app_assoc. rewrite p_cmds_app by exact Logic.I. reflexivity.
  - rewrite <- !app_assoc. rewrite p_cmds_app by exact Logic.I. cbn [app]. rewrite p_cmds_app; auto.
  - rewrite <- app_assoc. cbn [app]. rewrite p_cases_app; [reflexivity|].
    rewrite app_length. assert (length cs <= length (flat_map (fun c : Z * list ccmd => TCase (fst c) :: map TCmd (snd c)) cs))%nat; [|lia].
    clear. induction cs as [|c cs IH]; [cbn; lia|]. cbn [flat_map app length]. rewrite app_length. lia.
Qed.

Definition ending : list token := [TLabel 72; TCheck; TClose].

Lemma p_labels_app : forall p fuel, (length p < fuel)%nat ->
  p_labels fuel (flat_map (fun e => TLabel (fst e) :: stmt_tokens (snd e)) p ++ ending) = Some p.
Proof.
  induction p as [|[l s] p IH]; intros fuel L; (destruct fuel as [|fuel]; [cbn in L; lia|]); [reflexivity|].
  cbn [flat_map fst snd]. rewrite <- app_assoc. cbn [app].
  assert (X : p_stmt (stmt_tokens s ++ flat_map (fun e : Z * cstmt => TLabel (fst e) :: stmt_tokens (snd e)) p ++ ending)
    = Some (s, flat_map (fun e : Z * cstmt => TLabel (fst e) :: stmt_tokens (snd e)) p ++ ending)).
  { apply p_stmt_app. destruct p; exact Logic.I. }
  assert (NE : match stmt_tokens s ++ flat_map (fun e : Z * cstmt => TLabel (fst e) :: stmt_tokens (snd e)) p ++ ending with
               | TIf :: _ | TWhile _ :: _ | TSwitch :: _ => True | _ => False end) by (destruct s; exact Logic.I).
  revert X NE. generalize (stmt_tokens s ++ flat_map (fun e : Z * cstmt => TLabel (fst e) :: stmt_tokens (snd e)) p ++ ending).
  intros ts X NE. cbn [p_labels]. rewrite X. rewrite IH by (cbn in L; lia).
  destruct ts as [|[] ts]; try contradiction; reflexivity.
Qed.

(** ** The compiler's checks *)
Lemma enum_fst {A} (l : list A) : forall k, map fst (enum k l) = map (fun i => k + Z.of_nat i) (seq 0 (length l)).
Proof.
  induction l as [|x l IH]; intros k; [reflexivity|]. cbn [enum map length seq fst]. f_equal; [lia|].
  rewrite IH, <- seq_shift, map_map. apply map_ext. intros i. lia.
Qed.

Lemma compiled_labels g : map fst (compiled g) = map (fun i => 65 + Z.of_nat i) (seq 0 (length g)).
Proof.
  unfold compiled. rewrite map_map. cbn [fst]. rewrite <- (map_map fst (fun x => 65 + x)), enum_fst, map_map.
  apply map_ext. intros i. lia.
Qed.

Lemma labels_have g l : 65 <= l < 65 + Z.of_nat (length g) -> existsb (Z.eqb l) (H :: map fst (compiled g)) = true.
Proof.
  intros L. apply existsb_exists. exists l. split; [|apply Z.eqb_refl]. right. rewrite compiled_labels.
  apply in_map_iff. exists (Z.to_nat (l - 65)). split; [lia|]. apply in_seq. lia.
Qed.

Lemma k_instr_targets co i binary skip l : In l (targets (k_instr co i binary skip)) -> l = lab (snd i).
Proof.
  destruct i as [[pr sh] tr]. unfold k_instr, targets. intros H. cbn [snd].
  destruct (co =? pr); destruct skip; cbn in H; tauto || (destruct H as [H|H]; [auto|contradiction]).
Qed.

Lemma targets_app a b : targets (a ++ b) = targets a ++ targets b.
Proof. apply flat_map_app. Qed.

Lemma k_stmt_targets st instrs l : In l (stmt_targets (k_stmt st instrs)) -> exists i, In i instrs /\ l = lab (snd i).
Proof.
  assert (SW : forall k, In l (stmt_targets (KSwitch (map (fun e => (fst e, k_instr (fst e) (snd e) false false)) (enum k instrs)))) ->
    exists i, In i instrs /\ l = lab (snd i)).
  { cbn [stmt_targets]. clear st. induction instrs as [|i instrs IH]; intros k H; [contradiction|].
    cbn [enum map flat_map fst snd] in H. apply in_app_iff in H. destruct H as [H|H].
    - apply k_instr_targets in H. exists i. split; [left; auto|auto].
    - destruct (IH _ H) as (j & J & E). exists j. split; [right; auto|auto]. }
  intros H. unfold k_stmt in H. destruct instrs as [|a [|b [|c instrs]]]; try (exact (SW 0 H)).
  assert (X : exists x, In x [a; b] /\ exists co bi sk, In l (targets (k_instr co x bi sk))).
  { destruct (st =? snd a); [|destruct (st =? snd b)]; cbn [stmt_targets] in H; rewrite targets_app in H;
      apply in_app_iff in H; destruct H as [H|H];
      (exists a; split; [left; reflexivity|]; eauto; fail) || (exists b; split; [right; left; reflexivity|]; eauto; fail) || idtac. 
    all: try (exists a; split; [left; reflexivity|]; do 3 eexists; exact H).
    all: try (exists b; split; [right; left; reflexivity|]; do 3 eexists; exact H). }
  destruct X as (x & I & co & bi & sk & T). exists x. split; auto. eapply k_instr_targets; eauto.
Qed.

Lemma k_stmt_cases st instrs : (length instrs <= 10)%nat ->
  match k_stmt st instrs with KSwitch cs => distinct (map fst cs) | _ => true end = true.
Proof.
  intros L.
  assert (SW : distinct (map fst (map (fun e => (fst e, k_instr (fst e) (snd e) false false)) (enum 0 instrs))) = true).
  { rewrite map_map. cbn [fst]. change (fun x : Z * instr => fst x) with (@fst Z instr). rewrite enum_fst.
    revert L. generalize (length instrs). intros n L.
    do 11 (destruct n as [|n]; [reflexivity|]). lia. }
  unfold k_stmt. destruct instrs as [|a [|b [|c instrs]]]; auto.
  destruct (st =? snd a); [auto|]. destruct (st =? snd b); auto.
Qed.

Lemma compiled_compiles g k : c_fits g k -> compiles (compiled g) = true.
Proof.
  intros (L & C & F). unfold compiles. cbn zeta. rewrite !andb_true_iff. split; [split|].
  - rewrite compiled_labels. destruct L as [_ L]. revert L. generalize (length g). intros n L.
    do 8 (destruct n as [|n]; [reflexivity|]). lia.
  - apply forallb_forall. intros e E. apply forallb_forall. intros l T. unfold compiled in E.
    apply in_map_iff in E. destruct E as ([st row] & <- & E). cbn [snd fst] in T.
    destruct (k_stmt_targets _ _ _ T) as (i & I & ->). apply in_map_iff in I. destruct I as (oi & <- & I).
    assert (R : In row g).
    { clear - E. revert E. generalize 0. induction g as [|r g IH]; intros z E; [contradiction|]. destruct E as [E|E]; [injection E as _ <-; left; auto|right; eauto]. }
    rewrite Forall_forall in F. destruct (F row R) as (_ & F'). rewrite Forall_forall in F'. specialize (F' oi I).
    destruct oi as [[[pr sh] tr]|]; cbn [or_halt snd]; [|reflexivity].
    destruct F' as (_ & [T1|[-> | ->]]); [|reflexivity|reflexivity].
    apply labels_have. unfold lab. bdestr; lia.
  - apply forallb_forall. intros e E. unfold compiled in E. apply in_map_iff in E. destruct E as ([st row] & <- & E). cbn [snd fst].
    assert (R : In row g).
    { clear - E. revert E. generalize 0. induction g as [|r g IH]; intros z E; [contradiction|]. destruct E as [E|E]; [injection E as _ <-; left; auto|right; eauto]. }
    rewrite Forall_forall in F. destruct (F row R) as (E' & _). apply k_stmt_cases. rewrite map_length. lia.
Qed.

Lemma TR_define prog : Forall (fun c => c <> 10) prog -> TR (lit "#define PROGRAM """ ++ prog ++ lit """") [].
Proof.
  intros F. unfold TR.
  assert (L : forall t, Forall (fun c => c <> 10) t -> lines t = [t]).
  { induction 1 as [|c t N _ IH]; [reflexivity|]. cbn [lines]. rewrite IH. destruct (Z.eqb_spec c 10); [contradiction|reflexivity]. }
  rewrite L.
  - change (lit "#define PROGRAM """ ++ prog ++ lit """") with (35 :: 100 :: (lit "efine PROGRAM """ ++ prog ++ lit """")).
    cbn [map]. rewrite replace_cons. change ((35 =? 32) && (100 =? 95)) with false. cbn [tokens strip].
    change (35 =? 32) with false. reflexivity.
  - apply Forall_app. split; [repeat constructor; discriminate|]. apply Forall_app. split; [auto|repeat constructor; discriminate].
Qed.

Lemma c_read_make_c prog g k : parse prog = Some g -> c_fits g k -> quotable prog ->
  exists t, make_c prog = Some t /\ c_read t = Some (compiled g).
Proof.
  intros P F Q. unfold make_c. rewrite P. eexists. split; [reflexivity|].
  pose proof F as (L & C & _).
  assert (X : TR (prog_template prog (make_labels g)) (TMain :: TOpen :: flat_map (fun e => TLabel (fst e) :: stmt_tokens (snd e)) (compiled g) ++ ending)).
  { unfold prog_template. rewrite (app_assoc prog), (app_assoc (lit "#define PROGRAM """)). unfold nl at 1 2 3 4 5 6 7 8 9 10 11. cbn [app].
    apply (TR_nl _ _ []); [apply TR_define; eapply Forall_impl; [|exact Q]; cbn; tauto|].
    apply (TR_nl [] _ []); [reflexivity|]. apply (TR_nl (lit "#define TAPELEN 100") _ []); [reflexivity|].
    apply (TR_nl [] _ []); [reflexivity|]. apply (TR_nl (lit "#include ""machine.h""") _ []); [reflexivity|].
    apply (TR_nl [] _ []); [reflexivity|]. apply (TR_nl (lit "int main(void)") _ [TMain]); [reflexivity|].
    apply (TR_nl (lit "{") _ [TOpen]); [reflexivity|]. apply TR_nl; [|reflexivity].
    apply TR_labels; [lia|lia|eapply or_halt_ok; eauto|]. intros ->. cbn in L. lia. }
  unfold c_read. rewrite (lines_replace _ _ (le_n _)). unfold TR in X. rewrite X.
  rewrite p_labels_app; [rewrite (compiled_compiles g k F); reflexivity|].
  rewrite app_length. cbn [ending length]. assert (length (compiled g) <= length (flat_map (fun e : Z * cstmt => TLabel (fst e) :: stmt_tokens (snd e)) (compiled g)))%nat; [|lia].
  generalize (compiled g). clear. induction c as [|c cs IH]; [cbn; lia|]. cbn [flat_map app length]. rewrite app_length. lia.
Qed.

(** ** Running *)
Lemma c_at_compiled g : forall st row, 0 <= st -> nth_error g (Z.to_nat st) = Some row ->
  exists fall, c_at (compiled g) (65 + st) = Some (k_stmt st (map or_halt row), fall).
Proof.
  intros st row S E. unfold compiled.
  assert (X : forall g k i, nth_error g i = Some row -> exists fall,
    c_at (map (fun e => (65 + fst e, k_stmt (fst e) (map or_halt (snd e)))) (enum k g)) (65 + (k + Z.of_nat i))
    = Some (k_stmt (k + Z.of_nat i) (map or_halt row), fall)).
  { clear. induction g as [|r g IH]; intros k i E; [destruct i; discriminate|].
    cbn [enum map c_at fst snd]. destruct i as [|i].
    - injection E as ->. replace (k + Z.of_nat 0) with k by lia. rewrite Z.eqb_refl. eauto.
    - destruct (Z.eqb_spec (65 + k) (65 + (k + Z.of_nat (S i)))); [lia|].
      replace (k + Z.of_nat (S i)) with (k + 1 + Z.of_nat i) by lia. apply IH. exact E. }
  destruct (X g 0 (Z.to_nat st) E) as (fall & Y). replace (0 + Z.of_nat (Z.to_nat st)) with st in Y by lia. eauto.
Qed.

Lemma marks_write t m p v : marks_are t m ->
  marks_are (write t p v)
    (let m := if negb (v =? 0) && (t p =? 0) then m + 1 else m in if (v =? 0) && negb (t p =? 0) then m - 1 else m).
Proof.
  intros (ps & N & I & L). cbn zeta.
  destruct (Z.eqb_spec v 0) as [V|V]; destruct (Z.eqb_spec (t p) 0) as [T|T]; cbn [negb andb].
  - exists ps. split; [auto|]. split; [|auto]. intros q. rewrite I. unfold write. destruct (Z.eqb_spec q p); [subst; lia|tauto].
  - exists (remove Z.eq_dec p ps).
    assert (IP : In p ps) by (apply I; auto).
    split; [|split].
    + clear - N. induction N as [|x l X N IH]; [constructor|]. cbn. destruct (Z.eq_dec p x); auto. constructor; auto.
      intros Y. apply in_remove in Y. tauto.
    + intros q. unfold write. destruct (Z.eqb_spec q p) as [->|Q].
      * split; [intros Y; exfalso; exact (remove_In Z.eq_dec ps p Y)|lia].
      * rewrite <- I. split; [intros Y; apply in_remove in Y; tauto|intros Y; apply in_in_remove; auto].
    + assert (LR : (length (remove Z.eq_dec p ps) + 1 = length ps)%nat); [|lia].
      clear - N IP. induction N as [|x l X N IH]; [contradiction|]. cbn. destruct (Z.eq_dec p x) as [->|E].
      * rewrite notin_remove by auto. lia.
      * cbn [length]. destruct IP as [IP|IP]; [congruence|]. specialize (IH IP). lia.
  - exists (p :: ps). split; [constructor; [rewrite I; lia|auto]|]. split; [|cbn [length]; lia].
    intros q. unfold write. cbn [In]. destruct (Z.eqb_spec q p) as [->|Q]; [tauto|]. rewrite I. split; [intros [X|X]; [congruence|auto]|auto].
  - exists ps. split; [auto|]. split; [|auto]. intros q. rewrite I. unfold write. destruct (Z.eqb_spec q p); [subst; lia|tauto].
Qed.

Lemma marks_ext t t' m : (forall p, t' p = t p) -> marks_are t m -> marks_are t' m.
Proof. intros E (ps & N & I & L). exists ps. split; [auto|]. split; [|auto]. intros p. rewrite E. apply I. Qed.

Lemma marks_zero t m : marks_are t m -> (m = 0 <-> forall p, t p = 0).
Proof.
  intros (ps & N & I & L). split.
  - intros -> p. destruct (Z.eq_dec (t p) 0) as [E|E]; auto. apply I in E. destruct ps; [contradiction|cbn in L; lia].
  - intros A. destruct ps as [|p ps]; [cbn in L; lia|]. assert (t p <> 0) by (apply I; left; auto). elim H. apply A.
Qed.

Definition moved (s : cstate) (pr : Z) (sh : bool) (s' : cstate) : Prop :=
  (forall p, cs_tape s' p = write (cs_tape s) (cs_pos s) pr p)
  /\ cs_pos s' = move sh (cs_pos s) /\ cs_steps s' = cs_steps s + 1 /\ marks_are (cs_tape s') (cs_marks s').

Lemma cmds_ok s pr sh tr binary skip : marks_are (cs_tape s) (cs_marks s) -> 0 <= cs_steps s ->
  (binary = true -> 0 <= pr < 2) ->
  exists s', moved s pr sh s' /\
    c_cmds (k_instr (scan s) (pr, sh, tr) binary skip) s
    = (s', if cs_marks s' =? 0 then Some H else if skip then None else Some (lab tr)).
Proof.
  intros MA ST BI. unfold k_instr.
  assert (W : (if binary then (if pr =? 1 then 1 else 0) else pr) = pr).
  { destruct binary; auto. specialize (BI eq_refl). destruct (Z.eqb_spec pr 1); lia. }
  rewrite W.
  assert (TAIL : forall s0, cs_steps s0 = cs_steps s ->
    c_cmds ([KShift sh] ++ (if skip then [] else [KGoto (lab tr)])) s0
    = (CS (cs_tape s0) (move sh (cs_pos s0)) (cs_steps s0 + 1) (cs_marks s0),
       if cs_marks s0 =? 0 then Some H else if skip then None else Some (lab tr))).
  { intros s0 E. cbn [app c_cmds c_cmd cs_marks cs_steps]. unfold move.
    destruct (Z.ltb_spec 0 (cs_steps s0 + 1)); [|lia]. rewrite andb_true_r.
    destruct (cs_marks s0 =? 0); [destruct sh; reflexivity|]. destruct skip; destruct sh; reflexivity. }
  destruct (Z.eqb_spec (scan s) pr) as [E|E].
  - exists (CS (cs_tape s) (move sh (cs_pos s)) (cs_steps s + 1) (cs_marks s)). split.
    + split; [|split; [reflexivity|split; [reflexivity|exact MA]]]. intros p. cbn. unfold write. unfold scan in E.
      destruct (Z.eqb_spec p (cs_pos s)); congruence.
    + exact (TAIL s eq_refl).
  - pose (m := let m := if negb (pr =? 0) && (cs_tape s (cs_pos s) =? 0) then cs_marks s + 1 else cs_marks s in
               if (pr =? 0) && negb (cs_tape s (cs_pos s) =? 0) then m - 1 else m).
    exists (CS (write (cs_tape s) (cs_pos s) pr) (move sh (cs_pos s)) (cs_steps s + 1) m). split.
    + split; [reflexivity|]. split; [reflexivity|]. split; [reflexivity|]. cbn [cs_tape cs_marks]. apply marks_write. exact MA.
    + exact (TAIL (CS (write (cs_tape s) (cs_pos s) pr) (cs_pos s) (cs_steps s) m) eq_refl).
Qed.

Lemma find_case : forall (instrs : list instr) k co (i : instr), nth_error instrs (Z.to_nat (co - k)) = Some i -> k <= co ->
  find (fun e : Z * list ccmd => fst e =? co) (map (fun e => (fst e, k_instr (fst e) (snd e) false false)) (enum k instrs))
  = Some (co, k_instr co i false false).
Proof.
  induction instrs as [|j instrs IH]; intros k co i E L; [destruct (Z.to_nat (co - k)); discriminate|].
  cbn [enum map find fst snd]. destruct (Z.eqb_spec k co) as [->|N].
  - rewrite Z.sub_diag in E. injection E as ->. reflexivity.
  - apply IH; [|lia]. replace (Z.to_nat (co - k)) with (S (Z.to_nat (co - (k + 1)))) in E by lia. exact E.
Qed.

Lemma round_ok s st (instrs : list instr) fall pr sh tr : marks_are (cs_tape s) (cs_marks s) -> 0 <= cs_steps s -> 0 <= st < 7 ->
  0 <= scan s -> nth_error instrs (Z.to_nat (scan s)) = Some (pr, sh, tr) ->
  (length instrs = 2%nat -> 0 <= pr < 2) ->
  exists s', moved s pr sh s' /\
    c_round (k_stmt st instrs) (65 + st) fall s = (s', if cs_marks s' =? 0 then H else lab tr).
Proof.
  intros MA ST S SC E BI.
  assert (CM : forall co binary skip, scan s = co -> (binary = true -> 0 <= pr < 2) -> (skip = true -> lab tr = 65 + st) -> forall f, f = (if skip : bool then 65 + st else fall) -> exists s', moved s pr sh s' /\
    jump (c_cmds (k_instr co (pr, sh, tr) binary skip) s) f
    = (s', if cs_marks s' =? 0 then H else lab tr)).
  { intros co binary skip <- B K f F. destruct (cmds_ok s pr sh tr binary skip MA ST B) as (s' & M & X). exists s'. split; auto.
    rewrite X. unfold jump. cbn [fst snd]. destruct (cs_marks s' =? 0); [reflexivity|]. destruct skip; [|reflexivity].
    subst f. rewrite (K eq_refl). reflexivity. }
  assert (LAB : lab st = 65 + st) by (unfold lab; bdestr; lia).
  assert (SW : exists s', moved s pr sh s' /\
    c_round (KSwitch (map (fun e => (fst e, k_instr (fst e) (snd e) false false)) (enum 0 instrs))) (65 + st) fall s
    = (s', if cs_marks s' =? 0 then H else lab tr)).
  { cbn [c_round]. rewrite (find_case instrs 0 (scan s) (pr, sh, tr)); [|rewrite Z.sub_0_r; auto|auto].
    apply (CM (scan s) false false); auto; discriminate. }
  unfold k_stmt. destruct instrs as [|a [|b [|c instrs]]]; try exact SW.
  specialize (BI eq_refl).
  assert (SB : scan s = 0 /\ a = (pr, sh, tr) \/ scan s = 1 /\ b = (pr, sh, tr)).
  { destruct (Z.to_nat (scan s)) as [|[|n]] eqn:Z; cbn in E.
    - left. split; [lia|congruence].
    - right. split; [lia|congruence].
    - destruct n; discriminate. }
  destruct (Z.eqb_spec st (snd a)) as [EA|EA]; [|destruct (Z.eqb_spec st (snd b)) as [EB|EB]]; cbn [c_round].
  - destruct SB as [[Z0 ->]|[Z1 ->]].
    + rewrite Z0. change (0 =? 0) with true. apply (CM 0 true true); auto.
      intros _. cbn [snd] in EA. rewrite <- EA. exact LAB.
    + rewrite Z1. change (1 =? 0) with false. apply (CM 1 true false); auto; discriminate.
  - destruct SB as [[Z0 ->]|[Z1 ->]].
    + rewrite Z0. change (negb (0 =? 0)) with false. apply (CM 0 true false); auto; discriminate.
    + rewrite Z1. change (negb (1 =? 0)) with true. apply (CM 1 true true); auto.
      intros _. cbn [snd] in EB. rewrite <- EB. exact LAB.
  - destruct SB as [[Z0 ->]|[Z1 ->]].
    + rewrite Z0. change (0 =? 0) with true. apply (CM 0 true false); auto; discriminate.
    + rewrite Z1. change (1 =? 0) with false. apply (CM 1 true false); auto; discriminate.
Qed.

Section sim.
Variable g : list (list (option instr)).
Variable k : nat.
Hypothesis fit : c_fits g k.
Let M := table_machine g.
Let states := Z.of_nat (length g).

Record cinv (n : nat) (c : config) (l : Z) (s : cstate) : Prop := {
  ci_run : steps M n init = Some c;
  ci_nb : forall j d, (0 < j <= n)%nat -> steps M j init = Some d -> ~ is_blank d;
  ci_state : 0 <= c_state c < states;
  ci_label : l = 65 + c_state c;
  ci_tape : forall p, cs_tape s p = c_tape c p;
  ci_pos : cs_pos s = c_pos c;
  ci_steps : cs_steps s = Z.of_nat n;
  ci_marks : marks_are (cs_tape s) (cs_marks s);
  ci_colors : forall p, 0 <= c_tape c p < Z.of_nat k
}.

Lemma row_of st : 0 <= st < states -> exists row, nth_error g (Z.to_nat st) = Some row /\ length row = k
  /\ (forall co, 0 <= co -> M st co = nth (Z.to_nat co) row None)
  /\ forall i, In i row -> match i with
                           | None => True
                           | Some (pr, _, tr) => 0 <= pr < Z.of_nat k /\ (0 <= tr < states \/ tr = 7 \/ tr = 30)
                           end.
Proof.
  intros S. unfold states in S. destruct fit as (L & C & F).
  destruct (nth_error g (Z.to_nat st)) as [row|] eqn:E.
  2:{ apply nth_error_None in E. lia. }
  exists row. split; auto. rewrite Forall_forall in F. destruct (F row (nth_error_In _ _ E)) as (LR & FR). split; auto.
  split.
  - intros co P. unfold M, table_machine, table_get. cbn [fst snd].
    destruct (Z.leb_spec 0 st); [|lia]. destruct (Z.leb_spec 0 co); [|lia]. cbn [andb].
    rewrite (nth_error_nth _ _ _ E). reflexivity.
  - intros i I. rewrite Forall_forall in FR. exact (FR i I).
Qed.

Lemma out_of_table st co : states <= st -> M st co = None.
Proof.
  intros S. unfold M, table_machine, table_get. cbn [fst snd]. destruct ((0 <=? st) && (0 <=? co)); auto.
  rewrite (nth_overflow g) by (unfold states in S; lia). destruct (Z.to_nat co); reflexivity.
Qed.

Lemma sim_round n c l s : cinv n c l s -> exists st fall s' l',
  c_at (compiled g) l = Some (st, fall) /\ c_round st l fall s = (s', l') /\ l <> H /\
  ((l' = H /\ c_stops M states s') \/ exists c', cinv (S n) c' l' s').
Proof.
  intros [R NB SR LB T P ST MA CO].
  destruct (row_of _ SR) as (row & E & LR & MR & FR).
  destruct (c_at_compiled g (c_state c) row ltac:(lia) E) as (fall & AT). rewrite <- LB in AT.
  pose proof fit as (LG & CK & _). unfold states in SR.
  set (co := c_tape c (c_pos c)). assert (SC : scan s = co) by (unfold scan; rewrite T, P; reflexivity).
  pose proof (CO (c_pos c)) as COP. fold co in COP.
  destruct (nth_error row (Z.to_nat co)) as [oi|] eqn:EN.
  2:{ apply nth_error_None in EN. lia. }
  assert (ME : M (c_state c) co = oi) by (rewrite MR by lia; apply (nth_error_nth _ _ _ EN)).
  destruct (or_halt oi) as [[pr sh] tr] eqn:OH.
  assert (PR : length (map or_halt row) = 2%nat -> 0 <= pr < 2).
  { rewrite map_length. intros L2. specialize (FR oi (nth_error_In _ _ EN)). destruct oi as [[[pr' sh'] tr']|]; injection OH as <- <- <-; lia. }
  destruct (round_ok s (c_state c) (map or_halt row) fall pr sh tr MA ltac:(lia) ltac:(lia) ltac:(lia)) as (s' & MV & RD).
  { rewrite SC. rewrite (map_nth_error or_halt _ _ EN), OH. reflexivity. }
  { exact PR. }
  rewrite <- LB in RD.
  exists (k_stmt (c_state c) (map or_halt row)), fall, s'. eexists. split; [exact AT|]. split; [exact RD|].
  split; [unfold H; lia|].
  destruct MV as (V1 & V2 & V3 & V4).
  destruct oi as [[[pr' sh'] tr']|]; [injection OH as -> -> ->|injection OH as <- <- <-].
  - (* an instruction *)
    destruct (FR _ (nth_error_In _ _ EN)) as (F1 & F2).
    pose (c' := Cfg tr (move sh (c_pos c)) (write (c_tape c) (c_pos c) pr)).
    assert (SS : step M c = Some c').
    { unfold step. fold co. rewrite ME. reflexivity. }
    assert (R' : steps M (S n) init = Some c') by (rewrite steps_S_r, R; exact SS).
    assert (T' : forall p, cs_tape s' p = c_tape c' p).
    { intros p. rewrite V1. unfold c', write. cbn [c_tape]. rewrite P. destruct (p =? c_pos c); auto. }
    assert (BL : cs_marks s' = 0 <-> is_blank c').
    { rewrite (marks_zero _ _ V4). unfold is_blank. split; intros A p; specialize (A p); specialize (T' p); congruence. }
    assert (NBS : forall j d, (0 < j < S n)%nat -> steps M j init = Some d -> ~ is_blank d) by (intros j d J; apply NB; lia).
    destruct (Z.eqb_spec (cs_marks s') 0) as [B|B].
    + left. split; [reflexivity|]. exists (S n), c'. split; [exact R'|]. split; [exact NBS|]. split; [exact V4|].
      left. split; [lia|]. split; [tauto|]. split; [exact T'|]. split; [rewrite V2, P; reflexivity|lia].
    + destruct F2 as [F2|F2].
      * right. exists c'. constructor; auto.
        -- intros j d J Ed. destruct (Nat.eq_dec j (S n)) as [->|NE]; [|apply (NB j); [lia|auto]].
           rewrite R' in Ed. injection Ed as <-. tauto.
        -- cbn [c' c_state]. unfold states in F2. unfold lab. bdestr; lia.
        -- rewrite V2, P. reflexivity.
        -- rewrite V3. lia.
        -- intros p. cbn [c' c_tape]. unfold write. destruct (p =? c_pos c); [lia|apply CO].
      * left. assert (LH : lab tr = H) by (destruct F2 as [-> | ->]; reflexivity). split; [exact LH|].
        exists (S n), c'. split; [exact R'|]. split; [exact NBS|]. split; [exact V4|].
        right. left. split; [lia|]. split; [tauto|]. split; [cbn [c' c_state]; unfold states; lia|].
        split; [exact T'|]. split; [rewrite V2, P; reflexivity|lia].
  - (* none *)
    assert (T' : forall p, cs_tape s' p = write (c_tape c) (c_pos c) 1 p).
    { intros p. rewrite V1. unfold write. rewrite P. destruct (p =? c_pos c); auto. }
    assert (B : cs_marks s' <> 0).
    { rewrite (marks_zero _ _ V4). intros A. specialize (A (c_pos c)). rewrite T' in A. unfold write in A. rewrite Z.eqb_refl in A. lia. }
    destruct (Z.eqb_spec (cs_marks s') 0) as [B'|_]; [contradiction|]. left. split; [reflexivity|].
    exists n, c. split; [exact R|]. split; [intros j d J; apply NB; lia|]. split; [exact V4|].
    right. right. split; [intros N; apply (NB n); [lia|auto]|]. split; [unfold states; lia|]. split; [exact ME|].
    split; [exact T'|]. split; [rewrite V2, P; reflexivity|lia].
Qed.

Lemma sim_sound : forall fuel n c l s f, cinv n c l s -> c_run (compiled g) fuel l s = Some f -> c_stops M states f.
Proof.
  induction fuel as [|fuel IH]; intros n c l s f I E; destruct (sim_round n c l s I) as (st & fall & s' & l' & AT & RD & NH & X);
    cbn [c_run] in E; destruct (Z.eqb_spec l H) as [|_]; try contradiction; [discriminate|].
  rewrite AT, RD in E. destruct X as [[-> X]|(c' & I')].
  - destruct fuel; cbn in E; injection E as <-; auto.
  - eapply IH; eauto.
Qed.

Lemma sim_progress : forall m n c l s, cinv n c l s ->
  (exists fuel f, c_run (compiled g) fuel l s = Some f) \/ exists c' l' s', cinv (n + m) c' l' s'.
Proof.
  induction m as [|m IH]; intros n c l s I; [right; exists c, l, s; rewrite Nat.add_0_r; auto|].
  destruct (sim_round n c l s I) as (st & fall & s' & l' & AT & RD & NH & X).
  destruct X as [[-> X]|(c' & I')].
  - left. exists 1%nat, s'. cbn [c_run]. destruct (Z.eqb_spec l H); [contradiction|]. rewrite AT, RD. reflexivity.
  - destruct (IH (S n) c' l' s' I') as [(fuel & f & E)|(c2 & l2 & s2 & I2)].
    + left. exists (S fuel), f. cbn [c_run]. destruct (Z.eqb_spec l H); [contradiction|]. rewrite AT, RD. exact E.
    + right. exists c2, l2, s2. replace (n + S m)%nat with (S n + m)%nat by lia. auto.
Qed.

Lemma sim_init : cinv 0 init 65 c_init.
Proof.
  pose proof fit as (LG & CK & _).
  constructor; try reflexivity.
  - intros j d J. lia.
  - cbn. unfold states. lia.
  - exists []. split; [constructor|]. split; [|reflexivity]. intros p. cbn. unfold blank_tape. tauto.
  - intros p. cbn. unfold blank_tape. lia.
Qed.

Lemma c_main_run fuel : c_main (compiled g) fuel = c_run (compiled g) fuel 65 c_init.
Proof. pose proof fit as (LG & _). destruct g as [|r g']; [cbn in LG; lia|]. reflexivity. Qed.

(** The end is determined. *)
Lemma c_stops_end n c : steps M n init = Some c -> states <= c_state c \/ M (c_state c) (c_tape c (c_pos c)) = None ->
  forall n', (n < n')%nat -> steps M n' init = None.
Proof.
  intros E X n' L. destruct (steps M n' init) eqn:F; auto. exfalso.
  destruct (steps_le M n' (S n) init _ ltac:(lia) F) as (d & D). rewrite steps_S_r, E in D. unfold step in D.
  destruct X as [X|X]; [rewrite out_of_table in D by auto|rewrite X in D]; discriminate.
Qed.

Lemma c_stops_reached f : c_stops M states f -> exists fuel f', c_main (compiled g) fuel = Some f'.
Proof.
  intros (n & c & E & NB & MA & X).
  destruct (sim_progress (S n) 0 init 65 c_init sim_init) as [(fuel & f' & R)|(c' & l' & s' & I)].
  - exists fuel, f'. rewrite c_main_run. exact R.
  - exfalso. destruct I as [R' NB' S' _ _ _ _ _ _]. cbn [Nat.add] in *.
    destruct X as [(P & B & _)|[(P & _ & O & _)|(_ & _ & O & _)]].
    + exact (NB' n c ltac:(lia) E B).
    + rewrite (c_stops_end n c E (or_introl O) (S n)) in R' by lia. discriminate.
    + rewrite (c_stops_end n c E (or_intror O) (S n)) in R' by lia. discriminate.
Qed.

Lemma c_stops_same f f' : c_stops M states f -> c_stops M states f' ->
  (forall p, cs_tape f p = cs_tape f' p) /\ cs_pos f = cs_pos f' /\ cs_steps f = cs_steps f' /\ cs_marks f = cs_marks f'.
Proof.
  intros (n & c & E & NB & MA & X) (n' & c' & E' & NB' & MA' & X').
  assert (n = n').
  { assert (A : forall n c n' c', steps M n init = Some c -> steps M n' init = Some c' ->
      (forall j d, (0 < j < n')%nat -> steps M j init = Some d -> ~ is_blank d) ->
      (((0 < n)%nat /\ is_blank c) \/ states <= c_state c \/ M (c_state c) (c_tape c (c_pos c)) = None) -> ~ (n < n')%nat).
    { clear. intros n c n' c' E E' NB' X L. destruct X as [(P & B)|X]; [exact (NB' n c ltac:(lia) E B)|].
      rewrite (c_stops_end n c E X n' L) in E'. discriminate. }
    pose proof (A n c n' c' E E' NB' ltac:(tauto)). pose proof (A n' c' n c E' E NB ltac:(tauto)). lia. }
  subst n'. rewrite E in E'. injection E' as <-.
  assert (Y : (forall p, cs_tape f p = cs_tape f' p) /\ cs_pos f = cs_pos f' /\ cs_steps f = cs_steps f').
  { destruct X as [(P & B & X1 & X2 & X3)|[(P & B & O & X1 & X2 & X3)|(B & O & N & X1 & X2 & X3)]];
      destruct X' as [(P' & B' & X1' & X2' & X3')|[(P' & B' & O' & X1' & X2' & X3')|(B' & O' & N' & X1' & X2' & X3')]];
      try tauto; try lia; (split; [intros p; rewrite X1, X1'; reflexivity|split; congruence]). }
  destruct Y as (Y1 & Y2 & Y3). repeat (split; [assumption|]).
  destruct MA as (ps & N1 & I1 & <-). destruct MA' as (ps' & N2 & I2 & <-). f_equal.
  apply Nat.le_antisymm; apply NoDup_incl_length; auto; intros p Q; [apply I2; rewrite <- Y1; apply I1; auto|apply I1; rewrite Y1; apply I2; auto].
Qed.
End sim.

(** ** Together *)
Lemma make_c_runs prog g k : parse prog = Some g -> c_fits g k -> quotable prog ->
  exists t p, make_c prog = Some t /\ c_read t = Some p
    /\ (forall fuel f, c_main p fuel = Some f -> c_stops (table_machine g) (Z.of_nat (length g)) f)
    /\ (forall f, c_stops (table_machine g) (Z.of_nat (length g)) f -> exists fuel f',
          c_main p fuel = Some f' /\ (forall q, cs_tape f' q = cs_tape f q) /\ cs_pos f' = cs_pos f
          /\ cs_steps f' = cs_steps f /\ cs_marks f' = cs_marks f).
Proof.
  intros P F Q. destruct (c_read_make_c prog g k P F Q) as (t & T & R). exists t, (compiled g). split; [auto|]. split; [auto|].
  split.
  - intros fuel f E. rewrite (c_main_run g k F) in E. eapply sim_sound; eauto. apply (sim_init g k F).
  - intros f S. destruct (c_stops_reached g k F f S) as (fuel & f' & E). exists fuel, f'. split; auto.
    apply (c_stops_same g); auto. rewrite (c_main_run g k F) in E. eapply sim_sound; eauto. apply (sim_init g k F).
Qed.
