(** * Proofs about the line that a Machine prints (C88) *)
From Verif Require Import Base TM ProgModel NumModel SymModel SymMachModel ParseModel ParseSpec ParseProofs NumShowModel MachObjModel MachObjSpec.
Local Open Scope string_scope.
Local Open Scope list_scope.
Local Open Scope Z_scope.

(** ** Texts of integers *)
Definition fr (k : Z) (s : text) : Prop := ~ In k s.
Definition digits (s : text) : Prop := Forall (fun c => 48 <= c <= 57) s.
Lemma decimal_digits : forall f n acc, 0 <= n -> digits acc -> digits (decimal f n acc).
Proof.
  induction f as [|f IH]; intros n acc N A; cbn; [exact A|].
  assert (digits (48 + n mod 10 :: acc)) by (constructor; [pose proof (Z.mod_pos_bound n 10); lia|exact A]).
  destruct (n <? 10); [assumption|]. apply IH; [apply Z.div_pos; lia|assumption].
Qed.
Lemma decimal_val : forall f n acc, 0 <= n < 2 ^ Z.of_nat f -> (1 <= f)%nat ->
  fold_left (fun v d => 10 * v + (d - 48)) (decimal f n acc) 0 = fold_left (fun v d => 10 * v + (d - 48)) acc n.
Proof.
  induction f as [|f IH]; intros n acc N F; [lia|]. cbn [decimal].
  destruct (Z.ltb_spec n 10) as [L|L].
  - cbn [fold_left]. rewrite Z.mod_small by lia. f_equal. lia.
  - assert (P : 2 ^ Z.of_nat (S f) = 2 * 2 ^ Z.of_nat f) by (rewrite Nat2Z.inj_succ, Z.pow_succ_r; lia).
    assert (D : n / 10 < 2 ^ Z.of_nat f) by (apply Z.div_lt_upper_bound; lia).
    rewrite IH.
    + cbn [fold_left]. f_equal. pose proof (Z.div_mod n 10). lia.
    + split; [apply Z.div_pos; lia|exact D].
    + destruct f; [|lia]. change (2 ^ Z.of_nat 0) with 1 in P. lia.
Qed.
Lemma decimal_int n : 0 <= n -> digits (decimal (S (Z.to_nat (Z.log2 n))) n [])
  /\ fold_left (fun v d => 10 * v + (d - 48)) (decimal (S (Z.to_nat (Z.log2 n))) n []) 0 = n.
Proof.
  intros N. split; [apply decimal_digits; [exact N|constructor]|]. rewrite decimal_val; [reflexivity| |lia].
  split; [exact N|]. rewrite Nat2Z.inj_succ, Z2Nat.id by apply Z.log2_nonneg.
  destruct (Z.eq_dec n 0) as [->|NZ]; [reflexivity|]. apply Z.log2_spec. lia.
Qed.
Lemma str_int_inj a b : str_int a = str_int b -> a = b.
Proof.
  unfold str_int. destruct (Z.ltb_spec a 0) as [A|A], (Z.ltb_spec b 0) as [B|B]; intros E.
  - destruct (decimal_int (- a) ltac:(lia)) as [_ VA]. destruct (decimal_int (- b) ltac:(lia)) as [_ VB].
    assert (E' : decimal (S (Z.to_nat (Z.log2 (- a)))) (- a) [] = decimal (S (Z.to_nat (Z.log2 (- b)))) (- b) []) by congruence.
    rewrite E' in VA. lia.
  - destruct (decimal_int b B) as [D _]. rewrite <- E in D. inversion D; lia.
  - destruct (decimal_int a A) as [D _]. rewrite E in D. inversion D; lia.
  - destruct (decimal_int a ltac:(lia)) as [_ VA]. destruct (decimal_int b ltac:(lia)) as [_ VB]. rewrite E in VA. lia.
Qed.
Lemma str_int_fr k n : k <> 45 -> ~ 48 <= k <= 57 -> fr k (str_int n).
Proof.
  intros K1 K2 X. assert (D : forall s, digits s -> ~ In k s).
  { intros s H Y. unfold digits in H. rewrite Forall_forall in H. exact (K2 (H _ Y)). }
  unfold str_int in X. destruct (Z.ltb_spec n 0).
  - destruct X as [X|X]; [congruence|]. revert X. apply D. apply decimal_int. lia.
  - revert X. apply D. apply decimal_int. lia.
Qed.

(** ** Cutting at a character *)
Lemma cut k : forall a b (x y : text), fr k a -> fr k b -> a ++ k :: x = b ++ k :: y -> a = b /\ x = y.
Proof.
  unfold fr. induction a as [|c a IH]; intros [|d b] x y A B E; cbn in *.
  - inv E. auto.
  - inv E. destruct B. auto.
  - inv E. destruct A. auto.
  - inv E. destruct (IH b x y) as [-> ->]; auto.
Qed.
Lemma fr_app k a b : fr k a -> fr k b -> fr k (a ++ b).
Proof. unfold fr. rewrite in_app_iff. tauto. Qed.
Lemma fr_app_inv k a b : fr k (a ++ b) -> fr k a /\ fr k b.
Proof. unfold fr. rewrite in_app_iff. tauto. Qed.
Lemma fr_q k s : existsb (Z.eqb k) s = false -> fr k s.
Proof. intros E X. assert (existsb (Z.eqb k) s = true) by (apply existsb_exists; exists k; split; [exact X|apply Z.eqb_refl]). congruence. Qed.

Lemma bars_inj : forall l1 l2, Forall (fr 124) l1 -> Forall (fr 124) l2 -> l1 <> [] -> l2 <> [] ->
  join (quoted " | ") l1 = join (quoted " | ") l2 -> l1 = l2.
Proof.
  assert (J : forall e d l, join (quoted " | ") (e :: d :: l) = (e ++ [32]) ++ 124 :: (32 :: join (quoted " | ") (d :: l))).
  { intros. cbn [join]. rewrite <- app_assoc. reflexivity. }
  assert (NO : forall (x : text) e d l, fr 124 x -> x = join (quoted " | ") (e :: d :: l) -> False).
  { intros x e d l F ->. rewrite J in F. apply F. apply in_app_iff. right. left. reflexivity. }
  induction l1 as [|e1 [|d1 l1] IH]; intros [|e2 [|d2 l2]] F1 F2 N1 N2 E; try congruence.
  - cbn in E. congruence.
  - inv F1. cbn [join] in E. destruct (NO e1 e2 d2 l2); auto.
  - inv F2. symmetry in E. cbn [join] in E. destruct (NO e2 e1 d1 l1); auto.
  - rewrite !J in E. inversion F1 as [|? ? A1 B1]; subst. inversion F2 as [|? ? A2 B2]; subst.
    apply cut in E; [|apply fr_app; [assumption|apply fr_q; reflexivity]..].
    destruct E as [E1 E2]. apply app_inv_tail in E1. subst e2. f_equal. apply IH; auto; try discriminate. congruence.
Qed.

Definition entry_ok (e : text * text) : Prop := fr 58 (fst e) /\ fr 124 (fst e) /\ fr 124 (snd e).
Lemma entries_inj : forall l1 l2, Forall entry_ok l1 -> Forall entry_ok l2 -> map mo_entry l1 = map mo_entry l2 -> l1 = l2.
Proof.
  induction l1 as [|[n1 d1] l1 IH]; intros [|[n2 d2] l2] F1 F2 E; try discriminate; [reflexivity|].
  inversion F1 as [|? ? A1 B1]; subst. inversion F2 as [|? ? A2 B2]; subst.
  change (mo_entry (n1, d1) :: map mo_entry l1 = mo_entry (n2, d2) :: map mo_entry l2) in E.
  assert (E1 : mo_entry (n1, d1) = mo_entry (n2, d2)) by congruence. assert (E2 : map mo_entry l1 = map mo_entry l2) by congruence.
  unfold mo_entry in E1. cbn [fst snd] in E1. apply (cut 58 n1 n2 (32 :: d1) (32 :: d2)) in E1; [|apply A1|apply A2].
  destruct E1 as [-> E1]. inv E1. f_equal. now apply IH.
Qed.

Lemma str_undfnd_fr u : fr 124 (str_undfnd u).
Proof. unfold str_undfnd. repeat apply fr_app; try (apply fr_q; reflexivity); apply str_int_fr; lia. Qed.
Lemma str_undfnd_inj u v : str_undfnd u = str_undfnd v -> u = v.
Proof.
  destruct u as [a [b c]], v as [a' [b' c']]. unfold str_undfnd. cbn [fst snd]. intros E.
  apply (app_inv_head (quoted "(")) in E.
  apply (cut 44 _ _ (32 :: 40 :: (str_int b ++ 44 :: 32 :: str_int c ++ quoted "))")) (32 :: 40 :: (str_int b' ++ 44 :: 32 :: str_int c' ++ quoted "))"))) in E;
    [|apply str_int_fr; lia..].
  destruct E as [E1 E]. apply str_int_inj in E1. subst a'.
  injection E as E. apply (cut 44) in E; [|apply str_int_fr; lia..]. destruct E as [E1 E]. apply str_int_inj in E1. subst b'.
  injection E as E. apply app_inv_tail in E. apply str_int_inj in E. congruence.
Qed.

Section Line.
Variable order : Z -> Z.
Definition small (n : Z) : Prop := Z.abs n < 10 ^ 12.
Lemma number_small n : small n -> mo_number order (I n) = str_int n.
Proof. unfold small, mo_number, show_number, TRUNCATE_COUNT. intros S. destruct (Z.leb_spec (10 ^ 12) (Z.abs n)); [lia|]. reflexivity. Qed.
Lemma number_fr n : fr 124 (mo_number order (I n)).
Proof.
  unfold mo_number, show_number. destruct (_ <=? _); [|apply str_int_fr; lia].
  repeat apply fr_app; try (apply fr_q; reflexivity); [|apply str_int_fr; lia]. destruct (n <? 0); apply fr_q; reflexivity.
Qed.

Definition limrul_ok (ob : mobj) : Prop := forall w, mo_limrul ob = Some w -> fr 124 w.
Lemma info_ok ob cyc n k : limrul_ok ob -> Forall entry_ok (mo_info order ob cyc (I n) k).
Proof.
  intros L. unfold mo_info, mo_cats.
  assert (ok1 : forall name d, existsb (Z.eqb 58) (quoted name) = false -> existsb (Z.eqb 124) (quoted name) = false -> fr 124 d -> entry_ok (quoted name, d)).
  { intros name d A B D. split; [|split]; cbn [fst snd]; [apply fr_q, A|apply fr_q, B|exact D]. }
  assert (C : forall name d, existsb (Z.eqb 58) (quoted name) = false -> existsb (Z.eqb 124) (quoted name) = false ->
     (forall w, d = Some w -> fr 124 w) -> Forall entry_ok (match d with Some d => [(quoted name, d)] | None => [] end)).
  { intros name [d|] A B D; [|constructor]. constructor; [|constructor]. split; [|split]; cbn [fst snd]; [apply fr_q, A|apply fr_q, B|apply D; reflexivity]. }
  assert (SI : forall (x : option Z) w, option_map str_int x = Some w -> fr 124 w).
  { intros [x|] w E; inv E. apply str_int_fr; lia. }
  apply Forall_app; split; [|apply Forall_app; split; [|apply Forall_app; split]].
  - constructor; [apply ok1; try reflexivity; apply str_int_fr; lia|]. constructor; [apply ok1; try reflexivity; apply number_fr|constructor].
  - repeat match goal with |- Forall entry_ok (_ ++ _) => apply Forall_app; split end; apply C; try reflexivity; try apply SI; [exact L|].
    intros w E. destruct (mo_undfnd ob); inv E. apply str_undfnd_fr.
  - constructor; [apply ok1; try reflexivity; apply str_int_fr; lia|constructor].
  - destruct (mo_rulapp ob) as [z| | | |]; try (constructor; [apply ok1; try reflexivity; apply fr_q; reflexivity|constructor]).
    destruct (z =? 0); [constructor|]. constructor; [apply ok1; try reflexivity; apply number_fr|constructor].
Qed.

(** Looking an entry up. *)
Fixpoint look (k : text) (l : list (text * text)) : option text :=
  match l with [] => None | (n, d) :: l => if list_eq_dec Z.eq_dec k n then Some d else look k l end.
Lemma look_app k a b : look k (a ++ b) = match look k a with Some x => Some x | None => look k b end.
Proof. induction a as [|[n d] a IH]; cbn; [reflexivity|]. destruct (list_eq_dec Z.eq_dec k n); auto. Qed.
Lemma look_info ob cyc n m :
  let l := mo_info order ob cyc (I n) m in
  look (quoted "CYCLES") l = Some (str_int cyc) /\ look (quoted "MARKS") l = Some (mo_number order (I n))
  /\ look (quoted "CFGLIM") l = option_map str_int (mo_cfglim ob) /\ look (quoted "INFRUL") l = option_map str_int (mo_infrul ob)
  /\ look (quoted "LIMRUL") l = mo_limrul ob /\ look (quoted "SPNOUT") l = option_map str_int (mo_spnout ob)
  /\ look (quoted "UNDFND") l = option_map str_undfnd (mo_undfnd ob) /\ look (quoted "XLIMIT") l = option_map str_int (mo_xlimit ob)
  /\ look (quoted "TPCFGS") l = Some (str_int (Z.of_nat m))
  /\ look (quoted "RULAPP") l = match mo_rulapp ob with I z => if z =? 0 then None else Some (mo_number order (I z)) | _ => Some (quoted "...") end.
Proof.
  cbv zeta. unfold mo_info, mo_cats. destruct ob as [a b [c|] d e f g h i j k l p]; cbn [mo_spnout mo_xlimit mo_undfnd mo_infrul mo_cfglim mo_limrul mo_rulapp];
  repeat split; destruct a, b, d, e, f; try reflexivity; destruct h as [y| | | |]; try reflexivity; destruct (y =? 0); reflexivity.
Qed.
Lemma opt_int_inj (a b : option Z) : option_map str_int a = option_map str_int b -> a = b.
Proof. destruct a, b; cbn; intros E; inv E; [f_equal; apply str_int_inj; auto|reflexivity]. Qed.
End Line.

(** ** Texts of programs *)
Lemma fr_join k sep : fr k sep -> forall l, Forall (fr k) l -> fr k (join sep l).
Proof.
  intros S. induction l as [|e [|d l] IH]; intros F; [intros []|inv F; assumption|].
  inversion F as [|? ? A B]; subst. change (join sep (e :: d :: l)) with (e ++ sep ++ join sep (d :: l)).
  apply fr_app; [exact A|apply fr_app; [exact S|apply IH, B]].
Qed.
Lemma fr_map {A} k (f : A -> text) l : (forall x, fr k (f x)) -> Forall (fr k) (map f l).
Proof. intros F. apply Forall_forall. intros x X. apply in_map_iff in X. destruct X as (y & <- & _). apply F. Qed.
Lemma show_comp_fr comp : printable comp -> fr 124 (show_comp comp None).
Proof.
  intros P. unfold show_comp. destruct (max_params comp) as [ms mc].
  apply fr_join; [apply fr_q; reflexivity|]. apply fr_map. intros s. apply fr_join; [apply fr_q; reflexivity|]. apply fr_map. intros c.
  destruct (comp_get comp (s, c)) as [[[pr sh] tr]|] eqn:E; [|apply fr_q; reflexivity].
  destruct (P _ _ _ _ _ E) as (_ & _ & A & B). unfold show_instr, show_state. apply fr_app.
  - assert (C : In pr [0;1;2;3;4;5;6;7;8;9]) by (cbn; lia).
    cbn in C. repeat destruct C as [<-|C]; try (apply fr_q; reflexivity). destruct C.
  - intros [X|[X|[]]]; [destruct sh; discriminate X|].
    rewrite (Z.mod_small tr) in X by lia. rewrite Z.mod_small in X by lia. lia.
Qed.

Lemma some_inj {A} (a b : A) : Some a = Some b -> a = b.
Proof. congruence. Qed.

Theorem line_tells o1 o2 order comp1 comp2 ob1 ob2 n1 n2 line :
  printable comp1 -> printable comp2 -> plain_limrul ob1 -> plain_limrul ob2 -> marks_are o1 ob1 n1 -> marks_are o2 ob2 n2 ->
  mo_str o1 comp1 order ob1 = Some line -> mo_str o2 comp2 order ob2 = Some line ->
  (forall sl, comp_get comp1 sl = comp_get comp2 sl) /\ n1 = n2 /\ told_alike ob1 ob2.
Proof.
  intros P1 P2 L1 L2 [S1 M1] [S2 M2] E1 E2. unfold mo_str in E1, E2.
  destruct (mo_cycles ob1) as [cy1|] eqn:C1; [|discriminate]. destruct (mo_cycles ob2) as [cy2|] eqn:C2; [|discriminate].
  destruct (mo_tape ob1) as [t1|] eqn:T1; [|discriminate]. destruct (mo_tape ob2) as [t2|] eqn:T2; [|discriminate].
  destruct (mo_prover ob1) as [pv1|] eqn:V1; [|discriminate]. destruct (mo_prover ob2) as [pv2|] eqn:V2; [|discriminate].
  rewrite (M1 _ eq_refl) in E1. rewrite (M2 _ eq_refl) in E2. rewrite <- E2 in E1. clear E2 line. apply some_inj in E1.
  set (i1 := mo_info order ob1 cy1 (I n1) (length (sp_configs pv1))) in *. set (i2 := mo_info order ob2 cy2 (I n2) (length (sp_configs pv2))) in *.
  pose proof (info_ok order ob1 cy1 n1 (length (sp_configs pv1)) L1) as O1. fold i1 in O1.
  pose proof (info_ok order ob2 cy2 n2 (length (sp_configs pv2)) L2) as O2. fold i2 in O2.
  assert (E : (show_comp comp1 None ++ [32]) ++ 124 :: (124 :: 32 :: join (quoted " | ") (map mo_entry i1))
            = (show_comp comp2 None ++ [32]) ++ 124 :: (124 :: 32 :: join (quoted " | ") (map mo_entry i2))).
  { rewrite <- !app_assoc. exact E1. }
  clear E1. apply cut in E; [|apply fr_app; [now apply show_comp_fr|apply fr_q; reflexivity]..].
  destruct E as [EP EI]. apply app_inv_tail in EP. apply (f_equal (@tl Z)) in EI. apply (f_equal (@tl Z)) in EI. cbn [tl] in EI.
  assert (ENT : forall l, Forall entry_ok l -> Forall (fr 124) (map mo_entry l)).
  { intros l F. apply Forall_forall. intros x X. apply in_map_iff in X. destruct X as (e & <- & X). rewrite Forall_forall in F.
    destruct (F _ X) as (_ & A & B). unfold mo_entry. apply fr_app; [exact A|apply fr_app; [apply fr_q; reflexivity|exact B]]. }
  apply bars_inj in EI; [|now apply ENT|now apply ENT|subst i1; discriminate|subst i2; discriminate].
  apply entries_inj in EI; [|assumption..].
  destruct (look_info order ob1 cy1 n1 (length (sp_configs pv1))) as (A1 & A2 & A3 & A4 & A5 & A6 & A7 & A8 & A9 & A10).
  destruct (look_info order ob2 cy2 n2 (length (sp_configs pv2))) as (B1 & B2 & B3 & B4 & B5 & B6 & B7 & B8 & B9 & B10).
  fold i1 in A1, A2, A3, A4, A5, A6, A7, A8, A9, A10. fold i2 in B1, B2, B3, B4, B5, B6, B7, B8, B9, B10.
  rewrite EI in *. rewrite B1 in A1. rewrite B2 in A2. rewrite B3 in A3. rewrite B4 in A4. rewrite B5 in A5. rewrite B6 in A6. rewrite B7 in A7.
  rewrite B8 in A8. rewrite B9 in A9. rewrite B10 in A10. clear B1 B2 B3 B4 B5 B6 B7 B8 B9 B10.
  split; [|split].
  - assert (SH : forall comp, printable comp -> shows_ok comp /\ forall s c i, comp_get comp (s, c) = Some i -> 0 <= s /\ 0 <= c).
    { intros comp P. split; [intros s c pr sh tr X; destruct (P _ _ _ _ _ X); tauto|].
      intros s c [[pr sh] tr] X. destruct (P _ _ _ _ _ X); tauto. }
    destruct (parse_show_inferred comp1) as (q1 & F1 & G1); [apply SH, P1..|].
    destruct (parse_show_inferred comp2) as (q2 & F2 & G2); [apply SH, P2..|].
    rewrite EP in F1. rewrite F1 in F2. inv F2. intros sl. rewrite <- G1, <- G2. reflexivity.
  - rewrite !number_small in A2 by assumption. apply some_inj in A2. symmetry. apply str_int_inj, A2.
  - split; [|split; [|split; [|split]]].
    + apply some_inj in A1. apply str_int_inj in A1. congruence.
    + repeat split; symmetry; try (apply opt_int_inj; assumption); [|assumption].
      destruct (mo_undfnd ob1), (mo_undfnd ob2); cbn in A7; try discriminate A7; [|reflexivity].
      apply some_inj in A7. apply str_undfnd_inj in A7. congruence.
    + symmetry. apply opt_int_inj. assumption.
    + apply some_inj in A9. apply str_int_inj in A9. rewrite V1, V2. cbn. f_equal. lia.
    + intros m n R1 R2 SM SN. rewrite R1, R2 in A10. rewrite !number_small in A10 by assumption.
      destruct (Z.eqb_spec m 0), (Z.eqb_spec n 0); try discriminate A10; [congruence|].
      apply some_inj in A10. symmetry. apply str_int_inj, A10.
Qed.
