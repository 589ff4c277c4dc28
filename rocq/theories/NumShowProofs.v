(** * Proofs about printed numbers *)
From Verif Require Import Base NumModel NumShowModel NumShowSpec.
Local Open Scope string_scope.

(** ** Tokens *)

Definition toks_int (n : Z) : list token := if n <? 0 then [TMinus; TNum (- n)] else [TNum n].
Fixpoint toks (e : cnt) : list token :=
  match e with
  | I n => toks_int n
  | Add l r => TOpen :: toks l ++ TPlus :: toks r ++ [TClose]
  | Mul l r => if cnt_eqb l (I (-1)) then TMinus :: toks r else TOpen :: toks l ++ TTimes :: toks r ++ [TClose]
  | Div n d => TOpen :: toks n ++ TOver :: toks_int d ++ [TClose]
  | Exp b x => TOpen :: toks_int b ++ TPower :: toks x ++ [TClose]
  end%list.

Definition no_digit (t : list Z) : Prop := match t with [] => True | c :: _ => (48 <=? c) && (c <=? 57) = false end.
Definition prefix (ts : list token) (r : option (list token)) : option (list token) :=
  match r with Some us => Some (ts ++ us)%list | None => None end.
Definition joins (t : list Z) (ts : list token) : Prop :=
  forall rest, no_digit rest -> lex (t ++ rest) None = prefix ts (lex rest None).

Lemma prefix_app ts us r : prefix ts (prefix us r) = prefix (ts ++ us)%list r.
Proof. destruct r; simpl; [now rewrite app_assoc|reflexivity]. Qed.
Lemma prefix_nil r : prefix [] r = r.
Proof. now destruct r. Qed.
Lemma after_prefix t r : after t r = prefix [t] r.
Proof. now destruct r. Qed.

Lemma lex_flush rest n : no_digit rest -> lex rest (Some n) = prefix [TNum n] (lex rest None).
Proof.
  destruct rest as [|c rest]; [reflexivity|]. cbn [no_digit]. intros D. cbn [lex]. rewrite D.
  match goal with |- number _ ?x = prefix _ (number _ ?x) => destruct x; reflexivity end.
Qed.

Lemma lex_digit c t n : 0 <= c < 10 ->
  lex (48 + c :: t) n = lex t (Some (match n with Some v => 10 * v + c | None => c end)).
Proof.
  intros L. cbn [lex].
  rewrite (proj2 (Z.leb_le 48 (48 + c))) by lia. rewrite (proj2 (Z.leb_le (48 + c) 57)) by lia. cbn [andb].
  replace (48 + c - 48) with c by lia. now destruct n.
Qed.

Lemma lex_decimal fuel : forall n acc, 0 <= n < 2 ^ Z.of_nat fuel -> (0 < fuel)%nat ->
  lex (decimal fuel n acc) None = lex acc (Some n).
Proof.
  induction fuel as [|fuel IH]; intros n acc L F; [lia|]. cbn [decimal].
  destruct (Z.ltb_spec n 10) as [C|C].
  - rewrite (Z.mod_small n 10) by lia. now rewrite lex_digit by lia.
  - assert (P : 2 ^ Z.of_nat (S fuel) = 2 * 2 ^ Z.of_nat fuel).
    { replace (Z.of_nat (S fuel)) with (Z.of_nat fuel + 1) by lia. rewrite Z.pow_add_r by lia. change (2 ^ 1) with 2. lia. }
    rewrite P in L.
    assert (D : 0 <= n / 10 < 2 ^ Z.of_nat fuel).
    { split; [apply Z.div_pos; lia|]. apply Z.div_lt_upper_bound; lia. }
    assert (F' : (0 < fuel)%nat).
    { destruct fuel; [|lia]. change (2 ^ Z.of_nat 0) with 1 in L. lia. }
    rewrite IH by assumption.
    pose proof (Z.mod_pos_bound n 10 ltac:(lia)). rewrite lex_digit by lia.
    f_equal. f_equal. pose proof (Z.div_mod n 10 ltac:(lia)). lia.
Qed.

Lemma decimal_app fuel : forall n acc rest, (decimal fuel n acc ++ rest = decimal fuel n (acc ++ rest))%list.
Proof.
  induction fuel as [|fuel IH]; intros n acc rest; [reflexivity|]. cbn [decimal].
  destruct (n <? 10); [reflexivity|]. now rewrite IH.
Qed.

Lemma joins_nat n : 0 <= n -> joins (decimal (S (Z.to_nat (Z.log2 n))) n []) [TNum n].
Proof.
  intros L rest D. rewrite decimal_app. rewrite lex_decimal; [|split; [exact L|]|lia].
  - simpl. now apply lex_flush.
  - replace (Z.of_nat (S (Z.to_nat (Z.log2 n)))) with (Z.succ (Z.log2 n)).
    + destruct (Z.eq_dec n 0) as [->|N]; [reflexivity|]. apply Z.log2_spec. lia.
    + pose proof (Z.log2_nonneg n). lia.
Qed.

Lemma joins_int n : joins (str_int n) (toks_int n).
Proof.
  unfold str_int, toks_int. destruct (Z.ltb_spec n 0) as [C|C].
  - intros rest D. cbn [app]. change (lex (45 :: decimal (S (Z.to_nat (Z.log2 (- n)))) (- n) [] ++ rest)%list None)
      with (number None (after TMinus (lex (decimal (S (Z.to_nat (Z.log2 (- n)))) (- n) [] ++ rest)%list None))).
    rewrite (joins_nat (- n)) by (try exact D; lia). now destruct (lex rest None).
  - now apply joins_nat.
Qed.

Lemma joins_app t ts u us : joins t ts -> joins u us -> (forall rest, no_digit (u ++ rest)) -> joins (t ++ u) (ts ++ us).
Proof.
  intros J K N rest D. rewrite <- app_assoc. rewrite J by apply N. rewrite K by exact D. apply prefix_app.
Qed.

Lemma lex_open t : lex (quoted "(" ++ t) None = prefix [TOpen] (lex t None).
Proof. simpl. destruct (lex t None); reflexivity. Qed.
Lemma lex_close t : lex (quoted ")" ++ t) None = prefix [TClose] (lex t None).
Proof. simpl. destruct (lex t None); reflexivity. Qed.
Lemma lex_plus t : lex (quoted " + " ++ t) None = prefix [TPlus] (lex t None).
Proof. simpl. destruct (lex t None); reflexivity. Qed.
Lemma lex_times t : lex (quoted " * " ++ t) None = prefix [TTimes] (lex t None).
Proof. simpl. destruct (lex t None); reflexivity. Qed.
Lemma lex_over t : lex (quoted " // " ++ t) None = prefix [TOver] (lex t None).
Proof. simpl. destruct (lex t None); reflexivity. Qed.
Lemma lex_power t : lex (quoted " ** " ++ t) None = prefix [TPower] (lex t None).
Proof. simpl. destruct (lex t None); reflexivity. Qed.
Lemma lex_minus t : lex (quoted "-" ++ t) None = prefix [TMinus] (lex t None).
Proof. simpl. destruct (lex t None); reflexivity. Qed.

Lemma joins_binary t ts op o u us : joins t ts -> joins u us ->
  (forall x, no_digit (op ++ x)) -> (forall x, lex (op ++ x) None = prefix [o] (lex x None)) ->
  joins (quoted "(" ++ t ++ op ++ u ++ quoted ")") (TOpen :: ts ++ o :: us ++ [TClose]).
Proof.
  intros J K N O rest D. rewrite <- !app_assoc. rewrite lex_open, J by apply N. rewrite O, K by reflexivity.
  rewrite lex_close. rewrite !prefix_app. f_equal. simpl. rewrite <- !app_assoc. reflexivity.
Qed.

Lemma leaves_ints e : leaves e = ints e.
Proof. induction e; simpl; lia. Qed.

Lemma show_number_short ord e s : short e -> show_number ord e s = s.
Proof.
  unfold short, show_number, TRUNCATE_COUNT, MAX_LEAVES. intros L.
  destruct e; try (rewrite (proj2 (Z.ltb_ge 120 _)) by (rewrite leaves_ints; exact L); reflexivity).
  rewrite (proj2 (Z.leb_gt _ _)) by exact L. reflexivity.
Qed.

Lemma joins_show ord e : in_full e -> joins (show ord e) (toks e).
Proof.
  induction e as [n|l IHl r IHr|l IHl r IHr|n IHn d|b x IHx]; cbn [in_full show toks].
  - intros _. apply joins_int.
  - intros (S1 & F1 & F2). rewrite show_number_short by exact S1.
    apply joins_binary; [now apply IHl|now apply IHr|reflexivity|exact lex_plus].
  - intros (S1 & F1 & F2). destruct (cnt_eqb l (I (-1))).
    + intros rest D. rewrite <- app_assoc, lex_minus, IHr by assumption. apply prefix_app.
    + rewrite show_number_short by exact S1.
      apply joins_binary; [now apply IHl|now apply IHr|reflexivity|exact lex_times].
  - intros F. apply joins_binary; [now apply IHn|apply joins_int|reflexivity|exact lex_over].
  - intros (S1 & F1). rewrite show_number_short by exact S1.
    apply joins_binary; [apply joins_int|now apply IHx|reflexivity|exact lex_power].
Qed.

Lemma lex_show ord e : in_full e -> lex (show ord e) None = Some (toks e).
Proof.
  intros F. pose proof (joins_show ord e F [] Logic.I) as J. rewrite app_nil_r in J. rewrite J. simpl. now rewrite app_nil_r.
Qed.

(** ** Trees *)

Definition tree_int (n : Z) : tree := if n <? 0 then PNeg (PNum (- n)) else PNum n.
Fixpoint tree_of (e : cnt) : tree :=
  match e with
  | I n => tree_int n
  | Add l r => PParen (PAdd (tree_of l) (tree_of r))
  | Mul l r => if cnt_eqb l (I (-1)) then PNeg (tree_of r) else PParen (PMul (tree_of l) (tree_of r))
  | Div n d => PParen (PFloor (tree_of n) (tree_int d))
  | Exp b x => PParen (if b <? 0 then PNeg (PPow (PNum (- b)) (tree_of x)) else PPow (PNum b) (tree_of x))
  end.

Definition no_power (ts : list token) : Prop := match ts with TPower :: _ => False | _ => True end.

Lemma factor_num f n ts : (3 <= f)%nat -> no_power ts -> factor f (TNum n :: ts) = Some (PNum n, ts).
Proof.
  intros L N. destruct f as [|[|[|f]]]; try lia. simpl. destruct ts as [|[] ts]; try reflexivity. contradiction N.
Qed.
Lemma factor_int f n ts : (4 <= f)%nat -> no_power ts -> factor f (toks_int n ++ ts) = Some (tree_int n, ts).
Proof.
  intros L N. unfold toks_int, tree_int. destruct (n <? 0); simpl app.
  - destruct f as [|f]; [lia|]. cbn [factor]. rewrite factor_num by (try exact N; lia). reflexivity.
  - apply factor_num; [lia|exact N].
Qed.

Lemma toks_int_length n : (1 <= length (toks_int n) <= 2)%nat.
Proof. unfold toks_int. destruct (n <? 0); simpl; lia. Qed.
Lemma toks_length e : (1 <= length (toks e))%nat.
Proof. destruct e; simpl; try lia; [apply toks_int_length|destruct (cnt_eqb _ _); simpl; lia]. Qed.

Lemma factor_open f ts a us : no_power us -> sum f ts = Some (a, TClose :: us) ->
  factor (S (S (S f))) (TOpen :: ts) = Some (PParen a, us).
Proof.
  intros N E. cbn [factor power atom]. rewrite E. destruct us as [|[] us]; try reflexivity. contradiction N.
Qed.

Definition stops (ts : list token) : Prop := match ts with [] | TClose :: _ => True | _ => False end.

Lemma sum_of_factor f ts a us : stops us -> factor f ts = Some (a, us) -> (1 <= f)%nat -> sum (S (S f)) ts = Some (a, us).
Proof.
  intros N E L. destruct f as [|f]; [lia|]. cbn [sum term]. rewrite E. cbn [term_rest].
  destruct us as [|[] us]; try contradiction N; reflexivity.
Qed.

Lemma sum_plus f ts a us b vs : stops vs -> factor (S f) ts = Some (a, TPlus :: us) -> factor f us = Some (b, vs) ->
  (1 <= f)%nat -> sum (S (S (S f))) ts = Some (PAdd a b, vs).
Proof.
  intros N E1 E2 L. destruct f as [|f]; [lia|].
  change (sum (S (S (S (S f)))) ts) with
    (match match factor (S (S f)) ts with Some (a, ts') => term_rest (S (S f)) a ts' | None => None end with
     | Some (a, ts') => sum_rest (S (S (S f))) a ts' | None => None end).
  rewrite E1. cbn [term_rest].
  change (sum_rest (S (S (S f))) a (TPlus :: us)) with
    (match match factor (S f) us with Some (a, ts') => term_rest (S f) a ts' | None => None end with
     | Some (b, ts'') => sum_rest (S (S f)) (PAdd a b) ts'' | None => None end).
  rewrite E2. destruct vs as [|[] vs]; try contradiction N; reflexivity.
Qed.
Lemma sum_times f ts a us b vs : stops vs -> factor (S f) ts = Some (a, TTimes :: us) -> factor f us = Some (b, vs) ->
  (1 <= f)%nat -> sum (S (S (S f))) ts = Some (PMul a b, vs).
Proof.
  intros N E1 E2 L. destruct f as [|f]; [lia|].
  change (sum (S (S (S (S f)))) ts) with
    (match match factor (S (S f)) ts with Some (a, ts') => term_rest (S (S f)) a ts' | None => None end with
     | Some (a, ts') => sum_rest (S (S (S f))) a ts' | None => None end).
  rewrite E1.
  change (term_rest (S (S f)) a (TTimes :: us)) with
    (match factor (S f) us with Some (b, ts'') => term_rest (S f) (PMul a b) ts'' | None => None end).
  rewrite E2. destruct vs as [|[] vs]; try contradiction N; reflexivity.
Qed.
Lemma sum_over f ts a us b vs : stops vs -> factor (S f) ts = Some (a, TOver :: us) -> factor f us = Some (b, vs) ->
  (1 <= f)%nat -> sum (S (S (S f))) ts = Some (PFloor a b, vs).
Proof.
  intros N E1 E2 L. destruct f as [|f]; [lia|].
  change (sum (S (S (S (S f)))) ts) with
    (match match factor (S (S f)) ts with Some (a, ts') => term_rest (S (S f)) a ts' | None => None end with
     | Some (a, ts') => sum_rest (S (S (S f))) a ts' | None => None end).
  rewrite E1.
  change (term_rest (S (S f)) a (TOver :: us)) with
    (match factor (S f) us with Some (b, ts'') => term_rest (S f) (PFloor a b) ts'' | None => None end).
  rewrite E2. destruct vs as [|[] vs]; try contradiction N; reflexivity.
Qed.

Lemma factor_power f n ts b vs : factor (S f) ts = Some (b, vs) ->
  factor (S (S (S f))) (TNum n :: TPower :: ts) = Some (PPow (PNum n) b, vs).
Proof.
  intros E. change (factor (S (S (S f))) (TNum n :: TPower :: ts)) with
    (match factor (S f) ts with Some (b, ts'') => Some (PPow (PNum n) b, ts'') | None => None end).
  now rewrite E.
Qed.

Lemma factor_right e : forall f ts, (8 * length (toks e) <= f)%nat -> no_power ts ->
  factor f (toks e ++ ts) = Some (tree_of e, ts).
Proof.
  induction e as [n|l IHl r IHr|l IHl r IHr|n IHn d|b x IHx]; intros f ts L N; cbn [toks tree_of] in *.
  - apply factor_int; [|exact N]. pose proof (toks_int_length n). lia.
  - cbn [length] in L. rewrite app_length in L. cbn [length] in L. rewrite app_length in L. cbn [length] in L.
    destruct f as [|[|[|[|[|[|f]]]]]]; try lia. cbn [app]. rewrite <- app_assoc. cbn [app]. rewrite <- app_assoc.
    apply factor_open; [exact N|]. apply (sum_plus f _ _ (toks r ++ [TClose] ++ ts)%list); [exact Logic.I| | |lia].
    + apply IHl; [lia|exact Logic.I].
    + apply (IHr f (TClose :: ts)); [lia|exact Logic.I].
  - destruct (cnt_eqb l (I (-1))).
    + cbn [length] in L. destruct f as [|f]; [lia|]. cbn [app factor]. rewrite IHr by (try exact N; lia). reflexivity.
    + cbn [length] in L. rewrite app_length in L. cbn [length] in L. rewrite app_length in L. cbn [length] in L.
      destruct f as [|[|[|[|[|[|f]]]]]]; try lia. cbn [app]. rewrite <- app_assoc. cbn [app]. rewrite <- app_assoc.
      apply factor_open; [exact N|]. apply (sum_times f _ _ (toks r ++ [TClose] ++ ts)%list); [exact Logic.I| | |lia].
      * apply IHl; [lia|exact Logic.I].
      * apply (IHr f (TClose :: ts)); [lia|exact Logic.I].
  - cbn [length] in L. rewrite app_length in L. cbn [length] in L. rewrite app_length in L. cbn [length] in L.
    pose proof (toks_int_length d).
    destruct f as [|[|[|[|[|[|f]]]]]]; try lia. cbn [app]. rewrite <- app_assoc. cbn [app]. rewrite <- app_assoc.
    apply factor_open; [exact N|]. apply (sum_over f _ _ (toks_int d ++ [TClose] ++ ts)%list); [exact Logic.I| | |lia].
    + apply IHn; [lia|exact Logic.I].
    + apply (factor_int f d (TClose :: ts)); [lia|exact Logic.I].
  - cbn [length] in L. rewrite app_length in L. cbn [length] in L. rewrite app_length in L. cbn [length] in L.
    pose proof (toks_int_length b).
    destruct f as [|[|[|[|[|[|[|[|[|f]]]]]]]]]; try lia. cbn [app]. rewrite <- app_assoc. cbn [app]. rewrite <- app_assoc.
    apply factor_open; [exact N|]. apply sum_of_factor; [exact Logic.I| |lia].
    unfold toks_int. destruct (b <? 0); cbn [app].
    + cbn [factor]. change (match factor (S (S (S f))) (TNum (- b) :: TPower :: toks x ++ [TClose] ++ ts) with
        Some (a, ts'') => Some (PNeg a, ts'') | None => None end = Some (PNeg (PPow (PNum (- b)) (tree_of x)), TClose :: ts)).
      rewrite (factor_power f _ _ (tree_of x) (TClose :: ts)); [reflexivity|].
      apply (IHx (S f) (TClose :: ts)); [lia|exact Logic.I].
    + apply (factor_power (S f)). apply (IHx (S (S f)) (TClose :: ts)); [lia|exact Logic.I].
Qed.

Lemma sum_right e f : (8 * length (toks e) + 2 <= f)%nat -> sum f (toks e) = Some (tree_of e, []).
Proof.
  intros L. pose proof (toks_length e). destruct f as [|[|f]]; try lia. apply sum_of_factor; [exact Logic.I| |lia].
  pose proof (factor_right e f [] ltac:(lia) Logic.I) as F. now rewrite app_nil_r in F.
Qed.

(** ** Values *)

Lemma worth_int n : worth (tree_int n) = Some n.
Proof. unfold tree_int. destruct (n <? 0); simpl; [f_equal; lia|reflexivity]. Qed.

Lemma cnt_eqb_m1 l : cnt_eqb l (I (-1)) = true -> l = I (-1).
Proof. destruct l; simpl; try (intros E; discriminate E). intros E. apply Z.eqb_eq in E. now subst. Qed.

Lemma worth_right e : bases_ok e -> worth (tree_of e) = to_int e.
Proof.
  induction e as [n|l IHl r IHr|l IHl r IHr|n IHn d|b x IHx]; cbn [bases_ok tree_of to_int].
  - intros _. apply worth_int.
  - intros [B1 B2]. cbn [worth]. now rewrite IHl, IHr.
  - intros [B1 B2]. destruct (cnt_eqb l (I (-1))) eqn:E.
    + apply cnt_eqb_m1 in E. subst l. cbn [worth to_int]. rewrite IHr by exact B2. destruct (to_int r); [f_equal; lia|reflexivity].
    + cbn [worth]. now rewrite IHl, IHr.
  - intros B. cbn [worth]. rewrite IHn by exact B. rewrite worth_int. reflexivity.
  - intros [B1 B2]. cbn [worth]. rewrite (proj2 (Z.ltb_ge b 0)) by exact B1. cbn [worth]. now rewrite IHx.
Qed.

Lemma eval_right ord e : in_full e -> bases_ok e -> python_eval (show ord e) = to_int e.
Proof.
  intros F B. unfold python_eval. rewrite lex_show by exact F. rewrite sum_right by lia. now apply worth_right.
Qed.

(** ** No two numbers look the same *)

Lemma tree_int_inj m n : tree_int m = tree_int n -> m = n.
Proof.
  unfold tree_int. destruct (m <? 0), (n <? 0); intros E; try discriminate E; injection E; lia.
Qed.
Lemma tree_int_not_paren n a : tree_int n = PParen a -> False.
Proof. unfold tree_int. destruct (n <? 0); intros E; discriminate E. Qed.
Lemma tree_num_not_num e n : is_int e = false -> well_made e -> tree_of e = PNum n -> False.
Proof.
  destruct e as [m|l r|l r|m d|b x]; cbn [is_int tree_of]; intros NI W E; try discriminate.
  destruct (cnt_eqb l (I (-1))); discriminate E.
Qed.

Lemma tree_of_inj e : forall f, well_made e -> well_made f -> tree_of e = tree_of f -> e = f.
Proof.
  induction e as [n|l IHl r IHr|l IHl r IHr|n IHn d|b x IHx]; intros f W W' E.
  - destruct f as [m|l' r'|l' r'|m d'|b' x']; cbn [tree_of] in E.
    + now rewrite (tree_int_inj _ _ E).
    + elim (tree_int_not_paren _ _ E).
    + destruct (cnt_eqb l' (I (-1))); [|elim (tree_int_not_paren _ _ E)].
      unfold tree_int in E. destruct (n <? 0); [|discriminate E]. injection E as E. destruct W' as (_ & W' & NI).
      elim (tree_num_not_num r' (- n) NI W' (eq_sym E)).
    + elim (tree_int_not_paren _ _ E).
    + elim (tree_int_not_paren _ _ E).
  - destruct f as [m|l' r'|l' r'|m d'|b' x']; cbn [tree_of] in E; try discriminate E.
    + elim (tree_int_not_paren _ _ (eq_sym E)).
    + injection E as E1 E2. destruct W as (W1 & W2 & _), W' as (V1 & V2 & _).
      now rewrite (IHl _ W1 V1 E1), (IHr _ W2 V2 E2).
    + destruct (cnt_eqb l' (I (-1))); discriminate E.
    + destruct (b' <? 0); discriminate E.
  - destruct W as (W1 & W2 & NI). cbn [tree_of] in E. destruct (cnt_eqb l (I (-1))) eqn:M.
    + apply cnt_eqb_m1 in M. subst l.
      destruct f as [m|l' r'|l' r'|m d'|b' x']; cbn [tree_of] in E; try discriminate E.
      * unfold tree_int in E. destruct (m <? 0); [|discriminate E]. injection E as E.
        elim (tree_num_not_num r (- m) NI W2 E).
      * destruct (cnt_eqb l' (I (-1))) eqn:M'; [|discriminate E]. apply cnt_eqb_m1 in M'. subst l'.
        injection E as E. destruct W' as (_ & V2 & _). now rewrite (IHr _ W2 V2 E).
    + destruct f as [m|l' r'|l' r'|m d'|b' x']; cbn [tree_of] in E; try discriminate E.
      * elim (tree_int_not_paren _ _ (eq_sym E)).
      * destruct (cnt_eqb l' (I (-1))) eqn:M'; [discriminate E|]. injection E as E1 E2.
        destruct W' as (V1 & V2 & _). now rewrite (IHl _ W1 V1 E1), (IHr _ W2 V2 E2).
      * destruct (b' <? 0); discriminate E.
  - destruct W as (W1 & NI). destruct f as [m|l' r'|l' r'|m d'|b' x']; cbn [tree_of] in E; try discriminate E.
    + elim (tree_int_not_paren _ _ (eq_sym E)).
    + destruct (cnt_eqb l' (I (-1))); discriminate E.
    + injection E as E1 E2. destruct W' as (V1 & _). now rewrite (IHn _ W1 V1 E1), (tree_int_inj _ _ E2).
    + destruct (b' <? 0); discriminate E.
  - destruct f as [m|l' r'|l' r'|m d'|b' x']; cbn [tree_of] in E;
      try (destruct (b <? 0); discriminate E).
    + elim (tree_int_not_paren _ _ (eq_sym E)).
    + destruct (cnt_eqb l' (I (-1))), (b <? 0); discriminate E.
    + destruct (b <? 0), (b' <? 0); try discriminate E; injection E as E1 E2;
        rewrite (IHx x' W W' E2); f_equal; lia.
Qed.

Lemma show_inj ord e f : in_full e -> in_full f -> well_made e -> well_made f -> show ord e = show ord f -> e = f.
Proof.
  intros F F' W W' E. apply tree_of_inj; [exact W|exact W'|].
  pose proof (lex_show ord e F) as L. pose proof (lex_show ord f F') as L'. rewrite E in L. rewrite L' in L. injection L as L.
  pose proof (sum_right e (8 * length (toks e) + 2) ltac:(lia)) as S1.
  pose proof (sum_right f (8 * length (toks f) + 2) ltac:(lia)) as S2.
  rewrite <- L in S1. rewrite S2 in S1. now injection S1.
Qed.
