(** * Symbolic numbers as objects (C75) *)
From Verif Require Import Base NumModel NumSpec NumHeapModel NumHeapSpec NumHeapProofs.

(** Three requests: 2 ** 5, 3 ** 5, their sum one way and the other way, and the first sum again. *)
Example C75_case :
  let s1 := fst (make_exp empty 2 (Int 5)) in
  let s2 := fst (make_exp s1 3 (Int 5)) in
  let s3 := fst (NumHeapModel.make_add s2 (Obj 0) 1) in
  let s4 := fst (NumHeapModel.make_add s3 (Obj 1) 0) in
  possible s4 /\
  stands s4 (Obj 2) (Add (Exp 2 (I 5)) (Exp 3 (I 5))) /\ stands s4 (Obj 3) (Add (Exp 3 (I 5)) (Exp 2 (I 5))) /\
  request s4 s4 (Some 2%nat) /\ equal s4 (Obj 2) (Obj 2) = true /\ equal s4 (Obj 2) (Obj 3) = false.
Proof.
  intros s1 s2 s3 s4.
  assert (R1 : request empty s1 (Some 0%nat)) by (apply (req_exp empty 2 (Int 5)); [exact Logic.I|reflexivity]).
  assert (R2 : request s1 s2 (Some 1%nat)) by (apply (req_exp s1 3 (Int 5)); [exact Logic.I|reflexivity]).
  assert (R3 : request s2 s3 (Some 2%nat)) by (apply (req_add s2 (Obj 0) 1); [simpl; lia|simpl; lia|reflexivity]).
  assert (R4 : request s3 s4 (Some 3%nat)) by (apply (req_add s3 (Obj 1) 0); [simpl; lia|simpl; lia|reflexivity]).
  assert (R5 : request s4 s4 (Some 2%nat)) by (apply (req_add s4 (Obj 0) 1); [simpl; lia|simpl; lia|reflexivity]).
  assert (E2 : stands s4 (Obj 0) (Exp 2 (I 5))) by (eapply stands_exp; [reflexivity|constructor]).
  assert (E3 : stands s4 (Obj 1) (Exp 3 (I 5))) by (eapply stands_exp; [reflexivity|constructor]).
  split; [|split; [|split; [|split; [exact R5|split; reflexivity]]]].
  - exact (later_then _ _ _ _ (later_then _ _ _ _ (later_then _ _ _ _ (later_then _ _ _ _ (later_now _) R1) R2) R3) R4).
  - eapply stands_add; [reflexivity|exact E2|exact E3].
  - eapply stands_add; [reflexivity|exact E3|exact E2].
Qed.

(** Whatever has been asked for before, two Counts without tetrations compare equal exactly when they are the same
    expression. *)
Theorem C75_equal s a b e f : possible s -> stands s a e -> stands s b f -> (equal s a b = true <-> e = f).
Proof. exact (equal_right s a b e f). Qed.
Print Assumptions C75_equal.

(** An object keeps the expression it stands for, whatever is asked for after. *)
Theorem C75_kept s t a e : later s t -> stands s a e -> stands t a e.
Proof. exact (kept s t a e). Qed.
Print Assumptions C75_kept.

(** Asking for an expression there is an object for gives that object and makes nothing. *)
Theorem C75_reuse s t i j e :
  possible s -> request s t (Some j) -> stands t (Obj j) e -> stands s (Obj i) e -> t = s /\ j = i.
Proof. exact (reuse s t i j e). Qed.
Print Assumptions C75_reuse.

(** A sum is always given, and is the sum of the two parts, the one of lesser depth in front. *)
Theorem C75_add s l r a b : possible s -> stands s l a -> stands s (Obj r) b ->
  exists t i, NumHeapModel.make_add s l r = (t, Some i) /\ stands t (Obj i) (NumModel.make_add a b).
Proof. exact (add_right s l r a b). Qed.
Print Assumptions C75_add.

(** So with a product, if one is given. *)
Theorem C75_mul ok s l r a b t i : possible s -> stands s l a -> stands s (Obj r) b ->
  make_mul ok s l r = (t, Some i) ->
  stands t (Obj i) (if negb (is_int a) && (depth b <? depth a) then Mul b a else Mul a b).
Proof. exact (mul_right ok s l r a b t i). Qed.
Print Assumptions C75_mul.

(** So with a quotient. *)
Theorem C75_div s n d a t i : possible s -> stands s (Obj n) a -> make_div s n d = (t, Some i) ->
  stands t (Obj i) (Div a d).
Proof. exact (div_right s n d a t i). Qed.
Print Assumptions C75_div.

(** So with a power. *)
Theorem C75_exp s b x a t i : possible s -> stands s x a -> make_exp s b x = (t, Some i) ->
  stands t (Obj i) (Exp b a).
Proof. exact (exp_right s b x a t i). Qed.
Print Assumptions C75_exp.

(** A product is given if no assertion fails, a quotient for every positive divisor, a power for every exponent that is
    a positive int or an object. *)
Theorem C75_given s :
  (forall ok l r, (forall x y, ok x y = true) -> exists t i, make_mul ok s l r = (t, Some i)) /\
  (forall n d, 0 < d -> exists t i, make_div s n d = (t, Some i)) /\
  (forall b x, (forall z, x = Int z -> 0 < z) -> exists t i, make_exp s b x = (t, Some i)).
Proof. exact (conj (fun ok => mul_given ok s) (conj (div_given s) (exp_given s))). Qed.
Print Assumptions C75_given.

(** Equality is not equality of numbers: a sum and the sum the other way round are unequal. *)
Theorem C75_value_refuted : exists s a b e f z, possible s /\ stands s a e /\ stands s b f /\
  zval e z /\ zval f z /\ equal s a b = false.
Proof.
  destruct C75_case as (P & S1 & S2 & _ & _ & E).
  eexists _, _, _, _, _, 275. split; [exact P|split; [exact S1|split; [exact S2|split; [|split; [|exact E]]]]].
  - exists 32, 243. split; [exists 5; repeat split; lia|split; [exists 5; repeat split; lia|reflexivity]].
  - exists 243, 32. split; [exists 5; repeat split; lia|split; [exists 5; repeat split; lia|reflexivity]].
Qed.
Print Assumptions C75_value_refuted.

(** With tetrations it fails: the exponents are equal, the powers of 2 are not. *)
Theorem C75_tetration_refuted : exists s x y i j d e,
  possible s /\ equal s x y = true /\
  nth_error (objects s) i = Some (Object (SExp 2 x) d) /\ nth_error (objects s) j = Some (Object (SExp 2 y) e) /\
  equal s (Obj i) (Obj j) = false.
Proof.
  set (s1 := fst (make_tet empty 10 4)). set (s2 := fst (make_tet s1 10 4)).
  set (s3 := fst (make_exp s2 2 (Obj 0))). set (s4 := fst (make_exp s3 2 (Obj 1))).
  assert (R1 : request empty s1 (Some 0%nat)) by (apply (req_tet empty 10 4); reflexivity).
  assert (R2 : request s1 s2 (Some 1%nat)) by (apply (req_tet s1 10 4); reflexivity).
  assert (R3 : request s2 s3 (Some 2%nat)) by (apply (req_exp s2 2 (Obj 0)); [simpl; lia|reflexivity]).
  assert (R4 : request s3 s4 (Some 3%nat)) by (apply (req_exp s3 2 (Obj 1)); [simpl; lia|reflexivity]).
  exists s4, (Obj 0), (Obj 1), 2%nat, 3%nat, 2, 2. split; [|repeat split].
  exact (later_then _ _ _ _ (later_then _ _ _ _ (later_then _ _ _ _ (later_then _ _ _ _ (later_now _) R1) R2) R3) R4).
Qed.
Print Assumptions C75_tetration_refuted.
