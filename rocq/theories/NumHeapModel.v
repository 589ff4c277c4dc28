(** * Model of the objects behind symbolic numbers, tm/num.py

    NumModel.v takes a Num for the expression it stands for.  Here Nums are objects: places in a store, with
    [==] comparing places, and the four tables that make_add, make_mul, make_div and make_exp look into. *)
From Verif Require Import Base.

(** tm/num.py 20 (Count): an int, or a Num, given by its place in the store. *)
Inductive item := Int (z : Z) | Obj (i : nat).

(** tm/num.py 154-170 (Add), 348-373 (Mul), 657-671 (Div), 823-839 (Exp), 1183-1193 (Tet): what an object holds.
    Simplified: [leaves] and [tower_est] are left out. *)
Inductive shape :=
| SAdd (l : item) (r : nat)
| SMul (l : item) (r : nat)
| SDiv (num : nat) (den : Z)
| SExp (base : Z) (exp : item)
| STet (base height : Z).
(** tm/num.py 28-33 (Num): an object with its [depth] field. *)
Record object := Object { o_shape : shape; o_depth : Z }.

(** tm/num.py 23-26: the objects made so far, oldest first, and the tables ADDS, MULS, DIVS and EXPS.  Simplified: a
    table of tables is one list of entries under two keys. *)
Record store := Store {
  objects : list object;
  ADDS : list (item * nat * nat);
  MULS : list (item * nat * nat);
  DIVS : list (nat * Z * nat);
  EXPS : list (Z * item * nat)
}.
(** tm/num.py 23-26: before the first call. *)
Definition empty : store := Store [] [] [] [] [].

(** tm/num.py 66-67 ([other is self]), 177-178, 384-385, 676-677, 843-844, 1198-1199 (__hash__): keys of a table are
    the same if they are equal ints or the same object.  So it is with Tet too, whose __eq__ is not asked for objects
    of different hash. *)
Definition same_key (a b : item) : bool :=
  match a, b with Int x, Int y => x =? y | Obj i, Obj j => Nat.eqb i j | _, _ => false end.

(** [==] of Counts: tm/num.py 66-67 (Num), 1217-1222 (Tet). *)
Definition equal (s : store) (a b : item) : bool :=
  match a, b with
  | Int x, Int y => x =? y
  | Obj i, Obj j =>
    match nth_error (objects s) i, nth_error (objects s) j with
    | Some (Object (STet b1 h1) _), Some (Object (STet b2 h2) _) => (b1 =? b2) && (h1 =? h2)
    | _, _ => Nat.eqb i j
    end
  | _, _ => false
  end.

(** The depth field of an object, tm/num.py 162, 363, 666, 832, 837, 1191. *)
Definition depth_of (s : store) (i : nat) : Z :=
  match nth_error (objects s) i with Some o => o_depth o | None => 0 end.

(** [x[k1][k2]], tm/num.py 146-149, 339-342, 648-651, 814-817. *)
Fixpoint get {K} (eq : K -> bool) (t : list (K * nat)) : option nat :=
  match t with
  | [] => None
  | (k, i) :: t' => if eq k then Some i else get eq t'
  end.

(** The place of the next object.  tm/num.py 151, 344, 653, 819. *)
Definition fresh (s : store) : nat := length (objects s).

(** tm/num.py 143-144, 336-337: the two arguments change places. *)
Definition in_order (s : store) (l : item) (r : nat) : item * nat :=
  match l with
  | Obj i => if depth_of s r <? depth_of s i then (Obj r, i) else (l, r)
  | Int _ => (l, r)
  end.

(** tm/num.py 142-152 (make_add), 158-162 (Add.__init__). *)
Definition make_add (s : store) (l0 : item) (r0 : nat) : store * option nat :=
  let (l, r) := in_order s l0 r0 in
  match get (fun k => same_key (fst k) l && Nat.eqb (snd k) r) (ADDS s) with
  | Some i => (s, Some i)
  | None =>
    let i := fresh s in
    (Store (objects s ++ [Object (SAdd l r) (1 + depth_of s r)])
           ((l, r, i) :: ADDS s) (MULS s) (DIVS s) (EXPS s), Some i)
  end.

(** tm/num.py 335-345 (make_mul), 352-363 (Mul.__init__).  [ok] says whether the assertions of 353-358 and 369 hold; if
    one fails nothing is stored.  Simplified: [ok] is any function of the arguments; the comparisons with 0 it stands
    for make no objects (tm/num.py 288-296, 613-625, 783-784, 1127-1128). *)
Definition make_mul (ok : item -> nat -> bool) (s : store) (l0 : item) (r0 : nat) : store * option nat :=
  let (l, r) := in_order s l0 r0 in
  match get (fun k => same_key (fst k) l && Nat.eqb (snd k) r) (MULS s) with
  | Some i => (s, Some i)
  | None =>
    if ok l r then
      let i := fresh s in
      (Store (objects s ++ [Object (SMul l r) (1 + depth_of s r)])
             (ADDS s) ((l, r, i) :: MULS s) (DIVS s) (EXPS s), Some i)
    else (s, None)
  end.

(** tm/num.py 647-654 (make_div), 661-666 (Div.__init__). *)
Definition make_div (s : store) (num : nat) (den : Z) : store * option nat :=
  match get (fun k => Nat.eqb (fst k) num && (snd k =? den)) (DIVS s) with
  | Some i => (s, Some i)
  | None =>
    if 0 <? den then
      let i := fresh s in
      (Store (objects s ++ [Object (SDiv num den) (1 + depth_of s num)])
             (ADDS s) (MULS s) ((num, den, i) :: DIVS s) (EXPS s), Some i)
    else (s, None)
  end.

(** tm/num.py 814-820 (make_exp, after the base has been brought down), 827-839 (Exp.__init__; log10 of an exponent
    that is not positive raises). *)
Definition make_exp (s : store) (base : Z) (exp : item) : store * option nat :=
  match get (fun k => (fst k =? base) && same_key (snd k) exp) (EXPS s) with
  | Some i => (s, Some i)
  | None =>
    if match exp with Int e => 0 <? e | Obj _ => true end then
      let i := fresh s in
      (Store (objects s ++ [Object (SExp base exp) (match exp with Int _ => 1 | Obj e => 1 + depth_of s e end)])
             (ADDS s) (MULS s) (DIVS s) ((base, exp, i) :: EXPS s), Some i)
    else (s, None)
  end.

(** tm/num.py 49, 54 (Tet(10, tower)), 1187-1193, 1228: a Tet is always a new object. *)
Definition make_tet (s : store) (base height : Z) : store * option nat :=
  (Store (objects s ++ [Object (STet base height) 1]) (ADDS s) (MULS s) (DIVS s) (EXPS s), Some (fresh s)).
