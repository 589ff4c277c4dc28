(** * Model of towers of powers, tm/num.py 1184-1266 (class Tet)

    Towers come from estimate (tm/num.py 45-58).  The operands here are ints, powers with an int exponent, towers, and
    powers with a tower for exponent.  Simplified: other expressions are not operands. *)
From Verif Require Import Base NumModel.
Local Open Scope Z_scope.

(** tm/num.py 20 (Count); 823-839: [TE] is an Exp with an int exponent, [TP b c h] the Exp of base b and exponent
    Tet(c, h); 1184-1190: [TT] is a Tet. *)
Inductive twr := TI (n : Z) | TE (base exp : Z) | TT (base height : Z) | TP (base c height : Z).

(** tm/num.py 1217-1222 (Tet.__eq__), 66-67 (identity; Nums made from the same parts are the same object). *)
Definition t_eqb (a b : twr) : bool :=
  match a, b with
  | TI m, TI n => m =? n
  | TE b x, TE c y | TT b x, TT c y => (b =? c) && (x =? y)
  | TP b c h, TP b' c' h' => (b =? b') && (c =? c') && (h =? h')
  | _, _ => false
  end.

(** tm/num.py 1230-1245 (Tet.__lt__). *)
Definition tet_lt (b h : Z) (other : twr) : res bool :=
  match other with
  | TI _ => Ok false
  | TT c g => if b =? c then Ok (h <? g) else NotImpl
  | TE _ _ => if 2 <? h then Ok false else NotImpl
  | TP _ _ _ => NotImpl
  end.
(** tm/num.py 97-98 (__gt__) of a Tet; also what int < Tet comes to. *)
Definition tet_gt (b h : Z) (other : twr) : res bool :=
  if t_eqb (TT b h) other then Ok false else match tet_lt b h other with Ok r => Ok (negb r) | e => e end.
(** tm/num.py 1119-1178 (Exp.__lt__); an int is less than a Num if the Num is greater (97-98). *)
Definition t_lt (self other : twr) : res bool :=
  match self with
  | TT b h => tet_lt b h other
  | TE b x =>
      match other with
      | TI _ => Ok false
      | TE c y => if b =? c then Ok (x <? y) else Fail
      | TP c d h => if b =? c then tet_gt d h (TI x) else Fail
      | TT c h => tet_gt c h self
      end
  | TP b c h =>
      match other with
      | TI _ => Ok false
      | TE d y => if b =? d then tet_lt c h (TI y) else Fail
      | TP d e g => if b =? d then tet_lt c h (TT e g) else Fail
      | TT d g => tet_gt d g self
      end
  | TI m =>
      match other with
      | TI n => Ok (m <? n)
      | TT b h => tet_gt b h self
      | TE _ _ | TP _ _ _ => Ok true
      end
  end.

(** tm/num.py 1247-1248, 1256-1257 (Tet.__add__, __radd__). *)
Definition tet_add (b h : Z) (other : twr) : twr := TT b h.
(** tm/num.py 1250-1254 (Tet.__sub__). *)
Definition tet_sub (b h : Z) (other : twr) : twr := if t_eqb other (TT b h) then TI 0 else TT b h.
(** tm/num.py 1259-1260 (Tet.__mul__). *)
Definition tet_mul (b h : Z) (other : twr) : twr := TT b h.

(** tm/num.py 799-812: the loop of make_exp when the exponent is a Tet, which stays as it is when multiplied (1259-1260).
    Simplified: the square root is exact. *)
Fixpoint tet_base (fuel : nat) (base : Z) : Z :=
  match fuel with
  | O => base
  | S fuel =>
      if base <=? 1 then base else if base =? 8 then 2
      else if Z.sqrt base * Z.sqrt base =? base then tet_base fuel (Z.sqrt base) else base
  end.
(** tm/num.py 1224-1228 (Tet.__rpow__): other ** self. *)
Definition tet_rpow (other b h : Z) : twr :=
  if other =? b then TT b (1 + h) else TP (tet_base (Z.to_nat (Z.log2 other) + 2) other) b h.
