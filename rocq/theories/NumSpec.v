(** * What symbolic numbers denote *)
From Coq Require Import QArith Qpower Znumtheory.
From Verif Require Import Base NumModel.

(** ** Values *)

(** [val e q]: the expression denotes the rational [q]; an exponent must denote an integer. *)
Fixpoint val (e : cnt) (q : Q) : Prop :=
  match e with
  | I z => Qeq q (inject_Z z)
  | Add l r => exists a b, val l a /\ val r b /\ Qeq q (Qplus a b)
  | Mul l r => exists a b, val l a /\ val r b /\ Qeq q (Qmult a b)
  | Div n d => exists a, val n a /\ 0 < d /\ Qeq q (Qdiv a (inject_Z d))
  | Exp b e => exists z, val e (inject_Z z) /\ b <> 0 /\ Qeq q (Qpower (inject_Z b) z)
  end.

(** [zval e z]: the expression denotes the integer [z], all its parts denote integers, divisions come out even,
    bases are at least 2 and exponents at least 2. *)
Fixpoint zval (e : cnt) (z : Z) : Prop :=
  match e with
  | I y => z = y
  | Add l r => exists a b, zval l a /\ zval r b /\ z = a + b
  | Mul l r => exists a b, zval l a /\ zval r b /\ z = a * b
  | Div n d => 0 < d /\ zval n (z * d)
  | Exp b e => exists y, zval e y /\ 2 <= b /\ 2 <= y /\ z = b ^ y
  end.

(** ** Expressions over one prime *)

(** [q] has a denominator that is prime to [p]. *)
Definition local (p : Z) (q : Q) : Prop :=
  exists n m, n <> 0 /\ rel_prime n p /\ Qeq (Qmult q (inject_Z n)) (inject_Z m).

(** Divisors are powers of [p], bases are prime to [p], and each division takes out factors [p] that are there. *)
Fixpoint tame (p : Z) (e : cnt) : Prop :=
  match e with
  | I _ => True
  | Add l r | Mul l r => tame p l /\ tame p r
  | Div n d => tame p n /\ (exists k, 0 <= k /\ d = p ^ k) /\ exists q, val n q /\ local p (Qdiv q (inject_Z d))
  | Exp b e => tame p e /\ rel_prime b p
  end.

(** No division occurs. *)
Fixpoint undivided (e : cnt) : Prop :=
  match e with
  | I _ => True
  | Add l r | Mul l r => undivided l /\ undivided r
  | Div _ _ => False
  | Exp _ e => undivided e
  end.

(** Floating point roots and logarithms of bases are right: when the root of [b] counts as integral it is an
    integer [r], and [b] is the power of [r] that the logarithm says. *)
Definition exact_roots (fl : floats) : Prop :=
  forall b r, 1 < b -> fl_root fl b = Some r -> 0 <= fl_log fl b r /\ b = r ^ fl_log fl b r.
(** The test for powers of two is right. *)
Definition exact_log2 (fl : floats) : Prop :=
  forall m k, 0 < m -> fl_pow2 fl m = Some k -> 0 <= k /\ m = 2 ^ k.

(** ** Remainders *)

(** [p] is the multiplicative order of [b] modulo [m]. *)
Definition order (b m p : Z) : Prop :=
  0 < p /\ b ^ p mod m = 1 /\ forall j, 0 < j < p -> b ^ j mod m <> 1.

(** To find a power of [b] modulo [m] one may need the exponent modulo [m']. *)
Definition asks (b m m' : Z) : Prop :=
  0 < m' /\ (m' = 2 \/ order b m m' \/ (b = 2 /\ m' = m / 3) \/ (b = 3 /\ 4 * m' = m)).

(** The remainder by [m] can be found without powers of 2 modulo 30 and powers of 3 modulo 4. *)
Fixpoint safe (e : cnt) (m : Z) : Prop :=
  match e with
  | I _ => True
  | Add l r | Mul l r => safe l m /\ safe r m
  | Div n d => safe n (m * d)
  | Exp b e => ~ (b = 2 /\ m = 30) /\ ~ (b = 3 /\ m = 4) /\ forall m', asks b m m' -> safe e m'
  end.

(** ** Towers *)

(** [e] is a tower of powers of [b] with value [z]; ints in it are at most [lim], and all powers exceed [lim]. *)
Fixpoint tower (b lim : Z) (e : cnt) (z : Z) : Prop :=
  match e with
  | I y => z = y /\ y <= lim
  | Exp b' e => b' = b /\ exists y, tower b lim e y /\ 0 <= y /\ z = b ^ y /\ lim < z
  | _ => False
  end.

(** ** Numbers out of reach of small ints *)

(** [e] denotes [z].  Ints that are summands are less than [lim] in absolute value; sums, quotients, powers and products are not,
    the second summand is no int, and the second factor is positive. *)
Fixpoint sized (lim : Z) (e : cnt) (z : Z) : Prop :=
  match e with
  | I y => z = y /\ Z.abs y < lim
  | Add l r => exists a b, sized lim l a /\ sized lim r b /\ z = a + b /\ is_int r = false /\ lim <= Z.abs z
  | Mul l r => exists a b, ((exists y, l = I y /\ a = y) \/ sized lim l a) /\ zval r b /\ 0 < b /\ z = a * b /\ lim <= Z.abs z
  | Div n d => 0 < d /\ sized lim n (z * d) /\ lim <= Z.abs z
  | Exp b e => zval (Exp b e) z /\ lim <= z
  end.

(** An instance of the floating point functions: exact square roots and logarithms. *)
Definition two3 (m : Z) : bool :=
  existsb (fun k => m =? 2 * 3 ^ Z.of_nat k) (seq 0 60).
Fixpoint floor_log (fuel : nat) (b r : Z) : Z :=
  match fuel with
  | O => 0
  | S fuel => if b <? r then 0 else 1 + floor_log fuel (b / r) r
  end.
Definition exact_fl : floats :=
  Floats (fun b => if Z.sqrt b * Z.sqrt b =? b then Some (Z.sqrt b) else None)
         (fun b r => floor_log (Z.to_nat (Z.log2 b) + 1) b r)
         two3
         (fun m => if 2 ^ Z.log2 m =? m then Some (Z.log2 m) else None).
