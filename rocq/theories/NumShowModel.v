(** * Model of printing symbolic numbers, tm/num.py

    A text is its list of code points. *)
From Coq Require String Ascii.
From Verif Require Import Base NumModel.
Export String.StringSyntax.
Local Open Scope string_scope.

(** A text in quotes as code points; notation only, for the texts of tm/num.py 172-173, 375-379, 673-674, 841-842, 2250-2256. *)
Fixpoint quoted (s : String.string) : list Z :=
  match s with String.EmptyString => [] | String.String a s' => Z.of_nat (Ascii.nat_of_ascii a) :: quoted s' end.

(** Decimal digits of a number that is not negative, in front of [acc]; part of [str] of an int, tm/num.py 173, 379, 674,
    842, 2258.  [fuel] is at least the number of digits. *)
Fixpoint decimal (fuel : nat) (n : Z) (acc : list Z) : list Z :=
  match fuel with
  | O => acc
  | S fuel =>
    let acc' := (48 + n mod 10) :: acc in
    if n <? 10 then acc' else decimal fuel (n / 10) acc'
  end.
(** [str] of an int, tm/num.py 173, 379, 674, 842, 2258.  Simplified: Python's limit on the number of digits is left out. *)
Definition str_int (n : Z) : list Z :=
  if n <? 0 then 45 :: decimal (S (Z.to_nat (Z.log2 (- n)))) (- n) [] else decimal (S (Z.to_nat (Z.log2 n))) n [].

(** [leaves]: tm/num.py 165, 169, 367, 373, 668, 833, 838; an int counts for one (165, 833, 838). *)
Fixpoint leaves (e : cnt) : Z :=
  match e with
  | I _ => 1
  | Add l r | Mul l r => leaves l + leaves r
  | Div n _ => 1 + leaves n
  | Exp _ x => 1 + leaves x
  end.

(** tm/num.py 2243 *)
Definition TRUNCATE_COUNT : Z := 10 ^ 12.
(** tm/num.py 2245 *)
Definition MAX_LEAVES : Z := 120.

Section Show.
(** [{:.0f}] of log10 of a positive int, tm/num.py 2250-2253.  Floating point is not modelled. *)
Variable order : Z -> Z.

(** tm/num.py 2247-2258 (show_number); [s] is str(num). *)
Definition show_number (num : cnt) (s : list Z) : list Z :=
  match num with
  | I n =>
    if TRUNCATE_COUNT <=? Z.abs n
    then (if n <? 0 then quoted "-" else []) ++ quoted "(~10^" ++ str_int (order (Z.abs n)) ++ quoted ")"
    else s
  | _ => if MAX_LEAVES <? leaves num then quoted "(???)" else s
  end%list.

(** tm/num.py 172-173 (Add.__repr__), 375-379 (Mul), 673-674 (Div), 841-842 (Exp), and [str] of an int. *)
Fixpoint show (e : cnt) : list Z :=
  match e with
  | I n => str_int n
  | Add l r => quoted "(" ++ show_number l (show l) ++ quoted " + " ++ show r ++ quoted ")"
  | Mul l r =>
    if cnt_eqb l (I (-1)) then quoted "-" ++ show r
    else quoted "(" ++ show_number l (show l) ++ quoted " * " ++ show r ++ quoted ")"
  | Div n d => quoted "(" ++ show n ++ quoted " // " ++ str_int d ++ quoted ")"
  | Exp b x => quoted "(" ++ str_int b ++ quoted " ** " ++ show_number x (show x) ++ quoted ")"
  end%list.

End Show.

(** tm/num.py 183-184 (Add.__int__), 390-391 (Mul), 682-683 (Div), 857-858 (Exp).  Simplified: division by zero and powers
    with a negative exponent, which are floats in Python, are [None]. *)
Fixpoint to_int (e : cnt) : option Z :=
  match e with
  | I n => Some n
  | Add l r => match to_int l, to_int r with Some a, Some b => Some (a + b) | _, _ => None end
  | Mul l r => match to_int l, to_int r with Some a, Some b => Some (a * b) | _, _ => None end
  | Div n d => match to_int n with Some a => if d =? 0 then None else Some (a / d) | None => None end
  | Exp b x => match to_int x with Some y => if y <? 0 then None else Some (b ^ y) | None => None end
  end.
