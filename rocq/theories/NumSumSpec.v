(** * Towers with a small int added *)
From Verif Require Import Base NumModel NumSpec.
Local Open Scope Z_scope.

(** [e] is an int, a tower of powers of [b], or a tower with an int added, with value [z]; ints are less than a quarter
    of [lim] in absolute value, and all powers exceed [lim]. *)
Definition near_tower (b lim : Z) (e : cnt) (z : Z) : Prop :=
  match e with
  | I y => z = y /\ 4 * Z.abs y < lim
  | Exp _ _ => tower b lim e z
  | Add (I k) (Exp b' e') => 4 * Z.abs k < lim /\ exists y, tower b lim (Exp b' e') y /\ z = k + y
  | _ => False
  end.
