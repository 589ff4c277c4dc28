(** * Model of tm/num.py 1180-1181: powers of symbolic powers *)
From Verif Require Import Base NumModel.

(** tm/num.py 1180-1181 (Exp.__pow__): [(base ** exp) ** other]. *)
Definition exp_pow (fl : floats) (o : ops) (base : Z) (exp other : cnt) : res cnt :=
  x <- o_mul o exp other; make_exp fl o base x.
