(** * What rules over symbolic counts should mean *)
From Coq Require Import QArith Qpower Znumtheory.
From Verif Require Import Base RulesModel NumModel NumSpec SymModel.
Local Open Scope Z_scope.

(** One operation takes the value [x] to the value [y]: quotients come out even (in the rationals), and [~ v] is the
    logarithm to base [v]. *)
Definition op_means (op : opn * Z) (x y : Q) : Prop :=
  let v := inject_Z (snd op) in
  match fst op with
  | OAdd => Qeq y (x + v)
  | OMul => Qeq y (x * v)
  | ODiv => Qeq (y * v) x
  | OPow => exists z, Qeq x (inject_Z z) /\ Qeq y (Qpower v z)
  | OLog => exists z, Qeq x (Qpower v z) /\ Qeq y (inject_Z z)
  end.
Fixpoint ops_mean (ops : opseq) (x y : Q) : Prop :=
  match ops with
  | [] => Qeq y x
  | op :: ops => exists u, op_means op x u /\ ops_mean ops u y
  end.
Fixpoint times_mean (n : nat) (ops : opseq) (x y : Q) : Prop :=
  match n with
  | O => Qeq y x
  | S n => exists u, ops_mean ops x u /\ times_mean n ops u y
  end.

(** The operations over one prime: quotients by its powers, powers and logarithms to bases prime to it. *)
Definition op_over (p : Z) (op : opn * Z) : Prop :=
  match fst op with
  | ODiv => exists k, 0 <= k /\ snd op = p ^ k
  | OPow | OLog => rel_prime (snd op) p
  | _ => True
  end.

(** Where an operation is not what it should be: the logarithm of a power of another base, a quotient that does not
    come out even, or an exponent that is not an integer. *)
Definition stumbles (p : Z) (op : opn * Z) (c : cnt) : Prop :=
  match fst op with
  | OLog => exists b e, c = Exp b e /\ b <> snd op
  | ODiv => exists q, val c q /\ ~ local p (q / inject_Z (snd op))
  | OPow => exists q, val c q /\ forall z, ~ Qeq q (inject_Z z)
  | _ => False
  end.

(** The effect of a sum or a product with a sum on an integer. *)
Definition bump_sop (op : sop) (z : Z) : Z :=
  match op with SPlus d => z + d | SMult m a => m * z + a | SOps _ => z end.

(** The rules considered: sums, the negative ones by powers of [p]; products by [1 + p ^ j]. *)
Definition sop_over (p : Z) (op : sop) : Prop :=
  match op with
  | SPlus d => d < 0 -> exists k, 0 <= k /\ - d = p ^ k
  | SMult m a => rel_prime m p /\ exists j, 0 <= j /\ m = 1 + p ^ j
  | SOps _ => False
  end.
Definition decreases (op : sop) : Prop := match op with SPlus d => d < 0 | _ => False end.

(** The count at [i] is a positive integer [z], written over [p]; if it decreases its remainder can be found. *)
Definition counted (p : Z) (t : scounts) (i : index) (op : sop) (z : Z) : Prop :=
  exists c, sget t i = Some c /\ tame p c /\ zval c z /\ 1 <= z
    /\ match op with SPlus d => d < 0 -> safe c (- d) | _ => True end.

(** The counts recorded at [i] in four runs. *)
Definition srecorded (k1 k2 k3 k4 : scounts) (i : index) (c1 c2 c3 c4 : cnt) : Prop :=
  let at_ (k : scounts) := nth_error (if fst i then snd k else fst k) (snd i) in
  at_ k1 = Some c1 /\ at_ k2 = Some c2 /\ at_ k3 = Some c3 /\ at_ k4 = Some c4.
