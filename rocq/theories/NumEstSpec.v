(** * Specification: sizes of numbers *)
From Coq Require Import QArith Qpower.
From Verif Require Import Base NumModel NumEstModel.

(** [size v k w]: |v| is 10 ** k up to [w] half powers of ten: 10 ** (2k - w) <= v ** 2 <= 10 ** (2k + w). *)
Definition size (v k w : Z) : Prop :=
  (Qpower (inject_Z 10) (2 * k - w) <= inject_Z (v * v))%Q /\ (inject_Z (v * v) <= Qpower (inject_Z 10) (2 * k + w))%Q.

(** Logarithms are rounded to the nearest int, those of powers to the nearest or the next. *)
Definition good_logs (ff : log_floats) : Prop :=
  (forall n, 0 < n -> size n (fl_log10 ff n) 1) /\
  (forall b y k, 2 <= b -> 1 <= y -> fl_power ff b y = Some k -> size (b ^ y) k 3).

(** [rough e v w]: the number [e] has the value [v]; all multipliers are positive, or -1; the parts of a sum are both positive, or
    both negative, and an int is not the greater part; divisions come out even; the digits of [e] come about by rounding that adds
    up to [w] halves. *)
Inductive rough : cnt -> Z -> Z -> Prop :=
| rough_exp_int b x : 2 <= b -> 1 <= x -> rough (Exp b (I x)) (b ^ x) 3
| rough_exp b x v w : 2 <= b -> rough x v w -> 1 <= v -> rough (Exp b x) (b ^ v) 3
| rough_mul_int n r v w : 0 < n -> rough r v w -> rough (Mul (I n) r) (n * v) (w + 1)
| rough_neg r v w : rough r v w -> rough (Mul (I (-1)) r) (- v) w
| rough_mul l r a b v w : rough l a v -> rough r b w -> rough (Mul l r) (a * b) (v + w)
| rough_add_int n r v w : Z.abs n <= Z.abs v -> 0 <= n * v -> rough r v w -> rough (Add (I n) r) (n + v) (w + 1)
| rough_add l r a b v w : 0 <= a * b -> rough l a v -> rough r b w -> rough (Add l r) (a + b) (Z.max v w + 1)
| rough_div n d q w : 0 < d -> rough n (q * d) w -> rough (Div n d) q (w + 1).

(** ** Logarithms that are right *)

(** The least [k >= from] with n ** 2 <= 10 ** (2k + 1), within [fuel] tries. *)
Fixpoint nearest (fuel : nat) (from n : Z) : Z :=
  match fuel with
  | O => from
  | S fuel => if n * n <=? 10 ^ (2 * from + 1) then from else nearest fuel (from + 1) n
  end.
Definition log_near (n : Z) : Z := nearest (Z.to_nat (Z.log2 n)) 0 n.
Definition exact_logs : log_floats :=
  LogFloats log_near (fun b y => Some (log_near (b ^ y))) (fun y => 10 <=? y).
