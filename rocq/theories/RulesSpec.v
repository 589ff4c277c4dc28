(** * Specification: what applying a rule once, and repeatedly, means *)
From Verif Require Import Base TapeModel RulesModel.

(** The effect of one operation on one count. *)
Definition bump_op (o : op) (x : Z) : Z :=
  match o with Plus d => x + d | Mult m a => m * x + a end.

Fixpoint rule_at (r : rule) (i : index) : option op :=
  match r with
  | [] => None
  | (j, o) :: r => if index_eqb j i then Some o else rule_at r i
  end.

(** One application of a rule to all counts at once. *)
Definition bump (r : rule) (counts : index -> option Z) : index -> option Z :=
  fun i => match rule_at r i with
           | Some o => option_map (bump_op o) (counts i)
           | None => counts i
           end.

Definition bump_n (r : rule) (n : nat) (counts : index -> option Z) : index -> option Z :=
  Nat.iter n (bump r) counts.

(** Each position is mentioned once (a dict). *)
Definition distinct (r : rule) : Prop := NoDup (map fst r).

(** Each position mentioned exists on the tape and has a positive count. *)
Definition addressed (r : rule) (t : tape) : Prop :=
  forall i o, In (i, o) r -> exists n, get_count t i = Some n /\ 1 <= n.

(** Same blocks, only counts may differ. *)
Definition same_shape (t t' : tape) : Prop :=
  t_scan t = t_scan t' /\ map b_color (t_lspan t) = map b_color (t_lspan t')
  /\ map b_color (t_rspan t) = map b_color (t_rspan t').

(** A decreasing entry that cannot be applied even once without dropping below 1. *)
Definition blocked (r : rule) (t : tape) : Prop :=
  exists i d n, In (i, Plus d) r /\ d < 0 /\ get_count t i = Some n /\ n + d < 1.

Definition nothing_decreases (r : rule) : Prop := forall i d, In (i, Plus d) r -> 0 <= d.

(** The four recorded counts at one position. *)
Definition counts_at (k : counts_t) (i : index) : option Z :=
  nth_error (if fst i then snd k else fst k) (snd i).
Definition recorded (k1 k2 k3 k4 : counts_t) (i : index) (a b c d : Z) : Prop :=
  counts_at k1 i = Some a /\ counts_at k2 i = Some b /\ counts_at k3 i = Some c /\ counts_at k4 i = Some d.

(** The operation turns each recorded count into the next. *)
Definition explains (o : op) (a b c d : Z) : Prop :=
  bump_op o a = b /\ bump_op o b = c /\ bump_op o c = d.
