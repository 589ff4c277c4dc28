(** * Specification: rules that are laws of a machine *)
From Verif Require Import Base TM ProgModel TapeModel TapeSpec RulesModel RulesSpec ProverModel.

(** The machine gets from the one tape to the other, back in the same state, in [least] moves or more. *)
Definition leads (least : nat) (M : program) (state : Z) (t t' : tape) : Prop :=
  forall c, represents t c -> c_state c = state ->
  exists n c', (least <= n)%nat /\ steps M n c = Some c' /\ c_state c' = state /\ represents t' c'.

(** [t'] is [t] with the counts as they are after applying the rule [k] times. *)
Definition after (r : rule) (k : nat) (t t' : tape) : Prop :=
  same_shape t t' /\ forall i, get_count t' i = bump_n r k (get_count t) i.

(** From [t] on, and as long as no count would drop below one, each application of the rule is
    something that the machine does. *)
Definition law (M : program) (state : Z) (r : rule) (t : tape) : Prop :=
  forall k t1 t2, after r k t t1 -> wf_tape t1 -> ~ blocked r t1 -> after r (S k) t t2 ->
  wf_tape t2 /\ leads 1 M state t1 t2.

(** The tape is one of those that a recorded signature speaks of: the same scanned colour, and on each
    side the same blocks from the head on (up to the edge if the signature says so), where it
    matters whether a block is a single cell. *)
Definition covers (ms : minsig) (t : tape) : Prop :=
  let '(Sig scan l r, (lex, rex)) := ms in
  scan = t_scan t
  /\ (exists rest, sg_l (t_signature t) = l ++ rest /\ (lex = true -> rest = []))
  /\ (exists rest, sg_r (t_signature t) = r ++ rest /\ (rex = true -> rest = [])).

(** The prover holds the rule for the state and scanned colour, with the signature. *)
Definition holds_rule (pv : prover) (s : slot) (ms : minsig) (r : rule) : Prop :=
  exists v, In (s, v) (pv_rules pv) /\ In (ms, r) v.

(** All rules that the prover holds are laws wherever they may be used. *)
Definition lawful (M : program) (pv : prover) : Prop :=
  forall state scan ms r t, holds_rule pv (state, scan) ms r -> covers ms t -> canon t -> law M state r t.

(** What is seen of a tape that grows: the machine gets from [t] through three more tapes, each
    time in the same state, with the blocks of [t] still there, and the rule, in which nothing decreases,
    says how the counts changed (from the third to the fourth at least that none decreased). *)
Definition grows (M : program) (state : Z) (t : tape) (r : rule) : Prop :=
  nothing_decreases r /\
  exists t1 t2 t3, leads 0 M state t t1 /\ leads 0 M state t1 t2 /\ leads 0 M state t2 t3
  /\ (forall u, u = t1 \/ u = t2 \/ u = t3 ->
        t_scan u = t_scan t
        /\ (exists rest, map b_color (t_lspan u) = map b_color (t_lspan t) ++ rest)
        /\ (exists rest, map b_color (t_rspan u) = map b_color (t_rspan t) ++ rest))
  /\ forall i a, get_count t i = Some a ->
       exists b c d, get_count t1 i = Some b /\ get_count t2 i = Some c /\ get_count t3 i = Some d
       /\ Some b = bump r (get_count t) i /\ Some c = bump r (get_count t1) i
       /\ a <= b /\ b <= c /\ c <= d.

(** The machine, started on the blank tape, makes [k] moves. *)
Definition lasts (M : program) (k : Z) : Prop := forall n, Z.of_nat n <= k -> exists c, steps M n init = Some c.

(** At most one count goes down. *)
Definition one_goes_down (r : rule) : Prop :=
  forall i d j e, In (i, Plus d) r -> In (j, Plus e) r -> d < 0 -> e < 0 -> i = j.
