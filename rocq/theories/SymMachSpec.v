(** * What a run with symbolic counts should mean *)
From Coq Require Import QArith Znumtheory.
From Verif Require Import Base TM ProgModel TapeModel TapeSpec RulesModel ProverModel LawSpec NumModel NumSpec SymModel SymSpec SymMachModel.
Local Open Scope Z_scope.

(** The tape with the values of its counts. *)
Definition worth_block (b : sblock) (b' : block) : Prop :=
  sb_color b = b_color b' /\ val (sb_count b) (inject_Z (b_count b')).
Definition worth (s : stape) (t : tape) : Prop :=
  Forall2 worth_block (st_l s) (t_lspan t) /\ st_scan s = t_scan t /\ Forall2 worth_block (st_r s) (t_rspan t).

(** A rule without operation sequences, as a rule for integers. *)
Definition entry_is (e : index * sop) (e' : index * op) : Prop :=
  fst e = fst e' /\ match snd e with SPlus d => snd e' = Plus d | SMult m a => snd e' = Mult m a | SOps _ => False end.
Definition rule_is (r : srule) (r' : rule) : Prop := Forall2 entry_is r r'.

(** The prover holds the rule for the state and scanned colour, with the signature. *)
Definition s_holds (pv : sprover) (s : slot) (ms : minsig) (r : srule) : Prop :=
  exists v, In (s, v) (sp_rules pv) /\ In (ms, r) v.

(** All rules held are, as rules for integers, laws wherever they may be used (C55); in each at most one count goes
    down; and they are over the prime (C64). *)
Definition s_lawful (p : Z) (M : program) (pv : sprover) : Prop :=
  forall state scan ms r, s_holds pv (state, scan) ms r ->
    (forall i op, In (i, op) r -> sop_over p op)
    /\ exists r', rule_is r r' /\ one_goes_down r' /\ forall t, covers ms t -> canon t -> law M state r' t.

(** Nothing on the tape is misleading: no expression is worth 1, and in the counts that a rule for this tape is about
    all parts are integers; an expression that goes down is worth more than what is taken off, and its remainder can
    be found. *)
Definition clear (pv : sprover) (s : stape) : Prop :=
  (forall c, In c (fst (s_counts s) ++ snd (s_counts s)) -> is_int c = false -> ~ val c (inject_Z 1))
  /\ forall t slot ms r i op c, worth s t -> s_holds pv slot ms r -> covers ms t ->
       In (i, op) r -> sget (s_counts s) i = Some c ->
       exists z, zval c z /\ match op with
                             | SPlus d => d < 0 -> safe c (- d) /\ (is_int c = false -> - d < z)
                             | _ => True
                             end.

(** The run did not break off in an exception: whatever it did last, it finished doing. *)
Definition fine (e : s_end) : Prop := match e with YLimrul | YErr | YDeep => False | _ => True end.
