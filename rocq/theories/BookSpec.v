(** * What the rule book of a prover is to answer *)
From Verif Require Import Base TapeModel RulesModel SigSpec.

(** A rule handed to the book: the state it is for, the part of a tape it was seen on, whether the left and the right end of
    that part is the end of the tape, and the rule. *)
Record entry := Entry { e_state : Z; e_seen : tape; e_lend : bool; e_rend : bool; e_rule : rule }.

(** The blocks nearest to the head are like those of the part seen; where its end is the end of the tape, there are no more. *)
Definition begins_like (ends : bool) (s seen : list block) : Prop :=
  exists near far, s = near ++ far /\ Forall2 like_block near seen /\ (ends = true -> far = []).
(** The entry is for a machine in this state on this tape. *)
Definition meant_for (e : entry) (state : Z) (t : tape) : Prop :=
  e_state e = state /\ t_scan t = t_scan (e_seen e)
  /\ begins_like (e_lend e) (t_lspan t) (t_lspan (e_seen e)) /\ begins_like (e_rend e) (t_rspan t) (t_rspan (e_seen e)).
(** The first entry that is meant for state and tape has this rule. *)
Definition first_meant (es : list entry) (state : Z) (t : tape) (r : rule) : Prop :=
  exists before e after, es = before ++ e :: after /\ meant_for e state t /\ e_rule e = r
    /\ forall e', In e' before -> ~ meant_for e' state t.
