(** * Specification for PastConfigs: which cycles count as recorded for a state *)
From Verif Require Import Base PastModel.

(** Cycles recorded for [s], oldest first, after the calls [cs] (given newest first).  A state
    seen for the first time, or again after a deletion, is recorded twice by its first call. *)
Fixpoint events (s0 c0 s : Z) (cs : list pcall) : list Z :=
  match cs with
  | [] => if s0 =? s then [c0] else []
  | CDelete s' :: cs => if s' =? s then [] else events s0 c0 s cs
  | CNext s' c :: cs =>
      let old := events s0 c0 s cs in
      if s' =? s then match old with [] => [c; c] | _ => old ++ [c] end else old
  end.

(** The last five cycles and the three predicted ones follow one recurrence
    x' = i * x + p, where p grows by a constant from one to the next. *)
Definition extrapolates (e d c b a d1 d2 d3 : Z) : Prop :=
  exists i p q, 1 <= i <= 4
    /\ d = i * e + p /\ c = i * d + (p + q) /\ b = i * c + (p + 2 * q) /\ a = i * b + (p + 3 * q)
    /\ a + d1 = i * a + (p + 4 * q)
    /\ a + d1 + d2 = i * (a + d1) + (p + 5 * q)
    /\ a + d1 + d2 + d3 = i * (a + d1 + d2) + (p + 6 * q).
