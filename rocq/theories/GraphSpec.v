(** * The transition graph of a machine *)
From Verif Require Import Base TM.

(** Some instruction of state [s] goes to state [t]. *)
Definition edge (M : program) (s t : Z) : Prop := exists c pr sh, M s c = Some (pr, sh, t).

(** From [s] one gets to [t] by one or more transitions, each to another state. *)
Inductive reaches (M : program) (s : Z) : Z -> Prop :=
  | reaches_one t : edge M s t -> t <> s -> reaches M s t
  | reaches_more u t : reaches M s u -> edge M u t -> t <> u -> reaches M s t.

(** Every state below [S] can leave to another one, and the last can get back to the first. *)
Definition connected (M : program) (S : Z) : Prop :=
  (forall s, 0 <= s < S -> exists t, t <> s /\ edge M s t) /\ reaches M (S - 1) 0.

(** The transitions stay within the states below [S]. *)
Definition closed (M : program) (S : Z) : Prop := forall s t, edge M s t -> 0 <= s < S /\ 0 <= t < S.

(** [pick] chooses among the elements of a set that is not empty. *)
Definition picks (pick : nat -> list Z -> Z) : Prop := forall k l, l <> [] -> In (pick k l) l.

(** [r] has a state [s] with an arrow to [t]. *)
Definition arrow (r : list (Z * list Z)) (s t : Z) : Prop := exists xs, In (s, xs) r /\ In t xs.

(** No arrow dangles or is reflexive; every state has at least two exits; a state that has an entry
    has another one. *)
Definition irreducible_graph (r : list (Z * list Z)) : Prop :=
  NoDup (map fst r) /\
  (forall s t, arrow r s t -> In t (map fst r) /\ t <> s) /\
  (forall s xs, In (s, xs) r -> NoDup xs /\ (2 <= length xs)%nat) /\
  (forall s t, arrow r s t -> exists s', s' <> s /\ arrow r s' t).

(** ** Positions in a table *)

(** The instruction at row [s], column [c] goes to [t]. *)
Definition goes (M : program) (s c t : Z) : Prop := exists pr sh, M s c = Some (pr, sh, t).
(** [s', c'] is read before [s, c]. *)
Definition before (s' c' s c : Z) : Prop := s' < s \/ (s' = s /\ c' < c).
(** Read row by row, the states below [n] other than the first are mentioned, each for the first time after all
    smaller ones. *)
Definition appear_in_order (M : program) (n : Z) : Prop :=
  forall t, 1 <= t < n -> exists s c, goes M s c t /\ forall s' c' t', before s' c' s c -> goes M s' c' t' -> t' < t.

(** Exactly [k] things satisfy [P]. *)
Definition exactly (k : nat) (P : Z -> Prop) : Prop := exists l, NoDup l /\ length l = k /\ forall x, In x l <-> P x.

(** Every state below [n] can go to two others, and no state is entered from exactly one other. *)
Definition tight (M : program) (n : Z) : Prop :=
  (forall s, 0 <= s < n -> exists t t', t <> t' /\ t <> s /\ t' <> s /\ edge M s t /\ edge M s t') /\
  (forall s t, edge M s t -> s <> t -> exists s', s' <> s /\ s' <> t /\ edge M s' t).
