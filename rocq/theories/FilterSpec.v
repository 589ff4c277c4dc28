(** * What the filter of the tree search is for *)
From Verif Require Import Base TM ProgModel GraphSpec ReasonSpec.

(** The program is a table of [fst params] states and [snd params] colours, at least two of each. *)
Definition table_of (params : Z * Z) (p : comp_prog) : Prop :=
  2 <= fst params /\ 2 <= snd params /\ NoDup (map fst p) /\
  forall s c pr sh t, In ((s, c), (pr, sh, t)) p ->
    0 <= s < fst params /\ 0 <= c < snd params /\ 0 <= pr < snd params /\ 0 <= t < fst params.

(** Every slot has its instruction, but one if a halt is looked for; every state is entered, every colour
    but the blank is printed, and with two colours the blank too. *)
Definition complete (params : Z * Z) (halt : bool) (M : program) : Prop :=
  (exists free : list slot, (length free <= if halt then 1 else 0)%nat /\
     forall s c, 0 <= s < fst params -> 0 <= c < snd params -> M s c = None -> In (s, c) free)
  /\ (forall t, 0 <= t < fst params -> exists s c pr sh, M s c = Some (pr, sh, t))
  /\ (forall pr, (if snd params =? 2 then 0 else 1) <= pr < snd params -> exists s c sh t, M s c = Some (pr, sh, t)).

(** The machine moves [n] times from [c] under the instruction it is at: once if this changes the state,
    and otherwise over all the cells of the colour scanned that lie ahead. *)
Definition stretch (M : program) (c : config) (n : nat) : Prop :=
  exists color dir next, M (c_state c) (c_tape c (c_pos c)) = Some (color, dir, next) /\ (1 <= n)%nat
    /\ (next <> c_state c -> n = 1%nat)
    /\ (next = c_state c ->
         let ahead i := c_tape c (if dir : bool then c_pos c + i else c_pos c - i) in
         (forall i, 0 <= i < Z.of_nat n -> ahead i = c_tape c (c_pos c)) /\ ahead (Z.of_nat n) <> c_tape c (c_pos c)).

(** [k] stretches lead from [c] to [e]. *)
Inductive stretches (M : program) : nat -> config -> config -> Prop :=
  | no_stretch c : stretches M 0 c c
  | one_more k c n d e : stretch M c n -> steps M n c = Some d -> stretches M k d e -> stretches M (S k) c e.

(** Within [k] stretches from the blank tape the machine halts or spins out. *)
Definition ends_within (M : program) (k : nat) : Prop :=
  exists j e, (j <= k)%nat /\ stretches M j init e /\ (step M e = None \/ spins_out_from M e).

(** What is looked for never comes. *)
Definition hopeless (halt : bool) (M : program) : Prop := if halt then never_halts M else never_spins_out M.
