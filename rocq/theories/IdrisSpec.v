(** * Specification: what the tapes and machines of idris/ are to do *)
From Verif Require Import Base TM IdrisModel.

(** The textbook machine of a program: A is 1 there and 0 here, and the halting state, 0 there, is -1
    here and has no instructions. *)
Definition machine_of_idris (P : iprogram) : program := fun s c =>
  if s =? -1 then None else let '(cx, dir, next) := P (s + 1) c in Some (cx, dir, next - 1).

(** All colours that the program prints are decimal digits. *)
Definition prints_digits (P : iprogram) : Prop := forall s c, let '(cx, _, _) := P s c in 0 <= cx < 10.

(** The place [i] cells away in the direction. *)
Definition toward (dir : bool) (i : Z) : Z := if dir then i else - i.

(** The cells around the head, [f] before and [g] after [k] moves in the direction which print [cx] each time. *)
Definition moved (dir : bool) (k : nat) (cx : Z) (f g : Z -> Z) : Prop :=
  forall i, g i = if dir then (if (0 <=? i + Z.of_nat k) && (i <? 0) then cx else f (i + Z.of_nat k))
                  else (if (i - Z.of_nat k <=? 0) && (0 <? i) then cx else f (i - Z.of_nat k)).

(** All cells at the head and in the direction are blank. *)
Definition blank_toward (f : Z -> Z) (dir : bool) : Prop := forall i, 0 <= i -> f (toward dir i) = 0.

(** The tape is a tape: read through [cell], which gives the cells around the head, it is blank at first; it shows the
    scanned cell; a side said to be an edge is blank; a step is one move; a skip is as many moves as it says,
    all made on the scanned colour; [blank] and [marks] are right.  [ok] holds of all tapes that come up. *)
Definition tape_right {T} (o : tape_ops T) (good : Z -> Prop) (ok : T -> Prop) (cell : T -> Z -> Z) : Prop :=
  (ok (tp_init o) /\ forall i, cell (tp_init o) i = 0)
  /\ (forall t, ok t -> fst (tp_read o t) = cell t 0
        /\ forall dir, snd (tp_read o t) = Some dir -> blank_toward (cell t) dir)
  /\ (forall t dir cx, ok t -> good cx ->
        fst (tp_step o dir t cx) = 1%nat /\ ok (snd (tp_step o dir t cx))
        /\ moved dir 1 cx (cell t) (cell (snd (tp_step o dir t cx))))
  /\ (forall t dir cx k t', ok t -> good cx -> tp_skip o dir t cx = Some (k, t') ->
        (1 <= k)%nat /\ ok t' /\ moved dir k cx (cell t) (cell t')
        /\ (forall i, 0 <= i < Z.of_nat k -> cell t (toward dir i) = cell t 0)
        /\ (t = tp_init o -> k = 1%nat))
  /\ (forall t, ok t -> (tp_blank o t = true <-> forall i, cell t i = 0))
  /\ (forall t, ok t -> marks_are (cell t) (Z.of_nat (tp_marks o t))).

(** Moreover each blank edge is seen, the left one first, and a skip returns, having gone over all cells of the scanned
    colour, if there is an end to them. *)
Definition tape_sharp {T} (o : tape_ops T) (good : Z -> Prop) (ok : T -> Prop) (cell : T -> Z -> Z) : Prop :=
  (forall t, ok t -> blank_toward (cell t) false -> snd (tp_read o t) = Some false)
  /\ (forall t, ok t -> ~ blank_toward (cell t) false -> blank_toward (cell t) true -> snd (tp_read o t) = Some true)
  /\ (forall t dir cx, ok t -> good cx -> exists k t', tp_skip o dir t cx = Some (k, t')
        /\ (~ blank_toward (cell t) dir -> cell t (toward dir (Z.of_nat k)) <> cell t 0)).

(** ** How each tape is read *)

(** A scanned cell between two spans, each read from the head outwards. *)
Definition around {A} (den : A -> nat -> Z) (t : scan_n_span A) (i : Z) : Z :=
  let '(l, c, r) := t in
  if i =? 0 then c else if 0 <? i then den r (Z.to_nat (i - 1)) else den l (Z.to_nat (- i - 1)).
Definition both {A} (ok : A -> Prop) (t : scan_n_span A) : Prop := let '(l, _, r) := t in ok l /\ ok r.

(** A list of cells. *)
Definition cells_den (s : list Z) (n : nat) : Z := nth n s 0.
(** A list of blocks: so many cells of a colour. *)
Definition blocks_den (s : list (Z * nat)) (n : nat) : Z := nth n (flat_map (fun b => repeat (fst b) (snd b)) s) 0.
(** Colours and counts apart. *)
Definition split_den (s : list Z * list nat) (n : nat) : Z := blocks_den (combine (fst s) (snd s)) n.
(** Decimal digits. *)
Definition num_den (z : Z) (n : nat) : Z := (z / 10 ^ Z.of_nat n) mod 10.
(** A list of cells with the place of the head. *)
Definition ptr_cell (t : nat * list Z) (i : Z) : Z :=
  let j := Z.of_nat (fst t) + i in if j <? 0 then 0 else nth (Z.to_nat j) (snd t) 0.

(** Blocks are not empty, and neighbours differ. *)
Fixpoint blocks_ok (s : list (Z * nat)) : Prop :=
  match s with
  | [] => True
  | (c, n) :: s' => (1 <= n)%nat /\ match s' with [] => True | (c', _) :: _ => c <> c' end /\ blocks_ok s'
  end.
Definition split_ok (s : list Z * list nat) : Prop :=
  length (fst s) = length (snd s) /\ blocks_ok (combine (fst s) (snd s)).
Definition ptr_ok (t : nat * list Z) : Prop := (fst t < length (snd t))%nat.
Definition digit (c : Z) : Prop := 0 <= c < 10.
Definition any_color (c : Z) : Prop := True.

(** ** Runs *)

(** The report of a run: the machine makes so many moves and then has stopped, for the first time, or its tape
    is blank, for the first time since the start, or it spins out; and so many marks are on the tape. *)
Definition run_truth (M : program) (steps_ marks : nat) : Prop :=
  exists c, steps M steps_ init = Some c /\ marks_are (c_tape c) (Z.of_nat marks)
  /\ (forall j d, (1 <= j < steps_)%nat -> steps M j init = Some d -> ~ is_blank d)
  /\ (c_state c = -1 \/ (is_blank c /\ (1 <= steps_)%nat) \/ (spins_out_from M c /\ never_halts M)).

(** Tapes found equal have the same cells around the head. *)
Definition eqb_right {T} (o : tape_ops T) (ok : T -> Prop) (cell : T -> Z -> Z) : Prop :=
  forall t u, ok t -> ok u -> tp_eqb o t u = true -> forall i, cell t i = cell u i.

(** The machine comes to a configuration from which it spins out, or to which it comes again, perhaps elsewhere on
    the tape. *)
Definition recurs (M : program) : Prop :=
  exists n c, steps M n init = Some c
  /\ (spins_out_from M c \/ exists p k d, (1 <= p)%nat /\ steps M p c = Some d /\ shifted k c d).

(** The machine comes to its halting state. *)
Definition stops (M : program) : Prop := exists n c, steps M n init = Some c /\ c_state c = -1.
