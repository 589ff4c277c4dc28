(** * Renamed and mirrored machines *)
From Verif Require Import Base TM TMFacts ProgModel ParseModel ParseSpec NormModel.

(** Exchange two names. *)
Definition sw (a b x : Z) : Z := if x =? a then b else if x =? b then a else x.

(** A renaming that keeps 0 (the start state, the blank). *)
Definition bij0 (f : Z -> Z) : Prop :=
  f 0 = 0 /\ exists f', (forall x, f' (f x) = x) /\ (forall x, f (f' x) = x).

(** [M'] performs the run of [M] from blank with states renamed by [f], colours by [g], and left and
    right exchanged if [mirror]: at every moment both are running or both have stopped, in
    corresponding configurations. *)
Definition same_run (f g : Z -> Z) (mirror : bool) (M M' : program) : Prop :=
  forall n, match steps M n init, steps M' n init with
            | Some c, Some c' =>
                c_state c' = f (c_state c) /\
                c_pos c' = (if mirror then - c_pos c else c_pos c) /\
                forall p, c_tape c' (if mirror then - p else p) = g (c_tape c p)
            | None, None => True
            | _, _ => False
            end.

(** Some renaming and possibly a mirror image. *)
Definition behaves_like (M M' : program) : Prop :=
  exists f g mirror, bij0 f /\ bij0 g /\ same_run f g mirror M M'.

(** The dict is a table of [S] rows of [C] columns. *)
Definition table_shape (n : nprog) (S C : nat) : Prop :=
  map fst n = map Z.of_nat (seq 0 S) /\ Forall (fun e => map fst (snd e) = map Z.of_nat (seq 0 C)) n.

(** The table of a program in which nothing is to be cut or cinched: the first instruction prints
    a mark, every row and every column has an instruction, every state but the first is entered. *)
Definition full_table (M : program) (S C : Z) : Prop :=
  (exists pr sh tr, M 0 0 = Some (pr, sh, tr) /\ pr <> 0) /\
  (forall s, 0 <= s < S -> exists c i, 0 <= c < C /\ M s c = Some i) /\
  (forall c, 0 <= c < C -> exists s i, 0 <= s < S /\ M s c = Some i) /\
  (forall t, 1 <= t < S -> exists s c pr sh, 0 <= s < S /\ 0 <= c < C /\ M s c = Some (pr, sh, t)).

(** The machine of a parsed table. *)
Definition table_machine (g : list (list (option instr))) : program := fun s c => table_get g (s, c).

(** In the run from blank no state is entered before the state numbered one below it. *)
Definition states_in_order (M : program) : Prop :=
  forall n c, steps M n init = Some c -> 1 <= c_state c ->
  exists m c', (m < n)%nat /\ steps M m init = Some c' /\ c_state c' = c_state c - 1.

(** ... and no colour is scanned before the colour numbered one below it. *)
Definition colors_in_order (M : program) : Prop :=
  forall n c, steps M n init = Some c -> 1 <= c_tape c (c_pos c) ->
  exists m c', (m < n)%nat /\ steps M m init = Some c' /\ c_tape c' (c_pos c') = c_tape c (c_pos c) - 1.

(** A Coq string as code points. *)
From Coq Require String Ascii.
Fixpoint text_of (s : String.string) : text :=
  match s with
  | String.EmptyString => []
  | String.String c s => Z.of_nat (Ascii.nat_of_ascii c) :: text_of s
  end.
Export String.StringSyntax.
Arguments text_of s%string_scope.
