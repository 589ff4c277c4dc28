(** * What a macro machine should do, in terms of the base machine *)
From Verif Require Import Base TM ProgModel MacroModel.

(** The base machine given by a lookup: a failing lookup has no instruction. *)
Definition prog_of (look : lookup) : program :=
  fun s c => match look s c with LOk i => Some i | _ => None end.

(** Tuples of [k] colours below [b]. *)
Definition tuple_ok (b : Z) (k : nat) (t : list Z) : Prop :=
  length t = k /\ Forall (fun d => 0 <= d < b) t.

(** The number written in base [b] with the digits of [t], most significant first. *)
Fixpoint number (b acc : Z) (t : list Z) : Z :=
  match t with [] => acc | d :: t => number b (acc * b + d) t end.

(** Declared parameters are honest: states below [S] reading colours below [C] print colours
    below [C] and go to states below [S]. *)
Definition params_ok (look : lookup) (S C : Z) : Prop :=
  forall s c pr sh tr, 0 <= s < S -> 0 <= c < C -> look s c = LOk (pr, sh, tr) ->
    0 <= pr < C /\ 0 <= tr < S.

(** Parameters (states, colours) that fit the program: declared by the user, or counted. *)
Definition honest (p : comp_prog) (ps : Z * Z) : Prop :=
  1 <= fst ps /\ 2 <= snd ps /\ params_ok (dict_lookup p) (fst ps) (snd ps).

(** The cells of the window starting at [off] hold [t]. *)
Definition holds (off : Z) (t : list Z) (tp : Z -> Z) : Prop :=
  forall j, (j < length t)%nat -> tp (off + Z.of_nat j) = nth j t 0.

(** In [n] steps the machine goes from [c] to [d], having worked inside the window of [k] cells
    at [off] all along, and it is now just outside, on the given side. *)
Definition crosses (M : program) (off k : Z) (n : nat) (c d : config) (dir : bool) : Prop :=
  (0 < n)%nat /\ steps M n c = Some d /\
  (forall m c', (m < n)%nat -> steps M m c = Some c' -> off <= c_pos c' < off + k) /\
  c_pos d = (if dir then off + k else off - 1) /\
  (forall p, ~ (off <= p < off + k) -> c_tape d p = c_tape c p).

(** The machine works inside the window until it is in [d], inside the window, where the lookup
    fails with [e]. *)
Definition fails_inside (look : lookup) (off k : Z) (c : config) (e : lres) : Prop :=
  exists n d, steps (prog_of look) n c = Some d /\
    (forall m c', (m <= n)%nat -> steps (prog_of look) m c = Some c' -> off <= c_pos c' < off + k) /\
    look (c_state d) (c_tape d (c_pos d)) = e /\ (forall i, e <> LOk i).

(** The machine runs for ever inside the window. *)
Definition trapped (M : program) (off k : Z) (c : config) : Prop :=
  forall n, exists d, steps M n c = Some d /\ off <= c_pos d < off + k.

(** ** Histories of a macro program

    Lookups by the macro machine, and conversions made by another macro program sharing the
    converter (the converters are shared through the cache of tm/macro.py 68-80). *)
Inductive mop := OpLook (ms mc : Z) | OpConv (t : list Z).

Definition run_op (look : lookup) (l : logic) (m : macro_state_t) (o : mop) : macro_state_t :=
  match o with
  | OpLook ms mc => fst (macro_get look l m ms mc)
  | OpConv t => MS (ms_instrs m) (fst (tape_to_color (lg_colors l) (ms_conv m) t))
  end.

Definition macro_init (l : logic) : macro_state_t := MS [] (conv_init (lg_cells l)).

Definition after (look : lookup) (l : logic) (h : list mop) : macro_state_t :=
  fold_left (run_op look l) h (macro_init l).

(** The result of looking up a slot after a history. *)
Definition result (look : lookup) (l : logic) (h : list mop) (ms mc : Z) : lres :=
  snd (macro_get look l (after look l h) ms mc).

Definition slot_ok (l : logic) (ms mc : Z) : Prop :=
  0 <= ms < lg_macro_states l /\ 0 <= mc < lg_macro_colors l.

Definition op_ok (l : logic) (o : mop) : Prop :=
  match o with
  | OpLook ms mc => slot_ok l ms mc
  | OpConv t => tuple_ok (lg_colors l) (lg_cells l) t
  end.

Definition logic_ok (l : logic) : Prop :=
  1 <= lg_states l /\ 1 <= lg_colors l /\ (lg_kind l = Block -> (1 <= lg_cells l)%nat).

(** A macro state or colour which the macro machine can have met: 0, or the result of a lookup. *)
Definition seen_state (look : lookup) (l : logic) (h : list mop) (ms : Z) : Prop :=
  ms = 0 \/ exists h1 ms1 mc1 h2 pr sh, h = h1 ++ OpLook ms1 mc1 :: h2 /\
    result look l h1 ms1 mc1 = LOk (pr, sh, ms).
Definition seen_color (look : lookup) (l : logic) (h : list mop) (mc : Z) : Prop :=
  mc = 0 \/ exists h1 ms1 mc1 h2 sh tr, h = h1 ++ OpLook ms1 mc1 :: h2 /\
    result look l h1 ms1 mc1 = LOk (mc, sh, tr).

(** ** The base situation a macro slot stands for

    [base_at] says: in base configuration [c] the window of [length t] cells at [off] holds
    [t], and the head stands at its right end (if [redge]) or left end in state [s]. *)
Definition base_at (s : Z) (redge : bool) (off : Z) (t : list Z) (c : config) : Prop :=
  c_state c = s /\ c_pos c = (if redge then off + Z.of_nat (length t) - 1 else off) /\ holds off t (c_tape c).

(** ** Running the macro machine *)
Inductive mrun :=
  | MGo (m : macro_state_t) (c : config)
  | MStop (e : lres).

Definition mstep (look : lookup) (l : logic) (r : mrun) : mrun :=
  match r with
  | MStop e => MStop e
  | MGo m c =>
      match macro_get look l m (c_state c) (c_tape c (c_pos c)) with
      | (m, LOk (pr, sh, tr)) => MGo m (Cfg tr (move sh (c_pos c)) (write (c_tape c) (c_pos c) pr))
      | (_, e) => MStop e
      end
  end.

Fixpoint msteps (look : lookup) (l : logic) (n : nat) (r : mrun) : mrun :=
  match n with O => r | S n => msteps look l n (mstep look l r) end.

(** Block macros: cell [q] of the macro tape is the block of base cells from [k * q]. *)
Definition block_decodes (C : Z) (k : nat) (mc bc : config) : Prop :=
  c_state bc = c_state mc / 2 /\
  c_pos bc = Z.of_nat k * c_pos mc + (if c_state mc mod 2 =? 1 then Z.of_nat k - 1 else 0) /\
  forall q, exists t, tuple_ok C k t /\ number C 0 t = c_tape mc q /\ holds (Z.of_nat k * q) t (c_tape bc).

(** Backsymbol macros: the macro state holds the [k] base cells behind the head; the macro tape
    is the rest of the base tape, mirrored. *)
Definition back_decodes (C : Z) (k : nat) (mc bc : config) : Prop :=
  let st_co := c_state mc / 2 in
  let at_right := c_state mc mod 2 =? 1 in
  c_state bc = st_co / C ^ Z.of_nat k /\
  exists t, tuple_ok C k t /\ number C 0 t = st_co mod C ^ Z.of_nat k /\
    (if at_right
     then holds (c_pos bc + 1) t (c_tape bc) /\
          (forall i, 0 <= i -> c_tape bc (c_pos bc - i) = c_tape mc (c_pos mc + i)) /\
          (forall i, 1 <= i -> c_tape bc (c_pos bc + Z.of_nat k + i) = c_tape mc (c_pos mc - i))
     else holds (c_pos bc - Z.of_nat k) t (c_tape bc) /\
          (forall i, 0 <= i -> c_tape bc (c_pos bc + i) = c_tape mc (c_pos mc - i)) /\
          (forall i, 1 <= i -> c_tape bc (c_pos bc - Z.of_nat k - i) = c_tape mc (c_pos mc + i))).

Definition decodes (l : logic) (mc bc : config) : Prop :=
  match lg_kind l with
  | Block => block_decodes (lg_colors l) (lg_cells l) mc bc
  | Backsymbol => back_decodes (lg_colors l) (lg_cells l) mc bc
  end.

(** ** Histories of conversions through one converter *)
Definition conv_after (b : Z) (k : nat) (ts : list (list Z)) : converter :=
  fold_left (fun cv t => fst (tape_to_color b cv t)) ts (conv_init k).
