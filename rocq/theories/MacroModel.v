(** * Model of tm/macro.py (and the same code in src/macros.rs)

    The program under the macro is a lookup function, which may fail; this covers plain
    programs (a dict) and macros of macros. *)
From Verif Require Import Base TM ProgModel.

(** tm/macro.py 18-19, 117-118: outcome of looking up a slot: an instruction or an exception. *)
Inductive lres :=
  | LOk (i : instr)
  | LKey (s : slot)    (* KeyError: no instruction; the base slot is its argument *)
  | LInf               (* MacroInfLoop *)
  | LAssert.           (* AssertionError of color_to_tape *)

(** tm/macro.py 18-19 (GetInstr). *)
Definition lookup : Type := Z -> Z -> lres.

(** tm/macro.py 31, 198-199: a plain program as a lookup ([comp[slot]] on a dict). *)
Definition dict_lookup (p : comp_prog) : lookup :=
  fun s c => match comp_get p (s, c) with Some i => LOk i | None => LKey (s, c) end.

(** ** TapeColorConverter, tm/macro.py 83-113, src/macros.rs 336-381 *)

(** tm/macro.py 12 (Tape). *)
Definition cells_t : Type := list Z.

(** Equality of tuples, as used by the dict of tm/macro.py 101. *)
Fixpoint cells_eqb (a b : cells_t) : bool :=
  match a, b with
  | [], [] => true
  | x :: a, y :: b => (x =? y) && cells_eqb a b
  | _, _ => false
  end.

(** tm/macro.py 105-108: the sum over the reversed tape, [place] counting up. *)
Fixpoint color_sum (base place : Z) (rtape : cells_t) : Z :=
  match rtape with
  | [] => 0
  | value :: rtape => value * base ^ place + color_sum base (place + 1) rtape
  end.
(** tm/macro.py 104-108, src/macros.rs 366-376. *)
Definition color_of (base : Z) (t : cells_t) : Z := color_sum base 0 (rev t).

(** tm/macro.py 86-87; the dicts are association lists, newest entry first. *)
Record converter := Conv {
  cv_to_tape : list (Z * cells_t);
  cv_to_color : list (cells_t * Z)
}.

(** tm/macro.py 89-93. *)
Definition conv_init (cells : nat) : converter := Conv [(0, repeat 0 cells)] [].

(** Dict lookups of tm/macro.py 96 and 101. *)
Fixpoint tape_get (m : list (Z * cells_t)) (c : Z) : option cells_t :=
  match m with [] => None | (k, v) :: m => if k =? c then Some v else tape_get m c end.
(** Dict lookup of tm/macro.py 101. *)
Fixpoint color_get (m : list (cells_t * Z)) (t : cells_t) : option Z :=
  match m with [] => None | (k, v) :: m => if cells_eqb k t then Some v else color_get m t end.

(** tm/macro.py 95-98: [None] is the AssertionError.  Rust panics instead. *)
Definition color_to_tape (cv : converter) (color : Z) : option cells_t := tape_get (cv_to_tape cv) color.

(** tm/macro.py 100-113; a dict assignment is a new head entry, which shadows older ones. *)
Definition tape_to_color (base : Z) (cv : converter) (t : cells_t) : converter * Z :=
  match color_get (cv_to_color cv) t with
  | Some c => (cv, c)
  | None => let color := color_of base t in
            (Conv ((color, t) :: cv_to_tape cv) ((t, color) :: cv_to_color cv), color)
  end.

(** ** run_simulator, tm/macro.py 188-239, src/macros.rs 150-206 *)

(** [tape[pos]] and [tape[pos] = v] of tm/macro.py 199, 204. *)
Definition cell_at (t : cells_t) (pos : nat) : Z := nth pos t 0.
(** [tape[pos] = v], tm/macro.py 204. *)
Fixpoint set_cell (t : cells_t) (pos : nat) (v : Z) : cells_t :=
  match t, pos with
  | [], _ => []
  | _ :: t, O => v :: t
  | x :: t, S pos => x :: set_cell t pos v
  end.

(** tm/macro.py 198-239: situation inside the window, or having left it (to the right if the flag is set). *)
Inductive wres :=
  | WIn (state : Z) (tape : cells_t) (pos : nat)
  | WOut (state : Z) (right_ : bool) (tape : cells_t)
  | WErr (e : lres).

(** tm/macro.py 217-223: [while tape[pos] == scan] going right; at most [fuel] = remaining
    cells + 1 turns are ever needed. *)
Fixpoint sweep_right (fuel : nat) (state scan color : Z) (tape : cells_t) (pos : nat) : wres :=
  match fuel with
  | O => WIn state tape pos
  | S fuel =>
      if cell_at tape pos =? scan
      then let tape := set_cell tape pos color in
           let pos := S pos in
           if Nat.leb (length tape) pos then WOut state true tape
           else sweep_right fuel state scan color tape pos
      else WIn state tape pos
  end.

(** tm/macro.py 226-232. *)
Fixpoint sweep_left (fuel : nat) (state scan color : Z) (tape : cells_t) (pos : nat) : wres :=
  match fuel with
  | O => WIn state tape pos
  | S fuel =>
      if cell_at tape pos =? scan
      then let tape := set_cell tape pos color in
           match pos with
           | O => WOut state false tape
           | S pos => sweep_left fuel state scan color tape pos
           end
      else WIn state tape pos
  end.

(** tm/macro.py 198-234: the body of the loop, once. *)
Definition sim_step (look : lookup) (state : Z) (tape : cells_t) (pos : nat) : wres :=
  let scan := cell_at tape pos in
  match look state scan with
  | LOk (color, shift, next_state) =>
      if negb (next_state =? state) then
        let tape := set_cell tape pos color in
        if shift
        then if Nat.leb (length tape) (S pos) then WOut next_state true tape
             else WIn next_state tape (S pos)
        else match pos with
             | O => WOut next_state false tape
             | S pos => WIn next_state tape pos
             end
      else if shift
           then sweep_right (length tape) state scan color tape pos
           else sweep_left (length tape) state scan color tape pos
  | e => WErr e
  end.

(** tm/macro.py 197-239: [for _ in range(self.sim_lim)], with MacroInfLoop when exhausted. *)
Fixpoint sim_loop (look : lookup) (fuel : nat) (state : Z) (tape : cells_t) (pos : nat) : wres :=
  match fuel with
  | O => WErr LInf
  | S fuel =>
      match sim_step look state tape pos with
      | WIn state tape pos => sim_loop look fuel state tape pos
      | r => r
      end
  end.

(** tm/macro.py 189-195. *)
Definition run_simulator (look : lookup) (sim_lim : nat) (state : Z) (right_edge : bool) (tape : cells_t) : wres :=
  sim_loop look sim_lim state tape (if right_edge then length tape - 1 else 0).

(** ** The two logics *)

(** tm/macro.py 271, 319. *)
Inductive kind := Block | Backsymbol.

(** tm/macro.py 274-279 and 324-330. *)
Record logic := Logic { lg_kind : kind; lg_cells : nat; lg_states : Z; lg_colors : Z }.

(** tm/macro.py 328. *)
Definition lg_backsymbols (l : logic) : Z := lg_colors l ^ Z.of_nat (lg_cells l).

(** tm/macro.py 281-289, 332-338. *)
Definition lg_macro_states (l : logic) : Z :=
  match lg_kind l with
  | Block => 2 * lg_states l
  | Backsymbol => 2 * lg_states l * lg_backsymbols l
  end.
(** tm/macro.py 285-289, 336-338. *)
Definition lg_macro_colors (l : logic) : Z :=
  match lg_kind l with
  | Block => lg_colors l ^ Z.of_nat (lg_cells l)
  | Backsymbol => lg_colors l
  end.

(** tm/macro.py 291-297, 340-342. *)
Definition lg_sim_lim (l : logic) : Z :=
  match lg_kind l with
  | Block => lg_states l * Z.of_nat (lg_cells l) * lg_macro_colors l
  | Backsymbol => lg_macro_states l * lg_macro_colors l
  end.

(** tm/macro.py 299-307 and 344-357: state, right_edge, tape; [None] is the AssertionError.
    [dec] is the converter's color_to_tape. *)
Definition deconstruct (l : logic) (dec : Z -> option cells_t) (macro_state macro_color : Z)
    : option (Z * (bool * cells_t)) :=
  match lg_kind l with
  | Block =>
      match dec macro_color with
      | None => None
      | Some t => Some (macro_state / 2, (macro_state mod 2 =? 1, t))
      end
  | Backsymbol =>
      let st_co := macro_state / 2 in
      let at_right := macro_state mod 2 in
      match dec (st_co mod lg_backsymbols l) with
      | None => None
      | Some backspan =>
          Some (st_co / lg_backsymbols l,
                (if negb (at_right =? 0) then (false, macro_color :: backspan)
                 else (true, backspan ++ [macro_color])))
      end
  end.

(** tm/macro.py 309-316 and 359-377: the tuple given to tape_to_color, and the instruction
    as a function of the colour it yields. *)
Definition reconstruct (l : logic) (state : Z) (right_ : bool) (tape : cells_t) : cells_t * (Z -> instr) :=
  match lg_kind l with
  | Block => (tape, fun color => (color, right_, 2 * state + (if right_ then 0 else 1)))
  | Backsymbol =>
      let shift := negb right_ in
      let '(out_color, backsymbol) :=
        if shift then (last tape 0, removelast tape) else (hd 0 tape, tl tape) in
      (backsymbol,
       fun color => (out_color, shift, (if shift then 1 else 0) + 2 * (color + state * lg_backsymbols l)))
  end.

(** tm/macro.py 182-186 (calculate_instr) with the converter threaded through. *)
Definition calculate_instr (look : lookup) (l : logic) (cv : converter) (ms mc : Z) : converter * lres :=
  match deconstruct l (color_to_tape cv) ms mc with
  | None => (cv, LAssert)
  | Some (state, (right_edge, tape)) =>
      match run_simulator look (Z.to_nat (lg_sim_lim l)) state right_edge tape with
      | WIn _ _ _ => (cv, LInf)     (* does not occur *)
      | WErr e => (cv, e)
      | WOut state right_ tape =>
          let '(t, mk) := reconstruct l state right_ tape in
          let '(cv, color) := tape_to_color (lg_colors l) cv t in
          (cv, LOk (mk color))
      end
  end.

(** tm/macro.py 135-149: a macro program with its instruction cache and its (shared) converter. *)
Record macro_state_t := MS { ms_instrs : comp_prog; ms_conv : converter }.

(** tm/macro.py 172-180. *)
Definition macro_get (look : lookup) (l : logic) (m : macro_state_t) (ms mc : Z) : macro_state_t * lres :=
  match comp_get (ms_instrs m) (ms, mc) with
  | Some i => (m, LOk i)
  | None =>
      let '(cv, r) := calculate_instr look l (ms_conv m) ms mc in
      match r with
      | LOk i => (MS (((ms, mc), i) :: ms_instrs m) cv, r)
      | _ => (MS (ms_instrs m) cv, r)
      end
  end.

(** ** prog_params, tm/macro.py 121-132, for a plain program *)
Fixpoint count_distinct (l : list Z) : Z :=
  match l with
  | [] => 0
  | x :: l => (if existsb (Z.eqb x) l then 0 else 1) + count_distinct l
  end.
(** tm/macro.py 121-132 (prog_params). *)
Definition prog_params (p : comp_prog) : Z * Z :=
  (count_distinct (map (fun e => fst (fst e)) p), count_distinct (map (fun e => snd (fst e)) p)).

(** ** The backsymbol outputs of src/macros.rs 289-310, which split the window differently *)
Definition rs_back_split (cells : nat) (right_ : bool) (tape : cells_t) : Z * cells_t :=
  if negb right_ then (nth (cells - 1) tape 0, firstn (cells - 1) tape) else (hd 0 tape, tl tape).
