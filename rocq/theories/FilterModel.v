(** * Model of the filter of the tree search, src/tree.rs 253-298

    Functions that may panic give [None]. *)
From Verif Require Import Base TM ProgModel GraphModel TermRecModel ReasonModel SegModel BlocksModel ProverModel
  MacroModel RsMacroModel.

(** src/tree.rs 253-269 (incomplete).  Simplified: [u64] is unbounded; [dimension - 1] is not 0. *)
Definition incomplete (comp : comp_prog) (params : Z * Z) (halt : bool) : bool :=
  let '(states, colors) := params in
  let dimension := states * colors in
  if Z.of_nat (length comp) <? (if halt then dimension - 1 else dimension) then true
  else
    let used_states := map (fun e => snd (snd e)) comp in
    let used_colors := map (fun e => fst (fst (snd e))) comp in
    ((colors =? 2) && negb (mem 0 used_colors))
    || existsb (fun state => negb (mem state used_states)) (map Z.of_nat (seq 0 (Z.to_nat states)))
    || existsb (fun color => negb (mem color used_colors)) (map Z.of_nat (seq 1 (Z.to_nat colors - 1))).

(** src/tree.rs 271-283 (check_inf), the two runs one after the other. *)
Definition check_inf (comp : comp_prog) (params : Z * Z) (blocks steps : nat) : option bool :=
  match (if Nat.eqb blocks 1 then sf_run_for_infrul (rs_plain_get comp) tt steps
         else let l := rs_block_logic params blocks in
              sf_run_for_infrul (rs_macro_get comp l) (rs_macro_new l) steps) with
  | Some false => let l := rs_back_logic params 1 in
                  sf_run_for_infrul (rs_macro_get comp l) (rs_macro_new l) steps
  | r => r
  end.

(** [||] where the right side may panic, src/tree.rs 291-297. *)
Notation "a 'or_else' b" := (match a with Some false => b | r => r end) (at level 61, right associativity).

(** [is_some()] of an answer that may be a panic, src/tree.rs 293, 295. *)
Definition is_some (r : outcome Z) : option bool :=
  match r with OSome _ => Some true | ONone => Some false | OPanic => None end.
(** The same for the segments, src/tree.rs 297; [rfuel] and [fuel] bound its unbounded loops. *)
Definition seg_is_some (r : seg_res) : option bool :=
  match r with SegSome _ => Some true | SegNone => Some false | SegPanic | SegFuel => None end.

(** src/tree.rs 285-298 (skip_all), its numbers as parameters: first depth, cycles, second depth, cycles
    before the block size is chosen, cycles with rules, segments. *)
Definition skip_with (near cycles depth before rules : nat) (segs : Z) (rfuel fuel : nat)
    (comp : comp_prog) (params : Z * Z) (halt : bool) : option bool :=
  let reach d := is_some (if halt then cant_halt comp d else cant_spin_out comp d) in
  Some (incomplete comp params halt)
  or_else ((if 4 <=? fst params then option_map negb (rs_is_connected comp (fst params)) else Some false)
  or_else (reach near
  or_else (Some (quick_term_or_rec comp cycles true)
  or_else (reach depth
  or_else ((match opt_block comp before with Some blocks => check_inf comp params blocks rules | None => None end)
  or_else (if halt then seg_is_some (segment_cant_halt comp params segs rfuel fuel) else Some false)))))).

(** src/tree.rs 285-298 (skip_all). *)
Definition skip_all (rfuel fuel : nat) : comp_prog -> Z * Z -> bool -> option bool :=
  skip_with 1 301 256 300 306 3 rfuel fuel.
