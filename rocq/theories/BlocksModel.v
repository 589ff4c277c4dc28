(** * Model of src/blocks.rs

    A panic (missing key, slice out of range, usize underflow) is [None]. *)
From Verif Require Import Base TM ProgModel TapeModel.

(** src/blocks.rs 6-13 (BlockMeasure). *)
Record block_measure := BM { bm_tape : tape; bm_steps : nat; bm_max : nat; bm_max_step : nat }.

(** src/blocks.rs 16-24. *)
Definition bm_new : block_measure := BM init_tape 0 0 0.

(** src/blocks.rs 26-37. *)
Definition bm_step (b : block_measure) (shift : bool) (color : Z) (skip : bool) : block_measure :=
  let steps := S (bm_steps b) in
  let blocks := t_blocks (bm_tape b) in
  let '(mx, ms) := if (bm_max b <? blocks)%nat then (blocks, steps) else (bm_max b, bm_max_step b) in
  BM (fst (rs_step (bm_tape b) shift color skip)) steps mx ms.

(** src/blocks.rs 44-57: the loop, [fuel] turns left. *)
Fixpoint measure_loop (comp : comp_prog) (fuel : nat) (state : Z) (b : block_measure) : option nat :=
  match fuel with
  | O => Some (bm_max_step b)
  | S fuel =>
      match comp_get comp (state, t_scan (bm_tape b)) with
      | None => None
      | Some (color, shift, next_state) =>
          let same := state =? next_state in
          if same && t_at_edge (bm_tape b) shift then None
          else measure_loop comp fuel next_state (bm_step b shift color same)
      end
  end.

(** src/blocks.rs 40-60; here [None] is the function's own None. *)
Definition measure_blocks (comp : comp_prog) (steps : nat) : option nat := measure_loop comp steps 0 bm_new.

(** src/blocks.rs 66-74: the loop. *)
Fixpoint unroll_loop (comp : comp_prog) (fuel : nat) (state : Z) (t : tape) : option tape :=
  match fuel with
  | O => Some t
  | S fuel =>
      match comp_get comp (state, t_scan t) with
      | None => None
      | Some (color, shift, next_state) =>
          unroll_loop comp fuel next_state (fst (rs_step t shift color (state =? next_state)))
      end
  end.

(** src/blocks.rs 62-77. *)
Definition unroll_tape (comp : comp_prog) (steps : nat) : option (list Z) :=
  match unroll_loop comp steps 0 init_tape with Some t => Some (t_unroll t) | None => None end.

(** usize subtraction, src/blocks.rs 82, 84. *)
Definition usub (a b : nat) : option nat := if (b <=? a)%nat then Some (a - b)%nat else None.

(** The slice [l[i..j]], src/blocks.rs 83. *)
Definition slice (l : list Z) (i j : nat) : option (list Z) :=
  if ((i <=? j) && (j <=? length l))%nat then Some (firstn (j - i) (skipn i l)) else None.

(** Equality of slices, src/blocks.rs 83. *)
Fixpoint list_eqb (a b : list Z) : bool :=
  match a, b with
  | [], [] => true
  | x :: a, y :: b => (x =? y) && list_eqb a b
  | _, _ => false
  end.

(** src/blocks.rs 82: [(0..n).step_by(k)] from [i] on; [fuel] bounds the number of items. *)
Fixpoint step_by (fuel i n k : nat) : list nat :=
  match fuel with
  | O => []
  | S fuel => if (i <? n)%nat then i :: step_by fuel (i + k) n k else []
  end.

(** src/blocks.rs 82-86: the loop. *)
Fixpoint compr_loop (tp : list Z) (k : nat) (is : list nat) (size : nat) : option nat :=
  match is with
  | [] => Some size
  | i :: is =>
      match slice tp i (i + k), slice tp (i + k) (i + 2 * k) with
      | Some a, Some b =>
          if list_eqb a b
          then match usub size k with Some size => compr_loop tp k is size | None => None end
          else compr_loop tp k is size
      | _, _ => None
      end
  end.

(** src/blocks.rs 79-89; [step_by(0)] panics. *)
Definition compr_eff (tp : list Z) (k : nat) : option nat :=
  match usub (length tp) (2 * k), k with
  | Some n, S _ => compr_loop tp k (step_by n 0 n k) (length tp)
  | _, _ => None
  end.

(** src/blocks.rs 101-107: the loop over the block sizes. *)
Fixpoint opt_loop (tp : list Z) (sizes : list nat) (opt_size min_comp : nat) : option nat :=
  match sizes with
  | [] => Some opt_size
  | k :: sizes =>
      match compr_eff tp k with
      | None => None
      | Some compr_size =>
          if (compr_size <? min_comp)%nat
          then opt_loop tp sizes k compr_size
          else opt_loop tp sizes opt_size min_comp
      end
  end.

(** src/blocks.rs 91-110. *)
Definition opt_block (comp : comp_prog) (steps : nat) : option nat :=
  match measure_blocks comp steps with
  | None => Some 1%nat
  | Some max_blocks_step =>
      match unroll_tape comp max_blocks_step with
      | None => None
      | Some tp => opt_loop tp (seq 1 (length tp / 2 - 1)) 1 (1 + length tp)
      end
  end.
