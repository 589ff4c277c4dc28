(** * Model of src/machine.rs: quick_term_or_rec, and of HeadTape / Alignment in src/tape.rs *)
From Verif Require Import Base TM ProgModel TapeModel.

(** src/tape.rs 391-395. *)
Record head_tape := HT { h_head : Z; h_tape : tape }.

(** src/tape.rs 404-409. *)
Definition ht_init_stepped : head_tape := HT 1 (Tape [Blk 1 1] 0 []).

(** src/tape.rs 415-431. *)
Definition ht_step (t : head_tape) (shift : bool) (color : Z) (skip : bool) : head_tape :=
  let '(tp, stepped) := rs_step (h_tape t) shift color skip in
  HT (if shift then h_head t + stepped else h_head t - stepped) tp.

(** src/tape.rs 522-533: the cells of the near span, [remaining] of them. *)
Fixpoint slice_near (s : span) (remaining : Z) : list Z * Z :=
  match s with
  | [] => ([], remaining)
  | b :: s =>
      let count := Z.min (b_count b) remaining in
      let '(rest, rem) := slice_near s (remaining - count) in
      (repeat (b_color b) (Z.to_nat count) ++ rest, rem)
  end.

(** src/tape.rs 535-537. *)
Fixpoint slice_far (s : span) : list Z :=
  match s with
  | [] => []
  | b :: s => repeat (b_color b) (Z.to_nat (b_count b)) ++ slice_far s
  end.

(** src/tape.rs 513-540. *)
Definition ht_get_slice (t : head_tape) (start : Z) (ltr : bool) : list Z :=
  let '(lspan, rspan, diff) :=
    if ltr then (t_lspan (h_tape t), t_rspan (h_tape t), h_head t - start)
    else (t_rspan (h_tape t), t_lspan (h_tape t), start - h_head t) in
  (if 0 <? diff
   then let '(near, remaining) := slice_near lspan diff in
        near ++ (if 0 <? remaining then repeat 0 (Z.to_nat remaining) else [])
   else [])
  ++ slice_far rspan.

(** Derived PartialEq of blocks and spans (src/tape.rs 45, 85). *)
Definition block_eqb (a b : block) : bool := (b_color a =? b_color b) && (b_count a =? b_count b).
(** Derived PartialEq of spans, src/tape.rs 85. *)
Fixpoint span_eqb (a b : span) : bool :=
  match a, b with
  | [], [] => true
  | x :: a, y :: b => block_eqb x y && span_eqb a b
  | _, _ => false
  end.
(** Equality of slices, src/tape.rs 454-486. *)
Fixpoint slice_eqb (a b : list Z) : bool :=
  match a, b with
  | [], [] => true
  | x :: a, y :: b => (x =? y) && slice_eqb a b
  | _, _ => false
  end.

(** src/tape.rs 454-486. *)
Definition ht_aligns_with (self prev : head_tape) (leftmost rightmost : Z) : bool :=
  let st := h_tape self in
  let pt := h_tape prev in
  if negb (t_scan st =? t_scan pt) then false
  else
    let diff := h_head self - h_head prev in
    if 0 <? diff then
      Nat.eqb (length (t_rspan st)) (length (t_rspan pt))
      && Nat.leb (length (t_lspan pt)) (length (t_lspan st))
      && span_eqb (t_rspan st) (t_rspan pt)
      && slice_eqb (ht_get_slice prev leftmost true) (ht_get_slice self (leftmost + diff) true)
    else if diff <? 0 then
      Nat.eqb (length (t_lspan st)) (length (t_lspan pt))
      && Nat.leb (length (t_rspan pt)) (length (t_rspan st))
      && span_eqb (t_lspan st) (t_lspan pt)
      && slice_eqb (ht_get_slice prev rightmost false) (ht_get_slice self (rightmost + diff) false)
    else
      Nat.eqb (length (t_lspan st)) (length (t_lspan pt))
      && Nat.eqb (length (t_rspan st)) (length (t_rspan pt))
      && span_eqb (t_lspan st) (t_lspan pt)
      && span_eqb (t_rspan st) (t_rspan pt).

(** src/machine.rs 400-443: one pass of the loop per unit of [fuel]; [cycle] is the loop variable. *)
Fixpoint tr_loop (comp : comp_prog) (drop_halt : bool) (fuel : nat) (cycle : Z)
    (state : Z) (tp : head_tape)
    (ref_state : Z) (ref_tape : head_tape) (leftmost rightmost reset : Z) : bool :=
  match fuel with
  | O => false
  | S fuel =>
      match comp_get comp (state, t_scan (h_tape tp)) with
      | None => drop_halt
      | Some (color, shift, next_state) =>
          let same := state =? next_state in
          if same && t_at_edge (h_tape tp) shift then true
          else
            let '(ref_state, ref_tape, leftmost, rightmost, reset) :=
              if reset =? 0
              then (state, tp, h_head tp, h_head tp, cycle)
              else (ref_state, ref_tape, leftmost, rightmost, reset) in
            let reset := reset - 1 in
            let tp := ht_step tp shift color same in
            let curr := h_head tp in
            let '(leftmost, rightmost) :=
              if curr <? leftmost then (curr, rightmost)
              else if rightmost <? curr then (leftmost, curr)
              else (leftmost, rightmost) in
            if (next_state =? ref_state) && ht_aligns_with tp ref_tape leftmost rightmost
            then true
            else tr_loop comp drop_halt fuel (cycle + 1) next_state tp
                   ref_state ref_tape leftmost rightmost reset
      end
  end.

(** src/machine.rs 384-446: [1..sim_lim] has [sim_lim - 1] iterations. *)
Definition quick_term_or_rec (comp : comp_prog) (sim_lim : nat) (drop_halt : bool) : bool :=
  let tp := ht_init_stepped in
  tr_loop comp drop_halt (sim_lim - 1) 1 1 tp 1 tp (h_head tp) (h_head tp) 1.
