(** * Model of PastConfig / PastConfigs in src/prover.rs

    Simplified: cycles are integers of any size (i32 overflow is not modelled). *)
From Verif Require Import Base.

(** src/prover.rs 247-257: the recorded cycles, oldest first. *)
Definition past_config : Type := list Z.

(** Outcome of next_deltas, src/prover.rs 259-262; [PPanic] is the panic of line 271. *)
Inductive deltas_res := PPanic | PNone | PSome (d1 d2 d3 : Z).

(** src/prover.rs 277-305: the loop over [i] in [1..=4]. *)
Fixpoint delta_loop (e d c b a : Z) (is_ : list Z) : deltas_res :=
  match is_ with
  | [] => PNone
  | i :: is_ =>
      let p1 := a - b * i in
      let p2 := b - c * i in
      let diff := p1 - p2 in
      let p3 := c - d * i in
      if negb (p2 - p3 =? diff) then delta_loop e d c b a is_
      else
        let p4 := d - e * i in
        if negb (p3 - p4 =? diff) then delta_loop e d c b a is_
        else
          let nxt1 := a * i + p1 + diff in
          let nxt2 := nxt1 * i + p1 + 2 * diff in
          let nxt3 := nxt2 * i + p1 + 3 * diff in
          if (nxt1 <? a) || (nxt2 <? nxt1) || (nxt3 <? nxt2) then PNone
          else PSome (nxt1 - a) (nxt2 - nxt1) (nxt3 - nxt2)
  end.

(** src/prover.rs 259-307: new record and answer. *)
Definition pc_next_deltas (cycles : past_config) (cycle : Z) : past_config * deltas_res :=
  let cycles := cycles ++ [cycle] in
  if Nat.ltb (length cycles) 5 then (cycles, PNone)
  else match cycles with
       | [e; d; c; b; a] => ([d; c; b; a], delta_loop e d c b a [1; 2; 3; 4])
       | _ => (cycles, PPanic)
       end.

(** src/prover.rs 310-313: map from state to record. *)
Definition past_configs : Type := list (Z * past_config).

(** BTreeMap::get, src/prover.rs 329-331 (entry). *)
Fixpoint pcs_get (m : past_configs) (s : Z) : option past_config :=
  match m with [] => None | (k, v) :: m => if k =? s then Some v else pcs_get m s end.
(** BTreeMap::remove, src/prover.rs 336. *)
Definition pcs_remove (m : past_configs) (s : Z) : past_configs :=
  filter (fun e => negb (fst e =? s)) m.
(** BTreeMap::insert, src/prover.rs 329-331 (or_insert_with, then update in place). *)
Definition pcs_set (m : past_configs) (s : Z) (v : past_config) : past_configs := (s, v) :: pcs_remove m s.

(** src/prover.rs 317-322. *)
Definition pcs_new (state cycle : Z) : past_configs := [(state, [cycle])].

(** src/prover.rs 324-333. *)
Definition pcs_next_deltas (m : past_configs) (state cycle : Z) : past_configs * deltas_res :=
  let cfg := match pcs_get m state with Some v => v | None => [cycle] end in
  let '(cfg, r) := pc_next_deltas cfg cycle in
  (pcs_set m state cfg, r).

(** src/prover.rs 335-337. *)
Definition pcs_delete (m : past_configs) (state : Z) : past_configs := pcs_remove m state.

(** A history of calls on one object: src/prover.rs 324, 335. *)
Inductive pcall := CNext (state cycle : Z) | CDelete (state : Z).

(** One call of src/prover.rs 324-337. *)
Definition pcs_call (m : past_configs) (c : pcall) : past_configs * deltas_res :=
  match c with
  | CNext s c => pcs_next_deltas m s c
  | CDelete s => (pcs_delete m s, PNone)
  end.

(** A sequence of calls of src/prover.rs 324-337. *)
Fixpoint pcs_calls (m : past_configs) (cs : list pcall) : past_configs :=
  match cs with [] => m | c :: cs => pcs_calls (fst (pcs_call m c)) cs end.
