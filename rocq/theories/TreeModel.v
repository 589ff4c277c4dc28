(** * Model of src/tree.rs *)
From Verif Require Import Base TM ProgModel TapeModel ParseModel.

(** A range [0..n] of states or colours, src/tree.rs 25, 27. *)
Definition upto (n : Z) : list Z := map Z.of_nat (seq 0 (Z.to_nat n)).

(** src/tree.rs 20-34. *)
Definition make_instrs (states colors : Z) : list instr :=
  flat_map (fun color => flat_map (fun shift => map (fun state => (color, shift, state)) (upto states))
    [false; true]) (upto colors).

(** The result of run_for_undefined, src/tree.rs 43: Err(()), Ok(None), Ok(Some(slot)). *)
Inductive tree_run := TRErr | TRLimit | TRSlot (s : slot).

(** src/tree.rs 38-67: the result and the tape as it has been changed in place. *)
Fixpoint tree_rfu (comp : comp_prog) (sim_lim : nat) (state : Z) (t : tape) : tree_run * tape :=
  match sim_lim with
  | O => (TRLimit, t)
  | S sim_lim =>
      let sl := (state, t_scan t) in
      match comp_get comp sl with
      | None => (TRSlot sl, t)
      | Some (color, shift, next_state) =>
          let same := state =? next_state in
          if same && t_at_edge t shift then (TRErr, t)
          else
            let '(t, _) := rs_step t shift color same in
            if t_blank t then (TRErr, t) else tree_rfu comp sim_lim next_state t
      end
  end.

(** src/tree.rs 74-86: what is handed to the harvester. *)
Definition leaf (prog : comp_prog) (params : Z * Z) : list comp_prog :=
  let '(max_state, max_color) := params in
  if forallb (fun e : slot * instr => let '(_, _, state) := snd e in 1 + state <? max_state) prog
     || forallb (fun e : slot * instr => let '(color, _, _) := snd e in 1 + color <? max_color) prog
  then []
  else [prog].

(** Sequencing of calls (src/tree.rs 131-172); [None] is a panic. *)
Fixpoint seq_all {A} (l : list (option (list A))) : option (list A) :=
  match l with
  | [] => Some []
  | None :: _ => None
  | Some a :: l => match seq_all l with Some b => Some (a ++ b) | None => None end
  end.

(** src/tree.rs 111-121. *)
Definition bump (avail mx slot_val instr_val : Z) : Z :=
  if (avail <? mx) && (1 + Z.max slot_val instr_val =? avail) then avail + 1 else avail.

(** src/tree.rs 88-173: the programs handed to the harvester, in order.  [prog.insert] and
    [prog.remove] around a call are an extension of the (persistent) map: the slot is not in the map
    before.  [split_last().unwrap()] panics on an empty list; a subtraction below 0 is a panic too
    (in a release build it would wrap around). *)
Fixpoint branch (remaining_slots : nat) (ins : instr) (prog : comp_prog) (state : Z) (tp : tape)
    (sim_lim : nat) (avail params : Z * Z) {struct remaining_slots} : option (list comp_prog) :=
  match tree_rfu prog sim_lim state tp with
  | (TRSlot sl, tp) =>
      let '(slot_state, slot_color) := sl in
      let '(instr_color, _, instr_state) := ins in
      let avail_states := bump (fst avail) (fst params) slot_state instr_state in
      let avail_colors := bump (snd avail) (snd params) slot_color instr_color in
      let instrs := make_instrs avail_states avail_colors in
      match remaining_slots with
      | O => None
      | S O => Some (flat_map (fun next_instr => leaf ((sl, next_instr) :: prog) params) instrs)
      | S next_remaining_slots =>
          match instrs with
          | [] => None
          | _ => seq_all (map (fun next_instr =>
                   branch next_remaining_slots next_instr ((sl, next_instr) :: prog) slot_state tp
                     sim_lim (avail_states, avail_colors) params) instrs)
          end
      end
  | (_, _) => Some (leaf prog params)
  end.

(** src/tree.rs 177-203: one entry per parallel task.  The number of remaining slots is computed in
    u64; [None] if it underflows. *)
Definition build_tree (params : Z * Z) (halt : bool) (sim_lim : nat) : option (list (option (list comp_prog))) :=
  let '(states, colors) := params in
  let init_states := Z.min 3 states in
  let init_colors := Z.min 3 colors in
  let remaining := states * colors - 1 - (1 + (if halt then 1 else 0)) in
  if remaining <? 0 then None
  else Some (map (fun next_instr =>
         branch (Z.to_nat remaining) next_instr [((1, 0), next_instr); ((0, 0), (1, true, 1))]
           1 init_stepped sim_lim (init_states, init_colors) params)
         (make_instrs init_states init_colors)).

(** src/tree.rs 207-219, 222-236: the tasks run in parallel, each pushes its programs one after the
    other under a mutex; so the final vector is some shuffle of the tasks' lists. *)
Inductive shuffle {A} : list (list A) -> list A -> Prop :=
  | shuffle_done ls : Forall (fun l => l = []) ls -> shuffle ls []
  | shuffle_pick pre x l post r : shuffle (pre ++ l :: post) r -> shuffle (pre ++ (x :: l) :: post) (x :: r).

(** All tasks have finished without a panic: src/tree.rs 177-203 (rayon propagates panics). *)
Fixpoint all_some {A} (l : list (option A)) : option (list A) :=
  match l with
  | [] => Some []
  | Some a :: l => match all_some l with Some r => Some (a :: r) | None => None end
  | None :: _ => None
  end.

(** src/tree.rs 177-203 with a harvester that collects the programs: [out] is a possible order in
    which they are collected. *)
Definition harvested (params : Z * Z) (halt : bool) (sim_lim : nat) (out : list comp_prog) : Prop :=
  exists tasks lists,
    build_tree params halt sim_lim = Some tasks /\ all_some tasks = Some lists /\ shuffle lists out.

(** src/tree.rs 222-236: [res] is a possible result of tree_progs. *)
Definition tree_progs (params : Z * Z) (halt : bool) (sim_lim : nat) (res : list text) : Prop :=
  exists tasks lists,
    build_tree params halt sim_lim = Some tasks /\ all_some tasks = Some lists /\
    shuffle (map (map (fun p => show_comp p (Some params))) lists) res.
