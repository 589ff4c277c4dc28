(** * Model of tools/normalize.py and tools/tree_norm.py

    Python dicts are association lists in insertion order.  An exception is [None]. *)
From Verif Require Import Base TM ProgModel TapeModel ParseModel.

(** ** Dicts *)

(** [d[k]] (tools/normalize.py 80, 129): [None] is KeyError. *)
Fixpoint dget {V} (d : list (Z * V)) (k : Z) : option V :=
  match d with [] => None | (k', v) :: d => if k' =? k then Some v else dget d k end.
(** [d[k] = v] (tools/normalize.py 88, 116): keeps the position of an existing key. *)
Fixpoint dset {V} (d : list (Z * V)) (k : Z) (v : V) : list (Z * V) :=
  match d with
  | [] => [(k, v)]
  | (k', v') :: d => if k' =? k then (k', v) :: d else (k', v') :: dset d k v
  end.
(** [del d[k]] (tools/normalize.py 207, 212, 220): [None] is KeyError. *)
Fixpoint ddel {V} (d : list (Z * V)) (k : Z) : option (list (Z * V)) :=
  match d with
  | [] => None
  | (k', v') :: d => if k' =? k then Some d
                     else match ddel d k with Some d => Some ((k', v') :: d) | None => None end
  end.

(** tools/__init__.py 10 (Switch) and tools/normalize.py 46 (prog). *)
Definition switch : Type := list (Z * option instr).
(** tools/normalize.py 46 (prog), 50-55: dict in insertion order. *)
Definition nprog : Type := list (Z * switch).

(** tools/__init__.py 18-25 (parse). *)
Fixpoint map_opt {A B} (f : A -> option B) (l : list A) : option (list B) :=
  match l with
  | [] => Some []
  | x :: l => match f x, map_opt f l with Some y, Some r => Some (y :: r) | _, _ => None end
  end.
(** tools/__init__.py 18-25 (parse). *)
Definition parse (prog : text) : option (list (list (option instr))) :=
  map_opt (fun instrs => map_opt read_instr (split1 instrs)) (split2 prog).

(** [enumerate], tools/normalize.py 52-53. *)
Fixpoint enum {A} (k : Z) (l : list A) : list (Z * A) :=
  match l with [] => [] | x :: l => (k, x) :: enum (k + 1) l end.

(** tools/normalize.py 48-54 (__init__), after parsing. *)
Definition norm_of (parsed : list (list (option instr))) : nprog := enum 0 (map (enum 0) parsed).

(** tools/normalize.py 60-62 (states): the set of the first naturals, which Python iterates in
    increasing order. *)
Definition n_states (n : nprog) : list Z := map Z.of_nat (seq 0 (length n)).
(** tools/normalize.py 64-66 (colors). *)
Definition n_colors (n : nprog) : option (list Z) :=
  match dget n 0 with Some sw => Some (map Z.of_nat (seq 0 (length sw))) | None => None end.

(** tools/normalize.py 68-75 (__repr__). *)
Definition n_repr (n : nprog) : text :=
  join [SPACE; SPACE] (map (fun e => join [SPACE] (map (fun x => show_instr (snd x)) (snd e))) n).

(** tools/normalize.py 77-83 (__getitem__): an undefined instruction is a KeyError too. *)
Definition n_get (n : nprog) (s c : Z) : option instr :=
  match dget n s with
  | Some sw => match dget sw c with Some (Some i) => Some i | _ => None end
  | None => None
  end.

(** tools/normalize.py 90-96 (instr_slots). *)
Definition n_slots (n : nprog) : list (Z * Z) :=
  flat_map (fun e => map (fun x => (fst e, fst x)) (snd e)) n.

(** tools/normalize.py 106-113 (used_instructions). *)
Definition n_used (n : nprog) : list instr :=
  flat_map (fun e => flat_map (fun x : Z * option instr => match snd x with Some i => [i] | None => [] end) (snd e)) n.

(** The loops over used_instr_slots of tools/normalize.py 118-123, 132-137, 184-185: every slot is
    assigned once, from its own instruction, so the loop is a map. *)
Definition n_map (f : instr -> instr) (n : nprog) : nprog :=
  map (fun e => (fst e, map (fun x : Z * option instr => (fst x, option_map f (snd x))) (snd e))) n.

(** tools/normalize.py 115-125. *)
Definition swap_states (n : nprog) (st1 st2 : Z) : option nprog :=
  match dget n st2, dget n st1 with
  | Some s2, Some s1 =>
      let n := dset (dset n st1 s2) st2 s1 in
      Some (n_map (fun i => let '(color, shift, state) := i in
        (color, shift, if state =? st2 then st1 else if state =? st1 then st2 else state)) n)
  | _, _ => None
  end.

(** tools/normalize.py 130. *)
Definition swap_switch (sw : switch) (co1 co2 : Z) : option switch :=
  match dget sw co2, dget sw co1 with
  | Some i2, Some i1 => Some (dset (dset sw co1 i2) co2 i1)
  | _, _ => None
  end.

(** tools/normalize.py 128-130: the loop over the states. *)
Fixpoint swap_switches (states : list Z) (n : nprog) (co1 co2 : Z) : option nprog :=
  match states with
  | [] => Some n
  | s :: states =>
      match dget n s with
      | Some sw => match swap_switch sw co1 co2 with
                   | Some sw => swap_switches states (dset n s sw) co1 co2
                   | None => None
                   end
      | None => None
      end
  end.

(** tools/normalize.py 127-139. *)
Definition swap_colors (n : nprog) (co1 co2 : Z) : option nprog :=
  match swap_switches (n_states n) n co1 co2 with
  | Some n => Some (n_map (fun i => let '(color, shift, state) := i in
      (if color =? co2 then co1 else if color =? co1 then co2 else color, shift, state)) n)
  | None => None
  end.

(** tools/normalize.py 143-155: the inner loop, up to the break: the two states to swap. *)
Fixpoint ns_scan (instrs : list instr) (todo : list Z) : option (Z * Z) :=
  match instrs with
  | [] => None
  | (_, _, state) :: instrs =>
      if existsb (Z.eqb state) todo then
        match todo with
        | [] => None
        | norm :: rest => if state =? norm then ns_scan instrs rest else Some (state, norm)
        end
      else ns_scan instrs todo
  end.

(** tools/normalize.py 141-159 (normalize_states), with the number of rounds left. *)
Fixpoint normalize_states_go (rounds : nat) (n : nprog) : option nprog :=
  match rounds with
  | O => Some n
  | S rounds =>
      match ns_scan (n_used n) (tl (n_states n)) with
      | None => Some n
      | Some (state, norm) =>
          match swap_states n state norm with
          | Some n => normalize_states_go rounds n
          | None => None
          end
      end
  end.
(** tools/normalize.py 141-159 (normalize_states). *)
Definition normalize_states (n : nprog) : option nprog := normalize_states_go (length n) n.

(** tools/normalize.py 165-174: the inner loop.  There is no break here, and the generator reads the
    table as it is by then; the keys do not change. *)
Fixpoint nc_scan (slots : list (Z * Z)) (n : nprog) (todo : list Z) : option nprog :=
  match slots with
  | [] => Some n
  | (s, c) :: slots =>
      match n_get n s c with
      | None => nc_scan slots n todo
      | Some (color, _, _) =>
          if existsb (Z.eqb color) todo then
            match todo with
            | [] => nc_scan slots n todo
            | norm :: rest =>
                if color =? norm then nc_scan slots n rest
                else match swap_colors n color norm with
                     | Some n => nc_scan slots n rest
                     | None => None
                     end
            end
          else nc_scan slots n todo
      end
  end.

(** tools/normalize.py 161-178 (normalize_colors): the [else: break] ends the outer loop at once. *)
Definition normalize_colors (n : nprog) : option nprog :=
  match n_colors n with
  | None => None
  | Some [] => Some n
  | Some colors => nc_scan (n_slots n) n (tl colors)
  end.

(** tools/normalize.py 180-187. *)
Definition normalize_directions (n : nprog) : option nprog :=
  match n_get n 0 0 with
  | None => None
  | Some (_, true, _) => Some n
  | Some (_, false, _) => Some (n_map (fun i => let '(color, shift, state) := i in (color, negb shift, state)) n)
  end.

(** tools/normalize.py 189-197 (cinch). *)
Fixpoint cinch_go (states : list Z) (n : nprog) : option nprog :=
  match states with
  | [] => Some n
  | s :: states =>
      match dget n s with
      | None => None
      | Some sw =>
          match dget sw 0 with
          | None => None
          | Some None => cinch_go states n
          | Some (Some (color, _, _)) =>
              if color =? 0 then cinch_go states n
              else if s =? 0 then Some n else swap_states n 0 s
          end
      end
  end.
(** tools/normalize.py 189-197 (cinch). *)
Definition cinch (n : nprog) : option nprog := cinch_go (n_states n) n.

(** [all(switch[color] is None for color in colors)], tools/normalize.py 203: short-circuiting. *)
Fixpoint all_none (sw : switch) (colors : list Z) : option bool :=
  match colors with
  | [] => Some true
  | c :: colors =>
      match dget sw c with
      | None => None
      | Some None => all_none sw colors
      | Some (Some _) => Some false
      end
  end.

(** tools/normalize.py 200-204: states_to_del. *)
Fixpoint states_to_del (colors : list Z) (n : nprog) : option (list Z) :=
  match n with
  | [] => Some []
  | (s, sw) :: n =>
      match all_none sw colors, states_to_del colors n with
      | Some b, Some l => Some (if b then s :: l else l)
      | _, _ => None
      end
  end.

(** tools/normalize.py 206-207. *)
Fixpoint del_all (states : list Z) (n : nprog) : option nprog :=
  match states with
  | [] => Some n
  | s :: states => match ddel n s with Some n => del_all states n | None => None end
  end.

(** [state in instr], tools/normalize.py 210: membership in the tuple (color, shift, state), where
    True equals 1 and False equals 0. *)
Definition in_instr (x : Z) (i : instr) : bool :=
  let '(color, shift, state) := i in
  (color =? x) || ((if shift then 1 else 0) =? x) || (state =? x).

(** tools/normalize.py 209-212. *)
Fixpoint del_unentered (states : list Z) (n : nprog) : option nprog :=
  match states with
  | [] => Some n
  | s :: states =>
      if existsb (in_instr s) (n_used n) then del_unentered states n
      else match ddel n s with Some n => del_unentered states n | None => None end
  end.

(** tools/normalize.py 199-212. *)
Definition cut_unused_states (n : nprog) : option nprog :=
  match n_colors n with
  | None => None
  | Some colors =>
      match states_to_del colors n with
      | None => None
      | Some ss =>
          match del_all ss n with
          | None => None
          | Some n => del_unentered (removelast (rev (n_states n))) n
          end
      end
  end.

(** tools/normalize.py 216: [any(sw[color] is not None ...)]. *)
Fixpoint column_used (n : nprog) (color : Z) : option bool :=
  match n with
  | [] => Some false
  | (_, sw) :: n =>
      match dget sw color with
      | None => None
      | Some (Some _) => Some true
      | Some None => column_used n color
      end
  end.

(** tools/normalize.py 219-220. *)
Fixpoint del_column (n : nprog) (color : Z) : option nprog :=
  match n with
  | [] => Some []
  | (s, sw) :: n =>
      match ddel sw color, del_column n color with
      | Some sw, Some n => Some ((s, sw) :: n)
      | _, _ => None
      end
  end.

(** tools/normalize.py 214-220. *)
Fixpoint cut_colors_go (colors : list Z) (n : nprog) : option nprog :=
  match colors with
  | [] => Some n
  | c :: colors =>
      match column_used n c with
      | None => None
      | Some true => cut_colors_go colors n
      | Some false => match del_column n c with Some n => cut_colors_go colors n | None => None end
      end
  end.
(** tools/normalize.py 214-220 (cut_unused_colors). *)
Definition cut_unused_colors (n : nprog) : option nprog :=
  match n_colors n with None => None | Some colors => cut_colors_go colors n end.

(** tools/normalize.py 223-228: one round. *)
Definition normalize_round (n : nprog) : option nprog :=
  match normalize_states n with None => None | Some n =>
  match normalize_colors n with None => None | Some n =>
  match cut_unused_states n with None => None | Some n =>
  match cut_unused_colors n with None => None | Some n =>
  cinch n end end end end.

(** tools/normalize.py 223: the rounds. *)
Fixpoint normalize_rounds (k : nat) (n : nprog) : option nprog :=
  match k with
  | O => Some n
  | S k => match normalize_round n with Some n => normalize_rounds k n | None => None end
  end.

(** tools/normalize.py 222-230 (Normalizer.normalize). *)
Definition n_normalize (n : nprog) : option nprog :=
  match n_colors n with
  | None => None
  | Some colors =>
      match normalize_rounds (length colors) n with
      | Some n => normalize_directions n
      | None => None
      end
  end.

(** tools/normalize.py 41-42. *)
Definition normalize (prog : text) : option text :=
  match parse prog with
  | None => None
  | Some parsed => match n_normalize (norm_of parsed) with Some n => Some (n_repr n) | None => None end
  end.

(** ** tools/tree_norm.py 6-38 *)
(** tools/tree_norm.py 7-13: the variables of the loop. *)
Record tn_state := TN { tn_norm : nprog; tn_st : Z; tn_tape : tape; tn_avs : Z; tn_avc : Z }.

(** tools/tree_norm.py 15-38: still running, left by the break, or an exception. *)
Inductive tn_res := TNGo (t : tn_state) | TNDone (n : nprog) | TNErr.

(** tools/tree_norm.py 16-36: one turn of the loop. *)
Definition tn_turn (t : tn_state) : tn_res :=
  let step1 :=
    if tn_st t =? tn_avs t then Some (tn_norm t, tn_avs t + 1)
    else if tn_st t >? tn_avs t then
      match swap_states (tn_norm t) (tn_st t) (tn_avs t) with
      | Some n => Some (n, tn_st t)
      | None => None
      end
    else Some (tn_norm t, tn_avs t) in
  match step1 with
  | None => TNErr
  | Some (n, avs) =>
      let sc := t_scan (tn_tape t) in
      let step2 :=
        if sc =? tn_avc t then Some (n, tn_avc t + 1)
        else if sc >? tn_avc t then
          match swap_colors n sc (tn_avc t) with
          | Some n => Some (n, sc)
          | None => None
          end
        else Some (n, tn_avc t) in
      match step2 with
      | None => TNErr
      | Some (n, avc) =>
          match n_colors n with
          | None => TNErr
          | Some colors =>
              if (avs >=? Z.of_nat (length n)) && (avc >=? Z.of_nat (length colors)) then TNDone n
              else match n_get n (tn_st t) sc with
                   | None => TNErr
                   | Some (color, shift, next_state) =>
                       let '(tp, _) := py_step (tn_tape t) shift color (tn_st t =? next_state) in
                       TNGo (TN n next_state tp avs avc)
                   end
          end
      end
  end.

(** tools/tree_norm.py 15-38. *)
Fixpoint tn_loop (turns : nat) (t : tn_state) : option nprog :=
  match turns with
  | O => Some (tn_norm t)
  | S turns => match tn_turn t with TNGo t => tn_loop turns t | TNDone n => Some n | TNErr => None end
  end.

(** tools/tree_norm.py 6-38. *)
Definition tree_norm (prog : text) : option text :=
  match parse prog with
  | None => None
  | Some parsed =>
      match tn_loop 1000 (TN (norm_of parsed) 0 init_tape 1 1) with
      | Some n => Some (n_repr n)
      | None => None
      end
  end.
