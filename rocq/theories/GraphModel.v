(** * Model of tools/graph.py and src/graph.rs

    Python sets are lists without repetition; where Python iterates a set or pops from it, the order
    is an argument of the model, tagged with the place and round, so the theorems hold for every order.
    An exception is [None]. *)
From Verif Require Import Base TM ProgModel ParseModel NormModel.

(** ** Sets *)

(** [x in s] (tools/graph.py 212, 235, 241, 254). *)
Definition mem (x : Z) (s : list Z) : bool := existsb (Z.eqb x) s.
(** [s.add(x)] (tools/graph.py 70, 221, 256). *)
Definition sadd (x : Z) (s : list Z) : list Z := if mem x s then s else s ++ [x].
(** [s.discard(x)] (tools/graph.py 201). *)
Definition sdiscard (x : Z) (s : list Z) : list Z := filter (fun y => negb (x =? y)) s.
(** [s.remove(x)] (tools/graph.py 223, 236, 242, 255): KeyError if absent. *)
Definition sremove (x : Z) (s : list Z) : option (list Z) := if mem x s then Some (sdiscard x s) else None.
(** [set(...)] of a sequence (tools/graph.py 53, 92). *)
Fixpoint set_of (l : list Z) : list Z := match l with [] => [] | x :: l => let s := set_of l in if mem x s then s else x :: s end.

(** ** Graph *)

(** tools/graph.py 18-27 (__init__), after parsing: arrows. *)
Definition arrows_of (parsed : list (list (option instr))) : list (Z * list (option Z)) :=
  enum 0 (map (map (option_map (fun i : instr => snd i))) parsed).

(** tools/graph.py 42-44 (states). *)
Definition g_states {V} (arrows : list (Z * V)) : list Z := map fst arrows.

(** [(conn for conn in connections if conn is not None)]. tools/graph.py 54-56. *)
Definition somes (l : list (option Z)) : list Z := flat_map (fun o => match o with Some x => [x] | None => [] end) l.

(** tools/graph.py 50-59 (exit_points). *)
Definition exit_points (arrows : list (Z * list (option Z))) : list (Z * list Z) :=
  map (fun e => (fst e, set_of (somes (snd e)))) arrows.

(** tools/graph.py 69-70: [entries[exit_point].add(state)] for each exit point.  The order of the
    exits does not matter for what ends up in the sets; it is the order of the list here. *)
Fixpoint add_entries (state : Z) (exits : list Z) (entries : list (Z * list Z)) : option (list (Z * list Z)) :=
  match exits with
  | [] => Some entries
  | x :: exits => match dget entries x with
                  | None => None
                  | Some s => add_entries state exits (dset entries x (sadd state s))
                  end
  end.
(** tools/graph.py 68-70. *)
Fixpoint all_entries (exits : list (Z * list Z)) (entries : list (Z * list Z)) : option (list (Z * list Z)) :=
  match exits with
  | [] => Some entries
  | (s, xs) :: exits => match add_entries s xs entries with Some e => all_entries exits e | None => None end
  end.
(** tools/graph.py 61-72 (entry_points). *)
Definition entry_points (arrows : list (Z * list (option Z))) : option (list (Z * list Z)) :=
  all_entries (exit_points arrows) (map (fun s => (s, [])) (g_states arrows)).

(** ** is_connected *)

(** tools/graph.py 91-98: exits to other states. *)
Definition other_exits (arrows : list (Z * list (option Z))) : list (Z * list Z) :=
  map (fun e => (fst e, set_of (filter (fun x => negb (x =? fst e)) (somes (snd e))))) arrows.

(** [todo |= exits - reached], tools/graph.py 118. *)
Definition add_todo (exits reached todo : list Z) : list Z :=
  fold_left (fun t x => sadd x t) (filter (fun x => negb (mem x reached)) exits) todo.

(** tools/graph.py 107-120: [fuel] counts the states still to be iterated; [pick] is what [todo.pop()]
    returns, here the choice among the elements of a set that is not empty. *)
Fixpoint conn_loop (pick : nat -> list Z -> Z) (fuel : nat) (exits : list (Z * list Z)) (reached todo : list Z) : option bool :=
  match fuel with
  | O => Some false
  | S fuel =>
      match todo with
      | [] => Some false
      | _ :: _ =>
          let state := pick fuel todo in
          if state =? 0 then Some true
          else match dget exits state with
               | None => None
               | Some xs => let reached := sadd state reached in
                            conn_loop pick fuel exits reached (add_todo xs reached (sdiscard state todo))
               end
      end
  end.

(** tools/graph.py 89-120 (is_connected).  The states are 0, 1, ... in order, so their maximum is the last. *)
Definition is_connected (pick : nat -> list Z -> Z) (arrows : list (Z * list (option Z))) : option bool :=
  let exits := other_exits arrows in
  if existsb (fun e : Z * list Z => match snd e with [] => true | _ => false end) exits then Some false
  else match dget exits (last (g_states arrows) 0) with
       | None => None
       | Some todo => conn_loop pick (length (g_states arrows)) exits [] todo
       end.

(** ** src/graph.rs *)

(** Insert into a sorted list without repetition: src/graph.rs 56-59 (sort, dedup). *)
Fixpoint sinsert (x : Z) (l : list Z) : list Z :=
  match l with
  | [] => [x]
  | y :: l' => if x =? y then l else if x <? y then x :: l else y :: sinsert x l'
  end.
(** src/graph.rs 45-62 (get_exitpoints).  The BTreeMap is an association list, in no particular order. *)
Definition rs_exitpoints (prog : comp_prog) : list (Z * list Z) :=
  fold_left (fun d (e : slot * instr) =>
    let src := fst (fst e) in let dst := snd (snd e) in
    if src =? dst then d
    else dset d src (sinsert dst (match dget d src with Some l => l | None => [] end))) prog [].

(** src/graph.rs 33-37: pushes the exits neither reached nor in [todo]; the top of the vector is the
    head of the list. *)
Definition rs_push (reached exits todo : list Z) : list Z :=
  fold_left (fun t x => if negb (mem x reached) && negb (mem x t) then x :: t else t) exits todo.

(** src/graph.rs 18-40; [None]: panic on a missing key. *)
Fixpoint rs_conn_loop (fuel : nat) (exits : list (Z * list Z)) (reached todo : list Z) : option bool :=
  match fuel with
  | O => Some false
  | S fuel =>
      match todo with
      | [] => Some false
      | state :: todo =>
          if state =? 0 then Some true
          else if mem state reached then rs_conn_loop fuel exits reached todo
          else match dget exits state with
               | None => None
               | Some xs => let reached := state :: reached in rs_conn_loop fuel exits reached (rs_push reached xs todo)
               end
      end
  end.

(** src/graph.rs 7-41 (is_connected). *)
Definition rs_is_connected (prog : comp_prog) (states : Z) : option bool :=
  let exits := rs_exitpoints prog in
  if Z.of_nat (length exits) <? states then Some false
  else match dget exits (states - 1) with
       | None => None
       | Some l => rs_conn_loop (Z.to_nat states) exits [] (rev l)
       end.

(** ** reduce_graph *)

(** The order in which Python iterates over a freshly made set, tagged with the pass and the place
    (tools/graph.py 199, 208). *)
Definition order : Type := nat -> nat -> list Z -> list Z.

(** [d.values()] updated in place, tools/graph.py 200-201, 253-256. *)
Definition vmap {V} (f : V -> V) (d : list (Z * V)) : list (Z * V) := map (fun e => (fst e, f (snd e))) d.

(** tools/graph.py 199-203: cut the states of a list. *)
Fixpoint cut_all (to_cut : list Z) (graph : list (Z * list Z)) : option (list (Z * list Z)) :=
  match to_cut with
  | [] => Some graph
  | s :: to_cut => match ddel (vmap (sdiscard s) graph) s with
                   | None => None
                   | Some g => cut_all to_cut g
                   end
  end.
(** tools/graph.py 192-203 (purge_dead_ends); [ord] orders to_cut. *)
Definition purge_dead_ends (ord : list Z -> list Z) (graph : list (Z * list Z)) : option (list (Z * list Z)) :=
  cut_all (ord (map fst (filter (fun e : Z * list Z => match snd e with [] => true | _ => false end) graph))) graph.

(** tools/graph.py 209-213: the states with an arrow to [dst]. *)
Definition entries_of (graph : list (Z * list Z)) (dst : Z) : list Z :=
  map fst (filter (fun e : Z * list Z => mem dst (snd e)) graph).

(** tools/graph.py 220-221: [for out in graph[dst]: graph[entry].add(out)].  If both are the same set
    and it grew, Python would raise; [None]. *)
Fixpoint add_outs (same : bool) (outs target : list Z) : option (list Z) :=
  match outs with
  | [] => Some target
  | x :: outs => if same && negb (mem x target) then None else add_outs same outs (sadd x target)
  end.

(** Result of one look for a state with a single entry (tools/graph.py 208-228). *)
Inductive look : Type := LFound (g : list (Z * list Z)) | LNone | LErr.

(** tools/graph.py 208-226: the inner loop over [set(graph.keys())]. *)
Fixpoint find_single_entry (dsts : list Z) (graph : list (Z * list Z)) : look :=
  match dsts with
  | [] => LNone
  | dst :: dsts =>
      match entries_of graph dst with
      | [entry] =>
          match dget graph dst, dget graph entry with
          | Some outs, Some target =>
              match add_outs (entry =? dst) outs target with
              | None => LErr
              | Some target =>
                  match sremove dst target with
                  | None => LErr
                  | Some target => match ddel (dset graph entry target) dst with
                                   | None => LErr
                                   | Some g => LFound g
                                   end
                  end
              end
          | _, _ => LErr
          end
      | _ => find_single_entry dsts graph
      end
  end.

(** tools/graph.py 207-228: [fuel] is [len(graph)] at the start. *)
Fixpoint single_entry_loop (ord : nat -> list Z -> list Z) (fuel : nat) (graph : list (Z * list Z)) : option (list (Z * list Z)) :=
  match fuel with
  | O => Some graph
  | S fuel =>
      match find_single_entry (ord fuel (map fst graph)) graph with
      | LFound g => single_entry_loop ord fuel g
      | LNone => Some graph
      | LErr => None
      end
  end.

(** tools/graph.py 206-230 (inline_single_entry). *)
Definition inline_single_entry (ord : nat -> list Z -> list Z) (graph : list (Z * list Z)) : option (list (Z * list Z)) :=
  match single_entry_loop (fun k => ord (S k)) (length graph) graph with
  | None => None
  | Some g => purge_dead_ends (ord 0%nat) g
  end.

(** tools/graph.py 233-236 (cut_reflexive_arrows). *)
Definition cut_reflexive (graph : list (Z * list Z)) : list (Z * list Z) :=
  map (fun e => (fst e, sdiscard (fst e) (snd e))) graph.

(** tools/graph.py 253-256: redirect the arrows to [state]. *)
Definition redirect (state exit_point : Z) (s : list Z) : list Z :=
  if mem state s then sadd exit_point (sdiscard state s) else s.

(** tools/graph.py 240-256: the loop over the items; the sets are read when their turn comes. *)
Fixpoint single_exit_loop (states : list Z) (graph : list (Z * list Z)) : option (list (Z * list Z)) :=
  match states with
  | [] => Some graph
  | state :: states =>
      match dget graph state with
      | None => None
      | Some conns =>
          if mem state conns then Some (dset graph state (sdiscard state conns))
          else match conns with
               | [exit_point] => single_exit_loop states (vmap (redirect state exit_point) (dset graph state []))
               | _ => single_exit_loop states graph
               end
      end
  end.
(** tools/graph.py 239-258 (inline_single_exit). *)
Definition inline_single_exit (ord : list Z -> list Z) (graph : list (Z * list Z)) : option (list (Z * list Z)) :=
  match single_exit_loop (map fst graph) graph with
  | None => None
  | Some g => purge_dead_ends ord g
  end.

(** tools/graph.py 177-183: the passes. *)
Fixpoint reduce_passes (ord : order) (passes : nat) (graph : list (Z * list Z)) : option (list (Z * list Z)) :=
  match passes with
  | O => Some graph
  | S passes =>
      match graph with
      | [] => Some graph
      | _ :: _ =>
          match inline_single_exit (ord passes 0%nat) (cut_reflexive graph) with
          | None => None
          | Some g => match inline_single_entry (fun k => ord passes (S k)) g with
                      | None => None
                      | Some g => reduce_passes ord passes g
                      end
          end
      end
  end.

(** tools/graph.py 176-189 (reduce_graph). *)
Definition reduce_graph (ord : order) (graph : list (Z * list Z)) (passes : nat) : option (list (Z * list Z)) :=
  match reduce_passes ord passes graph with
  | None => None
  | Some g => Some (filter (fun e : Z * list Z => match snd e with [] => false | _ => true end) g)
  end.

(** tools/graph.py 168-173 (reduced), 46-48 (colors). *)
Definition reduced (ord : order) (arrows : list (Z * list (option Z))) : option (list (Z * list Z)) :=
  match dget arrows 0 with
  | None => None
  | Some row => reduce_graph ord (exit_points arrows) (length arrows * length row)
  end.

(** ** Questions about the graph *)

(** tools/graph.py 29-34 (__str__). *)
Definition g_str (arrows : list (Z * list (option Z))) : text := flat_map (fun e => map show_state (snd e)) arrows.
(** [flat_graph.find(show_state(state))], tools/graph.py 83: -1 if absent. *)
Fixpoint str_find (t : text) (c : Z) : Z :=
  match t with
  | [] => -1
  | x :: t => if x =? c then 0 else let k := str_find t c in if k <? 0 then -1 else k + 1
  end.
(** [sorted(positions)], tools/graph.py 86, by insertion. *)
Fixpoint zinsert (x : Z) (l : list Z) : list Z :=
  match l with
  | [] => [x]
  | y :: l' => if x <=? y then x :: l else y :: zinsert x l'
  end.
(** [sorted(positions)], tools/graph.py 86. *)
Definition zsorted (l : list Z) : list Z := fold_right zinsert [] l.
(** Equality of tuples of ints, tools/graph.py 86. *)
Fixpoint zlist_eqb (a b : list Z) : bool :=
  match a, b with
  | [], [] => true
  | x :: a, y :: b => (x =? y) && zlist_eqb a b
  | _, _ => false
  end.
(** tools/graph.py 74-86 (is_normal). *)
Definition is_normal (arrows : list (Z * list (option Z))) : bool :=
  let flat := g_str arrows in
  let states := tl (g_states arrows) in
  if existsb (fun s => negb (existsb (Z.eqb (show_state (Some s))) flat)) states then false
  else
    let positions := map (fun s => str_find flat (show_state (Some s))) states in
    zlist_eqb positions (zsorted positions).

(** [state == conn] of a state and a connection that may be None, tools/graph.py 127, 135. *)
Definition is_state (s : Z) (c : option Z) : bool := match c with Some t => t =? s | None => false end.
(** tools/graph.py 122-128 (reflexive_states). *)
Definition reflexive_states (arrows : list (Z * list (option Z))) : list Z :=
  map fst (filter (fun e : Z * list (option Z) => existsb (is_state (fst e)) (snd e)) arrows).
(** tools/graph.py 130-136 (zero_reflexive_states); [None] is IndexError. *)
Fixpoint zero_reflexive_states (arrows : list (Z * list (option Z))) : option (list Z) :=
  match arrows with
  | [] => Some []
  | (s, conns) :: arrows =>
      match conns, zero_reflexive_states arrows with
      | c :: _, Some l => Some (if is_state s c then s :: l else l)
      | _, _ => None
      end
  end.
(** tools/graph.py 138-140 (is_irreflexive). *)
Definition is_irreflexive (arrows : list (Z * list (option Z))) : bool :=
  match reflexive_states arrows with [] => true | _ => false end.
(** tools/graph.py 142-144 (is_zero_reflexive). *)
Definition is_zero_reflexive (arrows : list (Z * list (option Z))) : option bool :=
  option_map (fun l => match l with [] => false | _ => true end) (zero_reflexive_states arrows).

(** tools/graph.py 46-48 (colors): how many. *)
Definition g_colors (arrows : list (Z * list (option Z))) : option nat := option_map (@length _) (dget arrows 0).
(** [all(len(x) == len(self.colors) for x in d.values())], tools/graph.py 148-151, 155-158. *)
Definition all_sized (arrows : list (Z * list (option Z))) (d : list (Z * list Z)) : option bool :=
  match g_colors arrows with
  | None => None
  | Some k => Some (forallb (fun e : Z * list Z => (length (snd e) =? k)%nat) d)
  end.
(** tools/graph.py 146-151 (entries_dispersed). *)
Definition entries_dispersed (arrows : list (Z * list (option Z))) : option bool :=
  match entry_points arrows with None => None | Some d => all_sized arrows d end.
(** tools/graph.py 153-158 (exits_dispersed). *)
Definition exits_dispersed (arrows : list (Z * list (option Z))) : option bool := all_sized arrows (exit_points arrows).
(** tools/graph.py 160-162 (is_dispersed). *)
Definition is_dispersed (arrows : list (Z * list (option Z))) : option bool :=
  match entries_dispersed arrows with
  | Some true => exits_dispersed arrows
  | x => x
  end.
(** tools/graph.py 164-166 (is_simple). *)
Definition is_simple (ord : order) (arrows : list (Z * list (option Z))) : option bool :=
  option_map (fun l => match l with [] => true | _ => false end) (reduced ord arrows).
