(** * Model of src/segment.rs

    The two unbounded loops take fuel; running out of it is an outcome of its own, as are panics
    (failed assertions, missing keys).  Hash sets are lists. *)
From Verif Require Import Base TM ProgModel ParseModel NormModel GraphModel.

(** ** Tape *)

(** src/segment.rs 359-360, 394-399 (Span, Tape). *)
Record stape := ST { s_scan : option Z; s_l : list Z; s_r : list Z }.

(** Derived PartialEq of spans, src/segment.rs 359. *)
Fixpoint zlist_eqb (a b : list Z) : bool :=
  match a, b with
  | [], [] => true
  | x :: a, y :: b => (x =? y) && zlist_eqb a b
  | _, _ => false
  end.
(** Derived PartialEq of [Option<Color>], src/segment.rs 396. *)
Definition oz_eqb (a b : option Z) : bool :=
  match a, b with Some x, Some y => x =? y | None, None => true | _, _ => false end.
(** Derived PartialEq of tapes, src/segment.rs 394. *)
Definition stape_eqb (a b : stape) : bool :=
  oz_eqb (s_scan a) (s_scan b) && zlist_eqb (s_l a) (s_l b) && zlist_eqb (s_r a) (s_r b).

(** [vec![0; n]], src/segment.rs 409-413. *)
Definition zeros (n : Z) : list Z := repeat 0 (Z.to_nat n).

(** src/segment.rs 402-421 (Tape::init); its assertions hold where it is called. *)
Definition stape_init (seg pos : Z) : stape :=
  let cells := seg - 2 in
  if pos =? 0 then ST None [] (zeros cells)
  else if pos =? seg - 1 then ST None (zeros cells) []
  else ST (Some 0) (zeros (pos - 1)) (zeros (cells - pos)).

(** src/segment.rs 363-365 (Span::blank). *)
Definition sspan_blank (s : list Z) : bool := forallb (fun c => c =? 0) s.
(** src/segment.rs 423-427 (Tape::blank). *)
Definition stape_blank (t : stape) : bool :=
  (match s_scan t with None => true | Some c => c =? 0 end) && sspan_blank (s_l t) && sspan_blank (s_r t).
(** src/segment.rs 429-432 (at_edge). *)
Definition s_at_edge (t : stape) (edge : bool) : bool :=
  (match s_scan t with None => false | Some c => c =? 0 end) && sspan_blank (if edge then s_r t else s_l t).
(** src/segment.rs 434-438 (pos). *)
Definition s_pos (t : stape) : Z :=
  let l_len := Z.of_nat (length (s_l t)) in
  l_len + (if (match s_scan t with None => false | Some _ => true end) || (0 <? l_len) then 1 else 0).

(** src/segment.rs 440-448 (side); [None]: the assertion fails. *)
Definition s_side (t : stape) : option bool :=
  match s_scan t with
  | Some _ => None
  | None => Some (match s_r t with [] => true | _ => false end)
  end.
(** src/segment.rs 450-460 (step_in); [None]: an assertion fails. *)
Definition s_step_in (t : stape) (shift : bool) : option stape :=
  match s_side t with
  | None => None
  | Some side =>
      if Bool.eqb side (negb shift) then
        if shift then match s_r t with [] => None | c :: r => Some (ST (Some c) (s_l t) r) end
        else match s_l t with [] => None | c :: l => Some (ST (Some c) l (s_r t)) end
      else None
  end.
(** src/segment.rs 379-385 (pull). *)
Definition s_pull (s : list Z) : option Z * list Z := match s with [] => (None, []) | c :: s => (Some c, s) end.
(** src/segment.rs 462-472 (step). *)
Definition s_step (t : stape) (shift : bool) (print : Z) : stape :=
  if shift then let '(c, r) := s_pull (s_r t) in ST c (print :: s_l t) r
  else let '(c, l) := s_pull (s_l t) in ST c l (print :: s_r t).

(** ** Configs *)

(** src/segment.rs 260-266 (Config). *)
Record sconf := SC { sc_state : Z; sc_tape : stape; sc_init : bool }.

(** src/segment.rs 121-128 (Configs).  The dicts of sets [seen] and [blanks] are lists of pairs. *)
Record sconfigs := SCS {
  cs_seg : Z;
  cs_todo : list sconf;
  cs_seen : list (Z * stape);
  cs_blanks : list (Z * Z);
  cs_reached : list (Z * list Z)
}.

(** Membership in [seen[state]] and in [blanks[state]], src/segment.rs 156, 175, 183. *)
Definition seen_has (l : list (Z * stape)) (state : Z) (t : stape) : bool :=
  existsb (fun e => (fst e =? state) && stape_eqb (snd e) t) l.
(** Membership in [blanks[state]], src/segment.rs 156, 175. *)
Definition sblanks_has (l : list (Z * Z)) (state pos : Z) : bool :=
  existsb (fun e => (fst e =? state) && (snd e =? pos)) l.

(** Inserting into [blanks], src/segment.rs 158, 179, 324-328. *)
Definition add_blank (cs : sconfigs) (state pos : Z) : sconfigs :=
  SCS (cs_seg cs) (cs_todo cs) (cs_seen cs) ((state, pos) :: cs_blanks cs) (cs_reached cs).
(** Inserting into [seen], src/segment.rs 187. *)
Definition add_seen (cs : sconfigs) (state : Z) (t : stape) : sconfigs :=
  SCS (cs_seg cs) (cs_todo cs) ((state, t) :: cs_seen cs) (cs_blanks cs) (cs_reached cs).
(** src/segment.rs 144-146 (add_todo): the top of the vector is the head of the list. *)
Definition push_todo (cs : sconfigs) (c : sconf) : sconfigs :=
  SCS (cs_seg cs) (c :: cs_todo cs) (cs_seen cs) (cs_blanks cs) (cs_reached cs).

(** src/segment.rs 131-142 (Configs::new). *)
Definition configs_new (seg : Z) (halts : list Z) : sconfigs :=
  SCS seg [] [] [] (map (fun s => (s, [])) halts).

(** src/segment.rs 148-151 (check_depth). *)
Definition check_depth (cs : sconfigs) : bool :=
  (4000 <? Z.of_nat (length (cs_todo cs)))
  || existsb (fun e => 4000 <? Z.of_nat (length (filter (fun x => fst x =? fst e) (cs_seen cs)))) (cs_seen cs).

(** src/segment.rs 153-161 (next_init). *)
Definition next_init (cs : sconfigs) : option (sconfigs * sconf) :=
  match find (fun pos => negb (sblanks_has (cs_blanks cs) 0 pos)) (range (cs_seg cs)) with
  | None => None
  | Some pos => Some (add_blank cs 0 pos, SC 0 (stape_init (cs_seg cs) pos) true)
  end.

(** src/segment.rs 253-255 (next). *)
Definition next_config (cs : sconfigs) : option (sconfigs * sconf) :=
  match next_init cs with
  | Some r => Some r
  | None => match cs_todo cs with
            | [] => None
            | c :: todo => Some (SCS (cs_seg cs) todo (cs_seen cs) (cs_blanks cs) (cs_reached cs), c)
            end
  end.

(** src/segment.rs 163-191 (check_seen). *)
Definition check_seen (cs : sconfigs) (state : Z) (t : stape) : sconfigs * option bool :=
  let blank := stape_blank t in
  if blank then
    let pos := s_pos t in
    if sblanks_has (cs_blanks cs) state pos then (cs, None)
    else (add_blank cs state pos, Some (state =? 0))
  else
    if seen_has (cs_seen cs) state t then (cs, None)
    else (add_seen cs state t, Some false).

(** src/segment.rs 193-201 (check_reached). *)
Definition check_reached (cs : sconfigs) (c : sconf) : sconfigs * bool :=
  match dget (cs_reached cs) (sc_state c) with
  | None => (cs, false)
  | Some l =>
      let l := sadd (s_pos (sc_tape c)) l in
      (SCS (cs_seg cs) (cs_todo cs) (cs_seen cs) (cs_blanks cs) (dset (cs_reached cs) (sc_state c) l),
       Z.of_nat (length l) =? cs_seg cs)
  end.

(** src/segment.rs 211-217, 229-237, 240-246: what is done for one next state. *)
Definition enter (cs : sconfigs) (state : Z) (t : stape) : sconfigs :=
  match check_seen cs state t with
  | (cs, None) => cs
  | (cs, Some init) => push_todo cs (SC state t init)
  end.

(** src/segment.rs 206-218: the loop over the states. *)
Fixpoint branch_in_loop (cs : sconfigs) (t : stape) (shift : bool) (states : list Z) : option sconfigs :=
  match states with
  | [] => Some cs
  | s :: states =>
      match s_step_in t shift with
      | None => None
      | Some t' => branch_in_loop (enter cs s t') t shift states
      end
  end.
(** src/segment.rs 203-219 (branch_in); [dirs] gives the states entered going left and going right. *)
Definition branch_in (cs : sconfigs) (t : stape) (dirs : list Z * list Z) : option sconfigs :=
  match s_side t with
  | None => None
  | Some side => let shift := negb side in
                 branch_in_loop cs t shift (if shift then snd dirs else fst dirs)
  end.
(** src/segment.rs 221-247 (branch_out): the last state re-uses the config, to the same effect. *)
Definition branch_out (cs : sconfigs) (t : stape) (diffs : list Z) : sconfigs :=
  fold_left (fun cs s => enter cs s t) diffs cs.

(** ** Running *)

(** src/segment.rs 18-24 (SearchResult). *)
Inductive search_result := SLimit | SHalted | SRepeat | SSpinout | SReached.

(** Outcome of run_to_edge (src/segment.rs 292-346): a result, the edge, a panic, or not enough fuel. *)
Inductive run_res := RRes (r : search_result) | REdge | RPanic | RFuel.

(** src/segment.rs 302-345: the loop.  [step] and [copy] as in the code; [copy] is a state and a tape. *)
Fixpoint run_loop (prog : comp_prog) (fuel : nat) (self : sconf) (step : bool) (copy : Z * stape) (cs : sconfigs)
    : run_res * sconf * sconfigs :=
  match fuel with
  | O => (RFuel, self, cs)
  | S fuel =>
      match s_scan (sc_tape self) with
      | None => (REdge, self, cs)
      | Some scan =>
          match comp_get prog (sc_state self, scan) with
          | None => (RRes SHalted, self, cs)
          | Some (print, shift, state) =>
              if sc_init self && (sc_state self =? state) && s_at_edge (sc_tape self) shift
              then (RRes SSpinout, self, cs)
              else
                let tape := s_step (sc_tape self) shift print in
                if (print =? 0) && stape_blank tape && (state =? 0) && sc_init self
                then (RRes SRepeat, SC state tape true, cs)
                else
                  let blank := (print =? 0) && stape_blank tape in
                  let self := SC state tape (sc_init self || (blank && (state =? 0))) in
                  let cs := if blank then add_blank cs state (s_pos tape) else cs in
                  if negb step then run_loop prog fuel self true copy cs
                  else
                    match s_scan (snd copy) with
                    | None => (RPanic, self, cs)
                    | Some cscan =>
                        match comp_get prog (fst copy, cscan) with
                        | None => (RPanic, self, cs)
                        | Some (cprint, cshift, cstate) =>
                            let ctape := s_step (snd copy) cshift cprint in
                            if (cstate =? state) && stape_eqb ctape tape then (RRes SRepeat, self, cs)
                            else run_loop prog fuel self false (cstate, ctape) cs
                        end
                    end
          end
      end
  end.

(** src/segment.rs 292-348 (run_to_edge). *)
Definition run_to_edge (prog : comp_prog) (fuel : nat) (self : sconf) (cs : sconfigs) : run_res * sconf * sconfigs :=
  match s_scan (sc_tape self) with
  | None => (REdge, self, cs)
  | Some _ => run_loop prog fuel self false (sc_state self, sc_tape self) cs
  end.

(** ** The analysed program *)

(** src/segment.rs 537-544: the elements of a set, in increasing order. *)
Definition sorted_set (l : list Z) : list Z := fold_left (fun acc x => sinsert x acc) l [].

(** src/segment.rs 522-535: the instructions of a state. *)
Definition instrs_of (prog : comp_prog) (colors state : Z) : list (option instr) :=
  map (fun color => comp_get prog (state, color)) (range colors).
(** src/segment.rs 525. *)
Definition seg_halts (prog : comp_prog) (params : Z * Z) : list Z :=
  filter (fun state => existsb (fun o => match o with None => true | Some _ => false end) (instrs_of prog (snd params) state))
    (range (fst params)).
(** src/segment.rs 529-531. *)
Definition seg_diffs (prog : comp_prog) (colors state : Z) : list Z :=
  sorted_set (flat_map (fun o : option instr => match o with Some (_, _, next) => if negb (next =? state) then [next] else [] | None => [] end)
    (instrs_of prog colors state)).
(** src/segment.rs 533-534. *)
Definition seg_dirs (prog : comp_prog) (colors state : Z) (dir : bool) : list Z :=
  sorted_set (flat_map (fun o : option instr => match o with Some (_, shift, next) => if Bool.eqb shift dir then [next] else [] | None => [] end)
    (instrs_of prog colors state)).

(** src/segment.rs 103, 505-557: what [branches] has for a state; [None]: no such key. *)
Definition seg_branches (prog : comp_prog) (params : Z * Z) (state : Z) : option (list Z * (list Z * list Z)) :=
  if mem state (range (fst params))
  then Some (seg_diffs prog (snd params) state, (seg_dirs prog (snd params) state false, seg_dirs prog (snd params) state true))
  else None.

(** ** The search *)

(** Outcome of all_segments_reached (src/segment.rs 55-115): [AllNone] when the configs are used up. *)
Inductive all_res := ARes (r : search_result) | AllNone | APanic | AFuel.

(** src/segment.rs 67-114.  [rfuel] is the fuel of each run. *)
Fixpoint seg_loop (prog : comp_prog) (params : Z * Z) (rfuel fuel : nat) (cs : sconfigs) : all_res :=
  match fuel with
  | O => AFuel
  | S fuel =>
      match next_config cs with
      | None => AllNone
      | Some (cs, config) =>
          match run_to_edge prog rfuel config cs with
          | (RPanic, _, _) => APanic
          | (RFuel, _, _) => AFuel
          | (RRes SHalted, config, cs) =>
              if sc_init config then ARes SHalted
              else let '(cs, r) := check_reached cs config in
                   if r then ARes SReached else seg_loop prog params rfuel fuel cs
          | (RRes SRepeat, config, cs) =>
              if sc_init config then ARes SRepeat else seg_loop prog params rfuel fuel cs
          | (RRes SSpinout, _, _) => ARes SSpinout
          | (RRes _, _, cs) => seg_loop prog params rfuel fuel cs
          | (REdge, config, cs) =>
              let '(cs, r) := check_reached cs config in
              if r then ARes SReached
              else match seg_branches prog params (sc_state config) with
                   | None => APanic
                   | Some (diffs, dirs) =>
                       match branch_in cs (sc_tape config) dirs with
                       | None => APanic
                       | Some cs =>
                           let cs := branch_out cs (sc_tape config) diffs in
                           if check_depth cs then ARes SLimit else seg_loop prog params rfuel fuel cs
                       end
                   end
          end
      end
  end.
(** src/segment.rs 55-115 (all_segments_reached). *)
Definition all_segments_reached (prog : comp_prog) (params : Z * Z) (rfuel fuel : nat) (seg : Z) : all_res :=
  seg_loop prog params rfuel fuel (configs_new seg (seg_halts prog params)).

(** Outcome of segment_cant_halt, src/segment.rs 29-51. *)
Inductive seg_res := SegSome (seg : Z) | SegNone | SegPanic | SegFuel.

(** src/segment.rs 38-50: the loop over [seg]. *)
Fixpoint segs_loop (prog : comp_prog) (params : Z * Z) (rfuel fuel : nat) (segs : list Z) : seg_res :=
  match segs with
  | [] => SegNone
  | seg :: segs =>
      match all_segments_reached prog params rfuel fuel (2 + seg) with
      | AllNone => SegSome seg
      | ARes SReached => segs_loop prog params rfuel fuel segs
      | ARes SLimit | ARes SHalted => SegNone
      | ARes SSpinout | ARes SRepeat => SegSome seg
      | APanic => SegPanic
      | AFuel => SegFuel
      end
  end.
(** src/segment.rs 29-51 (segment_cant_halt). *)
Definition segment_cant_halt (prog : comp_prog) (params : Z * Z) (segs : Z) (rfuel fuel : nat) : seg_res :=
  if segs <? 2 then SegPanic
  else segs_loop prog params rfuel fuel (map (fun k => 2 + k) (range (segs - 1))).

(** src/lib.rs 80-93 (py_segment_cant_halt), after parsing: the params are read off the keys. *)
Definition key_params (prog : comp_prog) : Z * Z :=
  let '(s, c) := fold_left (fun acc (e : slot * instr) => (Z.max (fst acc) (fst (fst e)), Z.max (snd acc) (snd (fst e)))) prog (0, 0) in
  (1 + s, 1 + c).
(** src/lib.rs 80-93 (py_segment_cant_halt). *)
Definition py_segment_cant_halt (prog : comp_prog) (segs : Z) (rfuel fuel : nat) : seg_res :=
  segment_cant_halt prog (key_params prog) segs rfuel fuel.
