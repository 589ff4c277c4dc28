(** * Model of src/reason.rs: backward reasoning

    A program is an association list with distinct keys standing for the BTreeMap; the order of its
    entries is the order of iteration.  A panic is an outcome of its own. *)
From Verif Require Import Base TM ProgModel TapeModel TermRecModel ParseModel NormModel GraphModel.

(** src/reason.rs 380-388 (Backstepper): a tape with a head position, as HeadTape, and the two ends.
    An end is [true] for Blanks, [false] for Unknown (src/reason.rs 365-369, TapeEnd). *)
Record backstepper := BK { k_ht : head_tape; k_lend : bool; k_rend : bool }.
(** Fields of a Backstepper, src/reason.rs 382-385. *)
Definition k_scan (b : backstepper) : Z := t_scan (h_tape (k_ht b)).
(** The left span, src/reason.rs 382-385. *)
Definition k_lspan (b : backstepper) : span := t_lspan (h_tape (k_ht b)).
(** The right span, src/reason.rs 382-385. *)
Definition k_rspan (b : backstepper) : span := t_rspan (h_tape (k_ht b)).

(** src/reason.rs 410-419. *)
Definition init_halt (scan : Z) : backstepper := BK (HT 0 (Tape [] scan [])) false false.
(** src/reason.rs 421-430. *)
Definition init_blank (scan : Z) : backstepper := BK (HT 0 (Tape [] scan [])) true true.
(** src/reason.rs 432-447. *)
Definition init_spinout (dir : bool) : backstepper := BK (HT 0 (Tape [] 0 [])) (negb dir) dir.

(** src/reason.rs 449-456. *)
Definition bk_blank (b : backstepper) : bool :=
  (k_scan b =? 0) && forallb (fun blk => b_color blk =? 0) (k_lspan b ++ k_rspan b).

(** src/reason.rs 458-474. *)
Definition check_step (b : backstepper) (shift : bool) (print : Z) : option bool :=
  let '(pull, pull_end, push) :=
    if shift then (k_lspan b, k_lend b, k_rspan b) else (k_rspan b, k_rend b, k_lspan b) in
  match pull with
  | blk :: _ => if print =? b_color blk then Some false else None
  | [] => if pull_end then (if print =? 0 then Some true else None)
          else Some (match push with [] => false | _ => true end)
  end.

(** src/reason.rs 483-489. *)
Definition pull_one (s : span) : span :=
  match s with
  | [] => []
  | b :: s => if b_count b =? 1 then s else Blk (b_color b) (b_count b - 1) :: s
  end.
(** src/reason.rs 491-503. *)
Definition push_one (s : span) (is_blanks : bool) (scan : Z) : span :=
  if negb (scan =? 0) || negb (match s with [] => true | _ => false end) || negb is_blanks then
    match s with
    | b :: s' => if b_color b =? scan then Blk (b_color b) (b_count b + 1) :: s' else Blk scan 1 :: s
    | [] => [Blk scan 1]
    end
  else s.
(** src/reason.rs 476-507. *)
Definition backstep (b : backstepper) (shift : bool) (read : Z) : backstepper :=
  let head := h_head (k_ht b) in
  if shift then
    BK (HT (head + -1) (Tape (pull_one (k_lspan b)) read (push_one (k_rspan b) (k_rend b) (k_scan b)))) (k_lend b) (k_rend b)
  else
    BK (HT (head + 1) (Tape (push_one (k_lspan b) (k_lend b) (k_scan b)) read (pull_one (k_rspan b)))) (k_lend b) (k_rend b).

(** src/reason.rs 37-42 (Config).  The chain of [prev] is a list, latest first; of earlier configs only
    state and tape are ever looked at. *)
Record rconf := RC { r_state : Z; r_tape : backstepper; r_recs : Z; r_prev : list (Z * backstepper) }.
(** src/reason.rs 45-52 (Config::new). *)
Definition rc_new (state : Z) (tape : backstepper) : rconf := RC state tape 0 [].

(** src/reason.rs 61-82.  [aligns_with] and [get_slice] (src/tape.rs 454-485, src/reason.rs 535-562) read
    the same as those of HeadTape. *)
Fixpoint lin_rec_loop (state : Z) (tape : backstepper) (leftmost rightmost : Z) (prev : list (Z * backstepper)) : bool :=
  match prev with
  | [] => false
  | (st, tp) :: prev =>
      let pos := h_head (k_ht tp) in
      let '(leftmost, rightmost) :=
        if pos <? leftmost then (pos, rightmost)
        else if rightmost <? pos then (leftmost, pos) else (leftmost, rightmost) in
      if (state =? st) && ht_aligns_with (k_ht tape) (k_ht tp) leftmost rightmost then true
      else lin_rec_loop state tape leftmost rightmost prev
  end.
(** src/reason.rs 54-85 (lin_rec). *)
Definition lin_rec (c : rconf) : bool :=
  let head := h_head (k_ht (r_tape c)) in lin_rec_loop (r_state c) (r_tape c) head head (r_prev c).

(** src/reason.rs 105 (Entrypoints). *)
Definition entries : Type := list (Z * list (slot * instr)).

(** src/reason.rs 286-291. *)
Definition all_entrypoints (comp : comp_prog) : entries :=
  fold_left (fun (ep : entries) (e : slot * instr) =>
    let '(_, _, state) := snd e in
    dset ep state ((match dget ep state with Some l => l | None => [] end) ++ [e])) comp [].

(** src/reason.rs 294-300: one round. *)
Definition prune_round (ep : entries) : entries :=
  let reached := map fst ep in
  filter (fun e : Z * list (slot * instr) => match snd e with [] => false | _ => true end)
    (map (fun e : Z * list (slot * instr) => (fst e, filter (fun x : slot * instr => mem (fst (fst x)) reached) (snd e))) ep).
(** src/reason.rs 293-305. *)
Fixpoint prune (fuel : nat) (ep : entries) : entries :=
  match fuel with
  | O => ep
  | S fuel => let ep' := prune_round ep in if Nat.eqb (length ep') (length ep) then ep' else prune fuel ep'
  end.
(** src/reason.rs 285-308. *)
Definition get_entrypoints (comp : comp_prog) : entries :=
  let ep := all_entrypoints comp in prune (length ep) ep.

(** Outcome of cant_reach: [Some step], [None], or a panic on a missing key (src/reason.rs 107-111, 167). *)
Inductive outcome (A : Type) : Type := OSome (a : A) | ONone | OPanic.
Arguments OSome {A}. Arguments ONone {A}. Arguments OPanic {A}.

(** src/reason.rs 166-180: the entry points of one config.  [ONone] is the early return. *)
Fixpoint good_steps (state : Z) (tape : backstepper) (eps : list (slot * instr)) : outcome (list instr) :=
  match eps with
  | [] => OSome []
  | ((next_state, next_color), (print, shift, _)) :: eps =>
      match check_step tape shift print with
      | None => good_steps state tape eps
      | Some at_edge =>
          if at_edge && (k_scan tape =? next_color) && (state =? next_state) then ONone
          else match good_steps state tape eps with
               | OSome l => OSome ((next_color, shift, next_state) :: l)
               | o => o
               end
      end
  end.

(** src/reason.rs 153-189 (get_valid_steps). *)
Fixpoint get_valid_steps (ep : entries) (configs : list rconf) : outcome (list (list instr * rconf)) :=
  match configs with
  | [] => OSome []
  | c :: configs =>
      match dget ep (r_state c) with
      | None => OPanic
      | Some eps =>
          match good_steps (r_state c) (r_tape c) eps with
          | OSome steps =>
              match get_valid_steps ep configs with
              | OSome l => OSome (match steps with [] => l | _ => (steps, c) :: l end)
              | o => o
              end
          | ONone => ONone
          | OPanic => OPanic
          end
      end
  end.

(** src/reason.rs 200-233: the instructions of one config. *)
Fixpoint step_instrs (c : rconf) (instrs : list instr) (stepped : list rconf) (blanks : list Z) : option (list rconf * list Z) :=
  match instrs with
  | [] => Some (stepped, blanks)
  | (color, shift, state) :: instrs =>
      let tape := backstep (r_tape c) shift color in
      let blank := bk_blank tape in
      if blank && (state =? 0) then None
      else if blank && mem state blanks then step_instrs c instrs stepped blanks
      else
        let blanks := if blank then state :: blanks else blanks in
        let next := RC state tape (r_recs c) ((r_state c, r_tape c) :: r_prev c) in
        if lin_rec next then
          if 1 <? r_recs next + 1 then None
          else step_instrs c instrs (stepped ++ [RC state tape (r_recs c + 1) (r_prev next)]) blanks
        else step_instrs c instrs (stepped ++ [next]) blanks
  end.
(** src/reason.rs 191-237 (step_configs). *)
Fixpoint step_configs (configs : list (list instr * rconf)) (stepped : list rconf) (blanks : list Z) : option (list rconf * list Z) :=
  match configs with
  | [] => Some (stepped, blanks)
  | (instrs, c) :: configs =>
      match step_instrs c instrs stepped blanks with
      | None => None
      | Some (stepped, blanks) => step_configs configs stepped blanks
      end
  end.

(** src/reason.rs 126-148: [fuel] counts the remaining steps, [step] the steps made. *)
Fixpoint reach_loop (ep : entries) (fuel : nat) (step : Z) (configs : list rconf) (blanks : list Z) : outcome Z :=
  match fuel with
  | O => ONone
  | S fuel =>
      match get_valid_steps ep configs with
      | ONone => ONone
      | OPanic => OPanic
      | OSome valid =>
          match valid with
          | [] => OSome step
          | _ :: _ =>
              if 46 <? Z.of_nat (length valid) then ONone
              else match step_configs valid [] blanks with
                   | None => ONone
                   | Some (configs, blanks) => reach_loop ep fuel (step + 1) configs blanks
                   end
          end
      end
  end.

(** src/reason.rs 107-149 (cant_reach), the configs already made. *)
Definition cant_reach (comp : comp_prog) (depth : nat) (configs : list rconf) : outcome Z :=
  match configs with
  | [] => OSome 0
  | _ :: _ =>
      let ep := get_entrypoints comp in
      let configs := filter (fun c => match dget ep (r_state c) with Some _ => true | None => false end) configs in
      let blanks := map r_state (filter (fun c => bk_blank (r_tape c)) configs) in
      reach_loop ep depth 0 configs blanks
  end.

(** src/reason.rs 244-246. *)
Definition max_key (comp : comp_prog) : Z * Z :=
  fold_left (fun acc (e : slot * instr) => (Z.max (fst acc) (fst (fst e)), Z.max (snd acc) (snd (fst e)))) comp (0, 0).
(** src/reason.rs 241-260. *)
Definition halt_configs (comp : comp_prog) : list rconf :=
  let '(max_state, max_color) := max_key comp in
  flat_map (fun state => flat_map (fun color =>
    match comp_get comp (state, color) with
    | None => [rc_new state (init_halt color)]
    | Some _ => []
    end) (range (max_color + 1))) (range (max_state + 1)).
(** src/reason.rs 262-271. *)
Definition erase_configs (comp : comp_prog) : list rconf :=
  flat_map (fun e : slot * instr =>
    let '((state, color), (print, _, _)) := e in
    if (print =? 0) && negb (color =? 0) then [rc_new state (init_blank color)] else []) comp.
(** src/reason.rs 273-283. *)
Definition zero_reflexive_configs (comp : comp_prog) : list rconf :=
  flat_map (fun e : slot * instr =>
    let '((state, color), (_, shift, trans)) := e in
    if (color =? 0) && (trans =? state) then [rc_new state (init_spinout shift)] else []) comp.

(** src/reason.rs 23-25. *)
Definition cant_halt (comp : comp_prog) (depth : nat) : outcome Z := cant_reach comp depth (halt_configs comp).
(** src/reason.rs 27-29. *)
Definition cant_blank (comp : comp_prog) (depth : nat) : outcome Z := cant_reach comp depth (erase_configs comp).
(** src/reason.rs 31-33. *)
Definition cant_spin_out (comp : comp_prog) (depth : nat) : outcome Z := cant_reach comp depth (zero_reflexive_configs comp).
