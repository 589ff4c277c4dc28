(** * Model of test/lin_rec.py: the recurrence checkers that the tests measure the tables of programs with *)
From Verif Require Import Base TM ProgModel TapeModel QuickModel TermRecModel.

(** ** HeadTape *)

(** test/lin_rec.py 109-127 (HeadTape) is a [head_tape]: the spans, the scanned colour and the head.  A new one is blank
    with head 0. *)
Definition hp_init : head_tape := HT 0 init_tape.

(** test/lin_rec.py 153-201 (step): as Tape.step of tm/tape.py (157-201), with the head. *)
Definition hp_step (t : head_tape) (shift : bool) (color : Z) (skip : bool) : head_tape * Z :=
  let '(tp, stepped) := py_step (h_tape t) shift color skip in
  (HT (if shift then h_head t + stepped else h_head t - stepped) tp, stepped).

(** test/lin_rec.py 214-231: the cells of the near span; the for loop ends by break, or with cells left to fill up. *)
Fixpoint hp_near (s : span) (diff : Z) : list Z :=
  match s with
  | [] => repeat 0 (Z.to_nat diff)
  | b :: s => if diff <=? b_count b then repeat (b_color b) (Z.to_nat diff)
              else repeat (b_color b) (Z.to_nat (b_count b)) ++ hp_near s (diff - b_count b)
  end.
(** test/lin_rec.py 203-236 (get_slice), 238-242. *)
Definition hp_slice (t : head_tape) (start : Z) (ltr : bool) : list Z :=
  let '(lspan, rspan, diff) :=
    if ltr then (t_lspan (h_tape t), t_rspan (h_tape t), h_head t - start)
    else (t_rspan (h_tape t), t_lspan (h_tape t), start - h_head t) in
  (if diff >? 0 then hp_near lspan diff else []) ++ unroll_span rspan.
(** test/lin_rec.py 109-115: equality of the dataclass, all fields. *)
Definition hp_eqb (a b : head_tape) : bool :=
  span_eqb (t_lspan (h_tape a)) (t_lspan (h_tape b)) && (t_scan (h_tape a) =? t_scan (h_tape b))
  && span_eqb (t_rspan (h_tape a)) (t_rspan (h_tape b)) && (h_head a =? h_head b).
(** test/lin_rec.py 244-261 (aligns_with). *)
Definition hp_aligns_with (self prev : head_tape) (leftmost rightmost : Z) : bool :=
  let diff := h_head self - h_head prev in
  if 0 <? diff then slice_eqb (hp_slice prev leftmost true) (hp_slice self (leftmost + diff) true)
  else if diff <? 0 then slice_eqb (hp_slice prev rightmost false) (hp_slice self (rightmost + diff) false)
  else hp_eqb self prev.

(** ** PtrTape *)

(** test/lin_rec.py 24-28 (PtrTape). *)
Record ptr_tape := PT { p_init : Z; p_scan : Z; p_tape : list Z }.
(** test/lin_rec.py 30-44 (from_head). *)
Definition from_head (t : head_tape) : ptr_tape :=
  PT (fold_right (fun b n => b_count b + n) 0 (t_lspan (h_tape t)) - h_head t) (t_scan (h_tape t))
     (rev (unroll_span (t_lspan (h_tape t))) ++ [t_scan (h_tape t)] ++ unroll_span (t_rspan (h_tape t))).
(** [zlen] is len(...) (test/lin_rec.py 60, 301). *)
Definition zlen (l : list Z) : Z := Z.of_nat (length l).
(** The slice l[: stop] of Python (test/lin_rec.py 59, 61), where a negative [stop] counts from the end. *)
Definition upto (l : list Z) (stop : Z) : list Z :=
  firstn (Z.to_nat (if stop <? 0 then Z.max 0 (zlen l + stop) else stop)) l.
(** test/lin_rec.py 46-53 (get_ltr). *)
Definition p_get_ltr (t : ptr_tape) (start : Z) : list Z :=
  let start := start + p_init t in
  let ldiff := - start in
  if ldiff <=? 0 then skipn (Z.to_nat start) (p_tape t) else repeat 0 (Z.to_nat ldiff) ++ p_tape t.
(** test/lin_rec.py 55-62 (get_rtl). *)
Definition p_get_rtl (t : ptr_tape) (stop : Z) : list Z :=
  let stop := stop + p_init t + 1 in
  let rdiff := stop - zlen (p_tape t) in
  if rdiff <=? 0 then upto (p_tape t) stop else upto (p_tape t) (stop - rdiff) ++ repeat 0 (Z.to_nat rdiff).
(** test/lin_rec.py 64-71 (get_cnt); range(start, stop) has stop - start members. *)
Definition p_get_cnt (t : ptr_tape) (start stop : Z) : list Z :=
  let start := start + p_init t in
  let stop := stop + p_init t + 1 in
  map (fun i => let pos := start + Z.of_nat i in
                if (0 <=? pos) && (pos <? zlen (p_tape t)) then nth (Z.to_nat pos) (p_tape t) 0 else 0)
      (seq 0 (Z.to_nat (stop - start))).
(** test/lin_rec.py 73-96 (aligns_with_optional_offsets).  Simplified: both offsets are always given. *)
Definition p_aligns (self prev : ptr_tape) (diff leftmost rightmost : Z) : bool :=
  if 0 <? diff then slice_eqb (p_get_ltr prev leftmost) (p_get_ltr self (leftmost + diff))
  else if diff <? 0 then slice_eqb (p_get_rtl prev rightmost) (p_get_rtl self (rightmost + diff))
  else slice_eqb (p_get_cnt prev leftmost rightmost) (p_get_cnt self leftmost rightmost).

(** ** History *)

(** test/lin_rec.py 273-280 (History), 358-360 (BeepHistory): the tapes kept, the positions, the steps at which a slot
    was met, the states.  The dictionaries are lists: that of the tapes with the newest first, that of the slots with
    one entry for each step, in order. *)
Record history := Hist {
  hs_tapes : list (Z * ptr_tape); hs_positions : list Z; hs_slots : list (slot * Z); hs_states : list Z
}.
(** test/lin_rec.py 275-280, 360: an empty one. *)
Definition hs_new : history := Hist [] [] [] [].
(** test/lin_rec.py 295-296 (add_slot_at_step). *)
Definition add_slot (h : history) (step : Z) (s : slot) : history :=
  Hist (hs_tapes h) (hs_positions h) (hs_slots h ++ [(s, step)]) (hs_states h).
(** test/lin_rec.py 301-302, 363-364: a list filled up to the step. *)
Definition fill (l : list Z) (step x : Z) : list Z := l ++ repeat x (Z.to_nat (step - zlen l)) ++ [x].
(** test/lin_rec.py 298-304 (add_tape_at_step). *)
Definition add_tape (h : history) (step : Z) (t : head_tape) : history :=
  Hist ((step, from_head t) :: hs_tapes h) (fill (hs_positions h) step (h_head t)) (hs_slots h) (hs_states h).
(** test/lin_rec.py 362-364 (add_state_at_step). *)
Definition add_state (h : history) (step state : Z) : history :=
  Hist (hs_tapes h) (hs_positions h) (hs_slots h) (fill (hs_states h) step state).
(** test/lin_rec.py 321-325: the tape kept for a step, if one is. *)
Fixpoint tape_at (ts : list (Z * ptr_tape)) (step : Z) : option ptr_tape :=
  match ts with
  | [] => None
  | (s, t) :: ts => if s =? step then Some t else tape_at ts step
  end.
(** test/lin_rec.py 333, 340, 347, 348: min and max of a list, which must not be empty. *)
Definition list_min (l : list Z) : option Z := match l with [] => None | x :: l => Some (fold_left Z.min l x) end.
(** test/lin_rec.py 340, 348: max. *)
Definition list_max (l : list Z) : option Z := match l with [] => None | x :: l => Some (fold_left Z.max l x) end.
(** test/lin_rec.py 316-355 (verify_lin_rec): [None] for an exception, [Some None] for None.  Simplified: minimum and
    maximum are both computed in all three cases. *)
Definition verify_lin_rec (h : history) (steps recur : Z) : option (option (Z * Z)) :=
  match tape_at (hs_tapes h) steps, tape_at (hs_tapes h) recur,
        nth_error (hs_positions h) (Z.to_nat recur), nth_error (hs_positions h) (Z.to_nat steps) with
  | Some tape1, Some tape2, Some p2, Some p1 =>
      let since := skipn (Z.to_nat steps) (hs_positions h) in
      match list_min since, list_max since with
      | Some leftmost, Some rightmost =>
          Some (if p_aligns tape2 tape1 (p2 - p1) leftmost rightmost then Some (steps, recur - steps) else None)
      | _, _ => None
      end
  | _, _, _, _ => None
  end.
(** test/lin_rec.py 306-314 (check_rec): the steps at which the slot was met, from the first on. *)
Fixpoint check_steps (h : history) (l : list (slot * Z)) (step : Z) (s : slot) : option (option (Z * Z)) :=
  match l with
  | [] => Some None
  | (s', pstep) :: l =>
      if slot_eqb s' s then
        match verify_lin_rec h pstep step with
        | None => None
        | Some (Some r) => Some (Some r)
        | Some None => check_steps h l step s
        end
      else check_steps h l step s
  end.
(** test/lin_rec.py 306-314 (check_rec). *)
Definition check_rec (h : history) (step : Z) (s : slot) : option (option (Z * Z)) := check_steps h (hs_slots h) step s.
(** list.index (test/lin_rec.py 380). *)
Fixpoint index_of (x : Z) (l : list Z) : Z :=
  match l with [] => 0 | y :: l => if x =? y then 0 else 1 + index_of x l end.
(** test/lin_rec.py 366-382 (calculate_beeps): for a state of the list, its entry. *)
Definition beep (states : list Z) (st : Z) : Z := zlen states - 1 - index_of st (rev states).

(** ** StrictLinRecMachine *)

(** test/lin_rec.py 385-410, 422-460: how a run ends: linrec with spnout and qsihlt, undfnd, xlimit, or an exception. *)
Inductive strict_end :=
| SLin (start rec : Z) (spnout : option Z) (qsihlt : bool)
| SUndfnd (step : Z) (s : slot)
| SXlimit (step : Z)
| SErr.
(** test/lin_rec.py 385-410: what a run leaves in the machine. *)
Record strict := Strict { sr_end : strict_end; sr_cycles : Z; sr_blanks : blanks_t; sr_history : history }.

(** test/lin_rec.py 462-479 (check_rec of the machine), once the history has an answer. *)
Definition strict_found (h : history) (step start rec : Z) : strict_end :=
  SLin start rec (if rec =? 1 then Some (step - 1) else None)
    (let hp := firstn (Z.to_nat start) (hs_states h) in
     existsb (fun st => beep (hs_states h) st <=? beep hp st) hp).

(** test/lin_rec.py 428-460 (run): [cycle] is the loop variable, [fuel] the passes left. *)
Fixpoint strict_loop (comp : comp_prog) (check : Z) (fuel : nat) (cycle : Z) (h : history) (tp : head_tape)
    (state step : Z) (blanks : blanks_t) : strict :=
  match fuel with
  | O => Strict (SXlimit step) (cycle - 1) blanks h
  | S fuel =>
      let s := (state, t_scan (h_tape tp)) in
      let go h :=
        match comp_get comp s with
        | None => Strict (SUndfnd step s) cycle blanks h
        | Some (color, shift, next) =>
            let '(tp, stepped) := hp_step tp shift color (state =? next) in
            let step := step + stepped in
            strict_loop comp check fuel (cycle + 1) h tp next step
              (if (color =? 0) && t_blank (h_tape tp) && negb (blanks_has blanks next) then (next, step) :: blanks else blanks)
        end in
      if check <=? step then
        let h := add_tape (add_state h step state) step tp in
        match check_rec h step s with
        | None => Strict SErr cycle blanks h
        | Some (Some (start, rec)) => Strict (strict_found h step start rec) cycle blanks h
        | Some None => go (add_slot h step s)
        end
      else go h
  end.
(** test/lin_rec.py 412-460 (run), for a positive limit; None stands for 1000000. *)
Definition strict_run (comp : comp_prog) (sim_lim : nat) (check : Z) : strict :=
  strict_loop comp check sim_lim 0 hs_new hp_init 0 0 [].

(** ** LinRecSampler *)

(** test/lin_rec.py 500-528 (run): a history with the tapes at the samples. *)
Fixpoint sampler_loop (comp : comp_prog) (samples : list Z) (fuel : nat) (h : history) (tp : head_tape) (state step : Z) : history :=
  match fuel with
  | O => h
  | S fuel =>
      let h := if existsb (Z.eqb step) samples then add_tape (add_state h step state) step tp else h in
      match comp_get comp (state, t_scan (h_tape tp)) with
      | None => h
      | Some (color, shift, next) =>
          let '(tp, stepped) := hp_step tp shift color false in
          sampler_loop comp samples fuel h tp next (step + stepped)
      end
  end.
(** test/lin_rec.py 485-528 (run), for a positive limit; only the history is kept. *)
Definition sampler_run (comp : comp_prog) (sim_lim : nat) (samples : list Z) : history :=
  sampler_loop comp samples sim_lim hs_new hp_init 0 0.

(** test/test_turing.py 664-680 (assert_lin_rec): [true] if no assertion fails and nothing is raised. *)
Definition assert_lin_rec (h : history) (steps recur : Z) : bool :=
  match nth_error (hs_states h) (Z.to_nat steps), nth_error (hs_states h) (Z.to_nat recur), verify_lin_rec h steps recur with
  | Some a, Some b, Some (Some (x, y)) => (a =? b) && (x =? steps) && (y =? recur - steps)
  | _, _, _ => false
  end.
(** test/test_turing.py 682-695 (deny_lin_rec): the same. *)
Definition deny_lin_rec (h : history) (steps recur : Z) : bool :=
  match nth_error (hs_states h) (Z.to_nat steps), nth_error (hs_states h) (Z.to_nat recur) with
  | Some a, Some b => if a =? b then match verify_lin_rec h steps recur with Some None => true | _ => false end else true
  | _, _ => false
  end.
(** test/test_turing.py 697-726 (verify_lin_rec of the test), by which the tests check a recurrence of the tables that
    starts at [steps] and has the given period. *)
Definition test_lin_rec (comp : comp_prog) (steps period : Z) : bool :=
  let recur := period + steps in
  let runtime := period + recur in
  let h := sampler_run comp (Z.to_nat (1 + runtime))
             [steps - 1; steps; steps + 1; recur - 1; recur; recur + 1; recur + period] in
  assert_lin_rec h steps recur && assert_lin_rec h (1 + steps) (1 + recur) && assert_lin_rec h steps (period + recur)
  && (1 <? period) && deny_lin_rec h steps (1 + recur) && deny_lin_rec h steps (recur - 1)
  && (if 1 <=? steps then deny_lin_rec h (steps - 1) recur else true).

(** ** run_loose_linrec_machine *)

(** test/lin_rec.py 551-614: the two nested loops as one, which takes a new reference when the inner one has ended
    ([steps_reset] not above [step]).  marks and rulapp are 0 whatever happens (620-621). *)
Fixpoint loose_loop (comp : comp_prog) (fuel : nat) (cycle : Z) (tp : head_tape) (state step : Z) (blanks : blanks_t)
    (init_state : Z) (init_tape : head_tape) (leftmost rightmost steps_reset : Z) : machine_result :=
  match fuel with
  | O => MR xlimit step cycle 0 0 blanks None
  | S fuel =>
      let '(init_state, init_tape, leftmost, rightmost, steps_reset) :=
        if step <? steps_reset then (init_state, init_tape, leftmost, rightmost, steps_reset)
        else (state, tp, h_head tp, h_head tp, 2 * step) in
      let s := (state, t_scan (h_tape tp)) in
      match comp_get comp s with
      | None => MR undfnd step cycle 0 0 blanks (Some s)
      | Some (color, shift, next) =>
          let same := state =? next in
          if same && t_at_edge (h_tape tp) shift then MR spnout step cycle 0 0 blanks None
          else
            let '(tp, stepped) := hp_step tp shift color same in
            let step := step + stepped in
            let cycle := cycle + 1 in
            let rest blanks :=
              let curr := h_head tp in
              let '(leftmost, rightmost) :=
                if curr <? leftmost then (curr, rightmost)
                else if rightmost <? curr then (leftmost, curr) else (leftmost, rightmost) in
              if (next =? init_state) && (t_scan (h_tape tp) =? t_scan (h_tape init_tape))
                 && hp_aligns_with tp init_tape leftmost rightmost
              then MR infrul step cycle 0 0 blanks None
              else loose_loop comp fuel cycle tp next step blanks init_state init_tape leftmost rightmost steps_reset in
            if (color =? 0) && t_blank (h_tape tp) then
              if blanks_has blanks next then MR infrul step cycle 0 0 blanks None
              else let blanks := (next, step) :: blanks in
                   if next =? 0 then MR infrul step cycle 0 0 blanks None else rest blanks
            else rest blanks
      end
  end.
(** test/lin_rec.py 531-624: from the first step on, which is taken to be 1RB. *)
Definition run_loose_linrec_machine (comp : comp_prog) (sim_lim : nat) : machine_result :=
  loose_loop comp (sim_lim - 1) 1 ht_init_stepped 1 1 [] 1 ht_init_stepped 1 1 1.
