(** * Model of Python's Machine on symbolic counts: tm/tape.py, tm/prover.py, tm/machine.py

    As [EnumModel] and [ProverModel], with [cnt] for the counts and the rules of [SymModel]. *)
From Verif Require Import Base TM ProgModel TapeModel EnumModel RulesModel PastModel QuickModel ProverModel NumModel SymModel.

(** ** tm/tape.py *)

(** tm/tape.py 28-43 (Block): colour, count, and the number that an EnumTape has for the object (tm/tape.py 226-230),
    if any. *)
Record sblock := SB { sb_color : Z; sb_count : cnt; sb_enum : option enums }.
(** tm/tape.py 45-58 (Tape), 205-230 (EnumTape).  A Tape is one whose blocks have no numbers; its offsets and edges
    are not looked at. *)
Record stape := ST {
  st_l : list sblock; st_scan : Z; st_r : list sblock;
  st_loff : nat; st_roff : nat; st_ledge : bool; st_redge : bool
}.

(** tm/tape.py 50-58: the blank tape. *)
Definition st_init : stape := ST [] 0 [] 0 0 false false.

(** tm/tape.py 226-230: the numbers of the blocks of one span. *)
Fixpoint s_enumerate (side : bool) (num : nat) (s : list sblock) : list sblock :=
  match s with
  | [] => []
  | b :: s => SB (sb_color b) (sb_count b) (Some (side, num)) :: s_enumerate side (S num) s
  end.
(** tm/tape.py 67-68 (to_enum). *)
Definition s_to_enum (t : stape) : stape :=
  ST (s_enumerate false 1 (st_l t)) (st_scan t) (s_enumerate true 1 (st_r t)) 0 0 false false.

(** tm/tape.py 76-78 (blank). *)
Definition s_blank (t : stape) : bool := (st_scan t =? 0) && is_nil (st_l t) && is_nil (st_r t).
(** tm/tape.py 89-93 (at_edge). *)
Definition s_at_edge (t : stape) (edge : bool) : bool :=
  (st_scan t =? 0) && is_nil (if edge then st_r t else st_l t).
(** tm/tape.py 95-97 (span_lens). *)
Definition s_span_lens (t : stape) : nat * nat := (length (st_l t), length (st_r t)).
(** tm/tape.py 99-104 (counts). *)
Definition s_counts (t : stape) : scounts := (map sb_count (st_l t), map sb_count (st_r t)).
(** tm/tape.py 110-114: one block in a signature. *)
Definition s_sig_block (b : sblock) : colcount :=
  if negb (cnt_eqb (sb_count b) (I 1)) then TapeModel.Mult (sb_color b) else Just (sb_color b).
(** tm/tape.py 106-118 (signature). *)
Definition s_signature (t : stape) : signature :=
  Sig (st_scan t) (map s_sig_block (st_l t)) (map s_sig_block (st_r t)).
(** tm/tape.py 140-151: the colours of one span against those of a signature. *)
Fixpoint s_span_compatible (s : list sblock) (g : list colcount) : bool :=
  match g, s with
  | [], _ => true
  | _ :: _, [] => false
  | c :: g, b :: s => (sb_color b =? cc_color c) && s_span_compatible s g
  end.
(** tm/tape.py 134-153 (sig_compatible). *)
Definition s_sig_compatible (t : stape) (g : signature) : bool :=
  (st_scan t =? sg_scan g) && s_span_compatible (st_l t) (sg_l g) && s_span_compatible (st_r t) (sg_r g).

(** tm/tape.py 240-244 (touch_edge). *)
Definition s_touch_edge (e : stape) (shift : bool) : stape :=
  ST (st_l e) (st_scan e) (st_r e) (st_loff e) (st_roff e)
     (if shift then st_ledge e else true) (if shift then true else st_redge e).
(** tm/tape.py 246-258 (check_offsets). *)
Definition s_check_offsets (e : stape) (b : sblock) : stape :=
  match sb_enum b with
  | None => e
  | Some (side, offset) =>
      if side
      then ST (st_l e) (st_scan e) (st_r e) (st_loff e)
              (if (st_roff e <? offset)%nat then offset else st_roff e) (st_ledge e) (st_redge e)
      else ST (st_l e) (st_scan e) (st_r e)
              (if (st_loff e <? offset)%nat then offset else st_loff e) (st_roff e) (st_ledge e) (st_redge e)
  end.
(** tm/tape.py 285-303: the checks made before a step. *)
Definition s_check_step (e : stape) (shift : bool) (color : Z) (skip : bool) : stape :=
  let '(pull, push) := if shift then (st_r e, st_l e) else (st_l e, st_r e) in
  let e1 :=
    match pull with
    | [] => s_touch_edge e shift
    | near_block :: rest =>
        let e := s_check_offsets e near_block in
        if skip && (sb_color near_block =? st_scan e)
        then match rest with
             | [] => s_touch_edge e shift
             | second :: _ => s_check_offsets e second
             end
        else e
    end in
  match push with
  | [] => e1
  | opp :: _ => if color =? sb_color opp then s_check_offsets e1 opp else e1
  end.

(** tm/tape.py 260-271 (get_count of an EnumTape), 120-125 (of a Tape); [None] models the IndexError. *)
Definition s_get_count (e : stape) (i : index) : option (cnt * stape) :=
  match nth_error (if fst i then st_r e else st_l e) (snd i) with
  | None => None
  | Some b => Some (sb_count b, s_check_offsets e b)
  end.
(** One count of a span replaced (tm/tape.py 132); [None] models the IndexError. *)
Fixpoint s_set_nth (s : list sblock) (pos : nat) (v : cnt) : option (list sblock) :=
  match s, pos with
  | [], _ => None
  | b :: s, O => Some (SB (sb_color b) v (sb_enum b) :: s)
  | b :: s, S pos => option_map (cons b) (s_set_nth s pos v)
  end.
(** tm/tape.py 127-132, 273-274 (set_count). *)
Definition s_set_count (e : stape) (i : index) (v : cnt) : option stape :=
  if fst i
  then option_map (fun r => ST (st_l e) (st_scan e) r (st_loff e) (st_roff e) (st_ledge e) (st_redge e))
         (s_set_nth (st_r e) (snd i) v)
  else option_map (fun l => ST l (st_scan e) (st_r e) (st_loff e) (st_roff e) (st_ledge e) (st_redge e))
         (s_set_nth (st_l e) (snd i) v).

Section Machine.
Variable fl : floats.
Variable o : ops.
Variable comp : Z -> Z -> lookup.

(** tm/tape.py 80-87: the sum over one span; [sum] starts from 0. *)
Fixpoint s_span_marks (s : list sblock) (acc : cnt) : out cnt :=
  match s with
  | [] => Got acc
  | b :: s => if negb (sb_color b =? 0) then acc <~ lift (o_add o acc (sb_count b)); s_span_marks s acc
              else s_span_marks s acc
  end.
(** tm/tape.py 80-87 (marks). *)
Definition s_marks (t : stape) : out cnt :=
  l <~ s_span_marks (st_l t) (I 0);
  r <~ s_span_marks (st_r t) (I 0);
  x <~ lift (o_add o (I (if st_scan t =? 0 then 0 else 1)) l);
  lift (o_add o x r).

(** tm/tape.py 161-186: scan, rest of [pull], the block to re-use, steps. *)
Definition s_pull (pull : list sblock) (scan : Z) (skip : bool) : out (Z * list sblock * option sblock * cnt) :=
  let '(push_block, pull) :=
    match pull with
    | b :: pull' => if skip && (sb_color b =? scan) then (Some b, pull') else (None, pull)
    | [] => (None, pull)
    end in
  stepped <~ match push_block with None => Got (I 1) | Some b => lift (o_add o (I 1) (sb_count b)) end;
  match pull with
  | [] => Got (0, pull, push_block, stepped)
  | next_pull :: pull' =>
      if negb (cnt_eqb (sb_count next_pull) (I 1))
      then
        c <~ lift (o_sub o (sb_count next_pull) (I 1));
        Got (sb_color next_pull, SB (sb_color next_pull) c (sb_enum next_pull) :: pull', push_block, stepped)
      else Got (sb_color next_pull, pull',
                match push_block with
                | None => Some (SB (sb_color next_pull) (I 0) (sb_enum next_pull))
                | Some b => Some b
                end, stepped)
  end.
(** tm/tape.py 192-197: a block put before the others. *)
Definition s_insert (push : list sblock) (push_block : option sblock) (color : Z) : out (list sblock) :=
  match push_block with
  | None => Got (SB color (I 1) None :: push)
  | Some b => c <~ lift (o_add o (sb_count b) (I 1)); Got (SB color c (sb_enum b) :: push)
  end.
(** tm/tape.py 188-199.  Simplified: the identity of an object that has been freed is not used again, so a new Block
    has no number. *)
Definition s_push (push : list sblock) (push_block : option sblock) (color : Z) (stepped : cnt) : out (list sblock) :=
  match push with
  | top_block :: push' =>
      if sb_color top_block =? color
      then c <~ lift (o_add o (sb_count top_block) stepped); Got (SB (sb_color top_block) c (sb_enum top_block) :: push')
      else s_insert push push_block color
  | [] => if negb (color =? 0) then s_insert push push_block color else Got push
  end.
(** tm/tape.py 155-201 (step of a Tape), 284-305 (of an EnumTape). *)
Definition s_step (e : stape) (shift : bool) (color : Z) (skip : bool) : out (stape * cnt) :=
  let e := s_check_step e shift color skip in
  let '(pull, push) := if shift then (st_r e, st_l e) else (st_l e, st_r e) in
  p <~ s_pull pull (st_scan e) skip;
  let '(next_scan, pull, push_block, stepped) := p in
  push <~ s_push push push_block color stepped;
  Got (ST (if shift then push else pull) next_scan (if shift then pull else push)
          (st_loff e) (st_roff e) (st_ledge e) (st_redge e), stepped).

(** ** tm/rules.py on these tapes *)

(** tm/rules.py 255-284 (count_apps); an EnumTape records what is looked at. *)
Fixpoint s_count_apps (r : srule) (e : stape) (apps : option (cnt * index * Z)) : out (option (cnt * index * Z) * stape) :=
  match r with
  | [] => Got (apps, e)
  | (pos, SPlus diff) :: r =>
      if 0 <=? diff then s_count_apps r e apps
      else
        x <~ entry_apps fl o (s_counts e) pos diff;
        match s_get_count e pos with
        | None => SFail
        | Some (_, e) =>
            match x with
            | None => Got (None, e)
            | Some (times, min_res) =>
                match apps with
                | None => s_count_apps r e (Some (times, pos, min_res))
                | Some (t0, _, _) =>
                    less <~ lift (o_lt o times t0);
                    s_count_apps r e (if less : bool then Some (times, pos, min_res) else apps)
                end
            end
        end
  | (_, _) :: r => s_count_apps r e apps
  end.
(** tm/rules.py 293-310: the loop. *)
Fixpoint s_apply_loop (r : srule) (e : stape) (times : cnt) (min_pos : index) (min_res : Z) : out stape :=
  match r with
  | [] => Got e
  | (pos, op) :: r =>
      match s_get_count e pos with
      | None => SFail
      | Some (count, e) =>
          v <~ entry_result fl o count times min_pos min_res pos op;
          match s_set_count e pos v with
          | None => SFail
          | Some e => s_apply_loop r e times min_pos min_res
          end
      end
  end.
(** tm/rules.py 287-310 (apply_rule): how often, if at all, and the tape. *)
Definition s_apply_rule (r : srule) (e : stape) : out (option cnt * stape) :=
  x <~ s_count_apps r e None;
  match x with
  | (None, e) => Got (None, e)
  | (Some (times, min_pos, min_res), e) =>
      e <~ s_apply_loop r e times min_pos min_res; Got (Some times, e)
  end.

(** ** tm/prover.py *)

(** tm/prover.py 18-33 (Prover). *)
Record sprover := SPV {
  sp_rules : list (slot * list (minsig * srule));
  sp_configs : list (signature * past_configs)
}.
(** dict.get for the rules, tm/prover.py 45. *)
Fixpoint s_rules_at (rs : list (slot * list (minsig * srule))) (s : slot) : option (list (minsig * srule)) :=
  match rs with
  | [] => None
  | (k, v) :: rs => if slot_eqb k s then Some v else s_rules_at rs s
  end.
(** tm/prover.py 51-57. *)
Fixpoint s_match_rule (sig : signature) (temp : list (minsig * srule)) : option srule :=
  match temp with
  | [] => None
  | ((Sig scan lspan rspan, (lex, rex)), r) :: temp =>
      if (scan =? sg_scan sig)
         && ccs_eqb lspan (if lex then sg_l sig else firstn (length lspan) (sg_l sig))
         && ccs_eqb rspan (if rex then sg_r sig else firstn (length rspan) (sg_r sig))
      then Some r
      else s_match_rule sig temp
  end.
(** tm/prover.py 39-57 (get_rule). *)
Definition s_get_rule (pv : sprover) (state : Z) (scan : Z) (sig : signature) : option srule :=
  match s_rules_at (sp_rules pv) (state, scan) with
  | None => None
  | Some temp => s_match_rule sig temp
  end.
(** tm/prover.py 65-68: append to the list of a slot. *)
Fixpoint s_rules_add (rs : list (slot * list (minsig * srule))) (s : slot) (e : minsig * srule) :=
  match rs with
  | [] => [(s, [e])]
  | (k, v) :: rs => if slot_eqb k s then (k, v ++ [e]) :: rs else (k, v) :: s_rules_add rs s e
  end.
(** tm/prover.py 59-68 (set_rule). *)
Definition s_set_rule (pv : sprover) (r : srule) (state : Z) (sig : minsig) : sprover :=
  SPV (s_rules_add (sp_rules pv) (state, sg_scan (fst sig)) (sig, r)) (sp_configs pv).

(** How run_simulator ends, tm/prover.py 70-92: in a state, without an instruction (returns None), or with
    MacroInfLoop. *)
Inductive s_sim := YEnd (state : Z) (t : stape) | YKey (t : stape) | YLoop.
(** tm/prover.py 70-92 (run_simulator). *)
Fixpoint s_simulate (pv : sprover) (steps : nat) (state : Z) (t : stape) : out s_sim :=
  match steps with
  | O => Got (YEnd state t)
  | S steps =>
      let go (t : stape) :=
        match comp state (st_scan t) with
        | LKey _ => Got (YKey t)
        | LLoop => Got YLoop
        | LGot (color, shift, next_state) =>
            x <~ s_step t shift color (state =? next_state); s_simulate pv steps next_state (fst x)
        end in
      match s_get_rule pv state (st_scan t) (s_signature t) with
      | None => go t
      | Some r =>
          x <~ s_apply_rule r t;
          match x with
          | (Some _, t) => s_simulate pv steps state t
          | (None, t) => go t
          end
      end
  end.
(** tm/prover.py 103-105. *)
Definition s_sig_slice (sig : signature) (e : stape) : minsig :=
  (Sig (sg_scan sig) (firstn (st_loff e) (sg_l sig)) (firstn (st_roff e) (sg_r sig)), (st_ledge e, st_redge e)).
(** tm/prover.py 94-105 (get_min_sig); [None] for MacroInfLoop. *)
Definition s_min_sig (pv : sprover) (steps : nat) (state : Z) (e : stape) (sig : signature) : out (option minsig) :=
  x <~ s_simulate pv steps state e;
  Got (match x with YEnd _ e => Some (s_sig_slice sig e) | YKey e => Some (s_sig_slice sig e) | YLoop => None end).

(** What try_rule (tm/prover.py 107-169) returns, or that it raises MacroInfLoop or ConfigLimit. *)
Inductive s_try := YNone | YRule (r : srule) | YMacroLoop | YConfigLimit.
(** The loop over the deltas, tm/prover.py 132-139: the counts, or the answer given early. *)
Fixpoint s_delta_counts (pv : sprover) (state : Z) (sig : signature) (deltas : list Z) (tags : stape)
    : out (list scounts + s_try) :=
  match deltas with
  | [] => Got (inl [])
  | delta :: deltas =>
      x <~ s_simulate pv (Z.to_nat delta) state tags;
      match x with
      | YLoop => Got (inr YMacroLoop)
      | YKey _ => Got (inr YNone)
      | YEnd s tags =>
          if negb (s =? state) || negb (s_sig_compatible tags sig) then Got (inr YNone)
          else
            cs <~ s_delta_counts pv state sig deltas tags;
            Got (match cs with inl cs => inl (s_counts tags :: cs) | inr r => inr r end)
      end
  end.
(** tm/prover.py 146-151: the rules that are turned down. *)
Definition s_swap_rule (r : srule) (t : stape) : bool :=
  match r with
  | [(_, SPlus a); (_, SPlus b)] =>
      Nat.eqb (fst (s_span_lens t)) 1 && Nat.eqb (snd (s_span_lens t)) 1 && (Z.abs a =? Z.abs b)
  | _ => false
  end.
(** tm/prover.py 107-169 (try_rule). *)
Definition s_try_rule (pv : sprover) (cycle state : Z) (t : stape) : sprover * out s_try :=
  let sig := s_signature t in
  match s_get_rule pv state (st_scan t) sig with
  | Some known => (pv, Got (YRule known))
  | None =>
      match cfg_get (sp_configs pv) sig with
      | None =>
          if 100000 <? Z.of_nat (length (sp_configs pv)) then (pv, Got YConfigLimit)
          else (SPV (sp_rules pv) (cfg_set (sp_configs pv) sig (pcs_new state cycle)), Got YNone)
      | Some past =>
          let '(past, d) := pcs_next_deltas past state cycle in
          let pv := SPV (sp_rules pv) (cfg_set (sp_configs pv) sig past) in
          match d with
          | PPanic => (pv, SFail)
          | PNone => (pv, Got YNone)
          | PSome d1 d2 d3 =>
              let made :=
                cs <~ s_delta_counts pv state sig [d1; d2; d3] t;
                match cs with
                | inr r => Got (inr r)
                | inl [c1; c2; c3] => r <~ make_srule fl o (s_counts t) c1 c2 c3; Got (inl r)
                | inl _ => SFail
                end in
              match made with
              | Got (inr r) => (pv, Got r)
              | Got (inl None) => (pv, Got YNone)
              | Got (inl (Some r)) =>
                  if s_swap_rule r t then (pv, Got YNone)
                  else
                    let pv := SPV (sp_rules pv) (cfg_set (sp_configs pv) sig (pcs_delete past state)) in
                    match s_min_sig pv (Z.to_nat d1) state (s_to_enum t) sig with
                    | Got (Some m) => (s_set_rule pv r state m, Got (YRule r))
                    | Got None => (pv, Got YMacroLoop)
                    | other => (pv, obind other (fun _ => SFail))
                    end
              | other => (pv, obind other (fun _ => SFail))
              end
          end
      end
  end.

(** ** tm/machine.py *)

(** How a run ended, tm/machine.py 46-55; [YErr] for an exception that run does not catch, [YDeep] if the operators
    nest too deep for the model. *)
Inductive s_end := YUndfnd (s : slot) | YSpnout | YXlimit | YInfrul | YCfglim | YLimrul | YErr | YDeep.
(** What is left after run: tm/machine.py 36-57, 228-229; and the state (154), a local variable. *)
Record smach := SMachR {
  sm_end : s_end; sm_steps : Z; sm_cycles : Z; sm_rulapp : cnt;
  sm_state : Z; sm_tape : stape; sm_blanks : blanks_t; sm_susrul : option (Z * Z); sm_prover : sprover
}.
(** tm/machine.py 162-178, 181-185: the exceptions that end the run. *)
Definition s_stop {A} (x : out A) : s_end :=
  match x with
  | SLimit => YLimrul
  | SInfinite => YInfrul
  | SFuel => YDeep
  | _ => YErr
  end.
(** tm/machine.py 156-226: [fuel] rounds of the loop are left, [cycle] is the loop variable.  On RuleLimit from
    apply_rule (183) the tape may already be changed in part; simplified: it is left as it was. *)
Fixpoint s_machine_loop (fuel : nat) (cycle : Z) (pv : sprover) (t : stape)
    (state step : Z) (blanks : blanks_t) (rulapp : cnt) (sus : option (Z * Z)) : smach :=
  match fuel with
  | O => SMachR YXlimit step (cycle - 1) rulapp state t blanks sus pv
  | S fuel =>
      let '(pv, tr) := s_try_rule pv cycle state t in
      let fin e t sus := SMachR e step cycle rulapp state t blanks sus pv in
      let go t sus :=
        match comp state (st_scan t) with
        | LKey s => fin (YUndfnd s) t sus
        | LLoop => fin YInfrul t sus
        | LGot (color, shift, next_state) =>
            let same := state =? next_state in
            if same && s_at_edge t shift then fin YSpnout t sus
            else
              match s_step t shift color same with
              | Got (t, stepped) =>
                  let next step :=
                    let state := next_state in
                    let fin e b := SMachR e step cycle rulapp state t b sus pv in
                    if (color =? 0) && s_blank t
                    then if blanks_has blanks state then fin YInfrul blanks
                         else let blanks := (state, step) :: blanks in
                              if state =? 0 then fin YInfrul blanks
                              else s_machine_loop fuel (cycle + 1) pv t state step blanks rulapp sus
                    else s_machine_loop fuel (cycle + 1) pv t state step blanks rulapp sus in
                  if step =? -1 then next step
                  else match stepped with I n => next (step + n) | _ => fin YErr t sus end
              | other => fin (match other with SFuel => YDeep | _ => YErr end) t sus
              end
        end in
      match tr with
      | SSuspected a b => go t (Some (a, b))
      | Got YNone | Got YMacroLoop => go t sus
      | Got YConfigLimit => fin YCfglim t sus
      | Got (YRule r) =>
          match s_apply_rule r t with
          | Got (Some times, t) =>
              match o_add o rulapp times with
              | Ok rulapp => s_machine_loop fuel (cycle + 1) pv t state (-1) blanks rulapp sus
              | Fuel => fin YDeep t sus
              | _ => fin YErr t sus
              end
          | Got (None, t) => go t sus
          | SLimit => fin YLimrul t sus
          | SFuel => fin YDeep t sus
          | _ => fin YErr t sus
          end
      | other => fin (s_stop other) t sus
      end
  end.
(** tm/machine.py 139-234 (run).  Simplified: the program is given, [sim_lim] is at least 1, show_tape is left out. *)
Definition s_machine_run (sim_lim : nat) : smach :=
  s_machine_loop sim_lim 0 (SPV [] []) st_init 0 0 [] (I 0) None.
End Machine.
