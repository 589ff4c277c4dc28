(** * Model of tm/prover.py, of the Prover of src/prover.rs, and of the machines that use them
    (tm/machine.py, src/machine.rs), on integer counts *)
From Verif Require Import Base TM ProgModel TapeModel EnumModel RulesModel PastModel QuickModel.

(** What looking up an instruction gives: an instruction, KeyError with the slot that has no instruction, or (macro programs only)
    MacroInfLoop; tm/machine.py 191-198, tm/prover.py 81-84. *)
Inductive lookup := LGot (i : instr) | LKey (s : slot) | LLoop.

(** A plain program (a dict of instructions, tm/macro.py 33-41) as a lookup: never LLoop. *)
Definition plain (M : program) (state color : Z) : lookup :=
  match M state color with Some i => LGot i | None => LKey (state, color) end.

(** tm/prover.py 13, src/prover.rs 13. *)
Definition minsig : Type := (signature * (bool * bool))%type.

(** tm/prover.py 23-28, src/prover.rs 24-30: the two dicts as association lists. *)
Record prover := PV {
  pv_rules : list (slot * list (minsig * rule));
  pv_configs : list (signature * past_configs)
}.

(** tm/prover.py 30-33. *)
Definition pv_new : prover := PV [] [].

(** Equality of signatures (tuples), tm/tape.py 12-16. *)
Definition cc_eqb (a b : colcount) : bool :=
  match a, b with
  | Just x, Just y => x =? y
  | TapeModel.Mult x, TapeModel.Mult y => x =? y
  | _, _ => false
  end.
(** Equality of the spans of signatures, tm/tape.py 12-16, src/tape.rs 200. *)
Fixpoint ccs_eqb (a b : list colcount) : bool :=
  match a, b with
  | [], [] => true
  | x :: a, y :: b => cc_eqb x y && ccs_eqb a b
  | _, _ => false
  end.
(** Equality of signatures, tm/tape.py 12-16, src/tape.rs 202-207. *)
Definition sig_eqb (a b : signature) : bool :=
  (sg_scan a =? sg_scan b) && ccs_eqb (sg_l a) (sg_l b) && ccs_eqb (sg_r a) (sg_r b).

(** dict.get for the rules, tm/prover.py 45. *)
Fixpoint rules_at (rs : list (slot * list (minsig * rule))) (s : slot) : option (list (minsig * rule)) :=
  match rs with
  | [] => None
  | (k, v) :: rs => if slot_eqb k s then Some v else rules_at rs s
  end.

(** tm/prover.py 51-55, src/prover.rs 66-82. *)
Fixpoint match_rule (sig : signature) (temp : list (minsig * rule)) : option rule :=
  match temp with
  | [] => None
  | ((Sig scan lspan rspan, (lex, rex)), r) :: temp =>
      if (scan =? sg_scan sig)
         && ccs_eqb lspan (if lex then sg_l sig else firstn (length lspan) (sg_l sig))
         && ccs_eqb rspan (if rex then sg_r sig else firstn (length rspan) (sg_r sig))
      then Some r
      else match_rule sig temp
  end.

(** tm/prover.py 39-57, src/prover.rs 50-86. *)
Definition get_rule (pv : prover) (state : Z) (scan : Z) (sig : signature) : option rule :=
  match rules_at (pv_rules pv) (state, scan) with
  | None => None
  | Some temp => match_rule sig temp
  end.

(** tm/prover.py 65-68: append to the list of a slot. *)
Fixpoint rules_add (rs : list (slot * list (minsig * rule))) (s : slot) (e : minsig * rule) :=
  match rs with
  | [] => [(s, [e])]
  | (k, v) :: rs => if slot_eqb k s then (k, v ++ [e]) :: rs else (k, v) :: rules_add rs s e
  end.

(** tm/prover.py 59-68, src/prover.rs 43-48. *)
Definition set_rule (pv : prover) (r : rule) (state : Z) (sig : minsig) : prover :=
  PV (rules_add (pv_rules pv) (state, sg_scan (fst sig)) (sig, r)) (pv_configs pv).

(** dict operations on the configs, tm/prover.py 118, 122, 154. *)
Fixpoint cfg_get (cs : list (signature * past_configs)) (s : signature) : option past_configs :=
  match cs with
  | [] => None
  | (k, v) :: cs => if sig_eqb k s then Some v else cfg_get cs s
  end.
(** dict assignment on the configs, tm/prover.py 122, src/prover.rs 166, 174. *)
Fixpoint cfg_set (cs : list (signature * past_configs)) (s : signature) (p : past_configs) :=
  match cs with
  | [] => [(s, p)]
  | (k, v) :: cs => if sig_eqb k s then (k, p) :: cs else (k, v) :: cfg_set cs s p
  end.

(** What run_simulator returns or raises, tm/prover.py 70-92. *)
Inductive sim_res (T : Type) :=
  | SimEnd (state : Z) (t : T)      (* a state; the tape as left behind *)
  | SimKey (t : T)                  (* returns None *)
  | SimLoop                         (* MacroInfLoop *)
  | SimErr.                         (* IndexError, or a symbolic count would be created *)
Arguments SimEnd {T}. Arguments SimKey {T}. Arguments SimLoop {T}. Arguments SimErr {T}.

(** tm/prover.py 70-92 on a Tape. *)
Fixpoint py_simulate (comp : Z -> Z -> lookup) (pv : prover) (steps : nat) (state : Z) (t : tape) : sim_res tape :=
  match steps with
  | O => SimEnd state t
  | S steps =>
      let go (t : tape) :=
        match comp state (t_scan t) with
        | LKey _ => SimKey t
        | LLoop => SimLoop
        | LGot (color, shift, next_state) =>
            py_simulate comp pv steps next_state (fst (py_step t shift color (state =? next_state)))
        end in
      match get_rule pv state (t_scan t) (t_signature t) with
      | None => go t
      | Some r =>
          match py_apply_rule r t with
          | EvApplied _ t => py_simulate comp pv steps state t
          | EvNone => go t
          | _ => SimErr
          end
      end
  end.

(** ** The same on an EnumTape *)

(** tm/tape.py 260-271: the count and the recorded offsets; [None] models the IndexError. *)
Definition e_get_count (e : etape) (i : index) : option (Z * etape) :=
  match nth_error (if fst i then et_r e else et_l e) (snd i) with
  | None => None
  | Some b => Some (eb_count b, check_offsets e b)
  end.

(** One count of a span of blocks replaced (tm/tape.py 273-274); [None] models the IndexError. *)
Fixpoint eset_nth (s : list eblock) (pos : nat) (v : Z) : option (list eblock) :=
  match s, pos with
  | [], _ => None
  | b :: s, O => Some (EB (eb_color b) v (eb_enum b) :: s)
  | b :: s, S pos => option_map (cons b) (eset_nth s pos v)
  end.

(** tm/tape.py 273-274. *)
Definition e_set_count (e : etape) (i : index) (v : Z) : option etape :=
  if fst i
  then option_map (fun r => ET (et_l e) (et_scan e) r (et_loff e) (et_roff e) (et_ledge e) (et_redge e))
         (eset_nth (et_r e) (snd i) v)
  else option_map (fun l => ET l (et_scan e) (et_r e) (et_loff e) (et_roff e) (et_ledge e) (et_redge e))
         (eset_nth (et_l e) (snd i) v).

(** tm/rules.py 255-285 on an EnumTape: [None] for IndexError. *)
Fixpoint py_ecount_apps (r : rule) (e : etape) (apps : option (Z * index * Z)) : option (option (Z * index * Z) * etape) :=
  match r with
  | [] => Some (apps, e)
  | (pos, Plus diff) :: r =>
      if 0 <=? diff then py_ecount_apps r e apps
      else
        match e_get_count e pos with
        | None => None
        | Some (count, e) =>
            let absdiff := Z.abs diff in
            if count <=? absdiff then Some (None, e)
            else
              let div := count / absdiff in
              let rem := count mod absdiff in
              let '(times, min_res) := if 0 <? rem then (div, rem) else (div - 1, absdiff) in
              let apps := match apps with
                          | Some (t0, _, _) => if times <? t0 then Some (times, pos, min_res) else apps
                          | None => Some (times, pos, min_res)
                          end in
              py_ecount_apps r e apps
        end
  | (_, Mult _ _) :: r => py_ecount_apps r e apps
  end.

(** Outcome of apply_rule (tm/rules.py 287-310) on an EnumTape. *)
Inductive eapply_res :=
  | EaErr                             (* IndexError, ZeroDivisionError, or a symbolic count would be created *)
  | EaNone (e : etape)                (* returns None *)
  | EaApplied (times : Z) (e : etape).

(** tm/rules.py 294-309 on an EnumTape. *)
Fixpoint py_eapply_loop (r : rule) (e : etape) (times : Z) (min_pos : index) (min_res : Z) : eapply_res :=
  match r with
  | [] => EaApplied times e
  | (pos, o) :: r =>
      match e_get_count e pos with
      | None => EaErr
      | Some (count, e) =>
          match o with
          | Mult mul add =>
              if mult_int times mul add
              then match e_set_count e pos (apply_mult count times mul add) with
                   | None => EaErr
                   | Some e => py_eapply_loop r e times min_pos min_res
                   end
              else EaErr
          | Plus diff =>
              let result := if negb (index_eqb pos min_pos) then count + diff * times else min_res in
              match e_set_count e pos result with
              | None => EaErr
              | Some e => py_eapply_loop r e times min_pos min_res
              end
          end
      end
  end.

(** tm/rules.py 288-310 on an EnumTape. *)
Definition py_eapply_rule (r : rule) (e : etape) : eapply_res :=
  match py_ecount_apps r e None with
  | None => EaErr
  | Some (None, e) => EaNone e
  | Some (Some (times, pos, res), e) => py_eapply_loop r e times pos res
  end.

(** tm/prover.py 70-92 on an EnumTape.  Simplified: identities of Block objects are not re-used, so
    a new Block is not found in [enums]. *)
Fixpoint py_esimulate (comp : Z -> Z -> lookup) (pv : prover) (steps : nat) (state : Z) (e : etape) : sim_res etape :=
  match steps with
  | O => SimEnd state e
  | S steps =>
      let go e :=
        match comp state (et_scan e) with
        | LKey _ => SimKey e
        | LLoop => SimLoop
        | LGot (color, shift, next_state) =>
            py_esimulate comp pv steps next_state (py_estep None e shift color (state =? next_state))
        end in
      match get_rule pv state (et_scan e) (t_signature (erase e)) with
      | None => go e
      | Some r =>
          match py_eapply_rule r e with
          | EaApplied _ e => py_esimulate comp pv steps state e
          | EaNone e => go e
          | EaErr => SimErr
          end
      end
  end.

(** tm/prover.py 103-105, src/prover.rs 135-144. *)
Definition sig_slice (sig : signature) (e : etape) : minsig :=
  (Sig (sg_scan sig) (firstn (et_loff e) (sg_l sig)) (firstn (et_roff e) (sg_r sig)), (et_ledge e, et_redge e)).

(** What get_min_sig (tm/prover.py 94-105, src/prover.rs 112-144) returns or raises. *)
Inductive minsig_res := MsGot (m : minsig) | MsLoop | MsErr.

(** tm/prover.py 94-105. *)
Definition py_min_sig (comp : Z -> Z -> lookup) (pv : prover) (steps : nat) (state : Z) (e : etape) (sig : signature) : minsig_res :=
  match py_esimulate comp pv steps state e with
  | SimEnd _ e => MsGot (sig_slice sig e)
  | SimKey e => MsGot (sig_slice sig e)
  | SimLoop => MsLoop
  | SimErr => MsErr
  end.

(** What try_rule (tm/prover.py 107-169, src/prover.rs 146-243) returns or raises. *)
Inductive try_res :=
  | TNone | TRule (r : rule)
  | TInfinite                 (* InfiniteRule *)
  | TMult                     (* Rust only: MultRule *)
  | TConfigLimit              (* ConfigLimit *)
  | TSuspected (a b : Z)      (* SuspectedRule *)
  | TLoop                     (* MacroInfLoop *)
  | TErr.                     (* IndexError, ZeroDivisionError, panic, or a symbolic count *)

(** The loop over the deltas, tm/prover.py 132-139: the counts, or the answer given early. *)
Fixpoint py_delta_counts (comp : Z -> Z -> lookup) (pv : prover) (state : Z) (sig : signature)
    (deltas : list Z) (tags : tape) : list counts_t + try_res :=
  match deltas with
  | [] => inl []
  | delta :: deltas =>
      match py_simulate comp pv (Z.to_nat delta) state tags with
      | SimLoop => inr TLoop
      | SimErr => inr TErr
      | SimKey _ => inr TNone
      | SimEnd s tags =>
          if negb (s =? state) || negb (t_sig_compatible tags sig) then inr TNone
          else match py_delta_counts comp pv state sig deltas tags with
               | inl cs => inl (t_counts tags :: cs)
               | inr r => inr r
               end
      end
  end.

(** tm/prover.py 146-151 / src/prover.rs 208-222: the rules that are turned down. *)
Definition swap_rule (r : rule) (t : tape) : bool :=
  match r with
  | [(_, Plus a); (_, Plus b)] =>
      Nat.eqb (fst (t_span_lens t)) 1 && Nat.eqb (snd (t_span_lens t)) 1 && (Z.abs a =? Z.abs b)
  | _ => false
  end.

(** tm/prover.py 107-169. *)
Definition py_try_rule (comp : Z -> Z -> lookup) (pv : prover) (cycle state : Z) (t : tape) : prover * try_res :=
  let sig := t_signature t in
  match get_rule pv state (t_scan t) sig with
  | Some known => (pv, TRule known)
  | None =>
      match cfg_get (pv_configs pv) sig with
      | None =>
          if 100000 <? Z.of_nat (length (pv_configs pv)) then (pv, TConfigLimit)
          else (PV (pv_rules pv) (cfg_set (pv_configs pv) sig (pcs_new state cycle)), TNone)
      | Some past =>
          let '(past, d) := pcs_next_deltas past state cycle in
          let pv := PV (pv_rules pv) (cfg_set (pv_configs pv) sig past) in
          match d with
          | PPanic => (pv, TErr)
          | PNone => (pv, TNone)
          | PSome d1 d2 d3 =>
              match py_delta_counts comp pv state sig [d1; d2; d3] t with
              | inr r => (pv, r)
              | inl [c1; c2; c3] =>
                  match py_make_rule (t_counts t) c1 c2 c3 with
                  | RInfinite => (pv, TInfinite)
                  | RSuspected a b => (pv, TSuspected a b)
                  | RZeroDiv => (pv, TErr)
                  | RNone => (pv, TNone)
                  | RRule r =>
                      if swap_rule r t then (pv, TNone)
                      else
                        let pv := PV (pv_rules pv) (cfg_set (pv_configs pv) sig (pcs_delete past state)) in
                        match py_min_sig comp pv (Z.to_nat d1) state (to_enum t) sig with
                        | MsGot m => (set_rule pv r state m, TRule r)
                        | MsLoop => (pv, TLoop)
                        | MsErr => (pv, TErr)
                        end
                  end
              | inl _ => (pv, TErr)
              end
          end
      end
  end.

(** ** tm/machine.py *)

(** How a run ended: tm/machine.py 46-55; the first attribute set.  [MErr]: an exception that
    run does not catch, or a symbolic count would be created. *)
Inductive mach_end :=
  | MUndfnd (s : slot) | MSpnout | MXlimit | MInfrul | MCfglim | MErr.

(** What is left after run: tm/machine.py 36-57, 228-229. *)
Record mach := MachR {
  m_end : mach_end; m_steps : Z; m_cycles : Z; m_rulapp : Z;
  m_tape : tape; m_blanks : blanks_t; m_susrul : option (Z * Z); m_prover : prover
}.

(** tm/machine.py 156-226: [fuel] iterations of the loop are left, [cycle] is the loop variable.
    RuleLimit only arises from symbolic counts. *)
Fixpoint py_machine_loop (comp : Z -> Z -> lookup) (fuel : nat) (cycle : Z) (pv : prover) (t : tape)
    (state step : Z) (blanks : blanks_t) (rulapp : Z) (sus : option (Z * Z)) : mach :=
  match fuel with
  | O => MachR MXlimit step (cycle - 1) rulapp t blanks sus pv
  | S fuel =>
      let '(pv, tr) := py_try_rule comp pv cycle state t in
      let fin e sus := MachR e step cycle rulapp t blanks sus pv in
      let go sus :=
        match comp state (t_scan t) with
        | LKey s => fin (MUndfnd s) sus
        | LLoop => fin MInfrul sus
        | LGot (color, shift, next_state) =>
            let same := state =? next_state in
            if same && t_at_edge t shift then fin MSpnout sus
            else
              let '(t, stepped) := py_step t shift color same in
              let step := if step =? -1 then step else step + stepped in
              let state := next_state in
              let fin e b := MachR e step cycle rulapp t b sus pv in
              if (color =? 0) && t_blank t
              then if blanks_has blanks state then fin MInfrul blanks
                   else let blanks := (state, step) :: blanks in
                        if state =? 0 then fin MInfrul blanks
                        else py_machine_loop comp fuel (cycle + 1) pv t state step blanks rulapp sus
              else py_machine_loop comp fuel (cycle + 1) pv t state step blanks rulapp sus
        end in
      match tr with
      | TInfinite => fin MInfrul sus
      | TConfigLimit => fin MCfglim sus
      | TErr | TMult => fin MErr sus
      | TSuspected a b => go (Some (a, b))
      | TNone | TLoop => go sus
      | TRule r =>
          match py_apply_rule r t with
          | EvApplied times t => py_machine_loop comp fuel (cycle + 1) pv t state (-1) blanks (rulapp + times) sus
          | EvNone => go sus
          | EvIndex | EvSymbolic => fin MErr sus
          end
      end
  end.

(** tm/machine.py 139-234.  Simplified: the program is given, [sim_lim] is at least 1 (with
    [range(0)] the loop variable would be undefined), show_tape is left out. *)
Definition py_machine_run (comp : Z -> Z -> lookup) (sim_lim : nat) : mach :=
  py_machine_loop comp sim_lim 0 pv_new (Tape [] 0 []) 0 0 [] 0 None.

(** The attribute undfnd: tm/machine.py 194. *)
Definition m_undfnd (m : mach) : option (Z * slot) :=
  match m_end m with MUndfnd s => Some (m_steps m, s) | _ => None end.

(** ** src/prover.rs *)

(** src/prover.rs 88-110. *)
Fixpoint rs_simulate (M : program) (pv : prover) (steps : nat) (state : Z) (t : tape) : sim_res tape :=
  match steps with
  | O => SimEnd state t
  | S steps =>
      let go t :=
        match M state (t_scan t) with
        | None => SimKey t
        | Some (color, shift, next_state) =>
            rs_simulate M pv steps next_state (fst (rs_step t shift color (state =? next_state)))
        end in
      match get_rule pv state (t_scan t) (t_signature t) with
      | None => go t
      | Some r =>
          match rs_apply_rule r t with
          | RsApplied (Some _) t => rs_simulate M pv steps state t
          | RsApplied None t => go t
          | RsApplyPanic => SimErr
          end
      end
  end.

(** The EnumBlocks of [e] with the counts of [t]: how src/rules.rs changes an EnumTape (src/tape.rs
    710-718 passes get_count and set_count on, without recording offsets). *)
Fixpoint recount (s : list eblock) (p : span) : list eblock :=
  match s, p with
  | b :: s, c :: p => EB (eb_color b) (b_count c) (eb_enum b) :: recount s p
  | _, _ => s
  end.
(** Both spans: src/tape.rs 710-718. *)
Definition e_recount (e : etape) (t : tape) : etape :=
  ET (recount (et_l e) (t_lspan t)) (et_scan e) (recount (et_r e) (t_rspan t))
     (et_loff e) (et_roff e) (et_ledge e) (et_redge e).

(** src/prover.rs 119-133; [SimKey] is the panic of the [unwrap]. *)
Fixpoint rs_esimulate (M : program) (pv : prover) (steps : nat) (state : Z) (e : etape) : sim_res etape :=
  match steps with
  | O => SimEnd state e
  | S steps =>
      let go e :=
        match M state (et_scan e) with
        | None => SimKey e
        | Some (color, shift, next_state) =>
            rs_esimulate M pv steps next_state (rs_estep e shift color (state =? next_state))
        end in
      match get_rule pv state (et_scan e) (t_signature (erase e)) with
      | None => go e
      | Some r =>
          match rs_apply_rule r (erase e) with
          | RsApplied (Some _) t => rs_esimulate M pv steps state (e_recount e t)
          | RsApplied None t => go (e_recount e t)
          | RsApplyPanic => SimErr
          end
      end
  end.

(** src/prover.rs 112-145; slicing beyond the end panics. *)
Definition rs_min_sig (M : program) (pv : prover) (steps : nat) (state : Z) (e : etape) (sig : signature) : minsig_res :=
  match rs_esimulate M pv steps state e with
  | SimEnd _ e =>
      if Nat.leb (et_loff e) (length (sg_l sig)) && Nat.leb (et_roff e) (length (sg_r sig))
      then MsGot (sig_slice sig e)
      else MsErr
  | _ => MsErr
  end.

(** src/prover.rs 183-191. *)
Fixpoint rs_delta_counts (M : program) (pv : prover) (state : Z) (sig : signature)
    (deltas : list Z) (tags : tape) : list counts_t + try_res :=
  match deltas with
  | [] => inl []
  | delta :: deltas =>
      match rs_simulate M pv (Z.to_nat delta) state tags with
      | SimErr | SimLoop => inr TErr
      | SimKey _ => inr TNone
      | SimEnd s tags =>
          if negb (s =? state) || negb (t_sig_compatible tags sig) then inr TNone
          else match rs_delta_counts M pv state sig deltas tags with
               | inl cs => inl (t_counts tags :: cs)
               | inr r => inr r
               end
      end
  end.

(** src/prover.rs 200-206. *)
Definition is_mult (e : index * op) : bool := match snd e with Mult _ _ => true | _ => false end.

(** src/prover.rs 147-235.  Simplified: cycles are integers of any size. *)
Definition rs_try_rule (M : program) (pv : prover) (cycle state : Z) (t : tape) : prover * try_res :=
  let sig := t_signature t in
  match get_rule pv state (t_scan t) sig with
  | Some known => (pv, TRule known)
  | None =>
      match cfg_get (pv_configs pv) sig with
      | None =>
          if 100000 <? Z.of_nat (length (pv_configs pv)) then (pv, TConfigLimit)
          else (PV (pv_rules pv) (cfg_set (pv_configs pv) sig (pcs_new state cycle)), TNone)
      | Some past =>
          let '(past, d) := pcs_next_deltas past state cycle in
          let pv := PV (pv_rules pv) (cfg_set (pv_configs pv) sig past) in
          match d with
          | PPanic => (pv, TErr)
          | PNone => (pv, TNone)
          | PSome d1 d2 d3 =>
              if (90000 <? d1) || (90000 <? d2) || (90000 <? d3) then (pv, TNone)
              else
              match rs_delta_counts M pv state sig [d1; d2; d3] t with
              | inr r => (pv, r)
              | inl [c1; c2; c3] =>
                  match rs_make_rule (t_counts t) c1 c2 c3 with
                  | RsRulePanic => (pv, TErr)
                  | RsNoRule => (pv, TNone)
                  | RsRule r =>
                      if forallb nonneg_plus r then (pv, TInfinite)
                      else if existsb is_mult r then (pv, TMult)
                      else if swap_rule r t then (pv, TNone)
                      else
                        let pv := PV (pv_rules pv) (cfg_set (pv_configs pv) sig (pcs_delete past state)) in
                        match rs_min_sig M pv (Z.to_nat d1) state (to_enum t) sig with
                        | MsGot m => (set_rule pv r state m, TRule r)
                        | MsLoop | MsErr => (pv, TErr)
                        end
                  end
              | inl _ => (pv, TErr)
              end
          end
      end
  end.

(** ** src/machine.rs *)

(** src/machine.rs 237-300: the loop.  What run_prover returns, and its local variable
    [prover] at that time; [None] for a panic. *)
Fixpoint rs_prover_loop (M : program) (fuel : nat) (cycle : Z) (pv : prover) (t : tape)
    (state steps : Z) (blanks : blanks_t) (rulapp : Z) : option (machine_result * prover) :=
  match fuel with
  | O => Some (MR xlimit steps 0 (t_marks t) rulapp blanks None, pv)
  | S fuel =>
      let '(pv, tr) := rs_try_rule M pv cycle state t in
      let fin e l := Some (MR e steps cycle (t_marks t) rulapp blanks l, pv) in
      let go t :=
        let sl := (state, t_scan t) in
        match M state (t_scan t) with
        | None => Some (MR undfnd steps cycle (t_marks t) rulapp blanks (Some sl), pv)
        | Some (color, shift, next_state) =>
            let same := state =? next_state in
            if same && t_at_edge t shift then Some (MR spnout steps cycle (t_marks t) rulapp blanks None, pv)
            else
              let '(t, stepped) := rs_step t shift color same in
              let steps := steps + stepped in
              let state := next_state in
              if (color =? 0) && t_blank t
              then if blanks_has blanks state then Some (MR infrul steps 0 (t_marks t) rulapp blanks None, pv)
                   else let blanks := (state, steps) :: blanks in
                        if state =? 0 then Some (MR infrul steps 0 (t_marks t) rulapp blanks None, pv)
                        else rs_prover_loop M fuel (cycle + 1) pv t state steps blanks rulapp
              else rs_prover_loop M fuel (cycle + 1) pv t state steps blanks rulapp
        end in
      match tr with
      | TInfinite => fin infrul None
      | TConfigLimit => fin cfglim None
      | TMult => fin mulrul None
      | TErr | TLoop | TSuspected _ _ => None
      | TNone => go t
      | TRule r =>
          match rs_apply_rule r t with
          | RsApplyPanic => None
          | RsApplied (Some times) t => rs_prover_loop M fuel (cycle + 1) pv t state steps blanks (rulapp + times)
          | RsApplied None t => go t
          end
      end
  end.

(** src/machine.rs 219-312 (run_prover).  Simplified: the compiled program is given, u64 overflow
    of [steps] and [rulapp] is ignored. *)
Definition rs_run_prover (M : program) (sim_lim : nat) : option machine_result :=
  option_map fst (rs_prover_loop M sim_lim 0 pv_new (Tape [] 0 []) 0 0 [] 0).
(** The prover when run_prover returns (src/machine.rs 226). *)
Definition rs_run_prover_end (M : program) (sim_lim : nat) : option prover :=
  option_map snd (rs_prover_loop M sim_lim 0 pv_new (Tape [] 0 []) 0 0 [] 0).

(** src/machine.rs 177-214, the loop of run_for_infrul; [None] for a panic. *)
Fixpoint rs_infrul_loop (M : program) (fuel : nat) (cycle : Z) (pv : prover) (t : tape) (state : Z) : option bool :=
  match fuel with
  | O => Some false
  | S fuel =>
      let '(pv, tr) := rs_try_rule M pv cycle state t in
      let go t :=
        match M state (t_scan t) with
        | None => Some false
        | Some (color, shift, next_state) =>
            let same := state =? next_state in
            if same && t_at_edge t shift then Some false
            else rs_infrul_loop M fuel (cycle + 1) pv (fst (rs_step t shift color same)) next_state
        end in
      match tr with
      | TInfinite => Some true
      | TConfigLimit | TMult => Some false
      | TErr | TLoop | TSuspected _ _ => None
      | TNone => go t
      | TRule r =>
          match rs_apply_rule r t with
          | RsApplyPanic => None
          | RsApplied (Some _) t => rs_infrul_loop M fuel (cycle + 1) pv t state
          | RsApplied None t => go t
          end
      end
  end.
(** src/machine.rs 170-214 (run_for_infrul). *)
Definition rs_run_for_infrul (M : program) (sim_lim : nat) : option bool :=
  rs_infrul_loop M sim_lim 0 pv_new (Tape [] 0 []) 0.
