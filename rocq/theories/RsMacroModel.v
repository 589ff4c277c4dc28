(** * Model of the macro programs of src/macros.rs with their caches, and of src/prover.rs run over them

    A Rust macro program has two caches behind [RefCell]s, its instructions and its converter's; looking
    an instruction up may change them, so each function that looks instructions up takes the caches and
    gives them back.  [St] stands for the caches; for a plain program it is [unit]. *)
From Verif Require Import Base TM ProgModel TapeModel EnumModel RulesModel PastModel ProverModel MacroModel.

(** src/instrs.rs 20-22 (get_instr): an instruction, [None], or a panic. *)
Inductive rlook := RlSome (i : instr) | RlNone | RlPanic.

(** src/macros.rs 113-118: the two caches of a macro program. *)
Record rs_macro := RM { rm_instrs : comp_prog; rm_conv : converter }.

(** src/macros.rs 136-142 (with 44-52 or 221-231, and 344-354): both are fresh. *)
Definition rs_macro_new (l : logic) : rs_macro := RM [] (conv_init (lg_cells l)).

(** src/macros.rs 98-107 and 289-310: what [tape_to_color] is given and the instruction as a function of
    its answer; [None] where [split_at] or [color[0]] panics. *)
Definition rs_reconstruct (l : logic) (state : Z) (right_edge : bool) (tape : cells_t)
    : option (cells_t * (Z -> instr)) :=
  match lg_kind l with
  | Block => Some (tape, fun color => (color, right_edge, 2 * state + (if negb right_edge then 1 else 0)))
  | Backsymbol =>
      let shift := negb right_edge in
      let split :=
        if shift
        then match skipn (lg_cells l - 1) tape with c :: _ => Some (firstn (lg_cells l - 1) tape, c) | [] => None end
        else match tape with c :: rest => Some (rest, c) | [] => None end in
      match split with
      | None => None
      | Some (backspan, macro_color) =>
          Some (backspan, fun color => (macro_color, shift, (if shift then 1 else 0) + 2 * (state * lg_backsymbols l + color)))
      end
  end.

(** src/macros.rs 144-148 (calculate_instr), for a macro over a plain program: [run_simulator] (150-206)
    answers [None] both for a missing instruction and when [sim_lim] is used up.  The converter's methods
    (356-380) are those of tm/macro.py but for the panic on an unseen colour.  Simplified: [u64] and
    [usize] are unbounded. *)
Definition rs_calculate (comp : comp_prog) (l : logic) (cv : converter) (ms mc : Z) : converter * rlook :=
  match deconstruct l (color_to_tape cv) ms mc with
  | None => (cv, RlPanic)
  | Some (state, (right_edge, tape)) =>
      match run_simulator (dict_lookup comp) (Z.to_nat (lg_sim_lim l)) state right_edge tape with
      | WIn _ _ _ | WErr _ => (cv, RlNone)
      | WOut state side tape =>
          match rs_reconstruct l state side tape with
          | None => (cv, RlPanic)
          | Some (t, mk) =>
              let '(cv, color) := tape_to_color (lg_colors l) cv t in
              (cv, RlSome (mk color))
          end
      end
  end.

(** src/macros.rs 120-132 (get_instr). *)
Definition rs_macro_get (comp : comp_prog) (l : logic) (m : rs_macro) (ms mc : Z) : rs_macro * rlook :=
  match comp_get (rm_instrs m) (ms, mc) with
  | Some i => (m, RlSome i)
  | None =>
      let '(cv, r) := rs_calculate comp l (rm_conv m) ms mc in
      match r with
      | RlSome i => (RM (((ms, mc), i) :: rm_instrs m) cv, r)
      | _ => (RM (rm_instrs m) cv, r)
      end
  end.

(** src/instrs.rs 24-28: a plain program. *)
Definition rs_plain_get (comp : comp_prog) (u : unit) (s c : Z) : unit * rlook :=
  (u, match comp_get comp (s, c) with Some i => RlSome i | None => RlNone end).

(** src/macros.rs 16-22: the logic of make_block_macro. *)
Definition rs_block_logic (params : Z * Z) (blocks : nat) : logic := Logic Block blocks (fst params) (snd params).
(** src/macros.rs 24-30: that of make_backsymbol_macro. *)
Definition rs_back_logic (params : Z * Z) (cells : nat) : logic := Logic Backsymbol cells (fst params) (snd params).

Section Stateful.

Context {St : Type}.
(** src/prover.rs 25 ([prog]): the lookups, with what they do to the caches. *)
Variable look : St -> Z -> Z -> St * rlook.

(** src/prover.rs 88-110; as [rs_simulate]. *)
Fixpoint sf_simulate (pv : prover) (steps : nat) (m : St) (state : Z) (t : tape) : St * sim_res tape :=
  match steps with
  | O => (m, SimEnd state t)
  | S steps =>
      let go t :=
        match look m state (t_scan t) with
        | (m, RlPanic) => (m, SimErr)
        | (m, RlNone) => (m, SimKey t)
        | (m, RlSome (color, shift, next_state)) =>
            sf_simulate pv steps m next_state (fst (rs_step t shift color (state =? next_state)))
        end in
      match get_rule pv state (t_scan t) (t_signature t) with
      | None => go t
      | Some r =>
          match rs_apply_rule r t with
          | RsApplied (Some _) t => sf_simulate pv steps m state t
          | RsApplied None t => go t
          | RsApplyPanic => (m, SimErr)
          end
      end
  end.

(** src/prover.rs 119-133; as [rs_esimulate]. *)
Fixpoint sf_esimulate (pv : prover) (steps : nat) (m : St) (state : Z) (e : etape) : St * sim_res etape :=
  match steps with
  | O => (m, SimEnd state e)
  | S steps =>
      let go e :=
        match look m state (et_scan e) with
        | (m, RlPanic) => (m, SimErr)
        | (m, RlNone) => (m, SimKey e)
        | (m, RlSome (color, shift, next_state)) =>
            sf_esimulate pv steps m next_state (rs_estep e shift color (state =? next_state))
        end in
      match get_rule pv state (et_scan e) (t_signature (erase e)) with
      | None => go e
      | Some r =>
          match rs_apply_rule r (erase e) with
          | RsApplied (Some _) t => sf_esimulate pv steps m state (e_recount e t)
          | RsApplied None t => go (e_recount e t)
          | RsApplyPanic => (m, SimErr)
          end
      end
  end.

(** src/prover.rs 112-145; as [rs_min_sig]. *)
Definition sf_min_sig (pv : prover) (steps : nat) (m : St) (state : Z) (e : etape) (sig : signature) : St * minsig_res :=
  match sf_esimulate pv steps m state e with
  | (m, SimEnd _ e) =>
      (m, if Nat.leb (et_loff e) (length (sg_l sig)) && Nat.leb (et_roff e) (length (sg_r sig))
          then MsGot (sig_slice sig e)
          else MsErr)
  | (m, _) => (m, MsErr)
  end.

(** src/prover.rs 183-191; as [rs_delta_counts]. *)
Fixpoint sf_delta_counts (pv : prover) (m : St) (state : Z) (sig : signature)
    (deltas : list Z) (tags : tape) : St * (list counts_t + try_res) :=
  match deltas with
  | [] => (m, inl [])
  | delta :: deltas =>
      match sf_simulate pv (Z.to_nat delta) m state tags with
      | (m, SimErr) | (m, SimLoop) => (m, inr TErr)
      | (m, SimKey _) => (m, inr TNone)
      | (m, SimEnd s tags) =>
          if negb (s =? state) || negb (t_sig_compatible tags sig) then (m, inr TNone)
          else match sf_delta_counts pv m state sig deltas tags with
               | (m, inl cs) => (m, inl (t_counts tags :: cs))
               | (m, inr r) => (m, inr r)
               end
      end
  end.

(** src/prover.rs 147-235; as [rs_try_rule]. *)
Definition sf_try_rule (pv : prover) (m : St) (cycle state : Z) (t : tape) : prover * St * try_res :=
  let sig := t_signature t in
  match get_rule pv state (t_scan t) sig with
  | Some known => (pv, m, TRule known)
  | None =>
      match cfg_get (pv_configs pv) sig with
      | None =>
          if 100000 <? Z.of_nat (length (pv_configs pv)) then (pv, m, TConfigLimit)
          else (PV (pv_rules pv) (cfg_set (pv_configs pv) sig (pcs_new state cycle)), m, TNone)
      | Some past =>
          let '(past, d) := pcs_next_deltas past state cycle in
          let pv := PV (pv_rules pv) (cfg_set (pv_configs pv) sig past) in
          match d with
          | PPanic => (pv, m, TErr)
          | PNone => (pv, m, TNone)
          | PSome d1 d2 d3 =>
              if (90000 <? d1) || (90000 <? d2) || (90000 <? d3) then (pv, m, TNone)
              else
              match sf_delta_counts pv m state sig [d1; d2; d3] t with
              | (m, inr r) => (pv, m, r)
              | (m, inl [c1; c2; c3]) =>
                  match rs_make_rule (t_counts t) c1 c2 c3 with
                  | RsRulePanic => (pv, m, TErr)
                  | RsNoRule => (pv, m, TNone)
                  | RsRule r =>
                      if forallb nonneg_plus r then (pv, m, TInfinite)
                      else if existsb is_mult r then (pv, m, TMult)
                      else if swap_rule r t then (pv, m, TNone)
                      else
                        let pv := PV (pv_rules pv) (cfg_set (pv_configs pv) sig (pcs_delete past state)) in
                        match sf_min_sig pv (Z.to_nat d1) m state (to_enum t) sig with
                        | (m, MsGot ms) => (set_rule pv r state ms, m, TRule r)
                        | (m, _) => (pv, m, TErr)
                        end
                  end
              | (m, inl _) => (pv, m, TErr)
              end
          end
      end
  end.

(** src/machine.rs 177-214; as [rs_infrul_loop]. *)
Fixpoint sf_infrul_loop (fuel : nat) (cycle : Z) (pv : prover) (m : St) (t : tape) (state : Z) : option bool :=
  match fuel with
  | O => Some false
  | S fuel =>
      let '(pv, m, tr) := sf_try_rule pv m cycle state t in
      let go t :=
        match look m state (t_scan t) with
        | (_, RlPanic) => None
        | (_, RlNone) => Some false
        | (m, RlSome (color, shift, next_state)) =>
            let same := state =? next_state in
            if same && t_at_edge t shift then Some false
            else sf_infrul_loop fuel (cycle + 1) pv m (fst (rs_step t shift color same)) next_state
        end in
      match tr with
      | TInfinite => Some true
      | TConfigLimit | TMult => Some false
      | TErr | TLoop | TSuspected _ _ => None
      | TNone => go t
      | TRule r =>
          match rs_apply_rule r t with
          | RsApplyPanic => None
          | RsApplied (Some _) t => sf_infrul_loop fuel (cycle + 1) pv m t state
          | RsApplied None t => go t
          end
      end
  end.

(** src/machine.rs 170-215 (run_for_infrul). *)
Definition sf_run_for_infrul (m : St) (sim_lim : nat) : option bool :=
  sf_infrul_loop sim_lim 0 pv_new m (Tape [] 0 []) 0.

End Stateful.
