(** * Model of make_macro (tm/macro.py 23-48) and of Machine objects over macro programs *)
From Verif Require Import Base TM ProgModel TapeModel BlocksModel ProverModel MacroModel.

(** The tuple of [k] digits of [c] in base [b]: what color_to_tape (tm/macro.py 95-98) answers for a colour
    that tape_to_color (tm/macro.py 100-113) has produced, see C17. *)
Fixpoint digits_of (b : Z) (k : nat) (c : Z) : cells_t :=
  match k with O => [] | S k => digits_of b k (c / b) ++ [c mod b] end.

(** tm/macro.py 172-186: a macro program as a function of the slot.  Simplified: the instruction cache
    and the converter's caches are left out; C22 shows that the answers do not depend on them. *)
Definition macro_fun (look : MacroModel.lookup) (l : logic) : MacroModel.lookup := fun ms mc =>
  match deconstruct l (fun c => Some (digits_of (lg_colors l) (lg_cells l) c)) ms mc with
  | None => LAssert
  | Some (state, (right_edge, tape)) =>
      match run_simulator look (Z.to_nat (lg_sim_lim l)) state right_edge tape with
      | WIn _ _ _ => LInf           (* does not occur *)
      | WErr e => e
      | WOut state right_ tape =>
          let '(t, mk) := reconstruct l state right_ tape in LOk (mk (color_of (lg_colors l) t))
      end
  end.

(** tm/macro.py 23-48 (make_macro), 51-65, 393-408: the program as a lookup.  [None]: opt_block panics. *)
Definition make_macro (p : comp_prog) (blocks backsym opt_macro : option nat) (params : option (Z * Z))
    : option MacroModel.lookup :=
  match (match opt_macro with
         | Some steps => match opt_block p steps with Some b => Some (Some b) | None => None end
         | None => Some blocks
         end) with
  | None => None
  | Some blocks =>
      let '(comp, params, cparams) :=
        match blocks with
        | Some b =>
            if (1 <? b)%nat
            then let '(s, c) := match params with Some ps => ps | None => prog_params p end in
                 let l := Logic Block b s c in
                 (macro_fun (dict_lookup p) l, Some (s, c), (lg_macro_states l, lg_macro_colors l))
            else (dict_lookup p, params, prog_params p)
        | None => (dict_lookup p, params, prog_params p)
        end in
      match backsym with
      | None => Some comp
      | Some b =>
          let '(s, c) := match params, blocks with
                         | Some ps, None => ps
                         | _, _ => cparams
                         end in
          Some (macro_fun comp (Logic Backsymbol b s c))
      end
  end.

(** The lookups of tm/machine.py 191-198 and tm/prover.py 81-84 on a program made by tm/macro.py.  An
    AssertionError of the converter does not occur (C21). *)
Definition as_comp (look : MacroModel.lookup) (state color : Z) : ProverModel.lookup :=
  match look state color with
  | LOk i => LGot i
  | MacroModel.LKey s => ProverModel.LKey s
  | LInf => LLoop
  | LAssert => LLoop
  end.

(** tm/machine.py 59-75, 139-234: Machine(prog, blocks, backsym, opt_macro, params).run(sim_lim). *)
Definition py_machine (p : comp_prog) (blocks backsym opt_macro : option nat) (params : option (Z * Z))
    (sim_lim : nat) : option mach :=
  option_map (fun look => py_machine_run (as_comp look) sim_lim) (make_macro p blocks backsym opt_macro params).
