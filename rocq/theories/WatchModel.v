(** * Model of watching a run: tm/machine.py 111-125, 139-234 with watch_tape *)
From Verif Require Import Base ProgModel TapeModel RulesModel QuickModel ProverModel NumModel ParseModel NumShowModel TapeShowModel.
Local Open Scope string_scope.
Local Open Scope list_scope.
Local Open Scope Z_scope.

(** tm/machine.py 111-116: what one call of show_tape is given, with the tape as it is then. *)
Record shown := Shown { sh_step : Z; sh_cycle : Z; sh_state : Z; sh_tape : tape }.

(** The format [ kd] of an int (tm/machine.py 118, 123): a space instead of the sign +, filled with spaces from the left
    to [k] characters. *)
Definition padded (k : nat) (n : Z) : text :=
  let s := if n <? 0 then str_int n else 32 :: str_int n in repeat 32 (k - length s) ++ s.
(** tm/machine.py 117-125 (show_tape): the line printed, for int counts. *)
Definition shown_text (order : Z -> Z) (l : shown) : text :=
  join (quoted " | ")
    [padded 5 (sh_cycle l);
     (if sh_step l =? -1 then quoted "..." else padded 3 (sh_step l));
     show_slot (sh_state l, t_scan (sh_tape l));
     py_tape_text order (sh_tape l)].

(** What is left of the loop of run: the attributes, the state (a local variable) and the calls of show_tape
    (tm/machine.py 156-229). *)
Record watched := Watched { w_mach : mach; w_state : Z; w_shown : list shown }.
(** tm/machine.py 158-159: one more call, before the others. *)
Definition and_shown (l : shown) (w : watched) : watched := Watched (w_mach w) (w_state w) (l :: w_shown w).

(** tm/machine.py 156-226 with watch_tape: as [ProverModel.py_machine_loop], with the calls of show_tape. *)
Fixpoint py_watch_loop (comp : Z -> Z -> lookup) (fuel : nat) (cycle : Z) (pv : prover) (t : tape)
    (state step : Z) (blanks : blanks_t) (rulapp : Z) (sus : option (Z * Z)) : watched :=
  match fuel with
  | O => Watched (MachR MXlimit step (cycle - 1) rulapp t blanks sus pv) state []
  | S fuel =>
      and_shown (Shown step cycle state t)
      (let '(pv, tr) := py_try_rule comp pv cycle state t in
       let fin e sus := Watched (MachR e step cycle rulapp t blanks sus pv) state [] in
       let go sus :=
         match comp state (t_scan t) with
         | LKey s => fin (MUndfnd s) sus
         | LLoop => fin MInfrul sus
         | LGot (color, shift, next_state) =>
             let same := state =? next_state in
             if same && t_at_edge t shift then fin MSpnout sus
             else
               let '(t, stepped) := py_step t shift color same in
               let step := if step =? -1 then step else step + stepped in
               let state := next_state in
               let fin e b := Watched (MachR e step cycle rulapp t b sus pv) state [] in
               if (color =? 0) && t_blank t
               then if blanks_has blanks state then fin MInfrul blanks
                    else let blanks := (state, step) :: blanks in
                         if state =? 0 then fin MInfrul blanks
                         else py_watch_loop comp fuel (cycle + 1) pv t state step blanks rulapp sus
               else py_watch_loop comp fuel (cycle + 1) pv t state step blanks rulapp sus
         end in
       match tr with
       | TInfinite => fin MInfrul sus
       | TConfigLimit => fin MCfglim sus
       | TErr | TMult => fin MErr sus
       | TSuspected a b => go (Some (a, b))
       | TNone | TLoop => go sus
       | TRule r =>
           match py_apply_rule r t with
           | EvApplied times t => py_watch_loop comp fuel (cycle + 1) pv t state (-1) blanks (rulapp + times) sus
           | EvNone => go sus
           | EvIndex | EvSymbolic => fin MErr sus
           end
       end)
  end.
(** tm/machine.py 231: whether there is one more call after the loop (a tuple is true); not if an exception left it. *)
Definition shows_last (m : mach) : bool :=
  match m_end m with
  | MErr => false
  | MUndfnd _ => true
  | _ => match m_blanks m with [] => false | _ => true end
  end.
(** tm/machine.py 139-234: run with watch_tape, and the calls of show_tape.  Simplified as [ProverModel.py_machine_run]:
    the object is new, [sim_lim] is at least 1. *)
Definition py_watch (comp : Z -> Z -> lookup) (sim_lim : nat) : mach * list shown :=
  let w := py_watch_loop comp sim_lim 0 pv_new (Tape [] 0 []) 0 0 [] 0 None in
  let m := w_mach w in
  (m, w_shown w ++ if shows_last m then [Shown (m_steps m) (1 + m_cycles m) (w_state w) (m_tape m)] else []).
