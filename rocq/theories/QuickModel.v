(** * Model of src/machine.rs: run_quick_machine *)
From Verif Require Import Base TM ProgModel TapeModel.

(** src/machine.rs 21-28. *)
Inductive term_res := xlimit | cfglim | infrul | spnout | undfnd | mulrul.

(** src/machine.rs 14 (Blanks = BTreeMap<State, Step>) as an association list. *)
Definition blanks_t : Type := list (Z * Z).

(** [blanks.contains_key], src/machine.rs 289, 359. *)
Fixpoint blanks_has (b : blanks_t) (s : Z) : bool :=
  match b with [] => false | (k, _) :: b => (k =? s) || blanks_has b s end.

(** src/machine.rs 34-45. *)
Record machine_result := MR {
  mr_result : term_res;
  mr_steps : Z;
  mr_cycles : Z;
  mr_marks : Z;
  mr_rulapp : Z;
  mr_blanks : blanks_t;
  mr_last_slot : option slot
}.

(** src/machine.rs 332-369: the loop over [cycle] in [0..sim_lim]; [fuel] is the number of
    iterations left, [cycle] the loop variable.  The record is built as in 371-379. *)
Fixpoint quick_loop (comp : comp_prog) (fuel : nat) (cycle : Z)
    (tp : tape) (blanks : blanks_t) (state steps : Z) : machine_result :=
  match fuel with
  | O => MR xlimit steps 0 (t_marks tp) 0 blanks None
  | S fuel =>
      let sl := (state, t_scan tp) in
      match comp_get comp sl with
      | None => MR undfnd steps cycle (t_marks tp) 0 blanks (Some sl)
      | Some (color, shift, next_state) =>
          let same := state =? next_state in
          if same && t_at_edge tp shift
          then MR spnout steps cycle (t_marks tp) 0 blanks None
          else
            let '(tp, stepped) := rs_step tp shift color same in
            let steps := steps + stepped in
            let state := next_state in
            if (color =? 0) && t_blank tp
            then if blanks_has blanks state
                 then MR infrul steps 0 (t_marks tp) 0 blanks None
                 else let blanks := (state, steps) :: blanks in
                      if state =? 0
                      then MR infrul steps 0 (t_marks tp) 0 blanks None
                      else quick_loop comp fuel (cycle + 1) tp blanks state steps
            else quick_loop comp fuel (cycle + 1) tp blanks state steps
      end
  end.

(** src/machine.rs 318-380.  Simplified: takes the compiled program (parsing is modelled
    separately), and u64 overflow of the step counter is ignored. *)
Definition run_quick_machine (comp : comp_prog) (sim_lim : nat) : machine_result :=
  quick_loop comp sim_lim 0 init_tape [] 0 0.

(** src/machine.rs 97-108 (getter undfnd). *)
Definition mr_undfnd (r : machine_result) : option (Z * slot) :=
  match mr_result r, mr_last_slot r with
  | undfnd, Some s => Some (mr_steps r, s)
  | _, _ => None
  end.
