(** * Model of a Machine object and of what it prints: tm/machine.py 33-137, src/machine.rs 33-162

    An object of class Machine keeps its attributes from one run to the next; run assigns some of them afresh. *)
From Verif Require Import Base TM ProgModel TapeModel RulesModel PastModel QuickModel ProverModel NumModel SymModel SymMachModel
  ParseModel NumShowModel.
Local Open Scope Z_scope.

(** tm/machine.py 33-57: the attributes.  [None] is None, and for tape, prover, steps, cycles and blanks that there is
    no such attribute yet. *)
Record mobj := MO {
  mo_spnout : option Z; mo_xlimit : option Z; mo_undfnd : option (Z * slot); mo_infrul : option Z; mo_cfglim : option Z;
  mo_limrul : option text; mo_susrul : option (Z * Z); mo_rulapp : cnt;
  mo_steps : option Z; mo_cycles : option Z; mo_tape : option stape; mo_blanks : option blanks_t; mo_prover : option sprover
}.
(** tm/machine.py 46-74: a new object. *)
Definition mo_new : mobj := MO None None None None None None None (I 0) None None None None None.

Section Obj.
Variable fl : floats.
Variable o : ops.
Variable comp : comp_prog.
(** str of a RuleLimit, tm/machine.py 169, 184.  Simplified: one text stands for whatever the exception says. *)
Variable msg : text.

(** tm/machine.py 139-234: run of an object; [false] if an exception leaves it (or the operators nest too deep for the
    model).  The program is not a macro; show_tape is left out. *)
Definition mo_run (ob : mobj) (sim_lim : nat) : mobj * bool :=
  let m := s_machine_loop fl o (plain (machine_of comp)) sim_lim 0 (SPV [] []) st_init 0 0 [] (mo_rulapp ob) (mo_susrul ob) in
  let set {A} (old : option A) (is : bool) (v : A) : option A := if is then Some v else old in
  let ok := match sm_end m with YErr | YDeep => false | _ => true end in
  (MO (set (mo_spnout ob) (match sm_end m with YSpnout => true | _ => false end) (sm_steps m))
      (set (mo_xlimit ob) (match sm_end m with YXlimit => true | _ => false end) (sm_steps m))
      (match sm_end m with YUndfnd s => Some (sm_steps m, s) | _ => mo_undfnd ob end)
      (set (mo_infrul ob) (match sm_end m with YInfrul => true | _ => false end) (sm_steps m))
      (set (mo_cfglim ob) (match sm_end m with YCfglim => true | _ => false end) (sm_steps m))
      (set (mo_limrul ob) (match sm_end m with YLimrul => true | _ => false end) msg)
      (sm_susrul m) (sm_rulapp m)
      (set (mo_steps ob) ok (sm_steps m)) (set (mo_cycles ob) ok (sm_cycles m))
      (Some (sm_tape m)) (Some (sm_blanks m)) (Some (sm_prover m)), ok).
(** Several calls of run, one after the other (as tm/machine.py 139 can be used); [None] if an exception leaves one. *)
Fixpoint mo_runs (ob : mobj) (lims : list nat) : option mobj :=
  match lims with
  | [] => Some ob
  | lim :: lims => let '(ob, ok) := mo_run ob lim in if ok : bool then mo_runs ob lims else None
  end.

(** tm/machine.py 127-133 (simple_termination). *)
Definition mo_simple (ob : mobj) : option Z :=
  match mo_undfnd ob with None => mo_spnout ob | Some (s, _) => Some s end.

(** ** tm/machine.py 84-109 (__str__) *)

Local Open Scope string_scope.
(** str of the tuple undfnd, tm/machine.py 91. *)
Definition str_undfnd (u : Z * slot) : text :=
  (quoted "(" ++ str_int (fst u) ++ quoted ", (" ++ str_int (fst (snd u)) ++ quoted ", " ++ str_int (snd (snd u)) ++ quoted "))")%list.
(** tm/machine.py 24-31, 88-95: the categories that are set. *)
Definition mo_cats (ob : mobj) : list (text * text) :=
  let cat name (d : option text) := match d with Some d => [(quoted name, d)] | None => [] end in
  (cat "CFGLIM" (option_map str_int (mo_cfglim ob)) ++ cat "INFRUL" (option_map str_int (mo_infrul ob))
   ++ cat "LIMRUL" (mo_limrul ob) ++ cat "SPNOUT" (option_map str_int (mo_spnout ob))
   ++ cat "UNDFND" (option_map str_undfnd (mo_undfnd ob)) ++ cat "XLIMIT" (option_map str_int (mo_xlimit ob)))%list.

Variable order : Z -> Z.
(** show_number of tm/num.py 2247-2258, as used in tm/machine.py 87, 101. *)
Definition mo_number (n : cnt) : text := show_number order n (show order n).
(** tm/machine.py 85-107: the entries; [cycles], [marks], [configs] are self.cycles, self.marks and config_count. *)
Definition mo_info (ob : mobj) (cycles : Z) (marks : cnt) (configs : nat) : list (text * text) :=
  ([(quoted "CYCLES", str_int cycles); (quoted "MARKS", mo_number marks)] ++ mo_cats ob
   ++ [(quoted "TPCFGS", str_int (Z.of_nat configs))]
   ++ match mo_rulapp ob with
      | I n => if n =? 0 then [] else [(quoted "RULAPP", mo_number (I n))]
      | _ => [(quoted "RULAPP", quoted "...")]
      end)%list.
(** tm/machine.py 86-96, 98, 106: one entry. *)
Definition mo_entry (e : text * text) : text := (fst e ++ quoted ": " ++ snd e)%list.
(** tm/machine.py 76-109 (prog_str, __str__); [None] for an exception: before a run, or from marks. *)
Definition mo_str (ob : mobj) : option text :=
  match mo_cycles ob, mo_tape ob, mo_prover ob with
  | Some cycles, Some t, Some pv =>
      match s_marks o t with
      | Got marks => Some (show_comp comp None ++ quoted " || "
          ++ join (quoted " | ") (map mo_entry (mo_info ob cycles marks (length (sp_configs pv)))))%list
      | _ => None
      end
  | _, _, _ => None
  end.
End Obj.

(** ** src/machine.rs *)

(** src/machine.rs 110-116 (getter simple_termination). *)
Definition mr_simple (r : machine_result) : option Z := match mr_result r with undfnd | spnout => Some (mr_steps r) | _ => None end.
(** src/machine.rs 96-108: whether the getter undfnd panics. *)
Definition mr_undfnd_panics (r : machine_result) : bool :=
  match mr_result r, mr_last_slot r with undfnd, None => true | _, _ => false end.
(** src/machine.rs 118-124 (getter halted). *)
Definition mr_halted (r : machine_result) : option Z := match mr_result r with undfnd => Some (mr_steps r) | _ => None end.
(** src/machine.rs 126-132 (getter infrul). *)
Definition mr_infrul (r : machine_result) : option Z := match mr_result r with infrul => Some (mr_steps r) | _ => None end.
(** src/machine.rs 134-140 (getter spnout). *)
Definition mr_spnout (r : machine_result) : option Z := match mr_result r with spnout => Some (mr_steps r) | _ => None end.
(** src/machine.rs 142-148 (getter xlimit). *)
Definition mr_xlimit (r : machine_result) : option Z := match mr_result r with xlimit => Some (mr_steps r) | _ => None end.
(** src/machine.rs 150-156 (getter cfglim). *)
Definition mr_cfglim (r : machine_result) : option Z := match mr_result r with cfglim => Some (mr_steps r) | _ => None end.
