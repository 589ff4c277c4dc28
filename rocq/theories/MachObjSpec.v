(** * What a Machine object says about its run (C87, C88) *)
From Verif Require Import Base TM ProgModel QuickModel NumModel SymModel SymMachModel ParseModel MachObjModel.

(** How a run came out. *)
Inductive outcome := Undfnd (steps : Z) (s : slot) | Spnout (steps : Z) | Xlimit (steps : Z) | Infrul (steps : Z) | Cfglim (steps : Z) | Limrul (what : text).
(** The object says so, and nothing else. *)
Definition says (ob : mobj) (x : outcome) : Prop :=
  mo_undfnd ob = match x with Undfnd k s => Some (k, s) | _ => None end
  /\ mo_spnout ob = match x with Spnout k => Some k | _ => None end
  /\ mo_xlimit ob = match x with Xlimit k => Some k | _ => None end
  /\ mo_infrul ob = match x with Infrul k => Some k | _ => None end
  /\ mo_cfglim ob = match x with Cfglim k => Some k | _ => None end
  /\ mo_limrul ob = match x with Limrul w => Some w | _ => None end.
(** That of a program that stops by itself. *)
Definition stops_at (x : outcome) : option Z := match x with Undfnd k _ => Some k | Spnout k => Some k | _ => None end.
(** The attributes that tell of a settled run are the same. *)
Definition settled_alike (a b : mobj) : Prop :=
  mo_undfnd a = mo_undfnd b /\ mo_spnout a = mo_spnout b /\ mo_infrul a = mo_infrul b
  /\ mo_cfglim a = mo_cfglim b /\ mo_limrul a = mo_limrul b.
(** The attributes that every run sets are the same. *)
Definition left_alike (a b : mobj) : Prop :=
  mo_steps a = mo_steps b /\ mo_cycles a = mo_cycles b /\ mo_tape a = mo_tape b /\ mo_blanks a = mo_blanks b /\ mo_prover a = mo_prover b.
(** The getters of a MachineResult agree: none panics, halted and simple_termination go with undfnd and spnout, and
    exactly the outcome that the run ended with is there ([mulrul] has no getter of its own). *)
Definition one_of (r : machine_result) : Prop :=
  mr_undfnd_panics r = false
  /\ mr_halted r = option_map fst (mr_undfnd r)
  /\ mr_simple r = match mr_undfnd r with None => mr_spnout r | Some (s, _) => Some s end
  /\ ((mr_undfnd r <> None /\ mr_halted r = Some (mr_steps r) /\ mr_infrul r = None /\ mr_spnout r = None /\ mr_xlimit r = None /\ mr_cfglim r = None /\ mr_result r = undfnd)
  \/ (mr_undfnd r = None /\ mr_infrul r = Some (mr_steps r) /\ mr_spnout r = None /\ mr_xlimit r = None /\ mr_cfglim r = None /\ mr_result r = infrul)
  \/ (mr_undfnd r = None /\ mr_infrul r = None /\ mr_spnout r = Some (mr_steps r) /\ mr_xlimit r = None /\ mr_cfglim r = None /\ mr_result r = spnout)
  \/ (mr_undfnd r = None /\ mr_infrul r = None /\ mr_spnout r = None /\ mr_xlimit r = Some (mr_steps r) /\ mr_cfglim r = None /\ mr_result r = xlimit)
  \/ (mr_undfnd r = None /\ mr_infrul r = None /\ mr_spnout r = None /\ mr_xlimit r = None /\ mr_cfglim r = Some (mr_steps r) /\ mr_result r = cfglim)
  \/ (mr_undfnd r = None /\ mr_infrul r = None /\ mr_spnout r = None /\ mr_xlimit r = None /\ mr_cfglim r = None /\ mr_result r = mulrul)).

(** ** The line that print(machine) shows (C88) *)

(** A program that show_comp can show: colours of one digit, states with a letter. *)
Definition printable (comp : comp_prog) : Prop :=
  forall s c pr sh tr, comp_get comp (s, c) = Some (pr, sh, tr) -> 0 <= s /\ 0 <= c /\ 0 <= pr < 10 /\ 0 <= tr < 26.
(** The text of a rule limit has no "|" (124) of its own. *)
Definition plain_limrul (ob : mobj) : Prop := forall w, mo_limrul ob = Some w -> ~ In 124 w.
(** Integer marks below 10^12, which are printed in full. *)
Definition marks_are (o : ops) (ob : mobj) (n : Z) : Prop :=
  Z.abs n < 10 ^ 12 /\ forall t, mo_tape ob = Some t -> s_marks o t = Got (I n).
(** What two machines have in common that print the same line. *)
Definition told_alike (a b : mobj) : Prop :=
  mo_cycles a = mo_cycles b /\ settled_alike a b /\ mo_xlimit a = mo_xlimit b
  /\ option_map (fun pv => length (sp_configs pv)) (mo_prover a) = option_map (fun pv => length (sp_configs pv)) (mo_prover b)
  /\ (forall m n, mo_rulapp a = I m -> mo_rulapp b = I n -> Z.abs m < 10 ^ 12 -> Z.abs n < 10 ^ 12 -> m = n).
