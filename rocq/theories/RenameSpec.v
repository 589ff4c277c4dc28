(** * Programs with their states and colours renamed *)
From Verif Require Import Base TM ProgModel TapeModel QuickModel ProverModel.

(** Names that stay apart; the start state and the blank keep theirs. *)
Definition renaming (f : Z -> Z) : Prop := f 0 = 0 /\ forall a b, f a = f b -> a = b.

(** An instruction, a slot and a lookup with states renamed by [f] and colours by [g]. *)
Definition named_instr (f g : Z -> Z) (i : instr) : instr := let '(color, dir, next) := i in (g color, dir, f next).
Definition named_slot (f g : Z -> Z) (s : slot) : slot := (f (fst s), g (snd s)).
Definition named_lookup (f g : Z -> Z) (l : lookup) : lookup :=
  match l with LGot i => LGot (named_instr f g i) | LKey s => LKey (named_slot f g s) | LLoop => LLoop end.

(** [M'] is [M] with states renamed by [f] and colours by [g]; the same of programs given by their lookups. *)
Definition renamed (f g : Z -> Z) (M M' : program) : Prop :=
  forall s c, M' (f s) (g c) = option_map (named_instr f g) (M s c).
Definition renamed_lookups (f g : Z -> Z) (comp comp' : Z -> Z -> lookup) : Prop :=
  forall s c, comp' (f s) (g c) = named_lookup f g (comp s c).

(** Tapes and records of blank tapes under the renaming. *)
Definition named_span (g : Z -> Z) (s : span) : span := map (fun b => Blk (g (b_color b)) (b_count b)) s.
Definition named_tape (g : Z -> Z) (t : tape) : tape := Tape (named_span g (t_lspan t)) (g (t_scan t)) (named_span g (t_rspan t)).
Definition named_blanks (f : Z -> Z) (b : blanks_t) : blanks_t := map (fun e : Z * Z => (f (fst e), snd e)) b.

(** What a Machine has to report of the renamed program: the same end at the same step and cycle, the same number of
    applications of rules, the tape, the blanks and the slot renamed. *)
Definition named_end (f g : Z -> Z) (e : mach_end) : mach_end := match e with MUndfnd s => MUndfnd (named_slot f g s) | e => e end.
Definition same_report (f g : Z -> Z) (m m' : mach) : Prop :=
  m_end m' = named_end f g (m_end m) /\ m_steps m' = m_steps m /\ m_cycles m' = m_cycles m /\ m_rulapp m' = m_rulapp m
  /\ m_tape m' = named_tape g (m_tape m) /\ m_blanks m' = named_blanks f (m_blanks m) /\ m_susrul m' = m_susrul m.

(** The same when the slots named by the errors have other names than the states and colours: those of macros have, where
    it is a slot of the base program. *)
Definition keyed_lookup (f g : Z -> Z) (k : slot -> slot) (l : lookup) : lookup :=
  match l with LGot i => LGot (named_instr f g i) | LKey s => LKey (k s) | LLoop => LLoop end.
Definition keyed_end (k : slot -> slot) (e : mach_end) : mach_end := match e with MUndfnd s => MUndfnd (k s) | e => e end.
Definition keyed_report (f g : Z -> Z) (k : slot -> slot) (m m' : mach) : Prop :=
  m_end m' = keyed_end k (m_end m) /\ m_steps m' = m_steps m /\ m_cycles m' = m_cycles m /\ m_rulapp m' = m_rulapp m
  /\ m_tape m' = named_tape g (m_tape m) /\ m_blanks m' = named_blanks f (m_blanks m) /\ m_susrul m' = m_susrul m.

(** The same of run_quick_machine and run_prover. *)
Definition named_result (f g : Z -> Z) (r : machine_result) : machine_result :=
  MR (mr_result r) (mr_steps r) (mr_cycles r) (mr_marks r) (mr_rulapp r) (named_blanks f (mr_blanks r))
     (option_map (named_slot f g) (mr_last_slot r)).

(** A compiled program written with the new names. *)
Definition named_prog (f g : Z -> Z) (p : comp_prog) : comp_prog :=
  map (fun e : slot * instr => (named_slot f g (fst e), named_instr f g (snd e))) p.

(** The runs from blank: at every moment both are running or both have stopped, the head at the same place, the states
    and the cells under their new names. *)
Definition runs_renamed (f g : Z -> Z) (M M' : program) : Prop :=
  forall n, match steps M n init, steps M' n init with
            | Some c, Some d => c_state d = f (c_state c) /\ c_pos d = c_pos c /\ forall p, c_tape d p = g (c_tape c p)
            | None, None => True
            | _, _ => False
            end.
