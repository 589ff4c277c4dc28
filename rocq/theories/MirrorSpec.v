(** * Programs and configurations seen in a mirror *)
From Verif Require Import Base TM ProgModel TapeModel ProverModel.

(** The instruction with its move turned around. *)
Definition turned (i : instr) : instr := let '(color, dir, next) := i in (color, negb dir, next).

(** The machine with all moves turned around. *)
Definition mirror (M : program) : program := fun s c => option_map turned (M s c).

(** The same of a listed program: what is listed is listed in the same order. *)
Definition mirrored (p : comp_prog) : comp_prog := map (fun e : slot * instr => (fst e, turned (snd e))) p.

(** The configuration seen in a mirror that stands at cell 0. *)
Definition mirror_config (c : config) : config := Cfg (c_state c) (- c_pos c) (fun p => c_tape c (- p)).

(** The tape seen in a mirror. *)
Definition mirror_tape (t : tape) : tape := Tape (t_rspan t) (t_scan t) (t_lspan t).

(** What a Machine has to report of the mirror image: the same end at the same step and cycle, the same number of
    applications of rules, the same blanks, and the tape in the mirror.  Not susrul, which tells of the first pattern
    that was met, from left to right. *)
Definition mirror_report (m m' : mach) : Prop :=
  m_end m' = m_end m /\ m_steps m' = m_steps m /\ m_cycles m' = m_cycles m /\ m_rulapp m' = m_rulapp m
  /\ m_tape m' = mirror_tape (m_tape m) /\ m_blanks m' = m_blanks m.
