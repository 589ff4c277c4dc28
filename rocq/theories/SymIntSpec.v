(** * When a run with symbolic counts is a run with integer counts (C85) *)
From Verif Require Import Base TM ProgModel TapeModel EnumModel RulesModel PastModel QuickModel ProverModel NumModel SymModel SymMachModel.

(** A block of integer length, as the symbolic machine holds it. *)
Definition same_block (b : block) (s : sblock) : Prop := sb_color s = b_color b /\ sb_count s = I (b_count b).
(** The same tape. *)
Definition same_tape (t : tape) (s : SymMachModel.stape) : Prop :=
  st_scan s = t_scan t /\ Forall2 same_block (t_lspan t) (st_l s) /\ Forall2 same_block (t_rspan t) (st_r s).
(** The same change of a count. *)
Definition same_op (o : op) : sop := match o with Plus d => SPlus d | Mult m a => SMult m a end.
(** The same rule. *)
Definition same_rule (r : rule) : srule := map (fun e => (fst e, same_op (snd e))) r.
(** The same rules under the same signatures, the same configurations. *)
Definition same_prover (pv : prover) : sprover :=
  SPV (map (fun e => (fst e, map (fun x => (fst x, same_rule (snd x))) (snd e))) (pv_rules pv)) (pv_configs pv).
(** The same end. *)
Definition same_end (e : mach_end) : s_end :=
  match e with
  | MUndfnd s => YUndfnd s | MSpnout => YSpnout | MXlimit => YXlimit | MInfrul => YInfrul | MCfglim => YCfglim | MErr => YErr
  end.
(** Everything that is left after a run is the same. *)
Definition same_run (m : mach) (s : smach) : Prop :=
  sm_end s = same_end (m_end m) /\ sm_steps s = m_steps m /\ sm_cycles s = m_cycles m /\ sm_rulapp s = I (m_rulapp m)
  /\ sm_blanks s = m_blanks m /\ sm_susrul s = m_susrul m
  /\ same_tape (m_tape m) (sm_tape s) /\ sm_prover s = same_prover (m_prover m).
