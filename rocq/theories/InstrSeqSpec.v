(** * What the entries of instr_seq are to be, independently of the code *)
From Verif Require Import Base TM ProgModel ParseModel ParseSpec NormModel NormSpec.

(** [h] is the table [g] with some instructions left out. *)
Definition sub_table (h g : list (list (option instr))) : Prop :=
  forall s i, table_get h s = Some i -> table_get g s = Some i.

(** [h'] is [h] with the instruction of [g] at [sl] added. *)
Definition extends_by (g h h' : list (list (option instr))) (sl : slot) : Prop :=
  table_get h sl = None /\ table_get g sl <> None /\
  forall s, table_get h' s = if slot_eqb s sl then table_get g s else table_get h s.

(** A list of at most [n] entries is right for the program [g], starting with the partial program
    [h]: each text is the partial program, whose run makes exactly [k] moves and then lacks an
    instruction for [sl]; the run of [g] itself is at that very place after [k] moves; the next
    partial program has the instruction of [g] there in addition.  The list stops only at a slot
    [g] lacks too, or after [n] entries, or when the partial program does not stop within fewer
    than [lim] moves. *)
Inductive entries_ok (lim : nat) (g : list (list (option instr))) :
    nat -> list (list (option instr)) -> list (text * Z * slot) -> Prop :=
  | entries_full h : entries_ok lim g 0 h []
  | entries_running n h :
      (forall m sl, halts_at (table_machine h) m sl -> (lim <= m)%nat) -> entries_ok lim g n h []
  | entries_cons n h txt k sl rest :
      prog_text h txt -> sub_table h g -> 0 <= k ->
      halts_at (table_machine h) (Z.to_nat k) sl ->
      (exists c, steps (table_machine g) (Z.to_nat k) init = Some c
                 /\ (c_state c, c_tape c (c_pos c)) = sl) ->
      (table_get g sl = None /\ rest = []
       \/ exists h', extends_by g h h' sl /\ entries_ok lim g n h' rest) ->
      entries_ok lim g (S n) h ((txt, k, sl) :: rest).
