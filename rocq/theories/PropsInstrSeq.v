(** * Properties of instr_seq (C47) *)
From Verif Require Import Base TM ProgModel ParseModel ParseSpec NormModel NormSpec InstrSeqModel InstrSeqSpec InstrSeqProofs.

(** C47: for a program that starts with 1RB every entry is real, and the list stops for a reason. *)
Theorem C47_instr_seq_entries : forall lim g s cols,
  prog_text g s -> rectangular g cols -> (1 <= cols)%nat ->
  table_get g (0, 0) = Some (1, true, 1) ->
  exists l h, instr_seq lim s = Some l
    /\ (forall sl i, table_get h sl = Some i <-> sl = (0, 0) /\ i = (1, true, 1))
    /\ entries_ok lim g (length g * cols - 1) h l.
Proof. exact instr_seq_ok. Qed.
Print Assumptions C47_instr_seq_entries.

Example C47_case : instr_seq 1000 (text_of "1RB 1LB  1LA ...") = Some
  [(text_of "1RB ...  ... ...", 1, (1, 0));
   (text_of "1RB ...  1LA ...", 2, (0, 1));
   (text_of "1RB 1LB  1LA ...", 5, (1, 1))].
Proof. vm_compute. reflexivity. Qed.

(** The start 1RB is needed: for other programs the entries belong to another program. *)
Theorem C47_other_start_refuted : exists g s l txt k sl h,
  prog_text g s /\ rectangular g 2 /\ instr_seq 1000 s = Some l /\ In (txt, k, sl) l
  /\ prog_text h txt /\ ~ sub_table h g
  /\ ~ (exists c, steps (table_machine g) (Z.to_nat k) init = Some c /\ (c_state c, c_tape c (c_pos c)) = sl).
Proof. exact instr_seq_other_start. Qed.
Print Assumptions C47_other_start_refuted.
