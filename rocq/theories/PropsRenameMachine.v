(** * The names of states and colours do not matter to a Machine with blocks (C92) *)
From Verif Require Import Base TM ProgModel TapeModel BlocksModel ProverModel MacroModel MakeMacroModel NormSpec
  RenameSpec RenameProofs RenameMacroSpec RenameMachineSpec RenameMachine.

(** Machine(prog, blocks, opt_macro, params).run(lim), with all the rules it finds and applies, on a program and on the
    same under new names: the same end after the same steps, cycles and applications of rules, the blocks on the tape
    renamed cell by cell, and the slot that is missing renamed as a slot of the program; opt_block panics for both or for none.
    The colours printed have to be among those counted (or declared), and the new names, too. *)
Theorem C92_block_machine : forall f g p p' blocks opt_macro params lim,
  renaming f -> renaming g -> renamed f g (machine_of p) (machine_of p') -> prog_params p' = prog_params p ->
  let C := snd match params with Some ps => ps | None => prog_params p end in
  1 <= C -> within C g -> prints_below C p ->
  match py_machine p blocks None opt_macro params lim, py_machine p' blocks None opt_macro params lim with
  | Some m, Some m' => exists k, keyed_report (state_names f k) (color_names g C k) (named_slot f g) m m'
  | None, None => True
  | _, _ => False
  end.
Proof. exact machine_named. Qed.
Print Assumptions C92_block_machine.

(** The program written with the new names has the same parameters. *)
Theorem C92_prog_params : forall f g p, renaming f -> renaming g -> prog_params (named_prog f g p) = prog_params p.
Proof. exact params_named. Qed.
Print Assumptions C92_prog_params.

(** "1RB 1LB  1LA 0LC  ... 1LD  1RD 0RA" with C and D exchanged, in blocks of three: C0 is missing for the one, D0 for the
    other.  "1RB 2LA 1RA  2LA 2RB 1LA" with colours 1 and 2 exchanged, in blocks of two: a rule that goes on for
    ever, found on a tape with blocks 1 1 and 1 2 (4 and 5) and with blocks 2 2 and 2 1 (8 and 7). *)
Definition C92_four : comp_prog :=
  [((0,0), (1,true,1)); ((0,1), (1,false,1)); ((1,0), (1,false,0)); ((1,1), (0,false,2));
   ((2,1), (1,false,3)); ((3,0), (1,true,3)); ((3,1), (0,true,0))].
Definition C92_two : comp_prog :=
  [((0,0),(1,true,1)); ((0,1),(2,false,0)); ((0,2),(1,true,0)); ((1,0),(2,false,0)); ((1,1),(2,true,1)); ((1,2),(1,false,0))].
Example C92_block_machine_case :
  let ends := fun p n => option_map (fun m => (m_end m, m_steps m, m_rulapp m)) (py_machine p (Some n) None None None 200) in
  ends C92_four 3%nat = Some (MUndfnd (2, 0), 34, 0)
  /\ ends (named_prog (sw 2 3) (fun c => c) C92_four) 3%nat = Some (MUndfnd (3, 0), 34, 0)
  /\ (let blocks := fun p => option_map (fun m => (m_end m, m_steps m, map b_color (t_rspan (m_tape m)))) (py_machine p (Some 2%nat) None None None 200) in
      blocks C92_two = Some (MInfrul, 21, [4; 5]) /\ blocks (named_prog (fun s => s) (sw 1 2) C92_two) = Some (MInfrul, 21, [8; 7]))
  /\ prints_below 2 C92_four /\ within 2 (fun c => c) /\ prog_params C92_four = (4, 2)
  /\ prints_below 3 C92_two /\ within 3 (sw 1 2) /\ prog_params C92_two = (2, 3).
Proof.
  assert (P : forall C p, forallb (fun e : slot * instr => (0 <=? fst (fst (snd e))) && (fst (fst (snd e)) <? C)) p = true -> prints_below C p).
  { intros C p H s c pr sh tr E. induction p as [|[k i] p IH]; [discriminate|]. cbn in H, E. apply andb_prop in H as [H1 H2].
    destruct (slot_eqb k (s, c)); [injection E as ->; cbn in H1; lia|apply IH; auto]. }
  cbv zeta. split; [vm_compute; reflexivity|]. split; [vm_compute; reflexivity|].
  split; [split; vm_compute; reflexivity|]. split; [apply P; reflexivity|]. split; [intros x; lia|]. split; [reflexivity|]. split; [apply P; reflexivity|].
  split; [|reflexivity]. intros x Hx. unfold sw. destruct (Z.eqb_spec x 1), (Z.eqb_spec x 2); lia.
Qed.
