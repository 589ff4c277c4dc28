(** * The names of states and colours do not matter to a Machine over macros of any kind (C92) *)
From Verif Require Import Base TM ProgModel TapeModel BlocksModel ProverModel MacroModel MakeMacroModel NormSpec
  RenameSpec RenameMacroSpec RenameMachineSpec RenameBackSpec RenameBack.

(** Machine(prog, blocks, backsym, opt_macro, params).run(lim), with all the rules it finds and applies, on a program and
    on the same under new names: the same end after the same steps, cycles and applications of rules; the tape and the
    blanks under the names that the macro's colours and states then have; the slot that is missing renamed as a slot of the
    program.  The colours printed have to be among those counted and declared, and the new names, too. *)
Theorem C92_macro_machine : forall f g p p' blocks backsym opt_macro params lim,
  renaming f -> renaming g -> renamed f g (machine_of p) (machine_of p') -> prog_params p' = prog_params p ->
  (forall ps, ps = prog_params p \/ params = Some ps -> 1 <= snd ps /\ within (snd ps) g /\ prints_below (snd ps) p) ->
  match py_machine p blocks backsym opt_macro params lim, py_machine p' blocks backsym opt_macro params lim with
  | Some m, Some m' => exists k ps, (ps = prog_params p \/ params = Some ps)
      /\ keyed_report (macro_states f g (snd ps) k backsym) (color_names g (snd ps) k) (named_slot f g) m m'
  | None, None => True
  | _, _ => False
  end.
Proof. exact back_machine_named. Qed.
Print Assumptions C92_macro_machine.

(** "1RB 1LB  1LA 0LC  ... 1LD  1RD 0RA" with C and D exchanged, in blocks of two with a backsymbol; and the three-colour
    program "1RB 2LB 1LA  2LA 1RB 1RA" with colours 1 and 2 exchanged and one backsymbol, which runs into an endless rule on
    a tape of 1s and of 2s. *)
Definition C92_champion : comp_prog :=
  [((0,0), (1,true,1)); ((0,1), (1,false,1)); ((1,0), (1,false,0)); ((1,1), (0,false,2));
   ((2,1), (1,false,3)); ((3,0), (1,true,3)); ((3,1), (0,true,0))].
Definition C92_sweeper : comp_prog :=
  [((0,0),(1,true,1)); ((0,1),(2,false,1)); ((0,2),(1,false,0)); ((1,0),(2,false,0)); ((1,1),(1,true,1)); ((1,2),(1,true,0))].
Definition C92_ends (p : comp_prog) (blocks backsym : option nat) :=
  option_map (fun m => (m_end m, m_steps m, m_rulapp m, map b_color (t_rspan (m_tape m)))) (py_machine p blocks backsym None None 200).
Example C92_macro_machine_case :
  C92_ends C92_champion (Some 2%nat) (Some 1%nat) = Some (MUndfnd (2, 0), 18, 0, [])
  /\ C92_ends (named_prog (sw 2 3) (fun c => c) C92_champion) (Some 2%nat) (Some 1%nat) = Some (MUndfnd (3, 0), 18, 0, [])
  /\ C92_ends C92_sweeper None (Some 1%nat) = Some (MInfrul, 31, 0, [1])
  /\ C92_ends (named_prog (fun s => s) (sw 1 2) C92_sweeper) None (Some 1%nat) = Some (MInfrul, 31, 0, [2])
  /\ prog_params C92_champion = (4, 2) /\ prints_below 2 C92_champion
  /\ prog_params C92_sweeper = (2, 3) /\ prints_below 3 C92_sweeper /\ within 3 (sw 1 2).
Proof.
  assert (P : forall C p, forallb (fun e : slot * instr => (0 <=? fst (fst (snd e))) && (fst (fst (snd e)) <? C)) p = true -> prints_below C p).
  { intros C p H s c pr sh tr E. induction p as [|[k i] p IH]; [discriminate|]. cbn in H, E. apply andb_prop in H as [H1 H2].
    destruct (slot_eqb k (s, c)); [injection E as ->; cbn in H1; lia|apply IH; auto]. }
  do 4 (split; [vm_compute; reflexivity|]). split; [reflexivity|]. split; [apply P; reflexivity|].
  split; [reflexivity|]. split; [apply P; reflexivity|].
  intros x Hx. unfold sw. destruct (Z.eqb_spec x 1), (Z.eqb_spec x 2); lia.
Qed.
