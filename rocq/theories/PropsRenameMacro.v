(** * The names of states and colours do not matter to macros (C92) *)
From Verif Require Import Base TM ProgModel MacroModel MacroSpec NormSpec RenameSpec RenameProofs RenameMacroSpec RenameMacro.

(** A macro over the renamed program answers as the macro over the program does, under the names that its states and
    colours then have; whatever either has been asked before, unless it does not yet know the colour asked for. *)
Theorem C92_macro_lookup : forall f g look look' l h h' ms mc, renaming f -> renaming g -> renamed_base f g look look' ->
  logic_ok l -> within (lg_colors l) g -> params_ok look (lg_states l) (lg_colors l) -> params_ok look' (lg_states l) (lg_colors l) ->
  Forall (op_ok l) h -> Forall (op_ok l) h' -> slot_ok l ms mc -> slot_ok l (macro_state_name l f g ms) (macro_color_name l g mc) ->
  result look l h ms mc <> LAssert -> result look' l h' (macro_state_name l f g ms) (macro_color_name l g mc) <> LAssert ->
  result look' l h' (macro_state_name l f g ms) (macro_color_name l g mc) = macro_answer l f g (result look l h ms mc).
Proof. intros f g look look' l h h' ms mc F G H L W P P'. exact (result_rn f g F G look look' H l L W P P' h h' ms mc). Qed.
Print Assumptions C92_macro_lookup.

(** From the blank tape both make the same run: in the same place at every moment, with the states and the cells under
    their new names, and stopping at the same moment for the same reason. *)
Theorem C92_macro_run : forall f g p p' l h h' n, renaming f -> renaming g -> renamed f g (machine_of p) (machine_of p') ->
  logic_ok l -> within (lg_colors l) g ->
  params_ok (dict_lookup p) (lg_states l) (lg_colors l) -> params_ok (dict_lookup p') (lg_states l) (lg_colors l) ->
  Forall (op_ok l) h -> Forall (op_ok l) h' ->
  same_macro_run l f g (msteps (dict_lookup p) l n (MGo (after (dict_lookup p) l h) init))
                       (msteps (dict_lookup p') l n (MGo (after (dict_lookup p') l h') init)).
Proof. intros f g p p' l h h' n F G H L W P P'. exact (macro_named f g F G _ _ (dict_rn f g p p' H) l L W P P' h h' n). Qed.
Print Assumptions C92_macro_run.

(** "1RB 2LA 1LB  1LB 2RA 2RB" with colours 1 and 2 exchanged, in blocks of two: the colour 4 (the block 1 1) is 8 (the
    block 2 2) for the other. *)
Definition C92_three : comp_prog :=
  [((0,0),(1,true,1)); ((0,1),(2,false,0)); ((0,2),(1,false,1)); ((1,0),(1,false,1)); ((1,1),(2,true,0)); ((1,2),(2,true,1))].
Example C92_macro_case : let p := C92_three in let p' := named_prog (fun s => s) (sw 1 2) p in
  forall k, let l := Logic k 2 2 3 in
  renaming (sw 1 2) /\ renamed (fun s => s) (sw 1 2) (machine_of p) (machine_of p') /\ logic_ok l /\ within 3 (sw 1 2)
  /\ params_ok (dict_lookup p) 2 3 /\ params_ok (dict_lookup p') 2 3
  /\ exists m c, msteps (dict_lookup p) l 4 (MGo (after (dict_lookup p) l []) init) = MGo m c
       /\ exists q, macro_color_name l (sw 1 2) (c_tape c q) <> c_tape c q.
Proof.
  assert (I : renaming (fun s => s)) by (split; auto).
  assert (S12 : renaming (sw 1 2)).
  { split; [reflexivity|]. intros a b. unfold sw. destruct (Z.eqb_spec a 1), (Z.eqb_spec a 2), (Z.eqb_spec b 1), (Z.eqb_spec b 2); intros; subst; congruence. }
  assert (P : forall look, (forall s c, In s [0; 1] -> In c [0; 1; 2] -> match look s c with LOk (pr, _, tr) => 0 <= pr < 3 /\ 0 <= tr < 2 | _ => True end) -> params_ok look 2 3).
  { intros look H s c pr sh tr Hs Hc E. specialize (H s c). rewrite E in H. apply H; cbn; lia. }
  intros p p' k l. split; [exact S12|]. split; [exact (named_prog_ok _ _ I S12 p)|].
  split; [unfold logic_ok, l; cbn [lg_kind lg_states lg_colors lg_cells]; lia|]. split; [intros x Hx; unfold sw; destruct (Z.eqb_spec x 1), (Z.eqb_spec x 2); lia|].
  split; [|split].
  - apply P. intros s c [<-|[<-|[]]] [<-|[<-|[<-|[]]]]; vm_compute; repeat split; discriminate.
  - apply P. intros s c [<-|[<-|[]]] [<-|[<-|[<-|[]]]]; vm_compute; repeat split; discriminate.
  - destruct k; (eexists; eexists; split; [vm_compute; reflexivity|]).
    all: exists 0; vm_compute; discriminate.
Qed.
