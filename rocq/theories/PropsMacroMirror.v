(** * Mirror images and Machine objects over macros (C91) *)
From Verif Require Import Base TM ProgModel TapeModel BlocksModel ProverModel MacroModel MacroSpec MakeMacroModel MirrorSpec MacroMirror.

Definition C91_four : comp_prog :=
  [((0,0), (1,true,1)); ((0,1), (1,false,1)); ((1,0), (1,false,0)); ((1,1), (0,false,2));
   ((2,1), (1,false,3)); ((3,0), (1,true,3)); ((3,1), (0,true,0))].

(** The head starts at the left end of its block, in the mirror image, too; so the runs over blocks differ:
    "1RB 1LB  1LA 0LC  ... 1LD  1RD 0RA" in blocks of two takes 51 steps, its mirror image 55. *)
Theorem C91_blocks_refuted : exists p k lim m m', py_machine p (Some k) None None None lim = Some m
  /\ py_machine (mirrored p) (Some k) None None None lim = Some m' /\ m_rulapp m = 0 /\ m_rulapp m' = 0
  /\ m_end m = MUndfnd (2, 0) /\ m_end m' = MUndfnd (2, 0) /\ m_steps m = 51 /\ m_steps m' = 55.
Proof.
  exists C91_four, 2%nat, 1000%nat. eexists. eexists. split; [vm_compute; reflexivity|]. split; [vm_compute; reflexivity|].
  repeat split; reflexivity.
Qed.
Print Assumptions C91_blocks_refuted.

(** But the outcomes never contradict each other, under whatever macros either runs: if both come upon a missing slot, it is
    the same, and if one does, the other does not spin out.  Missing: runs that apply rules. *)
Theorem C91_macros_partial : forall p blocks backsym opt_macro params lim m blocks' backsym' opt_macro' params' lim' m',
  honest p (prog_params p) -> (forall ps, params = Some ps -> honest p ps) -> (forall ps, params' = Some ps -> honest p ps) ->
  py_machine p blocks backsym opt_macro params lim = Some m ->
  py_machine (mirrored p) blocks' backsym' opt_macro' params' lim' = Some m' -> m_rulapp m = 0 -> m_rulapp m' = 0 ->
  (forall s s', m_end m = MUndfnd s -> m_end m' = MUndfnd s' -> s = s')
  /\ (forall s, m_end m = MUndfnd s -> m_end m' <> MSpnout) /\ (forall s, m_end m' = MUndfnd s -> m_end m <> MSpnout).
Proof. exact macro_mirror. Qed.
Print Assumptions C91_macros_partial.

(** The champion meets the hypotheses, in blocks of two against blocks of three with a backsymbol for the mirror image. *)
Example C91_macros_case : honest C91_four (prog_params C91_four)
  /\ option_map (fun m => (m_end m, m_rulapp m)) (py_machine C91_four (Some 2%nat) None None None 1000) = Some (MUndfnd (2, 0), 0)
  /\ option_map (fun m => (m_end m, m_rulapp m)) (py_machine (mirrored C91_four) (Some 3%nat) (Some 1%nat) None None 1000) = Some (MUndfnd (2, 0), 0).
Proof.
  split; [|split; vm_compute; reflexivity]. change (prog_params C91_four) with (4, 2). split; [cbn; lia|]. split; [cbn; lia|].
  intros s c pr sh tr Hs Hc E. cbn [fst snd] in Hs, Hc.
  assert (S : In s [0; 1; 2; 3]) by (cbn; lia). assert (D : In c [0; 1]) by (cbn; lia). clear Hs Hc.
  destruct S as [<-|[<-|[<-|[<-|[]]]]], D as [<-|[<-|[]]]; cbn in E; try discriminate; injection E as <- _ <-; cbn; lia.
Qed.
