(** * Properties of Machine objects over macro programs (C58, C59) *)
From Verif Require Import Base TM ProgModel TapeModel ProverModel MachineProofs MacroModel MacroSpec MakeMacroModel MakeMacroProofs.

(** C58: Machine(prog, blocks, backsym, opt_macro, params).run(sim_lim), when no rule was applied. *)
Theorem C58_undfnd_halts_there : forall p blocks backsym opt_macro params lim m s,
  honest p (prog_params p) -> (forall ps, params = Some ps -> honest p ps) ->
  py_machine p blocks backsym opt_macro params lim = Some m -> m_rulapp m = 0 -> m_end m = MUndfnd s ->
  exists N, m_steps m <= Z.of_nat N /\ halts_at (machine_of p) N s.
Proof. exact macro_machine_undfnd. Qed.
Print Assumptions C58_undfnd_halts_there.

Theorem C58_spnout_never_halts : forall p blocks backsym opt_macro params lim m,
  honest p (prog_params p) -> (forall ps, params = Some ps -> honest p ps) ->
  py_machine p blocks backsym opt_macro params lim = Some m -> m_rulapp m = 0 -> m_end m = MSpnout ->
  never_halts (machine_of p).
Proof. exact macro_machine_spnout. Qed.
Print Assumptions C58_spnout_never_halts.

Theorem C58_steps_at_most : forall p blocks backsym opt_macro params lim m,
  honest p (prog_params p) -> (forall ps, params = Some ps -> honest p ps) ->
  py_machine p blocks backsym opt_macro params lim = Some m -> m_rulapp m = 0 ->
  0 <= m_steps m /\ (exists N c, m_steps m <= Z.of_nat N /\ steps (machine_of p) N init = Some c)
  /\ (m_end m = MXlimit -> Z.of_nat lim <= m_steps m).
Proof. exact macro_machine_steps. Qed.
Print Assumptions C58_steps_at_most.

(** The four-state champion "1RB 1LB  1LA 0LC  ... 1LD  1RD 0RA" under every kind of macro. *)
Definition bb4 : comp_prog :=
  [((0,0), (1,true,1)); ((0,1), (1,false,1)); ((1,0), (1,false,0)); ((1,1), (0,false,2));
   ((2,1), (1,false,3)); ((3,0), (1,true,3)); ((3,1), (0,true,0))].

Definition shown (o : option mach) : option (mach_end * Z * Z) :=
  option_map (fun m => (m_end m, m_steps m, m_rulapp m)) o.

Example C58_case :
  prog_params bb4 = (4, 2) /\ honest bb4 (4, 2)
  /\ shown (py_machine bb4 (Some 3%nat) None None None 1000) = Some (MUndfnd (2, 0), 34, 0)
  /\ shown (py_machine bb4 None (Some 1%nat) None None 1000) = Some (MUndfnd (2, 0), 67, 0)
  /\ shown (py_machine bb4 (Some 2%nat) (Some 1%nat) None (Some (4, 2)) 1000) = Some (MUndfnd (2, 0), 18, 0)
  /\ shown (py_machine bb4 None None (Some 100%nat) None 1000) = Some (MUndfnd (2, 0), 106, 0).
Proof.
  split; [reflexivity|]. split.
  - split; [cbn; lia|]. split; [cbn; lia|]. intros s c pr sh tr Hs Hc. unfold dict_lookup. cbn.
    repeat match goal with |- context [if ?b then _ else _] => destruct b end; intros H; inv H; lia.
  - repeat split; vm_compute; reflexivity.
Qed.

(** A spinout of the macro machine need not be one of the base machine, although its result is the same
    [spnout]: going right in alternating states is a spinout in blocks of 2. *)
Theorem C58_base_spins_out_refuted : exists p b m,
  honest p (prog_params p)
  /\ py_machine p (Some b) None None None 10 = Some m /\ m_rulapp m = 0 /\ m_end m = MSpnout
  /\ forall n c, steps (machine_of p) n init = Some c -> ~ spins_out_from (machine_of p) c.
Proof.
  exists zigzag, 2%nat. eexists. split; [apply both_honest|]. split; [vm_compute; reflexivity|].
  split; [reflexivity|]. split; [reflexivity|]. apply spnout_not_spinning. vm_compute. discriminate.
Qed.
Print Assumptions C58_base_spins_out_refuted.

(** C59: the entries of Machine.blanks.  In blocks they are moments at which the tape is blank. *)
Theorem C59_blanks_in_blocks : forall p b params lim m s j, (1 < b)%nat ->
  honest p (prog_params p) -> (forall ps, params = Some ps -> honest p ps) ->
  py_machine p (Some b) None None params lim = Some m -> m_rulapp m = 0 -> In (s, j) (m_blanks m) ->
  exists N c, 0 <= j <= Z.of_nat N /\ steps (machine_of p) N init = Some c /\ is_blank c /\ c_state c = s / 2.
Proof. exact block_blanks. Qed.
Print Assumptions C59_blanks_in_blocks.

(** "1RB 0RA  0LB 1LA" has erased its tape after 7 steps of 2-blocks. *)
Example C59_case : let p := [((0,0), (1,true,1)); ((0,1), (0,true,0)); ((1,0), (0,false,1)); ((1,1), (1,false,0))] in
  honest p (prog_params p)
  /\ option_map (fun m => (m_rulapp m, m_blanks m)) (py_machine p (Some 2%nat) None None None 100) = Some (0, [(0, 7)]).
Proof.
  cbv zeta. split.
  - apply two_params; intros s c pr sh tr; cbn;
    repeat match goal with |- context [if ?b then _ else _] => destruct b end; intros H; try discriminate;
    injection H as <- <- <-; lia.
  - vm_compute. reflexivity.
Qed.

(** With backsymbols they are not: the cells behind the head are kept in the macro state, so the macro
    tape is blank while the tape is not.  "1RB 1RB  1RB 1RB" never has a blank tape after its start. *)
Theorem C59_backsymbol_refuted : exists p m s j,
  honest p (prog_params p)
  /\ py_machine p None (Some 1%nat) None None 10 = Some m /\ m_rulapp m = 0 /\ In (s, j) (m_blanks m)
  /\ forall n c, (0 < n)%nat -> steps (machine_of p) n init = Some c -> ~ is_blank c.
Proof.
  exists ever_b. eexists. exists 6, 1. split; [apply both_honest|]. split; [vm_compute; reflexivity|].
  split; [reflexivity|]. split; [left; reflexivity|]. intros n c N E B.
  destruct (right_run 1 1 n c (both_instr 1 1) E) as (_ & X). specialize (X N). rewrite (B 0) in X. discriminate.
Qed.
Print Assumptions C59_backsymbol_refuted.

(** C60: the parameters that make_macro counts fit a program in which every state and colour has an
    instruction (and there are at least two colours).  When a colour or state is only printed or entered
    they need not fit, and the result is then false: see C21_counted_params_refuted. *)
Theorem C60_counted_params_fit : forall p,
  (forall e, In e p -> 0 <= fst (fst e) /\ 0 <= snd (fst e)
     /\ (forall s, 0 <= s <= fst (fst e) -> exists c i, In ((s, c), i) p)
     /\ (forall c, 0 <= c <= snd (fst e) -> exists s i, In ((s, c), i) p)
     /\ (exists s i, In ((s, fst (fst (snd e))), i) p)
     /\ (exists c i, In ((snd (snd e), c), i) p)) ->
  (exists s i, In ((s, 1), i) p) -> honest p (prog_params p).
Proof. exact counted_honest. Qed.
Print Assumptions C60_counted_params_fit.

Example C60_case : honest bb4 (prog_params bb4).
Proof.
  apply C60_counted_params_fit; [|exists 0, (1,false,1); cbn; auto].
  assert (S : forall s, 0 <= s <= 3 -> exists c i, In ((s, c), i) bb4).
  { intros s H. assert (s = 0 \/ s = 1 \/ s = 2 \/ s = 3) as [-> |[-> |[-> | ->]]] by lia; exists 1; eexists; cbn; eauto 10. }
  assert (C : forall c, 0 <= c <= 1 -> exists s i, In ((s, c), i) bb4).
  { intros c H. assert (c = 0 \/ c = 1) as [-> | ->] by lia; exists 0; eexists; cbn; eauto. }
  intros e I. repeat (destruct I as [<- | I]; [cbn [fst snd]; repeat split; try lia; intros; (apply S || apply C); lia|]). destruct I.
Qed.
