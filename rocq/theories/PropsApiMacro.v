(** * Machine over macros on the text of a program (C93) *)
From Verif Require Import Base TM ProgModel ParseModel ParseSpec ApiSpec ApiModel TapeModel ProverModel MacroModel MacroSpec MakeMacroModel ApiProofs ApiMacro.

(** Machine(text, blocks, backsym, opt_macro, params).run(lim) can always be made and run: opt_block does not panic. *)
Theorem C93_macro_machine : forall t M blocks backsym opt_macro params lim, writes t M ->
  exists m, machine_on_text t blocks backsym opt_macro params lim = Some m.
Proof. exact api_macro_answers. Qed.
Print Assumptions C93_macro_machine.

(** As long as no rule was applied, what it says of the machine written there is true, if the states and colours that come up are
    among those counted and declared. *)
Theorem C93_macro_machine_true : forall t M blocks backsym opt_macro params lim m, writes t M ->
  (forall p, tcompile t = Some p -> honest p (prog_params p) /\ forall ps, params = Some ps -> honest p ps) ->
  machine_on_text t blocks backsym opt_macro params lim = Some m -> m_rulapp m = 0 ->
  (forall s, m_end m = MUndfnd s -> exists N, m_steps m <= Z.of_nat N /\ halts_at M N s) /\ (m_end m = MSpnout -> never_halts M).
Proof. exact api_macro_true. Qed.
Print Assumptions C93_macro_machine_true.

(** "1RB 1LB  1LA 0LC  ... 1LD  1RD 0RA" and a line feed, in blocks of two with a backsymbol. *)
Definition C93_champion : comp_prog :=
  [((0,0), (1,true,1)); ((0,1), (1,false,1)); ((1,0), (1,false,0)); ((1,1), (0,false,2));
   ((2,1), (1,false,3)); ((3,0), (1,true,3)); ((3,1), (0,true,0))].
Definition C93_champion_text : text :=
  [49;82;66; 32; 49;76;66; 32;32; 49;76;65; 32; 48;76;67; 32;32; 46;46;46; 32; 49;76;68; 32;32; 49;82;68; 32; 48;82;65; 10].
Example C93_macro_case : writes C93_champion_text (machine_of C93_champion)
  /\ (forall p, tcompile C93_champion_text = Some p -> honest p (prog_params p))
  /\ option_map (fun m => (m_end m, m_steps m, m_rulapp m)) (machine_on_text C93_champion_text (Some 2%nat) (Some 1%nat) None None 1000)
     = Some (MUndfnd (2, 0), 18, 0).
Proof.
  assert (EN : forall s c i, comp_get C93_champion (s, c) = Some i -> In ((s, c), i) C93_champion).
  { intros s c i E. apply (proj2 (GraphProofs.comp_get_in C93_champion (s, c) i ltac:(cbn; repeat (constructor; [cbn; intuition congruence|]); constructor))) in E. exact E. }
  split; [|split].
  - apply (writes_shown [] [10] C93_champion 4 2); try lia.
    + constructor.
    + constructor; [|constructor]. right. right. left. reflexivity.
    + intros s c pr sh tr E. apply EN in E. cbn in E. repeat (destruct E as [E|E]; [inv E; lia|]). contradiction.
    + intros s c i E. apply EN in E. cbn in E. repeat (destruct E as [E|E]; [inv E; lia|]). contradiction.
  - assert (T : tcompile C93_champion_text = Some C93_champion) by (vm_compute; reflexivity). intros p E. rewrite T in E. inv E.
    change (prog_params C93_champion) with (4, 2). split; [cbn; lia|]. split; [cbn; lia|]. intros s c pr sh tr Hs Hc E.
    unfold dict_lookup in E. destruct (comp_get C93_champion (s, c)) as [i|] eqn:G; [|discriminate]. inv E.
    apply EN in G. cbn in G. repeat (destruct G as [G|G]; [inv G; cbn; lia|]). contradiction.
  - vm_compute. reflexivity.
Qed.
