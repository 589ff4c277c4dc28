(** * Properties of macro instructions written out as programs (C102) *)
From Verif Require Import Base TM TMFacts ProgModel ParseModel ParseSpec MacroModel MacroSpec MacroRun GraphProofs ApiModel DumpModel DumpProofs.

(** C102.  Run a macro machine for [n] of its steps, on a macro program with any past [h], and let any lookups [h2] be
    made afterwards (by the prover, by the watcher).  If what the macro program has stored can be written with one
    character each, show_comp(macro.instrs) is read as a program that makes the same [n] moves, each of its
    configurations standing for one of the base machine; and if the macro machine stops after them, so does it. *)
Theorem C102_shown_replays_partial : forall p l h h2 n m c,
  logic_ok l -> (lg_kind l = Backsymbol -> 2 <= lg_colors l) -> params_ok (dict_lookup p) (lg_states l) (lg_colors l) ->
  Forall (op_ok l) h -> Forall (op_ok l) h2 ->
  msteps (dict_lookup p) l n (MGo (after (dict_lookup p) l h) init) = MGo m c ->
  let m2 := fold_left (run_op (dict_lookup p) l) h2 m in shows_ok (ms_instrs m2) ->
  exists q, from_str (shown_macro m2) = Some q /\ steps (machine_of q) n init = Some c
    /\ (forall k, (k <= n)%nat -> exists ck N bc, steps (machine_of q) k init = Some ck /\ (k <= N)%nat
         /\ steps (machine_of p) N init = Some bc /\ decodes l ck bc)
    /\ (h2 = [] -> forall e, msteps (dict_lookup p) l (S n) (MGo (after (dict_lookup p) l h) init) = MStop e ->
         halts_at (machine_of q) n (c_state c, c_tape c (c_pos c))).
Proof. exact shown_replays_dict. Qed.
Print Assumptions C102_shown_replays_partial.

(** "1RB ...  1LB 0RC  1LC 1LA" in blocks of two: eight macro moves, then it halts. *)
Definition C102_prog : comp_prog := [((0,0), (1,true,1)); ((1,0), (1,false,1)); ((1,1), (0,true,2)); ((2,0), (1,false,2)); ((2,1), (1,false,0))].
Example C102_case : let l := Logic Block 2 3 2 in
  logic_ok l /\ params_ok (dict_lookup C102_prog) 3 2
  /\ exists m c, msteps (dict_lookup C102_prog) l 8 (MGo (after (dict_lookup C102_prog) l []) init) = MGo m c
     /\ shows_ok (ms_instrs m) /\ length (ms_instrs m) = 8%nat
     /\ msteps (dict_lookup C102_prog) l 9 (MGo (after (dict_lookup C102_prog) l []) init) = MStop (LKey (0, 1)).
Proof.
  cbv zeta. split; [split; cbn; [lia|split; [lia|lia]]|]. split; [apply params_by_look; repeat constructor; lia|].
  do 2 eexists. split; [vm_compute; reflexivity|]. split; [|split; vm_compute; reflexivity].
  intros s c pr sh tr E. cbn [ms_instrs] in E.
  apply (comp_get_in _ (s, c)) in E; [|repeat constructor; cbn; intuition congruence].
  cbn in E. repeat (destruct E as [E|E]; [inv E; lia|]). contradiction.
Qed.

(** With more than ten colours it is false: "1RB 1LB  1LA ..." in blocks of four prints colour 12, and the text
    "12LD ..." is read as "1LL", so that the program read goes to another state. *)
Theorem C102_two_digits_refuted : exists p l m c q c', logic_ok l /\ params_ok (dict_lookup p) (lg_states l) (lg_colors l)
  /\ msteps (dict_lookup p) l 1 (MGo (after (dict_lookup p) l []) init) = MGo m c
  /\ from_str (shown_macro m) = Some q /\ steps (machine_of q) 1 init = Some c' /\ c_state c' <> c_state c
  /\ c_tape c' 0 <> c_tape c 0.
Proof.
  exists [((0,0), (1,true,1)); ((0,1), (1,false,1)); ((1,0), (1,false,0))], (Logic Block 4 2 2).
  do 4 eexists. split; [split; cbn; [lia|split; [lia|lia]]|]. split; [apply params_by_look; repeat constructor; lia|].
  split; [vm_compute; reflexivity|]. split; [vm_compute; reflexivity|]. split; [vm_compute; reflexivity|].
  split; vm_compute; discriminate.
Qed.
Print Assumptions C102_two_digits_refuted.

(** A macro that loops inside a block has no instruction there: the program written out halts although the machine
    never does ("1RB ...  1RC ...  1RD 1RD  1LC 1LC" in blocks of two). *)
Theorem C102_loop_refuted : exists p l n m c q, logic_ok l /\ params_ok (dict_lookup p) (lg_states l) (lg_colors l)
  /\ msteps (dict_lookup p) l n (MGo (after (dict_lookup p) l []) init) = MGo m c /\ shows_ok (ms_instrs m)
  /\ msteps (dict_lookup p) l (S n) (MGo (after (dict_lookup p) l []) init) = MStop LInf
  /\ never_halts (machine_of p) /\ from_str (shown_macro m) = Some q /\ halts (machine_of q).
Proof.
  set (p := [((0,0), (1,true,1)); ((1,0), (1,true,2)); ((2,0), (1,true,3)); ((2,1), (1,true,3)); ((3,0), (1,false,2)); ((3,1), (1,false,2))] : comp_prog).
  set (l := Logic Block 2 4 2).
  assert (LO : logic_ok l) by (split; cbn; [lia|split; [lia|lia]]).
  assert (PO : params_ok (dict_lookup p) 4 2) by (apply params_by_look; repeat constructor; lia).
  exists p, l, 1%nat. do 2 eexists.
  assert (R : msteps (dict_lookup p) l 1 (MGo (after (dict_lookup p) l []) init) = MGo (MS [((0,0), (3,true,4))] (Conv [(3, [1;1]); (0, [0;0])] [([1;1], 3)]))
    (Cfg 4 1 (write (c_tape init) 0 3))) by (vm_compute; reflexivity).
  assert (SH : shows_ok [((0,0), (3,true,4))]).
  { intros s c pr sh tr E. cbn [comp_get] in E. destruct (slot_eqb (0, 0) (s, c)); inv E. lia. }
  assert (ST : msteps (dict_lookup p) l 2 (MGo (after (dict_lookup p) l []) init) = MStop LInf) by (vm_compute; reflexivity).
  destruct (shown_replays (dict_lookup p) l [] [] 1 _ _ LO ltac:(discriminate) PO (Forall_nil _) (Forall_nil _) R SH) as (q & Q & _ & _ & H).
  exists q. split; [exact LO|]. split; [exact PO|]. split; [exact R|]. split; [exact SH|]. split; [exact ST|].
  split; [|split; [exact Q|do 2 eexists; exact (H eq_refl _ ST)]].
  pose proof (macro_run_dict p l [] 2 LO ltac:(discriminate) PO (Forall_nil _)) as W. rewrite ST in W. exact W.
Qed.
Print Assumptions C102_loop_refuted.

(** dump_macros.py normalizes what it prints, and that may raise: "1RB 0LB  0RC 1RC  1LA ..." in blocks of three. *)
Theorem C102_dump_raises_refuted : exists p l n m c, logic_ok l /\ params_ok (dict_lookup p) (lg_states l) (lg_colors l)
  /\ msteps (dict_lookup p) l n (MGo (after (dict_lookup p) l []) init) = MGo m c /\ length (ms_instrs m) = 6%nat
  /\ dumped m = None.
Proof.
  exists [((0,0), (1,true,1)); ((0,1), (0,false,1)); ((1,0), (0,true,2)); ((1,1), (1,true,2)); ((2,0), (1,false,0))], (Logic Block 3 3 2), 6%nat.
  do 2 eexists. split; [split; cbn; [lia|split; [lia|lia]]|]. split; [apply params_by_look; repeat constructor; lia|].
  split; [vm_compute; reflexivity|]. split; vm_compute; reflexivity.
Qed.
Print Assumptions C102_dump_raises_refuted.
