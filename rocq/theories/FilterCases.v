(** Programs that the filter of the tree search drops though they halt, or spin out. *)
From Verif Require Import Base TM TMFacts ProgModel TapeModel GraphModel GraphSpec GraphProofs TermRecModel QuickModel QuickProofs ReasonModel ReasonSpec SegModel
  BlocksModel ProverModel MacroModel RsMacroModel RsMacroProofs FilterModel FilterSpec FilterProofs.

(** "1RB 2LA 0RB 1LB  1LA 3RA 1RA ..." *)
Definition drop_halt : comp_prog :=
  [((0,0),(1,true,1)); ((0,1),(2,false,0)); ((0,2),(0,true,1)); ((0,3),(1,false,1));
   ((1,0),(1,false,0)); ((1,1),(3,true,0)); ((1,2),(1,true,0))].
(** "1RB 1LC  1LC 0RD  1LA 0LB  1LD 0RA" *)
Definition drop_spin : comp_prog :=
  [((0,0),(1,true,1)); ((0,1),(1,false,2)); ((1,0),(1,false,2)); ((1,1),(0,true,3));
   ((2,0),(1,false,0)); ((2,1),(0,false,1)); ((3,0),(1,false,3)); ((3,1),(0,true,0))].

Ltac in_table := intros s c pr sh t I; cbn in I; repeat (destruct I as [I|I]; [injection I as <- <- <- <- <-; cbn; lia|]); destruct I.

Lemma drop_halt_table : table_of (2, 4) drop_halt.
Proof. split; [cbn; lia|]. split; [cbn; lia|]. split; [repeat constructor; cbn; intuition congruence|]. in_table. Qed.

Lemma drop_spin_table : table_of (4, 2) drop_spin.
Proof. split; [cbn; lia|]. split; [cbn; lia|]. split; [repeat constructor; cbn; intuition congruence|]. in_table. Qed.

(** The lookups of tm/macro.py 172-180, given the way src/prover.rs asks for them. *)
Definition py_macro_get (comp : comp_prog) (l : logic) (m : macro_state_t) (ms mc : Z) : macro_state_t * rlook :=
  let '(m, r) := macro_get (dict_lookup comp) l m ms mc in
  (m, match r with LOk i => RlSome i | LKey _ | LInf => RlNone | LAssert => RlPanic end).

Lemma drop_halt_answer :
  skip_all 1000 1000 drop_halt (2, 4) true = Some true
  /\ incomplete drop_halt (2, 4) true = false /\ quick_term_or_rec drop_halt 301 true = false
  /\ mr_undfnd (run_quick_machine drop_halt 600) = Some (591, (1, 3)).
Proof. do 3 (split; [vm_compute; reflexivity|]). vm_compute. reflexivity. Qed.

Lemma drop_spin_answer :
  skip_all 1000 1000 drop_spin (4, 2) false = Some true
  /\ incomplete drop_spin (4, 2) false = false /\ rs_is_connected drop_spin 4 = Some true
  /\ quick_term_or_rec drop_spin 301 true = false
  /\ mr_result (run_quick_machine drop_spin 1200) = spnout /\ mr_steps (run_quick_machine drop_spin 1200) = 1164.
Proof. do 5 (split; [vm_compute; reflexivity|]). vm_compute. reflexivity. Qed.

Lemma drops_halting : exists comp params n sl,
  table_of params comp /\ comp_get comp (0, 0) = Some (1, true, 1) /\ complete params true (machine_of comp)
  /\ ~ 4 <= fst params /\ ~ ends_within (machine_of comp) 300 /\ halts_at (machine_of comp) n sl
  /\ skip_all 1000 1000 comp params true = Some true.
Proof.
  destruct drop_halt_answer as (A & B & C & D). exists drop_halt, (2, 4), (Z.to_nat 591), (1, 3).
  split; [apply drop_halt_table|]. split; [reflexivity|].
  split; [apply (incomplete_iff drop_halt (2, 4) drop_halt_table true); exact B|].
  split; [cbn; lia|]. split; [exact (not_yet drop_halt eq_refl 301 C)|].
  split; [exact (proj1 (proj2 (quick_undfnd drop_halt 600 591 (1, 3) D)))|exact A].
Qed.

Lemma drops_spinning : exists comp params n c,
  table_of params comp /\ comp_get comp (0, 0) = Some (1, true, 1) /\ complete params false (machine_of comp)
  /\ connected (machine_of comp) (fst params) /\ ~ ends_within (machine_of comp) 300
  /\ steps (machine_of comp) n init = Some c /\ spins_out_from (machine_of comp) c
  /\ skip_all 1000 1000 comp params false = Some true.
Proof.
  destruct drop_spin_answer as (A & B & C & D & E & F).
  destruct (quick_spnout drop_spin 1200 E) as (_ & c & X & Y & _).
  exists drop_spin, (4, 2), (Z.to_nat (mr_steps (run_quick_machine drop_spin 1200))), c.
  split; [apply drop_spin_table|]. split; [reflexivity|].
  split; [apply (incomplete_iff drop_spin (4, 2) drop_spin_table false); exact B|].
  split; [destruct (connected_answer drop_spin (4, 2) drop_spin_table) as (b & G & Q); apply Q; cbn [fst] in G; rewrite C in G; congruence|].
  split; [exact (not_yet drop_spin eq_refl 301 D)|]. auto.
Qed.

(** It is the macro over one back cell that errs: cut as in tm/macro.py, the same run proves nothing. *)
Lemma split_errs :
  (let l := rs_back_logic (2, 4) 1 in
   sf_run_for_infrul (rs_macro_get drop_halt l) (rs_macro_new l) 306 = Some true
   /\ sf_run_for_infrul (py_macro_get drop_halt l) (MS [] (conv_init 1)) 306 = Some false)
  /\ (let l := rs_back_logic (4, 2) 1 in
   sf_run_for_infrul (rs_macro_get drop_spin l) (rs_macro_new l) 306 = Some true
   /\ sf_run_for_infrul (py_macro_get drop_spin l) (MS [] (conv_init 1)) 306 = Some false)
  /\ sf_run_for_infrul (rs_plain_get drop_halt) tt 306 = Some false
  /\ sf_run_for_infrul (rs_plain_get drop_spin) tt 306 = Some false.
Proof. do 2 (split; [split; vm_compute; reflexivity|]). split; vm_compute; reflexivity. Qed.
