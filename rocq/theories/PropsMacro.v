(** * Properties of macro programs (C17-C22) *)
From Verif Require Import Base TM ProgModel MacroModel MacroSpec MacroLogic MacroRun TermRecModel TermRecProofs.

(** ** C17: the colour converter *)

(** After any history of conversions of [k]-tuples of colours below [b]: a tuple gets the number
    it writes in base [b] (so below [b^k]), that colour converts back to it, now and later;
    colour 0 is the blank tuple; different tuples get different colours. *)
Theorem C17_converter_bijection : forall b k ts, 1 <= b -> Forall (tuple_ok b k) ts ->
  let cv := conv_after b k ts in
  (forall t, tuple_ok b k t ->
     let '(cv', c) := tape_to_color b cv t in
     c = number b 0 t /\ 0 <= c < b ^ Z.of_nat k /\ color_to_tape cv' c = Some t) /\
  (forall t, In t ts -> color_to_tape cv (number b 0 t) = Some t) /\
  (forall c t, color_to_tape cv c = Some t -> tuple_ok b k t /\ snd (tape_to_color b cv t) = c) /\
  color_to_tape cv 0 = Some (repeat 0 k) /\
  (forall t t', tuple_ok b k t -> tuple_ok b k t' ->
     snd (tape_to_color b cv t) = snd (tape_to_color b (fst (tape_to_color b cv t)) t') -> t = t').
Proof. exact converter_bijection. Qed.
Print Assumptions C17_converter_bijection.

Example C17_case : let cv := conv_after 3 3 [[1;2;0]; [2;2;2]; [0;0;0]; [0;1;0]] in
  snd (tape_to_color 3 cv [1;2;0]) = 15 /\ color_to_tape cv 26 = Some [2;2;2] /\ color_to_tape cv 25 = None.
Proof. vm_compute. auto. Qed.

(** A program whose printed colours are not all read in its table: prog_params counts only the
    colours that have a slot, the radix is too small, and two tuples share a macro colour. *)
Theorem C17_prog_params_radix_refuted : exists p t t',
  (forall s c pr sh tr, comp_get p (s, c) = Some (pr, sh, tr) -> 0 <= pr) /\
  (exists s c sh tr, comp_get p (s, c) = Some (2, sh, tr)) /\
  let b := snd (prog_params p) in
  tuple_ok 3 2 t /\ tuple_ok 3 2 t' /\ t <> t' /\
  snd (tape_to_color b (conv_after b 2 []) t) = snd (tape_to_color b (conv_after b 2 [t]) t') /\
  color_to_tape (conv_after b 2 [t; t']) (snd (tape_to_color b (conv_after b 2 []) t)) = Some t'.
Proof.
  exists [((0,0), (2,true,1)); ((0,1), (1,false,0)); ((1,0), (1,false,0)); ((1,1), (0,true,0))], [0;2], [1;0].
  split; [|split; [|split; [|split; [|split; [|split]]]]].
  - intros s c pr sh tr. cbn. repeat match goal with |- context [if ?b then _ else _] => destruct b end; intros H; inv H; lia.
  - exists 0, 0, true, 1. reflexivity.
  - split; [reflexivity|]. repeat constructor; lia.
  - split; [reflexivity|]. repeat constructor; lia.
  - discriminate.
  - vm_compute. reflexivity.
  - vm_compute. reflexivity.
Qed.
Print Assumptions C17_prog_params_radix_refuted.

(** ** C18: block macro instructions *)
Theorem C18_block_instruction : forall look l h ms mc pr sh tr, lg_kind l = Block -> logic_ok l ->
  params_ok look (lg_states l) (lg_colors l) -> Forall (op_ok l) h -> slot_ok l ms mc ->
  result look l h ms mc = LOk (pr, sh, tr) ->
  slot_ok l tr pr /\ tr mod 2 = (if sh then 0 else 1) /\
  exists t t', tuple_ok (lg_colors l) (lg_cells l) t /\ number (lg_colors l) 0 t = mc /\
    tuple_ok (lg_colors l) (lg_cells l) t' /\ number (lg_colors l) 0 t' = pr /\
    forall off c, base_at (ms / 2) (ms mod 2 =? 1) off t c ->
      exists n d, crosses (prog_of look) off (Z.of_nat (lg_cells l)) n c d sh /\
        c_state d = tr / 2 /\ holds off t' (c_tape d).
Proof. exact block_instr. Qed.
Print Assumptions C18_block_instruction.

(** "1RB 1LB  1LA ..." in blocks of 3: state A at the left of 0 0 0 leaves 1 1 0 to the left in state B. *)
Definition mac_prog : comp_prog := [((0,0), (1,true,1)); ((0,1), (1,false,1)); ((1,0), (1,false,0))].

Lemma mac_params : params_ok (dict_lookup mac_prog) 2 2.
Proof.
  intros s c pr sh tr Hs Hc. unfold dict_lookup, mac_prog. cbn.
  repeat match goal with |- context [if ?b then _ else _] => destruct b end; intros H; inv H; lia.
Qed.

Example C18_case : result (dict_lookup mac_prog) (Logic Block 3 2 2) [] 0 0 = LOk (6, false, 3) /\
  params_ok (dict_lookup mac_prog) 2 2 /\ slot_ok (Logic Block 3 2 2) 0 0 /\ logic_ok (Logic Block 3 2 2).
Proof.
  split; [vm_compute; reflexivity|]. split; [apply mac_params|].
  split; [split; vm_compute; split; congruence|]. split; [cbn; lia|]. split; cbn; [lia|]. lia.
Qed.

(** ** C19: errors of block macros: an undefined instruction is one the base machine reaches inside
    the window, and MacroInfLoop means it never leaves the window (or that the program under the
    macro, itself a macro, raised MacroInfLoop). *)
Theorem C19_block_error : forall look l h ms mc e, lg_kind l = Block -> logic_ok l ->
  params_ok look (lg_states l) (lg_colors l) -> Forall (op_ok l) h -> slot_ok l ms mc ->
  result look l h ms mc = e -> (forall i, e <> LOk i) -> e <> LAssert ->
  exists t, tuple_ok (lg_colors l) (lg_cells l) t /\ number (lg_colors l) 0 t = mc /\
    forall off c, base_at (ms / 2) (ms mod 2 =? 1) off t c ->
      fails_inside look off (Z.of_nat (lg_cells l)) c e \/
      (e = LInf /\ trapped (prog_of look) off (Z.of_nat (lg_cells l)) c).
Proof. exact block_instr_err. Qed.
Print Assumptions C19_block_error.

(** Over a plain program MacroInfLoop always means trapped, so never halting. *)
Theorem C19_block_infloop : forall p l h ms mc, lg_kind l = Block -> logic_ok l ->
  params_ok (dict_lookup p) (lg_states l) (lg_colors l) -> Forall (op_ok l) h -> slot_ok l ms mc ->
  result (dict_lookup p) l h ms mc = LInf ->
  exists t, tuple_ok (lg_colors l) (lg_cells l) t /\ number (lg_colors l) 0 t = mc /\
    forall off c, base_at (ms / 2) (ms mod 2 =? 1) off t c ->
      trapped (machine_of p) off (Z.of_nat (lg_cells l)) c.
Proof. exact block_infloop. Qed.
Print Assumptions C19_block_infloop.

(** "0RB ...  0LA 0LA": bounces for ever on blanks, halts on a one. *)
Example C19_case : let p := [((0,0), (0,true,1)); ((1,0), (0,false,0)); ((1,1), (0,false,0))] in
  result (dict_lookup p) (Logic Block 3 2 2) [] 0 0 = LInf /\
  result (dict_lookup p) (Logic Block 2 2 2) [OpConv [0;1]] 0 1 = LInf /\
  result (dict_lookup p) (Logic Block 2 2 2) [OpConv [1;1]] 0 3 = LKey (0, 1).
Proof. vm_compute. auto. Qed.

(** ** C20: backsymbol macro instructions *)

(** The macro state packs (base state, the [cells] cells behind the head, parity); the window is
    those cells with the scanned one: at its left end if the parity is 1, else at its right end.
    The macro tape runs the other way round: a shift to the right means leaving to the left. *)
Theorem C20_back_instruction : forall look l h ms mc pr sh tr, lg_kind l = Backsymbol -> logic_ok l ->
  params_ok look (lg_states l) (lg_colors l) -> Forall (op_ok l) h -> slot_ok l ms mc ->
  result look l h ms mc = LOk (pr, sh, tr) ->
  slot_ok l tr pr /\ tr mod 2 = (if sh then 1 else 0) /\
  exists B B', tuple_ok (lg_colors l) (lg_cells l) B /\
    number (lg_colors l) 0 B = (ms / 2) mod lg_colors l ^ Z.of_nat (lg_cells l) /\
    tuple_ok (lg_colors l) (lg_cells l) B' /\
    number (lg_colors l) 0 B' = (tr / 2) mod lg_colors l ^ Z.of_nat (lg_cells l) /\
    forall off c,
      base_at (ms / 2 / lg_colors l ^ Z.of_nat (lg_cells l)) (negb (ms mod 2 =? 1)) off
        (if ms mod 2 =? 1 then mc :: B else B ++ [mc]) c ->
      exists n d, crosses (prog_of look) off (Z.of_nat (lg_cells l) + 1) n c d (negb sh) /\
        c_state d = tr / 2 / lg_colors l ^ Z.of_nat (lg_cells l) /\
        holds off (if sh then B' ++ [pr] else pr :: B') (c_tape d).
Proof. exact back_instr. Qed.
Print Assumptions C20_back_instruction.

(** Errors, for at least two colours: MacroInfLoop means trapped. *)
Theorem C20_back_error : forall look l h ms mc e, lg_kind l = Backsymbol -> logic_ok l -> 2 <= lg_colors l ->
  params_ok look (lg_states l) (lg_colors l) -> Forall (op_ok l) h -> slot_ok l ms mc ->
  result look l h ms mc = e -> (forall i, e <> LOk i) -> e <> LAssert ->
  exists B, tuple_ok (lg_colors l) (lg_cells l) B /\
    number (lg_colors l) 0 B = (ms / 2) mod lg_colors l ^ Z.of_nat (lg_cells l) /\
    forall off c,
      base_at (ms / 2 / lg_colors l ^ Z.of_nat (lg_cells l)) (negb (ms mod 2 =? 1)) off
        (if ms mod 2 =? 1 then mc :: B else B ++ [mc]) c ->
      fails_inside look off (Z.of_nat (lg_cells l) + 1) c e \/
      (e = LInf /\ trapped (prog_of look) off (Z.of_nat (lg_cells l) + 1) c).
Proof. exact back_instr_err. Qed.
Print Assumptions C20_back_error.

Theorem C20_back_infloop : forall p l h ms mc, lg_kind l = Backsymbol -> logic_ok l -> 2 <= lg_colors l ->
  params_ok (dict_lookup p) (lg_states l) (lg_colors l) -> Forall (op_ok l) h -> slot_ok l ms mc ->
  result (dict_lookup p) l h ms mc = LInf ->
  exists B, tuple_ok (lg_colors l) (lg_cells l) B /\
    number (lg_colors l) 0 B = (ms / 2) mod lg_colors l ^ Z.of_nat (lg_cells l) /\
    forall off c,
      base_at (ms / 2 / lg_colors l ^ Z.of_nat (lg_cells l)) (negb (ms mod 2 =? 1)) off
        (if ms mod 2 =? 1 then mc :: B else B ++ [mc]) c ->
      trapped (machine_of p) off (Z.of_nat (lg_cells l) + 1) c.
Proof. exact back_infloop. Qed.
Print Assumptions C20_back_infloop.

Example C20_case :
  result (dict_lookup mac_prog) (Logic Backsymbol 2 2 2) [] 0 0 = LOk (0, false, 10) /\
  result (dict_lookup mac_prog) (Logic Backsymbol 2 2 2) [OpConv [1;0]] 4 0 = LOk (1, false, 10) /\
  result (dict_lookup mac_prog) (Logic Backsymbol 2 2 2) [OpConv [1;0]] 0 1 = LKey (1, 1) /\
  result (dict_lookup mac_prog) (Logic Backsymbol 2 2 2) [OpConv [0;1]] 3 0 = LOk (1, true, 15) /\
  slot_ok (Logic Backsymbol 2 2 2) 3 0 /\ logic_ok (Logic Backsymbol 2 2 2).
Proof.
  do 4 (split; [vm_compute; reflexivity|]).
  split; [split; vm_compute; split; congruence|]. split; [cbn; lia|]. split; cbn; [lia|]. discriminate.
Qed.

Example C20_infloop_case : let p := [((0,0), (0,true,1)); ((0,1), (1,true,1)); ((1,0), (0,false,0)); ((1,1), (1,false,0))] in
  params_ok (dict_lookup p) 2 2 /\ result (dict_lookup p) (Logic Backsymbol 2 2 2) [] 1 0 = LInf.
Proof.
  split; [|vm_compute; reflexivity].
  intros s c pr sh tr Hs Hc. unfold dict_lookup. cbn.
  repeat match goal with |- context [if ?b then _ else _] => destruct b end; intros H; inv H; lia.
Qed.

(** With one colour the step limit 2 * states is too small, and MacroInfLoop is raised for a
    base machine that does leave the window: "0RB  0RC  0LA" with three cells. *)
Theorem C20_one_colour_infloop_refuted : exists p l,
  lg_kind l = Backsymbol /\ logic_ok l /\ params_ok (dict_lookup p) (lg_states l) (lg_colors l) /\
  slot_ok l 1 0 /\ result (dict_lookup p) l [] 1 0 = LInf /\
  exists n d, steps (machine_of p) n init = Some d /\ c_pos d = Z.of_nat (lg_cells l) + 1.
Proof.
  exists [((0,0), (0,true,1)); ((1,0), (0,true,2)); ((2,0), (0,false,0))], (Logic Backsymbol 3 3 1).
  split; [reflexivity|]. split; [split; [cbn; lia|]; split; cbn; [lia|discriminate]|].
  split; [|split; [split; vm_compute; split; congruence|split; [vm_compute; reflexivity|]]].
  - intros s c pr sh tr Hs Hc. unfold dict_lookup. cbn.
    repeat match goal with |- context [if ?b then _ else _] => destruct b end; intros H; inv H; cbn; lia.
  - exists 8%nat. eexists. split; [vm_compute; reflexivity|]. reflexivity.
Qed.
Print Assumptions C20_one_colour_infloop_refuted.

(** The Rust split of the outputs (src/macros.rs 289-310) on leaving to the left differs from
    "last cell, and the cells before it". *)
Theorem C20_rust_split_refuted : exists cells t, length t = S cells /\ Forall (fun c => 0 <= c < 2) t /\
  rs_back_split cells false t <> (last t 0, removelast t).
Proof. exists 2%nat, [0;0;1]. split; [reflexivity|]. split; [repeat constructor; lia|]. vm_compute. discriminate. Qed.
Print Assumptions C20_rust_split_refuted.

(** ** C21: whole runs, from the blank tape, whatever the shared converter has seen *)
Theorem C21_macro_run : forall p l h n, logic_ok l -> (lg_kind l = Backsymbol -> 2 <= lg_colors l) ->
  params_ok (dict_lookup p) (lg_states l) (lg_colors l) -> Forall (op_ok l) h ->
  match msteps (dict_lookup p) l n (MGo (after (dict_lookup p) l h) init) with
  | MGo m mc => exists N bc, (n <= N)%nat /\ steps (machine_of p) N init = Some bc /\ decodes l mc bc
  | MStop (LKey s) => exists N, halts_at (machine_of p) N s
  | MStop LInf => never_halts (machine_of p)
  | MStop _ => False
  end.
Proof. exact macro_run_dict. Qed.
Print Assumptions C21_macro_run.

Theorem C21_macro_halts_iff : forall p l h, logic_ok l -> (lg_kind l = Backsymbol -> 2 <= lg_colors l) ->
  params_ok (dict_lookup p) (lg_states l) (lg_colors l) -> Forall (op_ok l) h ->
  (exists n s, msteps (dict_lookup p) l n (MGo (after (dict_lookup p) l h) init) = MStop (LKey s)) <-> halts (machine_of p).
Proof. exact macro_halts_iff. Qed.
Print Assumptions C21_macro_halts_iff.

(** The four-state champion "1RB 1LB  1LA 0LC  ... 1LD  1RD 0RA" in blocks of 3 halts in 35 macro
    steps; with backsymbols likewise. *)
Example C21_case :
  let p := [((0,0), (1,true,1)); ((0,1), (1,false,1)); ((1,0), (1,false,0)); ((1,1), (0,false,2));
            ((2,1), (1,false,3)); ((3,0), (1,true,3)); ((3,1), (0,true,0))] in
  let l := Logic Block 3 4 2 in let l' := Logic Backsymbol 1 4 2 in
  params_ok (dict_lookup p) 4 2 /\
  (exists m c, msteps (dict_lookup p) l 34 (MGo (after (dict_lookup p) l []) init) = MGo m c) /\
  msteps (dict_lookup p) l 35 (MGo (after (dict_lookup p) l []) init) = MStop (LKey (2, 0)) /\
  msteps (dict_lookup p) l' 120 (MGo (after (dict_lookup p) l' []) init) = MStop (LKey (2, 0)).
Proof.
  cbv zeta. split.
  - intros s c pr sh tr Hs Hc. unfold dict_lookup. cbn.
    repeat match goal with |- context [if ?b then _ else _] => destruct b end; intros H; inv H; lia.
  - split; [do 2 eexists|split]; vm_compute; reflexivity.
Qed.

(** Without [params_ok] it is false, and the parameters which make_macro counts by itself need not be
    honest: "1RB 2RA ...  1LB 0RA ..." prints a third colour that no state has an instruction for, so
    only two colours are counted.  In blocks of 3 the macro machine stops at an undefined slot,
    though the machine never halts. *)
Theorem C21_counted_params_refuted : exists p n s,
  let l := Logic Block 3 (fst (prog_params p)) (snd (prog_params p)) in
  logic_ok l
  /\ msteps (dict_lookup p) l n (MGo (macro_init l) init) = MStop (LKey s)
  /\ never_halts (machine_of p).
Proof.
  exists [((0,0), (1,true,1)); ((0,1), (2,true,0)); ((1,0), (1,false,1)); ((1,1), (0,true,0))], 60%nat, (1, 2).
  cbv zeta. split; [|split].
  - split; [vm_compute; discriminate|]. split; [vm_compute; discriminate|]. intros _. cbn. lia.
  - vm_compute. reflexivity.
  - apply (quick_term_or_rec_sound _ 400); vm_compute; reflexivity.
Qed.
Print Assumptions C21_counted_params_refuted.

(** ** C22: lookups do not depend on the history *)
Theorem C22_history_independent : forall look l h h' ms mc,
  logic_ok l -> params_ok look (lg_states l) (lg_colors l) ->
  Forall (op_ok l) h -> Forall (op_ok l) h' -> slot_ok l ms mc ->
  seen_state look l h ms -> seen_color look l h mc -> seen_state look l h' ms -> seen_color look l h' mc ->
  result look l h ms mc = result look l h' ms mc.
Proof. exact lookup_history_independent. Qed.
Print Assumptions C22_history_independent.

(** For slots never met before the answer is the same or AssertionError. *)
Theorem C22_same_or_assertion : forall look l h h' ms mc,
  logic_ok l -> params_ok look (lg_states l) (lg_colors l) ->
  Forall (op_ok l) h -> Forall (op_ok l) h' -> slot_ok l ms mc ->
  result look l h ms mc = result look l h' ms mc \/
  result look l h ms mc = LAssert \/ result look l h' ms mc = LAssert.
Proof. exact lookup_same_or_assertion. Qed.
Print Assumptions C22_same_or_assertion.

Example C22_case : let l := Logic Block 3 2 2 in let look := dict_lookup mac_prog in
  let h := [OpLook 0 0; OpConv [1;1;1]] in let h' := [OpLook 2 0; OpLook 0 0; OpLook 0 0] in
  seen_color look l h 6 /\ seen_color look l h' 6 /\ result look l h 0 6 = LOk (6, false, 3) /\ result look l h' 0 6 = LOk (6, false, 3).
Proof.
  cbv zeta. split; [right; exists [], 0, 0, [OpConv [1;1;1]], false, 3; vm_compute; auto|].
  split; [right; exists [OpLook 2 0], 0, 0, [OpLook 0 0], false, 3; vm_compute; auto|].
  vm_compute. auto.
Qed.

(** Without the condition: a colour the converter has not produced yet is an AssertionError,
    later it is an instruction. *)
Theorem C22_unseen_refuted : exists p l h ms mc, logic_ok l /\ params_ok (dict_lookup p) (lg_states l) (lg_colors l) /\
  Forall (op_ok l) h /\ slot_ok l ms mc /\
  result (dict_lookup p) l [] ms mc = LAssert /\ exists i, result (dict_lookup p) l h ms mc = LOk i.
Proof.
  exists mac_prog, (Logic Block 3 2 2), [OpLook 0 0], 0, 6.
  split; [split; [cbn; lia|]; split; cbn; lia|]. split; [apply mac_params|].
  split; [constructor; auto; split; vm_compute; split; congruence|].
  split; [split; vm_compute; split; congruence|]. split; [vm_compute; reflexivity|].
  eexists. vm_compute. reflexivity.
Qed.
Print Assumptions C22_unseen_refuted.
