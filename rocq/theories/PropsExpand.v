(** * Properties of the compact notation (C86)

    [expand s] is expand(s) of tools/normalize.py; [from_str] is tcompile. *)
From Verif Require Import Base TM ProgModel ParseModel ParseSpec NormSpec ExpandModel ExpandSpec ExpandProofs.

(** C86: a program in compact notation, with or without the end of its line, is expanded to a text of the same program
    in the project's notation, which tcompile reads as that program. *)
Theorem C86_expand : forall g s a b, compact_text g s -> line_space a -> line_space b ->
  exists e p, expand (a ++ s ++ b) = Some e /\ prog_text g e /\ from_str e = Some p /\ forall sl, comp_get p sl = table_get g sl.
Proof. exact expand_ok. Qed.
Print Assumptions C86_expand.

(** "1RB1RZ_---0LA", and a newline. *)
Example C86_case :
  compact_text [[Some (1, true, 1); None]; [None; Some (0, false, 0)]] (text_of "1RB1RZ_---0LA")
  /\ line_space [10] /\ expand (text_of "1RB1RZ_---0LA" ++ [10]) = Some (text_of "1RB ...  ... 0LA").
Proof.
  split; [|split; [constructor; [auto|constructor]|vm_compute; reflexivity]].
  apply (cprog_cons [Some (1, true, 1); None] (text_of "1RB1RZ") [[None; Some (0, false, 0)]] (text_of "---0LA")).
  - apply (crow_cons (Some (1, true, 1)) (text_of "1RB") [None] (text_of "1RZ")).
    + cbn. split; [lia|split; [lia|reflexivity]].
    + constructor. exists 49, 82, 90. repeat (split; [reflexivity || (unfold plain_char; lia)|]). right; cbn; auto.
  - constructor. apply (crow_cons None (text_of "---") [Some (0, false, 0)] (text_of "0LA")).
    + exists 45, 45, 45. repeat (split; [reflexivity || (unfold plain_char; lia)|]). left; cbn; auto.
    + constructor. cbn. split; [lia|split; [lia|reflexivity]].
Qed.
(** The table of test/prog_data.py 3151-3155. *)
Example C86_tests :
  expand (text_of "1RB2RA1LC_2LC1RB2RB_---2LA1LA") = Some (text_of "1RB 2RA 1LC  2LC 1RB 2RB  ... 2LA 1LA")
  /\ expand (text_of "1RB3LB1RZ2RA_2LC3RB1LC2RA_3RB1LB3LC2RC") = Some (text_of "1RB 3LB ... 2RA  2LC 3RB 1LC 2RA  3RB 1LB 3LC 2RC")
  /\ expand (text_of "1LB1RZ_0LC1LC_0LD0LC_1LE1RA_0LF0LE_1LG1RD_0LH0LG_1LI1RF_0LJ0LI_1RJ1RH")
     = Some (text_of "1LB ...  0LC 1LC  0LD 0LC  1LE 1RA  0LF 0LE  1LG 1RD  0LH 0LG  1LI 1RF  0LJ 0LI  1RJ 1RH").
Proof. vm_compute. auto. Qed.
