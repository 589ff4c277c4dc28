(** * Properties of reading and showing programs (C23, C24) *)
From Verif Require Import Base TM ProgModel ParseModel ParseSpec ParseProofs.

(** C23: reading what was shown gives the program back, for given or inferred params. *)
Theorem C23_parse_show : forall p ms mc, 1 <= ms -> 1 <= mc -> shows_ok p -> fits p ms mc ->
  exists q, from_str (show_comp p (Some (ms, mc))) = Some q /\ forall sl, comp_get q sl = comp_get p sl.
Proof. exact parse_show. Qed.
Print Assumptions C23_parse_show.

Theorem C23_parse_show_inferred : forall p, shows_ok p -> (forall s c i, comp_get p (s, c) = Some i -> 0 <= s /\ 0 <= c) ->
  exists q, from_str (show_comp p None) = Some q /\ forall sl, comp_get q sl = comp_get p sl.
Proof. exact parse_show_inferred. Qed.
Print Assumptions C23_parse_show_inferred.

Example C23_case : let p := [((0,0), (1,true,2)); ((2,1), (9,false,25))] in
  shows_ok p /\ fits p 3 2 /\
  show_comp p (Some (3, 2)) = [49;82;67; 32; 46;46;46; 32;32; 46;46;46; 32; 46;46;46; 32;32; 46;46;46; 32; 57;76;90].
Proof.
  cbv zeta. split; [|split; [|vm_compute; reflexivity]].
  - intros s c pr sh tr. cbn. repeat match goal with |- context [if ?b then _ else _] => destruct b end; intros H; inv H; lia.
  - intros s c i. cbn. unfold slot_eqb. cbn [fst snd].
    destruct ((0 =? s) && (0 =? c)) eqn:E1; [intros _; lia|].
    destruct ((2 =? s) && (1 =? c)) eqn:E2; [intros _; lia|discriminate].
Qed.

(** Outside that range: a two-digit colour is shown but read back as another instruction... *)
Theorem C23_two_digit_colour_refuted : exists p q,
  from_str (show_comp p None) = Some q /\ comp_get p (0, 0) = Some (10, true, 1) /\ comp_get q (0, 0) = Some (1, false, 17).
Proof. exists [((0,0), (10,true,1))]. eexists. split; [vm_compute; reflexivity|]. split; reflexivity. Qed.
Print Assumptions C23_two_digit_colour_refuted.

(** ... and state 68 is shown as a whitespace character, which [trim] removes: reading panics. *)
Theorem C23_state_68_refuted : exists p,
  (forall s c pr sh tr, comp_get p (s, c) = Some (pr, sh, tr) -> 0 <= pr < 10 /\ 0 <= tr < 191) /\
  from_str (show_comp p (Some (1, 1))) = None.
Proof.
  exists [((0,0), (1,true,68))]. split; [|vm_compute; reflexivity].
  intros s c pr sh tr. cbn. destruct (slot_eqb (0,0) (s,c)); intros H; inv H. lia.
Qed.
Print Assumptions C23_state_68_refuted.

(** C24: a well-formed text is read as the table it shows, and showing that with the table's
    dimensions gives the text back. *)
Theorem C24_show_parse : forall g s cols, prog_text g s -> rectangular g cols -> (1 <= cols)%nat ->
  exists p, from_str s = Some p /\ (forall sl, comp_get p sl = table_get g sl) /\
    show_comp p (Some (Z.of_nat (length g), Z.of_nat cols)) = s.
Proof. exact show_parse. Qed.
Print Assumptions C24_show_parse.

(** Reading needs no rectangle. *)
Theorem C24_parse_any_shape : forall g s, prog_text g s ->
  exists p, from_str s = Some p /\ forall sl, comp_get p sl = table_get g sl.
Proof. exact parse_table. Qed.
Print Assumptions C24_parse_any_shape.

(** "1RB ...  1LA 0RB" *)
Example C24_case : prog_text [[Some (1,true,1); None]; [Some (1,false,0); Some (0,true,1)]]
  [49;82;66; 32; 46;46;46; 32;32; 49;76;65; 32; 48;82;66].
Proof.
  apply (prog_cons _ [49;82;66; 32; 46;46;46] _ [49;76;65; 32; 48;82;66]).
  - apply (row_cons _ [49;82;66] _ [46;46;46]); [split; [lia|split; [lia|reflexivity]]|]. constructor. reflexivity.
  - constructor. apply (row_cons _ [49;76;65] _ [48;82;66]); [split; [lia|split; [lia|reflexivity]]|].
    constructor. split; [lia|split; [lia|reflexivity]].
Qed.

Theorem C24_slot_roundtrip : forall s c, 0 <= s < 191 -> 0 <= c < 10 -> read_slot (show_slot (s, c)) = Some (s, c).
Proof. exact slot_roundtrip. Qed.
Print Assumptions C24_slot_roundtrip.

Theorem C24_slot_text_roundtrip : forall l d, 65 <= l <= 90 -> 48 <= d <= 57 ->
  exists s, read_slot [l; d] = Some s /\ show_slot s = [l; d].
Proof. exact slot_text_roundtrip. Qed.
Print Assumptions C24_slot_text_roundtrip.

Theorem C24_instr_roundtrip : forall i, (forall c sh tr, i = Some (c, sh, tr) -> 0 <= c < 10 /\ 0 <= tr < 191) ->
  read_instr (show_instr i) = Some i.
Proof. exact instr_roundtrip. Qed.
Print Assumptions C24_instr_roundtrip.

Theorem C24_instr_text_roundtrip : forall i s, cell_text i s -> read_instr s = Some i /\ show_instr i = s.
Proof. exact instr_text_roundtrip. Qed.
Print Assumptions C24_instr_text_roundtrip.

Example C24_instr_case : read_instr [55;76;67] = Some (Some (7, false, 2)) /\ read_slot [68;51] = Some (3, 3).
Proof. vm_compute. auto. Qed.
