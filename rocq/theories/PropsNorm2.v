(** * normalize as a normal form (C66) *)
From Verif Require Import Base TM ProgModel ParseModel ParseSpec NormModel NormSpec NormProofs NormFull GraphModel GraphSpec GraphMore CanonSpec NormCanon.

(** C66: with up to three colours, normalize renames and possibly mirrors the program so that states and colours
    are mentioned in order and the first instruction goes right; normalizing again changes nothing. *)
Theorem C66_normal_form_partial : forall g s cols, tidy g s cols -> (1 <= cols <= 3)%nat ->
  exists g' s', normalize s = Some s' /\ tidy g' s' cols /\ length g' = length g /\
    normal_form (table_machine g') (Z.of_nat (length g)) /\ isomorphic (table_machine g) (table_machine g') /\
    normalize s' = Some s'.
Proof. exact normalize_form. Qed.
Print Assumptions C66_normal_form_partial.

(** Two programs normalize to the same text exactly when they differ by names and mirroring only. *)
Theorem C66_canonical_partial : forall g1 s1 cols1 g2 s2 cols2,
  tidy g1 s1 cols1 -> (1 <= cols1 <= 3)%nat -> tidy g2 s2 cols2 -> (1 <= cols2 <= 3)%nat ->
  normalize s1 = normalize s2 <-> isomorphic (table_machine g1) (table_machine g2).
Proof. exact normalize_decides. Qed.
Print Assumptions C66_canonical_partial.

(** With any number of colours, a program that is a normal form already is left alone. *)
Theorem C66_normal_kept : forall g s cols, prog_text g s -> rectangular g cols -> (1 <= cols)%nat ->
  full_table (table_machine g) (Z.of_nat (length g)) (Z.of_nat cols) ->
  normal_form (table_machine g) (Z.of_nat (length g)) -> normalize s = Some s.
Proof. exact normalize_keeps. Qed.
Print Assumptions C66_normal_kept.

(** Three states and three colours: three names of one machine, and another machine. *)
Definition C66_one : list (list (option instr)) :=
  [[Some (2,false,2); Some (1,true,1); None]; [None; Some (1,false,1); Some (1,true,0)]; [Some (1,true,1); None; Some (2,false,0)]].
Definition C66_two : list (list (option instr)) :=
  [[Some (1,true,1); None; Some (2,false,2)]; [Some (2,false,2); Some (1,true,0); None]; [None; Some (2,false,0); Some (2,true,2)]].
Definition C66_other : list (list (option instr)) :=
  [[Some (1,true,1); None; Some (2,false,2)]; [Some (2,false,2); Some (1,true,0); None]; [None; Some (2,true,0); Some (2,true,2)]].
Example C66_case : tidy C66_one (text_of "2LC 1RB ...  ... 1LB 1RA  1RB ... 2LA") 3 /\
  tidy C66_two (text_of "1RB ... 2LC  2LC 1RA ...  ... 2LA 2RC") 3 /\
  tidy C66_other (text_of "1RB ... 2LC  2LC 1RA ...  ... 2RA 2RC") 3 /\
  normalize (text_of "2LC 1RB ...  ... 1LB 1RA  1RB ... 2LA") = Some (text_of "1RB ... 2LC  2LC 1RA ...  ... 2LA 2RC") /\
  normalize (text_of "1RB ... 2LC  2LC 1RA ...  ... 2RA 2RC") = Some (text_of "1RB ... 2LC  2LC 1RA ...  ... 2RA 2RC") /\
  isomorphic (table_machine C66_one) (table_machine C66_two) /\ ~ isomorphic (table_machine C66_one) (table_machine C66_other).
Proof.
  assert (T1 : tidy C66_one (text_of "2LC 1RB ...  ... 1LB 1RA  1RB ... 2LA") 3) by (apply tidyb_ok; vm_compute; reflexivity).
  assert (T2 : tidy C66_two (text_of "1RB ... 2LC  2LC 1RA ...  ... 2LA 2RC") 3) by (apply tidyb_ok; vm_compute; reflexivity).
  assert (T3 : tidy C66_other (text_of "1RB ... 2LC  2LC 1RA ...  ... 2RA 2RC") 3) by (apply tidyb_ok; vm_compute; reflexivity).
  split; auto. split; auto. split; auto. split; [vm_compute; reflexivity|]. split; [vm_compute; reflexivity|]. split.
  - apply (normalize_decides _ _ 3 _ _ 3 T1 ltac:(lia) T2 ltac:(lia)). vm_compute. reflexivity.
  - intros I. apply (normalize_decides _ _ 3 _ _ 3 T1 ltac:(lia) T3 ltac:(lia)) in I. vm_compute in I. discriminate.
Qed.

(** A normal form with four colours and four states. *)
Definition C66_four : list (list (option instr)) :=
  [[Some (1,true,1); Some (2,false,0); Some (1,false,2); None]; [Some (3,false,1); Some (1,true,3); None; Some (0,true,0)];
   [Some (2,true,2); None; Some (3,false,1); Some (1,true,3)]; [None; Some (1,true,0); Some (2,false,2); Some (3,false,3)]].
Example C66_kept_case : exists s, tidy C66_four s 4 /\ normal_form (table_machine C66_four) 4.
Proof.
  eexists. split; [apply tidyb_ok; [vm_compute; reflexivity|reflexivity]|]. split; [|split].
  - apply (is_normal_ok C66_four); [apply closedb_ok; reflexivity|cbn; lia|vm_compute; reflexivity].
  - intros s c k j (sh & tr & G) J. pose proof (table_in _ _ _ _ G) as [S0 I].
    assert (B : 0 <= s < 4).
    { split; auto. destruct (Z_lt_le_dec s 4); auto. rewrite nth_overflow in I by (cbn; lia). destruct I. }
    assert (BC : 0 <= c < 4).
    { unfold table_machine in G. rewrite <- norm_get in G.
      apply (shape_get _ 4 4) in G; [lia|apply (norm_shape C66_four 4); repeat constructor]. }
    assert (HS : s = 0 \/ s = 1 \/ s = 2 \/ s = 3) by lia. assert (HC : c = 0 \/ c = 1 \/ c = 2 \/ c = 3) by lia.
    assert (K : 0 <= k < 4) by (destruct HS as [->|[->|[->| ->]]], HC as [->|[->|[->| ->]]]; vm_compute in G; inv G; lia).
    assert (HJ : j = 1 \/ j = 2) by lia.
    destruct HJ as [->| ->]; [exists 0, 0; split; [|exists true, 1; reflexivity]|exists 0, 1; split; [|exists false, 0; reflexivity]];
      unfold before; destruct HS as [->|[->|[->| ->]]], HC as [->|[->|[->| ->]]]; vm_compute in G; inv G; lia.
  - exists 1, 1. reflexivity.
Qed.

(** With five colours the result of normalize is changed by normalizing it again ... *)
Theorem C66_idempotent_refuted : exists g s s' s'', tidy g s 5 /\ normalize s = Some s' /\ normalize s' = Some s'' /\ s' <> s''.
Proof. exact not_idempotent. Qed.
Print Assumptions C66_idempotent_refuted.

(** ... and with four its states can be out of order. *)
Theorem C66_in_order_refuted : exists g s s' g', tidy g s 4 /\ normalize s = Some s' /\ parse s' = Some g' /\
  ~ appear_in_order (table_machine g') (Z.of_nat (length g)).
Proof. exact not_in_order. Qed.
Print Assumptions C66_in_order_refuted.
