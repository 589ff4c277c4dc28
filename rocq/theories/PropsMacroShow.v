(** * The text of a macro program identifies it (C105) *)
From Verif Require Import Base TM ProgModel MacroModel MakeMacroModel ParseModel NumShowModel MachObjSpec MacroShowModel MacroShowProofs.
Local Open Scope string_scope.
Local Open Scope list_scope.
Local Open Scope Z_scope.

(** C105.  Machines made without explicit params that show the same text of their programs answer alike at every slot,
    errors included. *)
Theorem C105_same_text_same_program : forall p blocks backsym opt q blocks' backsym' opt' s look look', printable p -> printable q ->
  prog_str p blocks backsym opt = Some s -> prog_str q blocks' backsym' opt' = Some s ->
  make_macro p blocks backsym opt None = Some look -> make_macro q blocks' backsym' opt' None = Some look' ->
  forall st co, look st co = look' st co.
Proof. exact same_text_same_program. Qed.
Print Assumptions C105_same_text_same_program.

(** The same text is also shown for the same instructions and the same number of backsymbols only. *)
Theorem C105_same_text_same_parts : forall p blocks backsym q blocks' backsym' s, printable p -> printable q ->
  prog_str p blocks backsym None = Some s -> prog_str q blocks' backsym' None = Some s ->
  (forall sl, comp_get p sl = comp_get q sl) /\ backsym = backsym'.
Proof. exact (fun p b k q b' k' s P Q E F => conj (proj1 (text_tells p b k None q b' k' None s P Q E F)) (same_plain p k b q b' k' s P Q E F)). Qed.
Print Assumptions C105_same_text_same_parts.

(** The text does not tell explicit params: "1RB 2LA ...  1LA ... ..." in blocks of two cells has colour 5 or 7 for the cells 2 1. *)
Definition C105_prog : comp_prog := [((0,0),(1,true,1)); ((0,1),(2,false,0)); ((1,0),(1,false,0))].
Theorem C105_params_refuted : exists p blocks params params' look look' st co,
  make_macro p blocks None None (Some params) = Some look /\ make_macro p blocks None None (Some params') = Some look'
  /\ look st co <> look' st co.
Proof.
  exists C105_prog, (Some 2%nat), (2, 2), (2, 3). eexists. eexists. exists 0, 0.
  split; [reflexivity|]. split; [reflexivity|]. vm_compute. discriminate.
Qed.
Print Assumptions C105_params_refuted.

(** The same program with its slots listed in another order, and in blocks of one cell, which are no macro. *)
Definition C105_other : comp_prog := [((1,0),(1,false,0)); ((0,1),(2,false,0)); ((0,0),(1,true,1))].
Example C105_case : printable C105_prog /\ printable C105_other
  /\ prog_str C105_prog (Some 2%nat) (Some 13%nat) None = Some (quoted "1RB 2LA ...  1LA ... ... (2-cell block macro) (13-cell backsymbol macro)")
  /\ prog_str C105_other (Some 2%nat) (Some 13%nat) None = Some (quoted "1RB 2LA ...  1LA ... ... (2-cell block macro) (13-cell backsymbol macro)")
  /\ prog_str C105_other (Some 1%nat) None None = Some (quoted "1RB 2LA ...  1LA ... ...")
  /\ (exists look, make_macro C105_other (Some 2%nat) None None None = Some look /\ look 0 0 = LOk (5, false, 1)).
Proof.
  assert (G : forall p, (forall e, In e p -> let '((s, c), (pr, sh, tr)) := e in 0 <= s /\ 0 <= c /\ 0 <= pr < 10 /\ 0 <= tr < 26) -> printable p).
  { intros p H s c pr sh tr E. induction p as [|[k i] p IH]; [discriminate|]. cbn [comp_get] in E. destruct (slot_eqb k (s, c)) eqn:K.
    - apply slot_eqb_same in K. subst k. inv E. apply (H ((s, c), (pr, sh, tr))). left. reflexivity.
    - apply IH; [intros e I; apply H; right; exact I|exact E]. }
  split; [apply G; intros e I; cbn in I; repeat destruct I as [<-|I]; try contradiction; cbn; lia|].
  split; [apply G; intros e I; cbn in I; repeat destruct I as [<-|I]; try contradiction; cbn; lia|].
  split; [vm_compute; reflexivity|]. split; [vm_compute; reflexivity|]. split; [vm_compute; reflexivity|].
  eexists. split; [reflexivity|]. vm_compute. reflexivity.
Qed.
