(** * Properties of make_dot (C68) *)
From Verif Require Import Base TM ProgModel ParseModel NormModel CSpec DotModel DotSpec DotProofs.
Local Open Scope string_scope.

(** C68: the text is DOT, and read back it has exactly one arrow for every instruction, in the colour of its
    column; the program is its label if it is short. *)
Theorem C68_make_dot : forall prog g, parse prog = Some g -> drawable g -> dot_quotable prog ->
  exists t d, make_dot prog = Some t /\ dot_read t = Some d /\ draws g d
    /\ (In (str "label", prog) (dg_attrs d) <-> (length prog < 50)%nat).
Proof. exact make_dot_draws. Qed.
Print Assumptions C68_make_dot.

Example C68_case : exists g, parse (str "1RB 2LA 1R_  1LB ... 0RA") = Some g /\ drawable g
  /\ dot_quotable (str "1RB 2LA 1R_  1LB ... 0RA")
  /\ exists t, make_dot (str "1RB 2LA 1R_  1LB ... 0RA") = Some t /\ option_map dg_edges (dot_read t) = Some
       [(str "A", str "B", str "blue"); (str "A", str "A", str "red"); (str "A", str "_", str "forestgreen");
        (str "B", str "B", str "blue"); (str "B", str "A", str "forestgreen")].
Proof.
  eexists. split; [vm_compute; reflexivity|]. split; [|split].
  - split; [cbn; lia|]. intros s c t (row & pr & sh & E & F).
    destruct s as [|[|s]]; cbn in E; [| |destruct s; discriminate]; inversion E; subst; clear E;
      (destruct c as [|[|[|c]]]; cbn in F; [| | |destruct c; discriminate]); inversion F; subst; lia.
  - unfold dot_quotable. vm_compute. repeat (constructor; [split; discriminate|]). constructor.
  - eexists. split; vm_compute; reflexivity.
Qed.

(** The bound on the columns is needed: an instruction in the ninth column raises IndexError ... *)
Theorem C68_nine_columns_refuted : exists prog g, parse prog = Some g /\ dot_quotable prog /\ make_dot prog = None.
Proof.
  exists (str "0RA 0RA 0RA 0RA 0RA 0RA 0RA 0RA 0RA"). eexists. split; [vm_compute; reflexivity|]. split; [|vm_compute; reflexivity].
  unfold dot_quotable. vm_compute. repeat (constructor; [split; discriminate|]). constructor.
Qed.
Print Assumptions C68_nine_columns_refuted.

(** ... and so is that on the states: an arrow to a 27th state is no DOT. *)
Theorem C68_27_states_refuted : exists prog g t, parse prog = Some g /\ dot_quotable prog
  /\ make_dot prog = Some t /\ dot_read t = None.
Proof.
  exists (str "0RB  0R["). do 2 eexists. split; [vm_compute; reflexivity|]. split; [|split; [vm_compute; reflexivity|vm_compute; reflexivity]].
  unfold dot_quotable. vm_compute. repeat (constructor; [split; discriminate|]). constructor.
Qed.
Print Assumptions C68_27_states_refuted.
