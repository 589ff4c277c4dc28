(** * The line that a Machine over a macro program prints: proofs (C105) *)
From Verif Require Import Base TM ProgModel NumModel SymModel SymMachModel MacroModel MakeMacroModel ParseModel NumShowModel MachObjModel MachObjSpec
  MachLineProofs MacroShowModel MacroShowProofs MacroLineModel.
Local Open Scope string_scope.
Local Open Scope list_scope.
Local Open Scope Z_scope.

Lemma line_plain o order p ob : mo_line o order (show_comp p None) ob = mo_str o p order ob.
Proof. reflexivity. Qed.

Lemma suffix_fr ls : fr 124 (concat (map suffix ls)).
Proof.
  induction ls as [|[k n] ls IH]; cbn [map concat]; [apply fr_q; reflexivity|].
  apply fr_app; [|exact IH]. unfold suffix. cbn [fst snd].
  repeat apply fr_app; try (apply fr_q; reflexivity); [apply str_int_fr; lia|destruct k; apply fr_q; reflexivity].
Qed.

Lemma prog_str_fr p blocks backsym opt s : printable p -> prog_str p blocks backsym opt = Some s -> fr 124 s.
Proof.
  unfold prog_str. intros P E. destruct (made_layers p _ _ _) as [ls|]; [|discriminate]. cbn [option_map] in E. apply some_inj in E. subst s.
  rewrite fold_suffix. apply fr_app; [apply show_comp_fr; exact P|apply suffix_fr].
Qed.

Lemma line_cut o1 o2 order s1 s2 ob1 ob2 line : fr 124 s1 -> fr 124 s2 ->
  mo_line o1 order s1 ob1 = Some line -> mo_line o2 order s2 ob2 = Some line ->
  s1 = s2 /\ exists line', mo_line o1 order (show_comp [] None) ob1 = Some line' /\ mo_line o2 order (show_comp [] None) ob2 = Some line'.
Proof.
  intros F1 F2 E1 E2. unfold mo_line in *.
  destruct (mo_cycles ob1) as [cy1|]; [|discriminate]. destruct (mo_cycles ob2) as [cy2|]; [|discriminate].
  destruct (mo_tape ob1) as [t1|]; [|discriminate]. destruct (mo_tape ob2) as [t2|]; [|discriminate].
  destruct (mo_prover ob1) as [pv1|]; [|discriminate]. destruct (mo_prover ob2) as [pv2|]; [|discriminate].
  destruct (s_marks o1 t1) eqn:K1; try discriminate. destruct (s_marks o2 t2) eqn:K2; try discriminate.
  rewrite <- E2 in E1. apply some_inj in E1.
  set (j1 := join (quoted " | ") _) in *. set (j2 := join (quoted " | ") (map _ (mo_info order ob2 _ _ _))) in *.
  assert (E : (s1 ++ [32]) ++ 124 :: (124 :: 32 :: j1) = (s2 ++ [32]) ++ 124 :: (124 :: 32 :: j2)) by (rewrite <- !app_assoc; exact E1).
  apply cut in E; [|apply fr_app; [assumption|apply fr_q; reflexivity]..].
  destruct E as [EP EI]. apply app_inv_tail in EP. split; [exact EP|].
  assert (J : j1 = j2) by congruence. rewrite J. eexists. split; reflexivity.
Qed.

Lemma macro_line_tells o1 o2 order p blocks backsym opt q blocks' backsym' opt' ob1 ob2 n1 n2 line look look' :
  printable p -> printable q -> plain_limrul ob1 -> plain_limrul ob2 -> marks_are o1 ob1 n1 -> marks_are o2 ob2 n2 ->
  macro_line o1 order p blocks backsym opt ob1 = Some line -> macro_line o2 order q blocks' backsym' opt' ob2 = Some line ->
  make_macro p blocks backsym opt None = Some look -> make_macro q blocks' backsym' opt' None = Some look' ->
  (forall st co, look st co = look' st co) /\ n1 = n2 /\ told_alike ob1 ob2.
Proof.
  intros P Q L1 L2 M1 M2 E1 E2 A B. unfold macro_line in E1, E2.
  destruct (prog_str p blocks backsym opt) as [s1|] eqn:S1; [|discriminate].
  destruct (prog_str q blocks' backsym' opt') as [s2|] eqn:S2; [|discriminate].
  destruct (line_cut _ _ _ _ _ _ _ _ (prog_str_fr _ _ _ _ _ P S1) (prog_str_fr _ _ _ _ _ Q S2) E1 E2) as (-> & line' & X1 & X2).
  rewrite line_plain in X1, X2.
  assert (N : printable []) by (intros s c pr sh tr X; discriminate X).
  destruct (line_tells o1 o2 order [] [] ob1 ob2 n1 n2 line' N N L1 L2 M1 M2 X1 X2) as (_ & EN & T).
  split; [|split; assumption]. exact (same_text_same_program _ _ _ _ _ _ _ _ _ _ _ P Q S1 S2 A B).
Qed.
