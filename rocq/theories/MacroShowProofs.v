(** * The texts of macro programs: proofs (C105) *)
From Coq Require Import Permutation.
From Verif Require Import Base TM ProgModel BlocksModel MacroModel MakeMacroModel MakeMacroProofs ParseModel ParseSpec ParseProofs
  NumShowModel MachObjModel MachObjSpec MachLineProofs MacroShowModel.
Local Open Scope string_scope.
Local Open Scope list_scope.
Local Open Scope Z_scope.

(** ** The text tells the program and the logics *)
Definition suffix (l : kind * nat) : text :=
  quoted " (" ++ str_int (Z.of_nat (snd l)) ++ quoted "-cell " ++ kind_name (fst l) ++ quoted " macro)".

Lemma fold_suffix ls : forall b, fold_left macro_str ls b = b ++ concat (map suffix ls).
Proof.
  induction ls as [|l ls IH]; intro b; cbn [fold_left map concat]; [now rewrite app_nil_r|].
  rewrite IH. unfold macro_str, suffix. rewrite <- !app_assoc. reflexivity.
Qed.

Lemma nat_digits n : fr 45 (str_int (Z.of_nat n)).
Proof.
  unfold str_int. destruct (Z.ltb_spec (Z.of_nat n) 0); [lia|]. destruct (decimal_int (Z.of_nat n) ltac:(lia)) as [D _].
  intro X. unfold digits in D. rewrite Forall_forall in D. specialize (D _ X). lia.
Qed.

Lemma suffixes_inj : forall ls ks, concat (map suffix ls) = concat (map suffix ks) -> ls = ks.
Proof.
  induction ls as [|[k n] ls IH]; intros [|[j m] ks] E; [reflexivity|discriminate E|discriminate E|].
  cbn [map concat] in E. unfold suffix in E at 1 3. cbn [fst snd] in E. rewrite <- !app_assoc in E.
  apply (app_inv_head (quoted " (")) in E. change (quoted "-cell ") with (45 :: quoted "cell ") in E. cbn [app] in E.
  apply (cut 45) in E; [|apply nat_digits..]. destruct E as [N E]. apply str_int_inj in N. apply Nat2Z.inj in N. subst m.
  apply (app_inv_head (quoted "cell ")) in E.
  destruct k, j; cbn [kind_name] in E; try discriminate E.
  - apply app_inv_head in E. apply app_inv_head in E. f_equal. auto.
  - apply app_inv_head in E. apply app_inv_head in E. f_equal. auto.
Qed.

Lemma comp_fr_open comp : printable comp -> fr 40 (show_comp comp None).
Proof.
  intros P. unfold show_comp. destruct (max_params comp) as [ms mc].
  apply fr_join; [apply fr_q; reflexivity|]. apply fr_map. intros s. apply fr_join; [apply fr_q; reflexivity|]. apply fr_map. intros c.
  destruct (comp_get comp (s, c)) as [[[pr sh] tr]|] eqn:E; [|apply fr_q; reflexivity].
  destruct (P _ _ _ _ _ E) as (_ & _ & A & B). unfold show_instr, show_state. apply fr_app.
  - assert (C : In pr [0;1;2;3;4;5;6;7;8;9]) by (cbn; lia).
    cbn in C. repeat destruct C as [<-|C]; try (apply fr_q; reflexivity). destruct C.
  - intros [X|[X|[]]]; [destruct sh; discriminate X|].
    rewrite (Z.mod_small tr) in X by lia. rewrite Z.mod_small in X by lia. lia.
Qed.

Lemma text_cut a b ls ks : fr 40 a -> fr 40 b -> a ++ concat (map suffix ls) = b ++ concat (map suffix ks) -> a = b /\ ls = ks.
Proof.
  intros A B E.
  assert (H : forall l ls, exists x, concat (map suffix (l :: ls)) = [32] ++ 40 :: x).
  { intros l r. eexists. cbn [map concat]. unfold suffix. change (quoted " (") with ([32] ++ [40]). rewrite <- !app_assoc. cbn [app]. reflexivity. }
  assert (AB : a = b).
  { destruct ls as [|l ls], ks as [|k ks].
    - rewrite !app_nil_r in E. exact E.
    - destruct (H k ks) as (x & X). rewrite X in E. rewrite app_nil_r in E. exfalso. apply A. rewrite E. apply in_app_iff. right. right. left. reflexivity.
    - destruct (H l ls) as (x & X). rewrite X in E. rewrite app_nil_r in E. exfalso. apply B. rewrite <- E. apply in_app_iff. right. right. left. reflexivity.
    - destruct (H l ls) as (x & X), (H k ks) as (y & Y). rewrite X, Y in E. rewrite !app_assoc in E.
      apply cut in E; [|apply fr_app; [assumption|apply fr_q; reflexivity]..]. destruct E as [E _]. apply app_inv_tail in E. exact E. }
  subst b. split; [reflexivity|]. apply suffixes_inj. exact (app_inv_head _ _ _ E).
Qed.

Lemma comp_same p q : printable p -> printable q -> show_comp p None = show_comp q None -> forall sl, comp_get p sl = comp_get q sl.
Proof.
  intros P Q E sl.
  assert (S : forall r, printable r -> exists t, from_str (show_comp r None) = Some t /\ forall sl, comp_get t sl = comp_get r sl).
  { intros r R. apply parse_show_inferred.
    - intros s c pr sh tr G. destruct (R _ _ _ _ _ G) as (_ & _ & ? & ?). auto.
    - intros s c [[pr sh] tr] G. destruct (R _ _ _ _ _ G) as (? & ? & _). auto. }
  destruct (S p P) as (t & T & TG), (S q Q) as (u & U & UG). rewrite E in T. rewrite T in U. inv U. rewrite <- TG. apply UG.
Qed.

(** ** The same program and logics give the same answers *)
Fixpoint stack (look : MacroModel.lookup) (params : Z * Z) (ls : list (kind * nat)) : MacroModel.lookup :=
  match ls with
  | [] => look
  | (k, n) :: ls => let l := Logic k n (fst params) (snd params) in stack (macro_fun look l) (lg_macro_states l, lg_macro_colors l) ls
  end.

Lemma make_stack p blocks backsym opt :
  make_macro p blocks backsym opt None = option_map (stack (dict_lookup p) (prog_params p)) (made_layers p blocks backsym opt).
Proof.
  unfold make_macro, made_layers.
  assert (C : forall bl : option nat,
    (let '(comp, params, cparams) :=
        match bl with
        | Some b =>
            if (1 <? b)%nat
            then let '(s, c) := prog_params p in
                 let l := Logic Block b s c in
                 (macro_fun (dict_lookup p) l, Some (s, c), (lg_macro_states l, lg_macro_colors l))
            else (dict_lookup p, None, prog_params p)
        | None => (dict_lookup p, None, prog_params p)
        end in
      match backsym with
      | None => Some comp
      | Some b =>
          let '(s, c) := match params, bl with
                         | Some ps, None => ps
                         | _, _ => cparams
                         end in
          Some (macro_fun comp (Logic Backsymbol b s c))
      end)
    = Some (stack (dict_lookup p) (prog_params p)
        ((match bl with Some b => if (1 <? b)%nat then [(Block, b)] else [] | None => [] end)
            ++ (match backsym with Some b => [(Backsymbol, b)] | None => [] end)))).
  { intros bl. destruct (prog_params p) as [s c]. destruct bl as [b|].
    - destruct (1 <? b)%nat; destruct backsym; reflexivity.
    - destruct backsym; reflexivity. }
  destruct opt as [st|]; [destruct (opt_block p st) as [b|]; [|reflexivity]|].
  - exact (C (Some b)).
  - exact (C blocks).
Qed.

Lemma sim_ext (look look' : MacroModel.lookup) : (forall s c, look s c = look' s c) ->
  forall fuel state tape pos, sim_loop look fuel state tape pos = sim_loop look' fuel state tape pos.
Proof.
  intros H. induction fuel as [|fuel IH]; intros; [reflexivity|]. cbn [sim_loop].
  replace (sim_step look state tape pos) with (sim_step look' state tape pos) by (unfold sim_step; rewrite H; reflexivity).
  destruct (sim_step look' state tape pos); auto.
Qed.

Lemma fun_ext look look' l : (forall s c, look s c = look' s c) -> forall s c, macro_fun look l s c = macro_fun look' l s c.
Proof.
  intros H s c. unfold macro_fun. destruct (deconstruct _ _ _ _) as [[st [re t]]|]; [|reflexivity].
  unfold run_simulator. rewrite (sim_ext look look' H). reflexivity.
Qed.

Lemma stack_ext ls : forall look look' params, (forall s c, look s c = look' s c) ->
  forall s c, stack look params ls s c = stack look' params ls s c.
Proof.
  induction ls as [|[k n] ls IH]; intros look look' params H s c; cbn [stack]; [apply H|].
  apply IH. apply fun_ext. exact H.
Qed.

Lemma slot_eqb_same (a b : slot) : slot_eqb a b = true <-> a = b.
Proof.
  destruct a as [a1 a2], b as [b1 b2]. unfold slot_eqb. cbn [fst snd]. rewrite andb_true_iff, !Z.eqb_eq.
  split; [intros [-> ->]; reflexivity|intros E; inv E; auto].
Qed.

Lemma keys_get p (sl : slot) : In sl (map fst p) <-> comp_get p sl <> None.
Proof.
  induction p as [|[k i] p IH]; cbn [map fst In comp_get]; [split; [contradiction|congruence]|].
  destruct (slot_eqb k sl) eqn:E.
  - apply slot_eqb_same in E. split; [discriminate|auto].
  - rewrite <- IH. split; [intros [->|H]; [|exact H]|auto].
    exfalso. assert (slot_eqb sl sl = true) by (apply slot_eqb_same; reflexivity). congruence.
Qed.

Lemma count_same l k : (forall x, In x l <-> In x k) -> count_distinct l = count_distinct k.
Proof.
  intros H. rewrite !count_nodup. f_equal. apply Permutation_length. apply NoDup_Permutation.
  - apply NoDup_nodup.
  - apply NoDup_nodup.
  - intro x. rewrite !nodup_In. apply H.
Qed.

Lemma params_same p q : (forall sl, comp_get p sl = comp_get q sl) -> prog_params p = prog_params q.
Proof.
  intros G. assert (K : forall sl, In sl (map fst p) <-> In sl (map fst q)) by (intro sl; rewrite !keys_get, G; reflexivity).
  unfold prog_params. f_equal; apply count_same; intro x.
  - rewrite <- (map_map fst fst p), <- (map_map fst fst q), !in_map_iff.
    split; intros (sl & E & I); exists sl; (split; [exact E|apply K; exact I]).
  - rewrite <- (map_map fst snd p), <- (map_map fst snd q), !in_map_iff.
    split; intros (sl & E & I); exists sl; (split; [exact E|apply K; exact I]).
Qed.

Lemma text_tells p blocks backsym opt q blocks' backsym' opt' s : printable p -> printable q ->
  prog_str p blocks backsym opt = Some s -> prog_str q blocks' backsym' opt' = Some s ->
  (forall sl, comp_get p sl = comp_get q sl) /\ made_layers p blocks backsym opt = made_layers q blocks' backsym' opt'.
Proof.
  unfold prog_str. intros P Q E F. destruct (made_layers p _ _ _) as [ls|]; [|discriminate]. destruct (made_layers q _ _ _) as [ks|]; [|discriminate].
  cbn [option_map] in E, F. rewrite fold_suffix in E, F.
  assert (H : show_comp p None ++ concat (map suffix ls) = show_comp q None ++ concat (map suffix ks)) by congruence.
  apply text_cut in H; [|now apply comp_fr_open..]. destruct H as [C ->]. split; [apply comp_same; assumption|reflexivity].
Qed.

Lemma same_text_same_program p blocks backsym opt q blocks' backsym' opt' s look look' : printable p -> printable q ->
  prog_str p blocks backsym opt = Some s -> prog_str q blocks' backsym' opt' = Some s ->
  make_macro p blocks backsym opt None = Some look -> make_macro q blocks' backsym' opt' None = Some look' ->
  forall st co, look st co = look' st co.
Proof.
  intros P Q E F A B st co. destruct (text_tells _ _ _ _ _ _ _ _ _ P Q E F) as [G L].
  rewrite make_stack in A, B. rewrite L in A. destruct (made_layers q _ _ _) as [ls|]; [|discriminate].
  cbn [option_map] in A, B. rewrite (params_same _ _ G) in A. apply some_inj in A. apply some_inj in B. subst look look'.
  apply stack_ext. intros s0 c0. unfold dict_lookup. rewrite G. reflexivity.
Qed.

Lemma same_plain p backsym blocks q blocks' backsym' s : printable p -> printable q ->
  prog_str p blocks backsym None = Some s -> prog_str q blocks' backsym' None = Some s -> backsym = backsym'.
Proof.
  intros P Q E F. destruct (text_tells _ _ _ _ _ _ _ _ _ P Q E F) as [_ L]. unfold made_layers in L. apply some_inj in L.
  assert (X : forall bl : option nat, match bl with Some b => if (1 <? b)%nat then [(Block, b)] else [] | None => [] end = [] \/
    exists b, match bl with Some b => if (1 <? b)%nat then [(Block, b)] else [] | None => [] end = [(Block, b)]).
  { intros [b|]; [destruct (1 <? b)%nat; eauto|auto]. }
  destruct (X blocks) as [X1|(b1 & X1)], (X blocks') as [X2|(b2 & X2)]; rewrite X1, X2 in L; destruct backsym, backsym'; cbn in L; congruence.
Qed.
