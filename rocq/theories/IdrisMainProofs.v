(** * Proofs about idris/Run.idr and idris/Test.idr *)
From Verif Require Import Base TM ProgModel ParseModel CSpec IdrisModel IdrisSpec IdrisProofs IdrisRunProofs IdrisDoubleProofs IdrisParseModel IdrisParseSpec
  IdrisParseProofs IdrisMachines IdrisMainModel IdrisMainSpec.
From Coq Require Import String.
Local Open Scope string_scope.
Local Open Scope list_scope.
Local Open Scope Z_scope.

Lemma lit_str s : lit_ s = str s.
Proof. induction s as [|c s IH]; [reflexivity|]. cbn [lit_ str]. rewrite IH. reflexivity. Qed.

(** ** Decimals *)

Fixpoint value (l : list Z) : Z := match l with [] => 0 | d :: l => d + 10 * value l end.

Lemma digits_value fuel : forall z, 0 <= z < 2 ^ Z.of_nat fuel -> value (digits fuel z) = z
  /\ Forall (fun d => 0 <= d <= 9) (digits fuel z) /\ (0 < z -> last (digits fuel z) 0 <> 0) /\ (fuel <> O -> digits fuel z <> []).
Proof.
  induction fuel as [|fuel IH]; intros z Hz.
  - cbn in Hz. assert (z = 0) by lia. subst. cbn. repeat split; try constructor; lia.
  - cbn [digits]. rewrite Nat2Z.inj_succ, Z.pow_succ_r in Hz by lia. destruct (Z.ltb_spec z 10) as [H|H].
    + cbn. repeat split; try lia; try discriminate. repeat constructor; lia.
    + pose proof (Z.div_mod z 10 ltac:(lia)) as DM. pose proof (Z.mod_pos_bound z 10 ltac:(lia)) as MB.
      assert (Q : 0 <= z / 10 < 2 ^ Z.of_nat fuel) by (split; [apply Z.div_pos; lia|apply Z.div_lt_upper_bound; lia]).
      destruct (IH _ Q) as (A & B & C & D). cbn [value]. split; [lia|]. split; [constructor; [lia|exact B]|]. split; [|discriminate].
      intros _. assert (P : 0 < z / 10) by (apply Z.div_str_pos; lia). specialize (C P).
      destruct (digits fuel (z / 10)) eqn:E; [cbn in C; lia|]. exact C.
Qed.

Lemma fold_value l : fold_left (fun a d => 10 * a + (d - 48)) (map (Z.add 48) (rev l)) 0 = value l.
Proof.
  induction l as [|d l IH]; [reflexivity|]. cbn [rev value]. rewrite map_app, fold_left_app, IH. cbn. lia.
Qed.

Lemma show_decimal n : decimal n (show_nat n).
Proof.
  unfold show_nat. set (z := Z.of_nat n). assert (Hz : 0 <= z) by lia.
  destruct (digits_value (S (Z.to_nat (Z.log2 z))) z (log2_fuel z Hz)) as (A & B & C & D). specialize (D ltac:(discriminate)).
  assert (V : z = 0 -> digits (S (Z.to_nat (Z.log2 z))) z = [0]) by (intros ->; reflexivity).
  set (l := digits _ z) in *. clearbody l. split; [|split; [|split]].
  - destruct l as [|d l]; [contradiction|]. cbn [rev]. rewrite map_app. destruct (map _ (rev l)); discriminate.
  - intros H. destruct (Z.eq_dec z 0) as [E|E]; [rewrite (V E); reflexivity|]. exfalso. specialize (C ltac:(lia)).
    destruct (exists_last D) as (l' & d & ->). rewrite rev_app_distr in H. cbn in H. rewrite last_last in C. lia.
  - apply Forall_map, Forall_rev. eapply Forall_impl; [|exact B]. cbn. intros; lia.
  - rewrite fold_value. exact A.
Qed.

(** ** Run.idr *)

Lemma irow_nonempty r s : irow_text r s -> s <> [].
Proof.
  intros H. assert (C : forall i s, icell_text i s -> s <> []).
  { intros [[[c sh] tr]|] t; cbn; [intros (_ & _ & ->)|intros ->]; discriminate. }
  destruct H as [i s H|i s r t H _]; [exact (C _ _ H)|]. specialize (C _ _ H). destruct s; [contradiction|discriminate].
Qed.
Lemma iprog_nonempty k n g s : iprog_text k n g s -> s <> [].
Proof.
  intros H. destruct H as [r s _ H|n r s g t _ H _]; pose proof (irow_nonempty _ _ H) as X; [exact X|]. destruct s; [contradiction|discriminate].
Qed.

Lemma run_loop_cons lim i n k prog progs : prog <> [] -> run_loop lim i n k (prog :: progs)
  = (show_nat i ++
     match iparse n k prog with
     | None => lit_ "    Failed to parse: " ++ prog ++ lit_ " (" ++ show_nat n ++ lit_ ", " ++ show_nat k ++ lit_ ")" ++ [10]
     | Some parsed =>
         match run_single 0 BlockMachine lim parsed with
         | Reports steps _ _ => lit_ "    " ++ prog ++ lit_ " | " ++ show_nat steps ++ [10] ++ run_loop lim (S i) n k progs
         | _ => run_loop lim (S i) n k progs
         end
     end)%list.
Proof. destruct prog; [contradiction|reflexivity]. Qed.

Lemma run_lists lim n k progs : Forall (fun s => exists g, iprog_text k n g s) progs -> forall i, listing lim n k i progs (run_loop lim i n k progs).
Proof.
  induction 1 as [|prog progs (g & G) _ IH]; intros i.
  - cbn [run_loop]. rewrite lit_str. constructor.
  - rewrite run_loop_cons by (eapply iprog_nonempty; eauto). destruct (text_runs _ _ _ _ G) as (P & E & R). rewrite E.
    specialize (R O BlockMachine lim). destruct (run_single 0 BlockMachine lim P) as [| |s cy m].
    + discriminate R.
    + econstructor; [exact G| |apply IH]. right; [apply show_decimal|exact R].
    + rewrite !lit_str. pose proof (told (itable_machine g) i lim prog (show_nat i) (show_nat s) s m (show_decimal i) (show_decimal s) R) as T.
      pose proof (listing_next lim n k i prog progs g _ _ G T (IH (S i))) as X. repeat rewrite <- app_assoc in X. exact X.
Qed.

Lemma run_idr_lists lim n k progs : Forall (fun s => exists g, iprog_text k n g s) progs -> listing lim n k 1 progs (run_idr lim n k progs).
Proof. intros H. apply run_lists. exact H. Qed.

Lemma blank_ends lim n k more progs : forall i, run_loop lim i n k (progs ++ [] :: more) = run_loop lim i n k progs.
Proof.
  induction progs as [|p progs IH]; intros i; [reflexivity|]. destruct p as [|c p]; [reflexivity|].
  rewrite <- app_comm_cons, !run_loop_cons by discriminate. rewrite IH. reflexivity.
Qed.
Lemma run_blank_ends lim n k progs more : run_idr lim n k (progs ++ [] :: more) = run_idr lim n k progs.
Proof. apply blank_ends. Qed.

(** ** Test.idr *)

Lemma then_go a b out : io_then a b = (out, GoesOn) -> exists o1 o2, a = (o1, GoesOn) /\ b = (o2, GoesOn) /\ out = (o1 ++ o2)%list.
Proof. destruct a as (o1 & []), b as (o2 & e); cbn; intros H; inv H. eauto. Qed.

Lemma traverse_go {A} (f : A -> io) l : forall out, traverse_ f l = (out, GoesOn) ->
  forall x, In x l -> exists o, f x = (o, GoesOn) /\ incl o out.
Proof.
  induction l as [|y l IH]; intros out H x Hx; [contradiction|]. cbn in H. destruct (then_go _ _ _ H) as (o1 & o2 & A1 & B & ->).
  destruct Hx as [<-|Hx]; [exists o1; split; [exact A1|apply incl_appl, incl_refl]|].
  destruct (IH _ B x Hx) as (o & F & I2). exists o. split; [exact F|apply incl_appr; exact I2].
Qed.

Lemma recurs_ext M M' : (forall st c, M st c = M' st c) -> recurs M -> recurs M'.
Proof.
  intros E (n & c & A & B). exists n, c. rewrite <- (steps_prog_ext M M' _ E). split; [exact A|]. destruct B as [(dir & B)|(p & k & d & P & Q & R)].
  - left. exists dir. intros j. rewrite <- (steps_prog_ext M M' _ E). apply B.
  - right. exists p, k, d. rewrite <- (steps_prog_ext M M' _ E). auto.
Qed.

Definition right_numbers (rt : run_type) (M : program) (moves marks : Z) : Prop :=
  match rt with Single => right_single M moves marks | DoubleRec => right_double M moves marks end.

Lemma read_right fuel lim m max_cy chk n k rt prog es ec em g o :
  read_and_run fuel lim m max_cy chk n k rt (prog, (es, ec, em)) = (o, GoesOn) -> ec < max_cy ->
  (forall line, In line o -> ~ whoops line) -> iprog_text k n g prog -> right_numbers rt (itable_machine g) es em.
Proof.
  intros H L W G. cbn [read_and_run] in H. destruct (Z.ltb_spec ec max_cy); [|lia].
  destruct (iparse_right _ _ _ _ G) as (P & E & MP). rewrite E in H.
  destruct (text_runs _ _ _ _ G) as (P' & E' & T). rewrite E in E'. inv E'. specialize (T fuel m lim).
  assert (F : fits_tape m P') by (intros _; eapply iparse_digits; eauto).
  destruct (run_prog fuel m lim P' rt) as [| |s cy mk] eqn:R; [discriminate|discriminate|].
  destruct (then_go _ _ _ H) as (o1 & o2 & A & _ & ->). unfold fail_when_wrong in A.
  destruct (check_result (es, ec, em) (Z.of_nat s, Z.of_nat cy, Z.of_nat mk) chk) eqn:CR.
  - unfold check_result in CR. apply andb_prop in CR. destruct CR as (CR & _). apply andb_prop in CR. destruct CR as (C1 & C2).
    apply Z.eqb_eq in C1, C2. subst es em. destruct rt; cbn [run_prog right_numbers] in *.
    + rewrite R in T. exists s, mk. auto.
    + destruct (run_double_truth fuel m lim P' s cy mk F R) as [(j & c & X & Y)|(X & c & Y & Z0)].
      * left. exists j, c. rewrite <- (steps_prog_ext _ _ _ MP). auto.
      * right. split; [eapply recurs_ext; eauto|]. exists s, c. rewrite <- (steps_prog_ext _ _ _ MP). auto.
  - inv A. exfalso. eapply W; [left; reflexivity|]. eexists. reflexivity.
Qed.

Lemma machine_right fuel lim groups name m max_cy o n k rt progs prog es ec em g :
  run_machine fuel lim groups name m max_cy = (o, GoesOn) -> ec < max_cy -> (forall line, In line o -> ~ whoops line) ->
  In (n, k, rt, progs) groups -> In (prog, (es, ec, em)) progs -> iprog_text k n g prog -> right_numbers rt (itable_machine g) es em.
Proof.
  intros H L W Hg Hp G. unfold run_machine in H. destruct (then_go _ _ _ H) as (o1 & o2 & _ & B & ->).
  destruct (traverse_go _ _ _ B _ Hg) as (o & B1 & I1). cbn [run_prog_group] in B1.
  destruct (then_go _ _ _ B1) as (o3 & o4 & B2 & _ & ->). destruct (traverse_go _ _ _ B2 _ Hp) as (o & B3 & I3).
  eapply read_right; [exact B3|exact L| |exact G]. intros line Hl. apply W, in_or_app. right. apply I1, in_or_app. left. apply I3, Hl.
Qed.

Lemma test_right fuel lim groups slow out :
  test_idr fuel lim groups slow = (out, GoesOn) -> (forall line, In line out -> ~ whoops line) ->
  forall n k rt progs prog es ec em g, In (n, k, rt, progs) groups -> In (prog, (es, ec, em)) progs -> iprog_text k n g prog ->
  ec < (if slow then 1000000000 else 10000000) -> right_numbers rt (itable_machine g) es em.
Proof.
  intros H W n k rt progs prog es ec em g Hg Hp G L. unfold test_idr in H. destruct (then_go _ _ _ H) as (o1 & o2 & A & B & ->). destruct slow.
  - destruct (traverse_go _ _ _ B ("Block (Slow)", BlockMachine, 1000000000)) as (o & B1 & I1); [cbn; tauto|].
    eapply machine_right; [exact B1|exact L| |exact Hg|exact Hp|exact G]. intros line Hl. apply W, in_or_app. right. apply I1, Hl.
  - eapply machine_right; [exact A|exact L| |exact Hg|exact Hp|exact G]. intros line Hl. apply W, in_or_app. left. exact Hl.
Qed.

Lemma test_single fuel lim groups slow out :
  test_idr fuel lim groups slow = (out, GoesOn) -> (forall line, In line out -> ~ whoops line) ->
  forall n k progs prog moves cycles marks g, In (n, k, Single, progs) groups -> In (prog, (moves, cycles, marks)) progs -> iprog_text k n g prog ->
  cycles < (if slow then 1000000000 else 10000000) -> right_single (itable_machine g) moves marks.
Proof. intros H W n k progs prog es ec em g Hg. exact (test_right _ _ _ _ _ H W n k Single progs prog es ec em g Hg). Qed.
Lemma test_double fuel lim groups slow out :
  test_idr fuel lim groups slow = (out, GoesOn) -> (forall line, In line out -> ~ whoops line) ->
  forall n k progs prog moves cycles marks g, In (n, k, DoubleRec, progs) groups -> In (prog, (moves, cycles, marks)) progs -> iprog_text k n g prog ->
  cycles < (if slow then 1000000000 else 10000000) -> right_double (itable_machine g) moves marks.
Proof. intros H W n k progs prog es ec em g Hg. exact (test_right _ _ _ _ _ H W n k DoubleRec progs prog es ec em g Hg). Qed.

(** What can not be read makes the test fail. *)
Lemma machine_reads fuel lim groups name m max_cy o n k rt progs prog es ec em :
  run_machine fuel lim groups name m max_cy = (o, GoesOn) -> ec < max_cy ->
  In (n, k, rt, progs) groups -> In (prog, (es, ec, em)) progs -> iparse n k prog <> None.
Proof.
  intros H L Hg Hp. unfold run_machine in H. destruct (then_go _ _ _ H) as (o1 & o2 & _ & B & ->).
  destruct (traverse_go _ _ _ B _ Hg) as (o & B1 & _). cbn [run_prog_group] in B1.
  destruct (then_go _ _ _ B1) as (o3 & o4 & B2 & _ & ->). destruct (traverse_go _ _ _ B2 _ Hp) as (o & B3 & _).
  cbn [read_and_run] in B3. destruct (Z.ltb_spec ec max_cy); [|lia]. destruct (iparse n k prog); discriminate.
Qed.

Lemma test_reads fuel lim groups slow out : test_idr fuel lim groups slow = (out, GoesOn) ->
  forall n k rt progs prog moves cycles marks, In (S n, S k, rt, progs) groups -> In (prog, (moves, cycles, marks)) progs ->
  cycles < (if slow then 1000000000 else 10000000) -> iprog_ok (S k) (S n) prog.
Proof.
  intros H n k rt progs prog es ec em Hg Hp L. unfold test_idr in H. destruct (then_go _ _ _ H) as (o1 & o2 & A & B & ->).
  apply iparse_accepts. destruct slow.
  - destruct (traverse_go _ _ _ B ("Block (Slow)", BlockMachine, 1000000000)) as (o & B1 & I1); [cbn; tauto|].
    eapply machine_reads; [exact B1|exact L|exact Hg|exact Hp].
  - eapply machine_reads; [exact A|exact L|exact Hg|exact Hp].
Qed.
