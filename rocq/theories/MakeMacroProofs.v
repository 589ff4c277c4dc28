(** * Machine objects over macro programs, without rules *)
From Verif Require Import Base TM TMFacts TapeProofs QuickProofs ProgModel TapeModel BlocksModel ProverModel MachineProofs
  MacroModel MacroSpec MacroProofs BackLimit MacroLogic MacroRun MakeMacroModel.

Lemma macro_fun_pure look l ms mc : macro_fun look l ms mc = pure_get look l ms mc.
Proof.
  unfold macro_fun, pure_get. fold (dec_pure l).
  change (fun c => Some (digits_of (lg_colors l) (lg_cells l) c)) with (dec_pure l).
  destruct (deconstruct l (dec_pure l) ms mc) as [[s [e t]]|]; auto.
  destruct (run_simulator look (Z.to_nat (lg_sim_lim l)) s e t) as [| |]; auto.
  destruct (reconstruct l state right_ tape) as [u mk]. rewrite color_of_number. auto.
Qed.

Lemma macro_params look l : logic_ok l -> params_ok look (lg_states l) (lg_colors l) ->
  params_ok (macro_fun look l) (lg_macro_states l) (lg_macro_colors l).
Proof.
  intros HL HP s c pr sh tr Hs Hc E. rewrite macro_fun_pure in E.
  destruct (pure_out look l s c _ HL HP (conj Hs Hc) E) as (s0 & e & t & s' & r & t' & D & Ht & R & Hs' & Ht' & EI).
  pose proof (reconstruct_ok l s' r t' HL Hs' Ht') as HO.
  destruct (reconstruct l s' r t') as [u mk]. cbn [fst snd] in EI. rewrite <- EI in HO.
  destruct HO as (_ & A & B). auto.
Qed.

(** Runs of the macro program as a plain machine. *)
Lemma msteps_pure look l : logic_ok l -> params_ok look (lg_states l) (lg_colors l) ->
  forall n m mc, RInv look l m mc ->
  match msteps look l n (MGo m mc) with
  | MGo _ d => steps (prog_of (macro_fun look l)) n mc = Some d
  | MStop e => steps (prog_of (macro_fun look l)) n mc = None /\
      forall d k, steps (prog_of (macro_fun look l)) k mc = Some d ->
        (forall i, macro_fun look l (c_state d) (c_tape d (c_pos d)) <> LOk i) ->
        macro_fun look l (c_state d) (c_tape d (c_pos d)) = e
  end.
Proof.
  intros HL HP. induction n as [|n IH]; intros m mc HI; [reflexivity|].
  cbn [msteps mstep].
  destruct (rinv_step look l m mc HL HP HI) as (h & Em & HF & E1 & E2 & E3).
  assert (MS : forall e n, msteps look l n (MStop e) = MStop e) by (intros e; induction n0; auto).
  assert (STOP : forall e, result look l h (c_state mc) (c_tape mc (c_pos mc)) = e -> (forall i, e <> LOk i) ->
    steps (prog_of (macro_fun look l)) (S n) mc = None /\
      forall d k, steps (prog_of (macro_fun look l)) k mc = Some d ->
        (forall i, macro_fun look l (c_state d) (c_tape d (c_pos d)) <> LOk i) ->
        macro_fun look l (c_state d) (c_tape d (c_pos d)) = e).
  { intros e He HN. rewrite E2, <- macro_fun_pure in He.
    assert (ST : step (prog_of (macro_fun look l)) mc = None).
    { unfold step, prog_of. rewrite He. destruct e; auto. elim (HN i); auto. }
    split; [cbn [steps]; rewrite ST; auto|]. intros d [|k] D; cbn [steps] in D; [injection D as <-; auto|].
    rewrite ST in D. discriminate. }
  destruct (macro_get look l m (c_state mc) (c_tape mc (c_pos mc))) as [m' r]. cbn [fst snd] in *. subst r.
  destruct (result look l h (c_state mc) (c_tape mc (c_pos mc))) as [[[pr sh] tr]| | |] eqn:ER.
  - specialize (IH _ _ (E3 _ _ _ eq_refl)).
    assert (ST : step (prog_of (macro_fun look l)) mc = Some (Cfg tr (move sh (c_pos mc)) (write (c_tape mc) (c_pos mc) pr))).
    { unfold step, prog_of. rewrite macro_fun_pure, <- E2. auto. }
    cbn [steps]. rewrite ST. destruct (msteps look l n _); auto. destruct IH as (A & B). split; auto.
    intros d [|k] D HN; cbn [steps] in D.
    + injection D as <-. exfalso. eapply HN. rewrite macro_fun_pure, <- E2. reflexivity.
    + rewrite ST in D. eauto.
  - rewrite MS. apply STOP; auto; discriminate.
  - rewrite MS. apply STOP; auto; discriminate.
  - rewrite MS. apply STOP; auto; discriminate.
Qed.

Definition forever (look : MacroModel.lookup) : Prop := forall n, exists d, steps (prog_of look) n init = Some d.

Definition layer_ok (look : MacroModel.lookup) (l : logic) : Prop :=
  logic_ok l /\ (lg_kind l = Backsymbol -> 2 <= lg_colors l) /\ params_ok look (lg_states l) (lg_colors l).

Lemma layer_go look l n mc : layer_ok look l -> steps (prog_of (macro_fun look l)) n init = Some mc ->
  exists N bc, (n <= N)%nat /\ steps (prog_of look) N init = Some bc /\ decodes l mc bc.
Proof.
  intros (HL & H2 & HP) E.
  pose proof (macro_run look l [] n HL H2 HP (Forall_nil _)) as MR.
  pose proof (msteps_pure look l HL HP n _ init (rinv_init look l [] HL HP (Forall_nil _))) as MP.
  destruct (msteps look l n (MGo (after look l []) init)) as [m d|e].
  - rewrite E in MP. injection MP as <-. auto.
  - destruct MP as (MP & _). congruence.
Qed.

Lemma layer_stop look l n mc e : layer_ok look l -> steps (prog_of (macro_fun look l)) n init = Some mc ->
  macro_fun look l (c_state mc) (c_tape mc (c_pos mc)) = e -> (forall i, e <> LOk i) ->
  (exists N d, (n <= N)%nat /\ steps (prog_of look) N init = Some d /\ look (c_state d) (c_tape d (c_pos d)) = e)
  \/ (e = LInf /\ forever look).
Proof.
  intros LO E F HN. pose proof LO as (HL & H2 & HP).
  destruct (layer_go look l n mc LO E) as (N & bc & LN & BC & _).
  assert (ST : steps (prog_of (macro_fun look l)) (S n) init = None).
  { rewrite steps_S_r, E. unfold step, prog_of. rewrite F. destruct e; auto. elim (HN i); auto. }
  pose proof (macro_run look l [] (S n) HL H2 HP (Forall_nil _)) as MR.
  pose proof (msteps_pure look l HL HP (S n) _ init (rinv_init look l [] HL HP (Forall_nil _))) as MP.
  destruct (msteps look l (S n) (MGo (after look l []) init)) as [m d|e']; [congruence|].
  destruct MP as (_ & MP). specialize (MP mc n E). rewrite F in MP. specialize (MP HN). subst e'.
  destruct MR as [(N' & d & A & B & _)|R]; [|right; exact R].
  left. destruct (le_lt_dec N N') as [LE|LT]; [exists N', d; split; [lia|auto]|].
  exfalso. assert (X : steps (prog_of look) (S N') init = None).
  { rewrite steps_S_r, A. unfold step, prog_of. rewrite B. destruct e; auto. elim (HN i); auto. }
  destruct (steps_le (prog_of look) N (S N') init bc) as (y & Y); [lia|auto|]. congruence.
Qed.

Lemma layer_forever look l : layer_ok look l -> forever (macro_fun look l) -> forever look.
Proof.
  intros LO F n. destruct (F n) as (mc & E). destruct (layer_go look l n mc LO E) as (N & bc & LN & BC & _).
  apply (steps_le _ N n _ bc); auto.
Qed.

(** What one program of make_macro says about the dict below it. *)
Record over (p : comp_prog) (look : MacroModel.lookup) : Prop := {
  ov_stop : forall n mc e, steps (prog_of look) n init = Some mc ->
    look (c_state mc) (c_tape mc (c_pos mc)) = e -> (forall i, e <> LOk i) ->
    (exists N d, (n <= N)%nat /\ steps (machine_of p) N init = Some d /\ dict_lookup p (c_state d) (c_tape d (c_pos d)) = e)
    \/ (e = LInf /\ never_halts (machine_of p));
  ov_forever : forever look -> never_halts (machine_of p);
  ov_go : forall n mc, steps (prog_of look) n init = Some mc ->
    exists N bc, (n <= N)%nat /\ steps (machine_of p) N init = Some bc
}.

Lemma over_dict p : over p (dict_lookup p).
Proof.
  constructor.
  - intros n mc e E F HN. left. exists n, mc. rewrite <- dict_steps. auto.
  - intros F n. destruct (F n) as (d & D). rewrite dict_steps in D. eauto.
  - intros n mc E. rewrite dict_steps in E. eauto.
Qed.

Lemma over_layer p look l : over p look -> layer_ok look l -> over p (macro_fun look l).
Proof.
  intros [A B C] LO. constructor.
  - intros n mc e E F HN. destruct (layer_stop look l n mc e LO E F HN) as [(N & d & LN & D & G)|(-> & FE)].
    + destruct (A N d e D G HN) as [(N' & d' & L' & D' & G')|R]; [|auto].
      left. exists N', d'. split; [lia|auto].
    + right. split; auto.
  - intros F. apply B. eapply layer_forever; eauto.
  - intros n mc E. destruct (layer_go look l n mc LO E) as (N & bc & LN & BC & _).
    destruct (C N bc BC) as (N' & d & L & D). exists N', d. split; [lia|auto].
Qed.

Lemma over_make p blocks backsym opt_macro params look :
  honest p (prog_params p) -> (forall ps, params = Some ps -> honest p ps) ->
  make_macro p blocks backsym opt_macro params = Some look -> over p look.
Proof.
  intros HD HG E. unfold make_macro in E.
  destruct (match opt_macro with Some steps => _ | None => _ end) as [bl|]; [|discriminate].
  assert (BACK : forall comp s c b, over p comp -> params_ok comp s c -> 1 <= s -> 2 <= c ->
    over p (macro_fun comp (Logic Backsymbol b s c))).
  { intros comp s c b O P S1 C2. apply over_layer; auto. split; [|split; [auto|exact P]].
    split; [exact S1|]. split; [cbn; lia|discriminate]. }
  assert (PLAIN : forall bl, (match bl with Some b => (1 <? b)%nat | None => false end) = false ->
    match backsym with
    | None => Some (dict_lookup p)
    | Some b => let '(s, c) := match params, bl : option nat with Some ps, None => ps | _, _ => prog_params p end in
        Some (macro_fun (dict_lookup p) (Logic Backsymbol b s c))
    end = Some look -> over p look).
  { clear E. intros bl' _ E. destruct backsym as [b|]; [|injection E as <-; apply over_dict].
    assert (H : honest p (match params, bl' with Some ps, None => ps | _, _ => prog_params p end)).
    { destruct params as [ps|]; auto. destruct bl'; auto. }
    destruct (match params, bl' with Some ps, None => ps | _, _ => prog_params p end) as [s c].
    injection E as <-. destruct H as (H1 & H2 & H3). apply BACK; auto. apply over_dict. }
  destruct bl as [b|]; [|apply (PLAIN None); auto].
  destruct (1 <? b)%nat eqn:B1; [|apply (PLAIN (Some b)); auto; rewrite B1; auto].
  apply Nat.ltb_lt in B1.
  assert (H : honest p (match params with Some ps => ps | None => prog_params p end)) by (destruct params; auto).
  destruct (match params with Some ps => ps | None => prog_params p end) as [s c].
  destruct H as (H1 & H2 & H3). cbn [fst snd] in *.
  assert (LO : layer_ok (dict_lookup p) (Logic Block b s c)).
  { split; [split; [exact H1|split; [cbn; lia|intros _; cbn; lia]]|]. split; [discriminate|exact H3]. }
  assert (O : over p (macro_fun (dict_lookup p) (Logic Block b s c))) by (apply over_layer; auto; apply over_dict).
  destruct backsym as [k|]; [|injection E as <-; auto].
  cbn iota in E. injection E as <-. apply BACK; auto.
  - apply macro_params; apply LO.
  - unfold lg_macro_states. cbn [lg_kind lg_states]. lia.
  - unfold lg_macro_colors. cbn [lg_kind lg_colors lg_cells].
    assert (c ^ 1 <= c ^ Z.of_nat b) by (apply Z.pow_le_mono_r; lia). rewrite Z.pow_1_r in H. lia.
Qed.

(** The machine over it. *)
Lemma prog_by_as look n : forall c, steps (prog_by (as_comp look)) n c = steps (prog_of look) n c.
Proof.
  assert (P : forall s c, prog_by (as_comp look) s c = prog_of look s c)
    by (intros s c; unfold prog_by, as_comp, prog_of; destruct (look s c); auto).
  induction n as [|n IH]; intros c; auto. cbn [steps]. unfold step. rewrite P.
  destruct (prog_of look (c_state c) (c_tape c (c_pos c))) as [[[? ?] ?]|]; auto.
Qed.

Lemma macro_machine_undfnd p blocks backsym opt_macro params lim m s :
  honest p (prog_params p) -> (forall ps, params = Some ps -> honest p ps) ->
  py_machine p blocks backsym opt_macro params lim = Some m -> m_rulapp m = 0 -> m_end m = MUndfnd s ->
  exists N, m_steps m <= Z.of_nat N /\ halts_at (machine_of p) N s.
Proof.
  intros HD HG E R U. unfold py_machine in E. destruct (make_macro _ _ _ _ _) as [look|] eqn:MM; [|discriminate].
  injection E as <-. pose proof (over_make _ _ _ _ _ _ HD HG MM) as [A B C].
  destruct (py_run_ok (as_comp look) lim R) as ((S0 & _ & c & EC & _ & _ & F) & _). rewrite U in F.
  rewrite prog_by_as in EC. unfold as_comp in F.
  destruct (look (c_state c) (c_tape c (c_pos c))) as [i|s'| |] eqn:L; try discriminate. injection F as ->.
  destruct (A _ _ _ EC L ltac:(discriminate)) as [(N & d & LN & D & G)|(X & _)]; [|discriminate].
  exists N. split; [lia|]. exists d.
  destruct (dict_cases p (c_state d) (c_tape d (c_pos d))) as [X|(i & X)]; rewrite X in G; [|discriminate].
  injection G as <-. split; auto. split; auto. split; auto. cbn [fst snd].
  rewrite <- dict_prog. unfold prog_of. rewrite X. auto.
Qed.

Lemma macro_machine_spnout p blocks backsym opt_macro params lim m :
  honest p (prog_params p) -> (forall ps, params = Some ps -> honest p ps) ->
  py_machine p blocks backsym opt_macro params lim = Some m -> m_rulapp m = 0 -> m_end m = MSpnout ->
  never_halts (machine_of p).
Proof.
  intros HD HG E R U. unfold py_machine in E. destruct (make_macro _ _ _ _ _) as [look|] eqn:MM; [|discriminate].
  injection E as <-. pose proof (over_make _ _ _ _ _ _ HD HG MM) as [A B C].
  destruct (py_run_ok (as_comp look) lim R) as ((S0 & _ & c & EC & _ & _ & F) & _). rewrite U in F.
  apply B. intros n.
  pose proof (spins_out_never_halts _ _ _ EC F n) as (d & D). rewrite prog_by_as in D. eauto.
Qed.

Lemma macro_machine_steps p blocks backsym opt_macro params lim m :
  honest p (prog_params p) -> (forall ps, params = Some ps -> honest p ps) ->
  py_machine p blocks backsym opt_macro params lim = Some m -> m_rulapp m = 0 ->
  0 <= m_steps m /\ (exists N c, m_steps m <= Z.of_nat N /\ steps (machine_of p) N init = Some c)
  /\ (m_end m = MXlimit -> Z.of_nat lim <= m_steps m).
Proof.
  intros HD HG E R. unfold py_machine in E. destruct (make_macro _ _ _ _ _) as [look|] eqn:MM; [|discriminate].
  injection E as <-. pose proof (over_make _ _ _ _ _ _ HD HG MM) as [A B C].
  destruct (py_run_ok (as_comp look) lim R) as ((S0 & _ & c & EC & _) & X).
  rewrite prog_by_as in EC. destruct (C _ _ EC) as (N & bc & LN & BC).
  split; auto. split; auto. exists N, bc. split; [lia|auto].
Qed.

(** Blank entries, in blocks. *)
Lemma block_blanks p b params lim m s j : (1 < b)%nat ->
  honest p (prog_params p) -> (forall ps, params = Some ps -> honest p ps) ->
  py_machine p (Some b) None None params lim = Some m -> m_rulapp m = 0 -> In (s, j) (m_blanks m) ->
  exists N c, 0 <= j <= Z.of_nat N /\ steps (machine_of p) N init = Some c /\ is_blank c /\ c_state c = s / 2.
Proof.
  intros B1 HD HG E R I. unfold py_machine, make_macro in E. apply Nat.ltb_lt in B1 as B2. rewrite B2 in E.
  assert (H : honest p (match params with Some ps => ps | None => prog_params p end)) by (destruct params; auto).
  destruct (match params with Some ps => ps | None => prog_params p end) as [S C].
  destruct H as (H1 & H2 & H3). cbn [fst snd] in *. cbn in E. injection E as <-.
  set (l := Logic Block b S C) in *.
  assert (LO : layer_ok (dict_lookup p) l).
  { split; [split; [exact H1|split; [cbn; lia|intros _; cbn; lia]]|]. split; [discriminate|exact H3]. }
  destruct (py_run_ok _ lim R) as ((S0 & BL & _) & _).
  destruct (BL s j I) as ((J0 & mc & MC & ST & BK) & _). rewrite prog_by_as in MC.
  destruct (layer_go _ l _ mc LO MC) as (N & bc & LN & BC & D). rewrite dict_steps in BC.
  exists N, bc. split; [lia|]. split; auto. destruct D as (D1 & _ & D3). cbn [lg_colors lg_cells l] in D3.
  split; [|rewrite D1, ST; auto].
  intros x. assert (K : 0 < Z.of_nat b) by lia.
  pose proof (Z.div_mod x (Z.of_nat b) ltac:(lia)) as DM. pose proof (Z.mod_pos_bound x (Z.of_nat b) K) as MB.
  destruct (D3 (x / Z.of_nat b)) as (t & T1 & T2 & T3). rewrite BK in T2.
  assert (TZ : t = repeat 0 b).
  { apply (number_inj C); [lia| | | |].
    - rewrite repeat_length. apply T1.
    - apply T1.
    - apply (tuple_blank C b). lia.
    - rewrite number_blank. auto. }
  specialize (T3 (Z.to_nat (x mod Z.of_nat b))). rewrite Z2Nat.id in T3 by lia.
  rewrite DM at 1. rewrite T3.
  - rewrite TZ. apply nth_repeat.
  - destruct T1 as (-> & _). lia.
Qed.

(** Two machines that only ever go right. *)
Definition both (s : Z) (i : instr) : comp_prog := [((s,0), i); ((s,1), i)].
Definition ever_b : comp_prog := both 0 (1, true, 1) ++ both 1 (1, true, 1).
Definition zigzag : comp_prog := both 0 (1, true, 1) ++ both 1 (1, true, 0).

Lemma two_params p : (forall s c pr sh tr, comp_get p (s, c) = Some (pr, sh, tr) -> 0 <= pr < 2 /\ 0 <= tr < 2) ->
  honest p (2, 2).
Proof.
  intros H. split; [cbn; lia|]. split; [cbn; lia|]. cbn [fst snd]. intros s c pr sh tr _ _ E.
  unfold dict_lookup in E. destruct (comp_get p (s, c)) as [[[? ?] ?]|] eqn:G; [|discriminate].
  injection E as -> -> ->. eauto.
Qed.

Lemma both_honest : honest ever_b (2, 2) /\ honest zigzag (2, 2).
Proof.
  split; apply two_params; intros s c pr sh tr; cbn;
    repeat match goal with |- context [if ?b then _ else _] => destruct b end; intros H; try discriminate;
    injection H as <- <- <-; lia.
Qed.

Lemma right_run a b n d : (forall s i, comp_get (both 0 (1,true,a) ++ both 1 (1,true,b)) s = Some i -> i = (1,true,a) \/ i = (1,true,b)) ->
  steps (machine_of (both 0 (1,true,a) ++ both 1 (1,true,b))) n init = Some d ->
  c_pos d = Z.of_nat n /\ ((0 < n)%nat -> c_tape d 0 = 1).
Proof.
  intros H. revert d. induction n as [|n IH]; intros d E.
  - injection E as <-. split; [reflexivity|lia].
  - rewrite steps_S_r in E. destruct (steps _ n init) as [c|]; [|discriminate].
    destruct (IH c eq_refl) as (P & Q). unfold step in E.
    destruct (machine_of _ (c_state c) (c_tape c (c_pos c))) as [i|] eqn:M; [|discriminate].
    assert (I : i = (1,true,a) \/ i = (1,true,b)) by (eapply H; exact M).
    destruct I as [-> | ->]; injection E as <-; cbn [c_pos c_tape move]; (split; [lia|]); intros _;
      unfold write; (destruct (0 =? c_pos c) eqn:X; [auto|]); apply Q; apply Z.eqb_neq in X; lia.
Qed.

Lemma both_instr a b s i : comp_get (both 0 (1,true,a) ++ both 1 (1,true,b)) s = Some i -> i = (1,true,a) \/ i = (1,true,b).
Proof.
  destruct s as [s c]. cbn. repeat match goal with |- context [if ?b then _ else _] => destruct b end; intros H;
    try discriminate; injection H as <-; auto.
Qed.

Lemma zigzag_state n d : steps (machine_of zigzag) n init = Some d -> c_state d = Z.of_nat n mod 2.
Proof.
  revert d. induction n as [|n IH]; intros d E; [injection E as <-; reflexivity|].
  rewrite steps_S_r in E. destruct (steps _ n init) as [c|]; [|discriminate].
  specialize (IH c eq_refl). unfold step in E.
  assert (M : c_state c = 0 /\ Z.of_nat (S n) mod 2 = 1 \/ c_state c = 1 /\ Z.of_nat (S n) mod 2 = 0).
  { rewrite Nat2Z.inj_succ. pose proof (Z.mod_pos_bound (Z.of_nat n) 2 ltac:(lia)).
    destruct (Z.eq_dec (Z.of_nat n mod 2) 0) as [X|X]; [left|right]; split; try lia; Z.div_mod_to_equations; lia. }
  unfold machine_of in E. destruct M as [(M1 & ->) | (M1 & ->)]; rewrite M1 in E; cbn in E;
    unfold slot_eqb in E; cbn [fst snd] in E;
    change (0 =? 0) with true in E; change (1 =? 1) with true in E; change (0 =? 1) with false in E;
    change (1 =? 0) with false in E; cbn [andb] in E;
    repeat match type of E with context [if ?b then _ else _] => destruct b end; try discriminate;
    injection E as <-; reflexivity.
Qed.

Lemma spnout_not_spinning : py_machine zigzag (Some 2%nat) None None None 10 <> None ->
  forall n c, steps (machine_of zigzag) n init = Some c -> ~ spins_out_from (machine_of zigzag) c.
Proof.
  intros _ n c E (dir & F). destruct (F 1%nat) as (d & D & S & _).
  assert (E1 : steps (machine_of zigzag) (n + 1) init = Some d) by (rewrite (steps_add_some _ _ _ _ _ E); auto).
  apply zigzag_state in E. apply zigzag_state in E1. rewrite E, E1 in S.
  rewrite Nat2Z.inj_add in S. Z.div_mod_to_equations. lia.
Qed.

(** ** prog_params *)
Lemma count_nodup l : count_distinct l = Z.of_nat (length (nodup Z.eq_dec l)).
Proof.
  induction l as [|x l IH]; [reflexivity|]. cbn [count_distinct nodup].
  destruct (existsb (Z.eqb x) l) eqn:E; destruct (in_dec Z.eq_dec x l) as [I|I].
  - lia.
  - exfalso. apply existsb_exists in E as (y & Y & Q). apply Z.eqb_eq in Q. subst. auto.
  - exfalso. assert (existsb (Z.eqb x) l = true) by (apply existsb_exists; exists x; split; auto; apply Z.eqb_refl). congruence.
  - cbn [length]. lia.
Qed.

(** Numbers of a downward closed list are below the number of its different members. *)
Lemma below_count l x : (forall y, In y l -> 0 <= y /\ forall z, 0 <= z <= y -> In z l) -> In x l -> 0 <= x < count_distinct l.
Proof.
  intros H I. destruct (H x I) as (P & D). split; auto. rewrite count_nodup.
  assert (L : (length (map Z.of_nat (seq 0 (S (Z.to_nat x)))) <= length (nodup Z.eq_dec l))%nat).
  { apply NoDup_incl_length.
    - apply FinFun.Injective_map_NoDup; [intros a b; apply Nat2Z.inj|apply seq_NoDup].
    - intros z Z. apply in_map_iff in Z as (k & <- & K). apply in_seq in K. apply nodup_In. apply D. lia. }
  rewrite map_length, seq_length in L. lia.
Qed.

Lemma counted_honest p :
  (forall e, In e p -> 0 <= fst (fst e) /\ 0 <= snd (fst e)
     /\ (forall s, 0 <= s <= fst (fst e) -> exists c i, In ((s, c), i) p)
     /\ (forall c, 0 <= c <= snd (fst e) -> exists s i, In ((s, c), i) p)
     /\ (exists s i, In ((s, fst (fst (snd e))), i) p)
     /\ (exists c i, In ((snd (snd e), c), i) p)) ->
  (exists s i, In ((s, 1), i) p) -> honest p (prog_params p).
Proof.
  intros H (s1 & i1 & H1).
  assert (S : forall x, (exists c i, In ((x, c), i) p) -> 0 <= x < fst (prog_params p)).
  { intros x (c & i & I). apply below_count; [|apply in_map_iff; exists ((x, c), i); auto].
    intros y Y. apply in_map_iff in Y as ([[y' cy] iy] & <- & Y). destruct (H _ Y) as (A & _ & B & _). split; [exact A|].
    intros z Z. destruct (B z Z) as (c' & i' & J). apply in_map_iff. exists ((z, c'), i'). auto. }
  assert (C : forall x, (exists s i, In ((s, x), i) p) -> 0 <= x < snd (prog_params p)).
  { intros x (s & i & I). apply below_count; [|apply in_map_iff; exists ((s, x), i); auto].
    intros y Y. apply in_map_iff in Y as ([[sy y'] iy] & <- & Y). destruct (H _ Y) as (_ & A & _ & B & _). split; [exact A|].
    intros z Z. destruct (B z Z) as (s' & i' & J). apply in_map_iff. exists ((s', z), i'). auto. }
  assert (G : forall k i, comp_get p k = Some i -> In (k, i) p).
  { intros k i. clear. induction p as [|[k' v] p IH]; cbn; [discriminate|]. unfold slot_eqb.
    destruct k as [a b], k' as [a' b']. cbn [fst snd]. destruct ((a' =? a) && (b' =? b)) eqn:E; [|auto].
    intros X. injection X as <-. zb. subst. auto. }
  split; [|split].
  - destruct (S s1) as (A & B); [eauto|]. lia.
  - destruct (C 1) as (A & B); [eauto|]. lia.
  - intros s c pr sh tr _ _ E. unfold dict_lookup in E.
    destruct (comp_get p (s, c)) as [i|] eqn:K; [|discriminate]. injection E as ->. apply G in K.
    destruct (H _ K) as (_ & _ & _ & _ & X & Y). cbn [fst snd] in X, Y. split; auto.
Qed.
