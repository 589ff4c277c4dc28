(** * Backward reasoning does not depend on the order of the table *)
From Coq Require Import Permutation.
From Verif Require Import Base TM TMFacts ProgModel TapeModel TermRecModel ParseModel ParseProofs NormModel NormProofs GraphModel GraphSpec GraphProofs ReasonModel ReasonSpec ReasonProofs.

Lemma perm_filter {A} (P : A -> bool) l l' : Permutation l l' -> Permutation (filter P l) (filter P l').
Proof.
  induction 1; cbn.
  - constructor.
  - destruct (P x); auto.
  - destruct (P x), (P y); auto using perm_swap.
  - eapply Permutation_trans; eauto.
Qed.
Lemma perm_existsb {A} (P : A -> bool) l l' : Permutation l l' -> existsb P l = existsb P l'.
Proof.
  intros H. apply eq_true_iff_eq. rewrite !existsb_exists. split; intros (x & I & E); exists x; split; auto;
    [eapply Permutation_in; eauto|eapply Permutation_in; [apply Permutation_sym|]; eauto].
Qed.
Lemma existsb_ext_in {A} (P Q : A -> bool) l : (forall x, In x l -> P x = Q x) -> existsb P l = existsb Q l.
Proof. induction l as [|x l IH]; intros H; [reflexivity|]. cbn. rewrite H by (left; auto). f_equal. apply IH. intros; apply H; right; auto. Qed.
Lemma perm_flat_pt {A B} (g h : A -> list B) l : (forall x, In x l -> Permutation (g x) (h x)) -> Permutation (flat_map g l) (flat_map h l).
Proof.
  induction l as [|x l IH]; intros H; cbn; [constructor|]. apply Permutation_app; [apply H; left; auto|]. apply IH. intros; apply H; right; auto.
Qed.
Lemma nodup_app {A} (a b : list A) : NoDup a -> NoDup b -> (forall x, In x a -> ~ In x b) -> NoDup (a ++ b).
Proof.
  induction a as [|x a IH]; intros Na Nb D; [exact Nb|]. inv Na. cbn. constructor.
  - rewrite in_app_iff. intros [H|H]; [auto|]. exact (D x (or_introl eq_refl) H).
  - apply IH; auto. intros y Hy. apply D. right; auto.
Qed.
Lemma nodup_filter_map {A B} (h : A -> B) (P : A -> bool) l : NoDup (map h l) -> NoDup (map h (filter P l)).
Proof.
  induction l as [|x l IH]; intros N; [constructor|]. cbn in *. inv N. destruct (P x); [|auto]. cbn. constructor; auto.
  intros H. apply in_map_iff in H. destruct H as (y & E & I). apply filter_In in I. apply H1. rewrite <- E. apply in_map, I.
Qed.
Lemma mem_ext x a b : (forall y, In y a <-> In y b) -> mem x a = mem x b.
Proof. intros H. apply eq_true_iff_eq. rewrite !mem_in. apply H. Qed.
Lemma perm_nil {A} (l : list A) : Permutation [] l -> l = [].
Proof. apply Permutation_nil. Qed.

(** ** Entry points *)

Definition same_entries (ep ep' : entries) : Prop :=
  NoDup (map fst ep) /\ NoDup (map fst ep')
  /\ forall s, match dget ep s, dget ep' s with Some l, Some l' => Permutation l l' | None, None => True | _, _ => False end.

Lemma same_keys ep ep' : same_entries ep ep' -> Permutation (map fst ep) (map fst ep').
Proof.
  intros (N & N' & E). apply NoDup_Permutation; auto. intros x. rewrite !dget_in. specialize (E x).
  destruct (dget ep x), (dget ep' x); split; intros [v H]; try congruence; try contradiction; eauto.
Qed.
Lemma same_len ep ep' : same_entries ep ep' -> length ep = length ep'.
Proof. intros E. apply same_keys, Permutation_length in E. rewrite !map_length in E. exact E. Qed.
Lemma same_mem ep ep' x : same_entries ep ep' -> mem x (map fst ep) = mem x (map fst ep').
Proof.
  intros E. apply mem_ext. intros y. split; apply Permutation_in; [|apply Permutation_sym]; apply same_keys; auto.
Qed.

Definition enters (s : Z) (e : slot * instr) : bool := snd (snd e) =? s.
Definition some_list {A} (l : list A) : option (list A) := match l with [] => None | _ => Some l end.
Lemma all_get comp : forall ep s, dget (fold_left (fun (ep : entries) (e : slot * instr) =>
    let '(_, _, state) := snd e in
    dset ep state ((match dget ep state with Some l => l | None => [] end) ++ [e])) comp ep) s
  = match dget ep s with Some l => Some (l ++ filter (enters s) comp) | None => some_list (filter (enters s) comp) end.
Proof.
  induction comp as [|[sl [[pr sh] t]] comp IH]; intros ep s; cbn [fold_left snd fst].
  - cbn. destruct (dget ep s); [rewrite app_nil_r|]; reflexivity.
  - rewrite IH, dget_dset. cbn [filter]. change (enters s (sl, (pr, sh, t))) with (t =? s).
    destruct (Z.eqb_spec t s) as [->|N].
    + destruct (dget ep s); cbn; [rewrite <- app_assoc|]; reflexivity.
    + destruct (dget ep s); reflexivity.
Qed.
Lemma round_get ep s : NoDup (map fst ep) -> dget (prune_round ep) s
  = match dget ep s with Some l => some_list (filter (fun x : slot * instr => mem (fst (fst x)) (map fst ep)) l) | None => None end.
Proof.
  unfold prune_round. generalize (map fst ep) at 2 3. intros reached N.
  induction ep as [|[k v] ep IH]; [reflexivity|]. cbn [map filter fst snd dget] in *. inv N.
  assert (K : forall d, ~ In k (map fst ep) -> k = s -> dget (filter (fun e : Z * list (slot * instr) => match snd e with [] => false | _ => true end)
     (map (fun e : Z * list (slot * instr) => (fst e, filter (fun x : slot * instr => mem (fst (fst x)) reached) (snd e))) ep)) s = None \/ d = false).
  { intros d Hk ->. left. destruct (dget _ s) eqn:E; [|reflexivity]. exfalso. apply dget_pair, filter_In in E. destruct E as [E _].
    apply in_map_iff in E. destruct E as ([k' v'] & E & I). inv E. apply Hk. apply in_map_iff. exists (s, v'). auto. }
  destruct (Z.eqb_spec k s) as [->|D].
  - destruct (filter (fun x : slot * instr => mem (fst (fst x)) reached) v) eqn:F; cbn [snd].
    + destruct (K true H1 eq_refl) as [->|]; [reflexivity|discriminate].
    + cbn [dget]. rewrite Z.eqb_refl. reflexivity.
  - destruct (filter (fun x : slot * instr => mem (fst (fst x)) reached) v) eqn:F; cbn [snd]; [apply IH; auto|].
    cbn [dget]. destruct (Z.eqb_spec k s); [contradiction|]. apply IH; auto.
Qed.

Lemma some_perm {A} (l l' : list A) : Permutation l l' ->
  match some_list l, some_list l' with Some l, Some l' => Permutation l l' | None, None => True | _, _ => False end.
Proof.
  intros P. destruct l as [|x l]; [apply Permutation_nil in P; subst; exact Logic.I|].
  destruct l' as [|y l']; [apply Permutation_sym, Permutation_nil in P; discriminate|exact P].
Qed.
Lemma same_round ep ep' : same_entries ep ep' -> same_entries (prune_round ep) (prune_round ep').
Proof.
  intros S. pose proof S as (N & N' & E). split; [apply prune_nodup; auto|]. split; [apply prune_nodup; auto|].
  intros s. rewrite !round_get by auto. specialize (E s). destruct (dget ep s) as [l|], (dget ep' s) as [l'|]; try contradiction; [|exact Logic.I].
  apply some_perm.
  rewrite (filter_ext (fun x : slot * instr => mem (fst (fst x)) (map fst ep)) (fun x : slot * instr => mem (fst (fst x)) (map fst ep')))
    by (intros; apply same_mem; auto).
  apply perm_filter; auto.
Qed.
Lemma same_prune fuel : forall ep ep', same_entries ep ep' -> same_entries (prune fuel ep) (prune fuel ep').
Proof.
  induction fuel as [|fuel IH]; intros ep ep' S; [exact S|]. cbn [prune]. pose proof (same_round _ _ S) as R.
  rewrite (same_len _ _ S), (same_len _ _ R). destruct (Nat.eqb _ _); auto.
Qed.
Lemma same_entry comp comp' : Permutation comp comp' -> same_entries (get_entrypoints comp) (get_entrypoints comp').
Proof.
  intros P. unfold get_entrypoints.
  assert (S : same_entries (all_entrypoints comp) (all_entrypoints comp')).
  { split; [apply all_entry|]. split; [apply all_entry|]. intros s. unfold all_entrypoints. rewrite !all_get. cbn [dget].
    apply some_perm, perm_filter, P. }
  rewrite (same_len _ _ S). apply same_prune, S.
Qed.

Definition distinct_entries (ep : entries) : Prop := forall s l, dget ep s = Some l -> NoDup (map fst l).
Lemma entry_distinct comp : NoDup (map fst comp) -> distinct_entries (get_entrypoints comp).
Proof.
  intros N. unfold get_entrypoints.
  assert (K : (fun ep => NoDup (map fst ep) /\ distinct_entries ep) (prune (length (all_entrypoints comp)) (all_entrypoints comp))).
  { apply prune_loop_ind.
    - intros ep [A B]. split; [apply prune_nodup; auto|]. intros s l. rewrite round_get by auto.
      destruct (dget ep s) as [l0|] eqn:E; [|discriminate]. unfold some_list. destruct (filter _ l0) eqn:F; [discriminate|].
      intros H; inv H. rewrite <- F. apply nodup_filter_map. eapply B; eauto.
    - split; [apply all_entry|]. intros s l. unfold all_entrypoints. rewrite all_get. cbn [dget]. unfold some_list.
      destruct (filter _ comp) eqn:F; [discriminate|]. intros H; inv H. rewrite <- F. apply nodup_filter_map; auto. }
  apply K.
Qed.

(** ** One round *)

Definition bad (st : Z) (tp : backstepper) (e : slot * instr) : bool :=
  match check_step tp (snd (fst (snd e))) (fst (fst (snd e))) with
  | Some true => (k_scan tp =? snd (fst e)) && (st =? fst (fst e))
  | _ => false
  end.
Definition ok (tp : backstepper) (e : slot * instr) : bool :=
  match check_step tp (snd (fst (snd e))) (fst (fst (snd e))) with None => false | _ => true end.
Definition conv (e : slot * instr) : instr := (snd (fst e), snd (fst (snd e)), fst (fst e)).
Lemma good_char st tp eps : good_steps st tp eps = if existsb (bad st tp) eps then ONone else OSome (map conv (filter (ok tp) eps)).
Proof.
  induction eps as [|[[ns ncl] [[pr sh] nx]] eps IH]; [reflexivity|]. cbn [good_steps existsb filter]. unfold bad at 1, ok at 1. cbn [fst snd].
  destruct (check_step tp sh pr) as [[]|]; cbn [andb orb].
  - destruct ((k_scan tp =? ncl) && (st =? ns)); [reflexivity|]. rewrite IH. cbn [orb]. destruct (existsb (bad st tp) eps); reflexivity.
  - rewrite IH. destruct (existsb (bad st tp) eps); reflexivity.
  - exact IH.
Qed.

Definition instrs_of (ep : entries) (c : rconf) : list instr :=
  match dget ep (r_state c) with Some eps => map conv (filter (ok (r_tape c)) eps) | None => [] end.
Definition badc (ep : entries) (c : rconf) : bool :=
  match dget ep (r_state c) with Some eps => existsb (bad (r_state c) (r_tape c)) eps | None => false end.
Definition busy (v : list instr * rconf) : bool := match fst v with [] => false | _ => true end.
Lemma valid_char ep configs : (forall c, In c configs -> In (r_state c) (map fst ep)) ->
  get_valid_steps ep configs = if existsb (badc ep) configs then ONone else OSome (filter busy (map (fun c => (instrs_of ep c, c)) configs)).
Proof.
  induction configs as [|c configs IH]; intros H; [reflexivity|]. cbn [get_valid_steps existsb map filter].
  destruct (proj1 (dget_in ep (r_state c)) (H c (or_introl eq_refl))) as [eps E].
  assert (Ei : instrs_of ep c = map conv (filter (ok (r_tape c)) eps)) by (unfold instrs_of; rewrite E; reflexivity).
  unfold badc at 1, busy at 1; cbn [fst]. rewrite E, Ei, good_char.
  destruct (existsb (bad (r_state c) (r_tape c)) eps); [reflexivity|]. cbn [orb].
  rewrite IH by (intros; apply H; right; auto). destruct (existsb (badc ep) configs); [reflexivity|].
  destruct (map conv (filter (ok (r_tape c)) eps)); reflexivity.
Qed.

Definition kid (c : rconf) (i : instr) : rconf :=
  let '(color, sh, st) := i in RC st (backstep (r_tape c) sh color) (r_recs c) ((r_state c, r_tape c) :: r_prev c).
Definition kids (ep : entries) (configs : list rconf) : list rconf := flat_map (fun c => map (kid c) (instrs_of ep c)) configs.
Definition bump (c : rconf) : rconf := RC (r_state c) (r_tape c) (r_recs c + 1) (r_prev c).
Definition kblank (c : rconf) : bool := bk_blank (r_tape c).
Fixpoint step_kids (l stepped : list rconf) (blanks : list Z) : option (list rconf * list Z) :=
  match l with
  | [] => Some (stepped, blanks)
  | k :: l =>
      if kblank k && (r_state k =? 0) then None
      else if kblank k && mem (r_state k) blanks then step_kids l stepped blanks
      else
        let blanks := if kblank k then r_state k :: blanks else blanks in
        if lin_rec k then if 1 <? r_recs k + 1 then None else step_kids l (stepped ++ [bump k]) blanks
        else step_kids l (stepped ++ [k]) blanks
  end.
Lemma step_kids_app a b : forall stepped blanks, step_kids (a ++ b) stepped blanks
  = match step_kids a stepped blanks with None => None | Some (s, bl) => step_kids b s bl end.
Proof.
  induction a as [|k a IH]; intros stepped blanks; [reflexivity|]. cbn [app step_kids].
  destruct (kblank k && (r_state k =? 0)); [reflexivity|]. destruct (kblank k && mem (r_state k) blanks); [apply IH|].
  cbv zeta. destruct (lin_rec k); [destruct (1 <? r_recs k + 1); [reflexivity|]|]; apply IH.
Qed.
Lemma instrs_kids c instrs : forall stepped blanks, step_instrs c instrs stepped blanks = step_kids (map (kid c) instrs) stepped blanks.
Proof.
  induction instrs as [|[[color sh] st] instrs IH]; intros stepped blanks; [reflexivity|]. cbn [step_instrs map step_kids].
  unfold kblank; cbn [kid r_state r_tape r_recs r_prev].
  destruct (bk_blank (backstep (r_tape c) sh color) && (st =? 0)); [reflexivity|].
  destruct (bk_blank (backstep (r_tape c) sh color) && mem st blanks); [apply IH|]. cbv zeta.
  unfold bump; cbn [r_state r_tape r_recs r_prev].
  destruct (lin_rec _); [destruct (1 <? r_recs c + 1); [reflexivity|]|]; apply IH.
Qed.
Lemma configs_kids ep configs : forall stepped blanks,
  step_configs (filter busy (map (fun c => (instrs_of ep c, c)) configs)) stepped blanks = step_kids (kids ep configs) stepped blanks.
Proof.
  induction configs as [|c configs IH]; intros stepped blanks; [reflexivity|]. cbn [map filter kids flat_map]. fold (kids ep configs).
  rewrite step_kids_app, <- instrs_kids. unfold busy at 1; cbn [fst].
  destruct (instrs_of ep c) as [|i l] eqn:E; [cbn; apply IH|]. cbn [step_configs]. destruct (step_instrs c (i :: l) stepped blanks) as [[s b]|]; [apply IH|reflexivity].
Qed.

Definition skip (bl : list Z) (k : rconf) : bool := kblank k && mem (r_state k) bl.
Definition stop (bl : list Z) (k : rconf) : bool :=
  kblank k && (r_state k =? 0) || negb (skip bl k) && (lin_rec k && (1 <? r_recs k + 1)).
Definition out (k : rconf) : rconf := if lin_rec k then bump k else k.
Fixpoint blanks_after (l : list rconf) (bl : list Z) : list Z :=
  match l with [] => bl | k :: l => blanks_after l (if kblank k && negb (mem (r_state k) bl) then r_state k :: bl else bl) end.

Lemma blanks_after_in l : forall bl x, In x (blanks_after l bl) <-> In x bl \/ exists k, In k l /\ kblank k = true /\ r_state k = x.
Proof.
  induction l as [|k l IH]; intros bl x; cbn [blanks_after].
  - split; [auto|intros [H|(k & [] & _)]; auto].
  - rewrite IH. destruct (kblank k) eqn:B; cbn [andb].
    + destruct (mem (r_state k) bl) eqn:M; cbn [negb].
      * apply mem_in in M. split; [intros [H|(j & I & J)]; [auto|right; exists j; cbn; tauto]|].
        intros [H|(j & [<-|I] & J & <-)]; [auto|auto|right; exists j; auto].
      * cbn [In]. split; [intros [[H|H]|(j & I & J)]; [right; exists k; cbn; auto|auto|right; exists j; cbn; tauto]|].
        intros [H|(j & [<-|I] & J & E)]; [auto|auto|right; exists j; auto].
    + split; [intros [H|(j & I & J)]; [auto|right; exists j; cbn; tauto]|].
      intros [H|(j & [<-|I] & J & E)]; [auto|congruence|right; exists j; auto].
Qed.

Lemma kids_char l : forall stepped bl, NoDup (map r_state (filter kblank l)) -> step_kids l stepped bl
  = if existsb (stop bl) l then None else Some (stepped ++ map out (filter (fun k => negb (skip bl k)) l), blanks_after l bl).
Proof.
  induction l as [|k l IH]; intros stepped bl N; [cbn; rewrite app_nil_r; reflexivity|].
  cbn [step_kids existsb filter blanks_after]. cbn [filter] in N.
  change (stop bl k) with (kblank k && (r_state k =? 0) || negb (kblank k && mem (r_state k) bl) && (lin_rec k && (1 <? r_recs k + 1))).
  change (skip bl k) with (kblank k && mem (r_state k) bl).
  destruct (kblank k) eqn:B; cbn [andb orb negb].
  - destruct (r_state k =? 0); [reflexivity|]. cbn [orb map] in *. inv N.
    destruct (mem (r_state k) bl) eqn:M; cbn [negb andb orb]; [apply IH; auto|].
    assert (S : forall j, In j l -> skip (r_state k :: bl) j = skip bl j).
    { intros j J. unfold skip. destruct (kblank j) eqn:Bj; [|reflexivity]. cbn [andb]. apply eq_true_iff_eq. rewrite !mem_in. cbn [In].
      split; [intros [E|E]; [|auto]|auto]. exfalso. apply H1. rewrite E. apply in_map. apply filter_In. auto. }
    assert (R : forall st, step_kids l st (r_state k :: bl)
      = if existsb (stop bl) l then None else Some (st ++ map out (filter (fun k => negb (skip bl k)) l), blanks_after l (r_state k :: bl))).
    { intros st. rewrite IH by auto.
      rewrite (existsb_ext_in (stop (r_state k :: bl)) (stop bl)) by (intros j J; unfold stop; rewrite S by auto; reflexivity).
      rewrite (filter_ext_in (fun j => negb (skip (r_state k :: bl) j)) (fun j => negb (skip bl j))) by (intros j J; rewrite S by auto; reflexivity).
      reflexivity. }
    cbn [map]. assert (O : out k = if lin_rec k then bump k else k) by reflexivity. rewrite O. destruct (lin_rec k) eqn:L; cbn [andb].
    + destruct (1 <? r_recs k + 1); [reflexivity|]. cbn [orb]. rewrite R. rewrite <- app_assoc. reflexivity.
    + cbn [orb]. rewrite R. rewrite <- app_assoc. reflexivity.
  - cbn [map]. assert (O : out k = if lin_rec k then bump k else k) by reflexivity. rewrite O. destruct (lin_rec k) eqn:L; cbn [andb].
    + destruct (1 <? r_recs k + 1); [reflexivity|]. cbn [orb]. rewrite IH by auto. rewrite <- app_assoc. reflexivity.
    + cbn [orb]. rewrite IH by auto. rewrite <- app_assoc. reflexivity.
Qed.

(** ** No two blank configurations of a round have the same state *)

Section Paths.
Variable comp : comp_prog.
Hypothesis ND : NoDup (map fst comp).

Fixpoint chain (s : Z) (T : backstepper) (prev : list (Z * backstepper)) : Prop :=
  wf T /\ match prev with
          | [] => True
          | (s', T') :: prev =>
              (exists pr sh, comp_get comp (s, k_scan T) = Some (pr, sh, s') /\ check_step T' sh pr <> None /\ T = backstep T' sh (k_scan T))
              /\ chain s' T' prev
          end.
Definition at_slot (e : Z * backstepper) : slot := (fst e, k_scan (snd e)).
Definition path (c : rconf) : list slot := map at_slot ((r_state c, r_tape c) :: r_prev c).
Definition round_ok (k : nat) (configs : list rconf) : Prop :=
  NoDup (map path configs) /\ forall c, In c configs -> length (r_prev c) = k /\ chain (r_state c) (r_tape c) (r_prev c).

Lemma chain_one : forall prev prev' s T U c, chain s T prev -> chain s U prev' -> length prev = length prev' ->
  c_state c = s -> matches T c -> matches U c -> map at_slot ((s, T) :: prev) = map at_slot ((s, U) :: prev').
Proof.
  induction prev as [|[s1 T1] prev IH]; intros [|[s2 U1] prev'] s T U c HT HU L E MT MU; try discriminate L;
    pose proof (proj1 MT) as ST; pose proof (proj1 MU) as SU; cbn [map]; unfold at_slot at 1 2; cbn [fst snd];
    (assert (K : k_scan T = k_scan U) by congruence); rewrite K.
  - reflexivity.
  - f_equal. cbn [chain] in HT, HU. destruct HT as (WT & (p1 & sh1 & G1 & C1 & B1) & R1). destruct HU as (WU & (p2 & sh2 & G2 & C2 & B2) & R2).
    rewrite K in G1. assert (X : (p1, sh1, s1) = (p2, sh2, s2)) by congruence. inv X.
    rewrite B1 in MT. rewrite B2 in MU.
    assert (W1 : wf T1) by (destruct prev; apply R1). assert (W2 : wf U1) by (destruct prev'; apply R2).
    destruct (fwd_lemma (machine_of comp) c p2 sh2 s2 T1 (k_scan T)) as (c' & D & E' & M1); auto; [unfold machine_of; rewrite K; exact G2|].
    destruct (fwd_lemma (machine_of comp) c p2 sh2 s2 U1 (k_scan U)) as (c2 & D2 & E2 & M2); auto.
    assert (c2 = c') by congruence. subst c2. exact (IH prev' s2 T1 U1 c' R1 R2 ltac:(cbn in L; lia) E' M1 M2).
Qed.

Lemma chain_wf s T prev : chain s T prev -> wf T.
Proof. destruct prev as [|[]]; intros H; apply H. Qed.

Lemma blank_one k configs : round_ok k configs -> NoDup (map r_state (filter kblank configs)).
Proof.
  intros [N G].
  assert (U : forall x y, In x configs -> In y configs -> kblank x = true -> kblank y = true -> r_state x = r_state y -> path x = path y).
  { intros x y Hx Hy Bx By E. destruct (G x Hx) as [Lx Cx], (G y Hy) as [Ly Cy]. unfold path. rewrite E in *.
    pose (c := Cfg (r_state y) 0 blank_tape).
    assert (Z0 : is_blank c) by (intros p; reflexivity).
    apply (chain_one _ _ _ _ _ c Cx Cy); [congruence|reflexivity| |].
    - apply (blank_matches _ c (chain_wf _ _ _ Cx) Z0). exact Bx.
    - apply (blank_matches _ c (chain_wf _ _ _ Cy) Z0). exact By. }
  clear G. induction configs as [|x configs IH]; [constructor|]. cbn [map] in N. inv N.
  assert (R : NoDup (map r_state (filter kblank configs))) by (apply IH; auto; intros; apply U; cbn; auto).
  cbn [filter]. destruct (kblank x) eqn:B; [|exact R]. cbn. constructor; [|exact R].
  intros I. apply in_map_iff in I. destruct I as (y & E & I). apply filter_In in I. destruct I as [I By].
  match goal with H : ~ In (path x) _ |- _ => apply H end. rewrite (U x y) by (cbn; auto). apply in_map, I.
Qed.

Lemma kids_ok k ep configs : ep_sound comp ep -> distinct_entries ep -> round_ok k configs -> round_ok (S k) (kids ep configs).
Proof.
  intros Se De [N G]. split.
  - assert (P : forall c i, path (kid c i) = (let '(color, sh, st) := i in (st, color)) :: path c).
    { intros c [[color sh] st]. unfold path, at_slot; cbn. f_equal. f_equal. destruct sh; reflexivity. }
    clear G. induction configs as [|c configs IH]; [constructor|]. cbn [kids flat_map]. fold (kids ep configs). cbn [map] in N. inv N.
    rewrite map_app. apply nodup_app; [|apply IH; auto|].
    + rewrite map_map. unfold instrs_of. destruct (dget ep (r_state c)) as [eps|] eqn:E; [|constructor]. rewrite map_map.
      assert (Q : NoDup (map fst (filter (ok (r_tape c)) eps))) by (apply nodup_filter_map; eapply De; eauto).
      revert Q. generalize (filter (ok (r_tape c)) eps) as l. induction l as [|[[s x] [[pr sh] t]] l IHl]; intros Q; [constructor|].
      cbn [map] in *. inv Q. constructor; [|auto]. rewrite P. cbn [conv fst snd]. intros I. apply in_map_iff in I.
      destruct I as ([[s1 x1] [[p1 sh1] t1]] & E1 & I1). rewrite P in E1. cbn in E1. inv E1. apply H3. apply in_map_iff.
      eexists. split; [|exact I1]. reflexivity.
    + intros q Iq Jq. apply in_map_iff in Iq. destruct Iq as (a & Ea & Ia). apply in_map_iff in Ia. destruct Ia as (i & Ei & Ii). subst a q.
      apply in_map_iff in Jq. destruct Jq as (b & Eb & Ib). unfold kids in Ib. apply in_flat_map in Ib. destruct Ib as (d & Id & Jd).
      apply in_map_iff in Jd. destruct Jd as (j & Ej & Ij). subst b. rewrite !P in Eb. apply (f_equal (@tl slot)) in Eb. cbn [tl] in Eb. apply H1.
      rewrite <- Eb. apply in_map, Id.
  - intros q Iq. unfold kids in Iq. apply in_flat_map in Iq. destruct Iq as (c & Ic & Jc). apply in_map_iff in Jc. destruct Jc as (i & <- & Ii).
    destruct (G c Ic) as [L C]. unfold instrs_of in Ii. destruct (dget ep (r_state c)) as [eps|] eqn:E; [|contradiction].
    apply in_map_iff in Ii. destruct Ii as (e & <- & Ie). apply filter_In in Ie. destruct Ie as [Ie Ok].
    destruct e as [[s x] [[pr sh] t]]. cbn [conv kid fst snd r_state r_tape r_prev]. split; [cbn; auto|].
    apply dget_pair in E. destruct (Se _ _ _ E Ie) as [Ic' Et]. cbn in Et. subst t. cbn [chain].
    split; [apply wf_back; eapply chain_wf; eauto|]. split; [|exact C].
    exists pr, sh. rewrite back_scan. split; [apply comp_get_in; auto|]. split; [|reflexivity].
    unfold ok in Ok. cbn in Ok. destruct (check_step (r_tape c) sh pr); congruence.
Qed.

Lemma path_out k : path (out k) = path k.
Proof. unfold out. destruct (lin_rec k); reflexivity. Qed.
Lemma out_ok k l P : round_ok k l -> round_ok k (map out (filter P l)).
Proof.
  intros [N G]. split.
  - rewrite map_map. rewrite (map_ext _ path path_out). apply nodup_filter_map, N.
  - intros c I. apply in_map_iff in I. destruct I as (d & <- & I). apply filter_In in I. destruct (G d (proj1 I)) as [A B].
    unfold out. destruct (lin_rec d); auto.
Qed.
End Paths.

(** ** The order of the table does not matter *)

Lemma kids_perm ep ep' cs cs' : same_entries ep ep' -> Permutation cs cs' -> Permutation (kids ep cs) (kids ep' cs').
Proof.
  intros S P. unfold kids. eapply Permutation_trans; [apply Permutation_flat_map, P|]. apply perm_flat_pt. intros c _.
  apply Permutation_map. unfold instrs_of. destruct S as (_ & _ & E). specialize (E (r_state c)).
  destruct (dget ep (r_state c)), (dget ep' (r_state c)); try contradiction; [|constructor]. apply Permutation_map, perm_filter, E.
Qed.
Lemma badc_same ep ep' c : same_entries ep ep' -> badc ep c = badc ep' c.
Proof.
  intros (_ & _ & E). unfold badc. specialize (E (r_state c)). destruct (dget ep (r_state c)), (dget ep' (r_state c)); try contradiction; [|reflexivity].
  apply perm_existsb, E.
Qed.
Lemma busy_count ep ep' cs cs' : same_entries ep ep' -> Permutation cs cs' ->
  length (filter busy (map (fun c => (instrs_of ep c, c)) cs)) = length (filter busy (map (fun c => (instrs_of ep' c, c)) cs')).
Proof.
  intros S P. rewrite (Permutation_length (perm_filter busy _ _ (Permutation_map (fun c => (instrs_of ep' c, c)) (Permutation_sym P)))).
  clear P cs'. induction cs as [|c cs IH]; [reflexivity|]. cbn [map filter].
  assert (B : busy (instrs_of ep c, c) = busy (instrs_of ep' c, c)).
  { unfold busy; cbn [fst].
    assert (Q : Permutation (instrs_of ep c) (instrs_of ep' c)).
    { unfold instrs_of. destruct S as (_ & _ & E). specialize (E (r_state c)).
      destruct (dget ep (r_state c)), (dget ep' (r_state c)); try contradiction; [|constructor]. apply Permutation_map, perm_filter, E. }
    destruct (instrs_of ep c); [apply Permutation_nil in Q; rewrite Q; reflexivity|].
    destruct (instrs_of ep' c); [apply Permutation_sym, Permutation_nil in Q; discriminate|reflexivity]. }
  rewrite B. destruct (busy (instrs_of ep' c, c)); cbn [length]; congruence.
Qed.

Lemma loop_order comp ep ep' (ND : NoDup (map fst comp)) (S : same_entries ep ep') (Se : ep_sound comp ep) (De : distinct_entries ep)
    (Cl : ep_closed ep) fuel : forall k step cs cs' bl bl',
  Permutation cs cs' -> (forall x, In x bl <-> In x bl') -> (forall c, In c cs -> In (r_state c) (map fst ep)) -> round_ok comp k cs ->
  reach_loop ep fuel step cs bl = reach_loop ep' fuel step cs' bl'.
Proof.
  induction fuel as [|fuel IH]; intros k step cs cs' bl bl' P B K R; [reflexivity|]. cbn [reach_loop].
  rewrite (valid_char ep cs K).
  rewrite (valid_char ep' cs').
  2:{ intros c I. apply Permutation_sym in P. pose proof (K c (Permutation_in _ P I)) as J.
      exact (Permutation_in _ (same_keys _ _ S) J). }
  rewrite <- (perm_existsb (badc ep') _ _ P), (existsb_ext_in (badc ep) (badc ep')) by (intros; apply badc_same; auto).
  destruct (existsb (badc ep') cs); [reflexivity|].
  pose proof (busy_count ep ep' cs cs' S P) as L.
  pose proof (configs_kids ep cs [] bl) as C1. pose proof (configs_kids ep' cs' [] bl') as C2.
  destruct (filter busy (map (fun c => (instrs_of ep c, c)) cs)) as [|v0 v]; destruct (filter busy (map (fun c => (instrs_of ep' c, c)) cs')) as [|w0 w];
    try discriminate L; [reflexivity|]. rewrite L. destruct (46 <? _); [reflexivity|]. rewrite C1, C2. clear C1 C2 L.
  pose proof (kids_ok comp ND k ep cs Se De R) as Rk. pose proof (kids_perm ep ep' cs cs' S P) as Pk.
  pose proof (blank_one comp (Datatypes.S k) _ Rk) as N.
  assert (N' : NoDup (map r_state (filter kblank (kids ep' cs')))).
  { eapply Permutation_NoDup; [|exact N]. apply Permutation_map, perm_filter, Pk. }
  rewrite (kids_char _ _ _ N), (kids_char _ _ _ N').
  assert (Sk : forall j, skip bl j = skip bl' j) by (intros j; unfold skip; f_equal; apply mem_ext; exact B).
  rewrite <- (perm_existsb (stop bl') _ _ Pk).
  rewrite (existsb_ext_in (stop bl) (stop bl')) by (intros j _; unfold stop; rewrite Sk; reflexivity).
  destruct (existsb (stop bl') (kids ep cs)); [reflexivity|]. cbn [app].
  apply (IH (Datatypes.S k)).
  - rewrite (filter_ext (fun j => negb (skip bl j)) (fun j => negb (skip bl' j))) by (intros j; rewrite Sk; reflexivity).
    apply Permutation_map, perm_filter, Pk.
  - intros x. rewrite !blanks_after_in, B. split; (intros [H|(j & I & J)]; [left; exact H|right; exists j; split; [|exact J]]).
    + exact (Permutation_in _ Pk I).
    + exact (Permutation_in _ (Permutation_sym Pk) I).
  - intros c I. apply in_map_iff in I. destruct I as (d & <- & I). apply filter_In in I. destruct I as [I _].
    assert (E : r_state (out d) = r_state d) by (unfold out; destruct (lin_rec d); reflexivity). rewrite E.
    unfold kids in I. apply in_flat_map in I. destruct I as (c & Ic & I). apply in_map_iff in I. destruct I as ([[x sh] st] & <- & I). cbn [kid r_state].
    unfold instrs_of in I. destruct (dget ep (r_state c)) as [eps|] eqn:Ee; [|contradiction]. apply in_map_iff in I. destruct I as (e & Ce & I).
    apply filter_In in I. destruct I as [I _]. unfold conv in Ce. inv Ce. eapply Cl; [|exact I]. exact (dget_pair _ _ _ Ee).
  - apply out_ok, Rk.
Qed.

Lemma reach_order comp comp' depth cs cs' : NoDup (map fst comp) -> Permutation comp comp' -> Permutation cs cs' ->
  NoDup (map path cs) -> (forall c, In c cs -> wf (r_tape c) /\ r_prev c = []) ->
  cant_reach comp depth cs = cant_reach comp' depth cs'.
Proof.
  intros ND P Pc N G. unfold cant_reach. destruct cs as [|c0 cs].
  { apply Permutation_nil in Pc. subst. reflexivity. }
  destruct cs' as [|c1 cs']. { apply Permutation_sym, Permutation_nil in Pc. discriminate. }
  pose proof (same_entry comp comp' P) as S.
  remember (c0 :: cs) as a eqn:Ea. remember (c1 :: cs') as b eqn:Eb. clear Ea Eb.
  set (F := fun c => match dget (get_entrypoints comp) (r_state c) with Some _ => true | None => false end).
  set (F' := fun c => match dget (get_entrypoints comp') (r_state c) with Some _ => true | None => false end).
  assert (E : forall c, F c = F' c).
  { intros c. unfold F, F'. destruct S as (_ & _ & S). specialize (S (r_state c)).
    destruct (dget (get_entrypoints comp) (r_state c)), (dget (get_entrypoints comp') (r_state c)); try contradiction; reflexivity. }
  assert (Pf : Permutation (filter F a) (filter F' b)).
  { rewrite (filter_ext F F' E). apply perm_filter, Pc. }
  apply (loop_order comp _ _ ND S (entry_sound comp) (entry_distinct comp ND) (entry_closed comp) depth 0%nat); auto.
  - assert (Pm : Permutation (map r_state (filter (fun c => bk_blank (r_tape c)) (filter F a))) (map r_state (filter (fun c => bk_blank (r_tape c)) (filter F' b)))).
    { apply Permutation_map, perm_filter, Pf. }
    intros x. split; apply Permutation_in; [exact Pm|apply Permutation_sym, Pm].
  - intros c I. apply filter_In in I. destruct I as [_ I]. unfold F in I. apply dget_in. destruct (dget _ _); [eauto|discriminate].
  - split; [apply nodup_filter_map, N|]. intros c I. apply filter_In in I. destruct (G c (proj1 I)) as [W ->]. split; [reflexivity|]. split; [exact W|exact Logic.I].
Qed.
