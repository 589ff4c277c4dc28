(** * Proofs about the simulators of machines/ *)
From Verif Require Import Base TM TMFacts ProgModel ParseModel ParseSpec LinModel LinSpec.
From Verif Require CProofs MachineProofs EnumProofs.

Lemma pos_bound M j d : steps M j init = Some d -> - Z.of_nat j <= c_pos d <= Z.of_nat j.
Proof. intros E. apply EnumProofs.steps_pos in E. cbn in E. lia. Qed.

Lemma u32_id z : 0 <= z < 2 ^ 32 -> u32 z = z.
Proof. intros. apply Z.mod_small. lia. Qed.

Lemma nth_concat {A} (k : nat) (d : A) : forall g i j, Forall (fun r => length r = k) g -> (i < length g)%nat -> (j < k)%nat ->
  nth (i * k + j) (concat g) d = nth j (nth i g []) d.
Proof.
  induction g as [|r g IH]; intros i j F I J; [cbn in I; lia|]. inversion F; subst. cbn [concat].
  destruct i as [|i]; cbn [nth].
  - rewrite app_nth1 by (cbn; lia). cbn. auto.
  - rewrite app_nth2 by lia. replace (S i * length r + j - length r)%nat with (i * length r + j)%nat by lia.
    apply IH; auto. cbn in I. lia.
Qed.

Section Sim.
Variable X : sim.
Hypothesis OK : sim_ok X.
Variable g : list (list instr).
Hypothesis TB : lin_table X g.

Let lim := sm_limit X.
Let M := lin_machine g.
Let acts := concat g.

Lemma rows_of l : 0 <= l < sm_states X -> exists row, nth_error g (Z.to_nat l) = Some row
  /\ Z.of_nat (length row) = sm_colors X
  /\ Forall (fun i : instr => let '(pr, _, tr) := i in 0 <= pr < sm_colors X /\ (0 <= tr < sm_states X \/ tr = 7)) row.
Proof.
  destruct TB as (L & F & _). intros B.
  destruct (nth_error g (Z.to_nat l)) as [row|] eqn:E; [|apply nth_error_None in E; lia].
  exists row. split; [auto|]. rewrite Forall_forall in F. apply F. eapply nth_error_In; eauto.
Qed.

Lemma act_get l c : 0 <= l < sm_states X -> 0 <= c < sm_colors X ->
  M l c = Some (act X acts l c)
  /\ (let '(pr, _, tr) := act X acts l c in 0 <= pr < sm_colors X /\ (0 <= tr < sm_states X \/ tr = 7)).
Proof.
  intros L C. destruct (rows_of l L) as (row & E & LR & F).
  assert (A : act X acts l c = nth (Z.to_nat c) row (0, true, 0)).
  { unfold act, acts. replace (Z.to_nat (l * sm_colors X + c)) with (Z.to_nat l * Z.to_nat (sm_colors X) + Z.to_nat c)%nat by lia.
    rewrite nth_concat.
    - rewrite (nth_error_nth _ _ [] E). auto.
    - destruct TB as (_ & FF & _). eapply Forall_impl; [|exact FF]. intros r (R & _). lia.
    - apply nth_error_Some. rewrite E. discriminate.
    - lia. }
  rewrite A. assert (B : (Z.to_nat c < length row)%nat) by lia.
  split.
  - unfold M, lin_machine, table_get. cbn [fst snd].
    replace (0 <=? l) with true by lia. replace (0 <=? c) with true by lia. cbn [andb].
    erewrite (nth_error_nth (map (map Some) g)) by (rewrite nth_error_map, E; reflexivity).
    apply nth_error_nth. rewrite nth_error_map. rewrite (nth_error_nth' row (0, true, 0) B). auto.
  - rewrite Forall_forall in F. apply F. apply nth_In. auto.
Qed.

(** What holds at a label after [m] moves. *)
Definition inv (m : nat) (c : config) (mm : mem) (lo hi : Z) : Prop :=
  steps M m init = Some c /\ m_steps mm = Z.of_nat m /\ Z.of_nat m <= lim
  /\ (marks_are (c_tape c) (m_marks mm) /\ 0 <= m_marks mm <= Z.of_nat m)
  /\ m_pos mm = lim + c_pos c
  /\ (forall i, 0 <= i < 2 * lim -> m_tape mm i = c_tape c (i - lim))
  /\ (forall p, 0 <= c_tape c p < sm_colors X)
  /\ (m_pmin mm = lim + lo /\ m_pmax mm = lim + hi + 1 /\ - Z.of_nat m <= lo <= 0 /\ 0 <= hi <= Z.of_nat m)
  /\ (forall j d, (j <= m)%nat -> steps M j init = Some d -> lo <= c_pos d <= hi)
  /\ (exists j d, (j <= m)%nat /\ steps M j init = Some d /\ c_pos d = lo)
  /\ (exists j d, (j <= m)%nat /\ steps M j init = Some d /\ c_pos d = hi)
  /\ (forall p, p < lo \/ hi < p -> c_tape c p = 0)
  /\ ((1 <= m)%nat -> ~ is_blank c).

(** What holds at H. *)
Definition fin (mm : mem) : Prop := exists m c lo hi,
  steps M m init = Some c /\ Z.of_nat m <= lim
  /\ (forall j d, (j < m)%nat -> steps M j init = Some d -> ~ ended M j d)
  /\ (m_pmin mm = lim + lo /\ m_pmax mm = lim + hi + 1 /\ - lim <= lo <= 0 /\ 0 <= hi <= lim)
  /\ (forall i, 0 <= i < 2 * lim -> i < m_pmin mm \/ m_pmax mm <= i -> m_tape mm i = 0)
  /\ (hi = lim -> Z.of_nat m = lim /\ c_pos c = lim /\ ~ is_blank c)
  /\ (Z.of_nat m = lim -> ~ is_blank c -> c_pos c <= hi)
  /\ ((ended M m c /\ marks_are (c_tape c) (m_marks mm)
       /\ ((c_state c = 7 \/ ((1 <= m)%nat /\ is_blank c)) /\ m_steps mm = Z.of_nat m
           \/ ~ (c_state c = 7 \/ ((1 <= m)%nat /\ is_blank c))
              /\ m_steps mm = Z.of_nat m + (if sm_early X (c_state c) then 0 else 1)))
      \/ (Z.of_nat m = lim /\ lim <= m_steps mm)).

(** The fields of memory that the check for spin-out looks at. *)
Lemma recur_right m c mm lo hi l : inv m c mm lo hi -> c_state c = l -> 0 <= l < sm_states X -> c_pos c < lim ->
  exists b, is_recur X (act X acts l 0) l mm = Some b /\ (b = true <-> edge_spin M m c).
Proof.
  intros (E & _ & ML & _ & P & T & _ & (PMI & PMA & LO & HI) & V & (jl & dl & Jl & El & Pl) & (jh & dh & Jh & Eh & Ph) & _) S L PL.
  destruct OK as (_ & CO & LI & LI2). fold lim in LI, LI2.
  destruct (act_get l 0 L ltac:(lia)) as (A & B).
  pose proof (pos_bound _ _ _ E) as PB.
  unfold is_recur. destruct (act X acts l 0) as [[pr s] t].
  assert (SC : scan X mm = Some (c_tape c (c_pos c))).
  { unfold scan, in_tape. fold lim. rewrite P. replace ((0 <=? lim + c_pos c) && (lim + c_pos c <? 2 * lim)) with true by lia.
    rewrite T by lia. f_equal. f_equal. lia. }
  rewrite SC. cbn [option_map]. eexists. split; [reflexivity|].
  rewrite P, PMI, PMA. rewrite u32_id by lia. rewrite !andb_true_iff, orb_true_iff, !andb_true_iff, negb_true_iff, !Z.eqb_eq.
  assert (VC := V m c (Nat.le_refl _) E).
  unfold edge_spin. rewrite S. split.
  - intros ((Z0 & TL) & D). split; [auto|]. subst t. exists pr, s. split; [auto|]. intros j d J F.
    specialize (V j d J F). destruct D as [(D & ->)|(D & ->)]; lia.
  - intros (Z0 & pr' & dir & A' & D). rewrite A in A'. injection A' as -> -> ->. split; [auto|].
    destruct dir; [right|left].
    + specialize (D jh dh Jh Eh). split; [lia|auto].
    + specialize (D jl dl Jl El). split; [lia|auto].
Qed.

(** One move. *)
Lemma action_right m c mm lo hi i : inv m c mm lo hi -> Z.of_nat m < lim ->
  M (c_state c) (c_tape c (c_pos c)) = Some i ->
  (let '(pr, _, tr) := i in 0 <= pr < sm_colors X) ->
  exists c', steps M (S m) init = Some c' /\ c_state c' = snd i
  /\ ((is_blank c' /\ exists mm', action X i (Mem (m_tape mm) (m_pos mm) (m_pmin mm) (m_pmax mm) (m_marks mm) (Z.of_nat (S m))) = ToH mm'
         /\ m_steps mm' = Z.of_nat (S m) /\ m_marks mm' = 0 /\ m_pmin mm' = m_pmin mm /\ m_pmax mm' = m_pmax mm
         /\ (forall i, 0 <= i < 2 * lim -> m_tape mm' i = 0))
      \/ (~ is_blank c' /\ exists mm' lo' hi', action X i (Mem (m_tape mm) (m_pos mm) (m_pmin mm) (m_pmax mm) (m_marks mm) (Z.of_nat (S m)))
           = Jump (snd i) mm' /\ inv (S m) c' mm' lo' hi')).
Proof.
  intros (E & ST & ML & (MA & MB) & P & T & CR & (PMI & PMA & LO & HI) & V & (jl & dl & Jl & El & Pl) & (jh & dh & Jh & Eh & Ph) & OUT & NB) LT A B.
  destruct OK as (_ & CO & LI & LI2). fold lim in LI, LI2.
  destruct i as [[pr s] t]. pose proof (pos_bound _ _ _ E) as PB.
  set (c' := Cfg t (move s (c_pos c)) (write (c_tape c) (c_pos c) pr)).
  assert (E' : steps M (S m) init = Some c').
  { rewrite steps_S_r, E. unfold step. rewrite A. auto. }
  exists c'. split; [exact E'|]. split; [auto|].
  unfold action. unfold scan, in_tape. cbn [m_pos m_tape m_marks m_pmin m_pmax m_steps]. fold lim. rewrite P.
  replace ((0 <=? lim + c_pos c) && (lim + c_pos c <? 2 * lim)) with true by lia.
  rewrite (T (lim + c_pos c)) by lia. replace (lim + c_pos c - lim) with (c_pos c) by lia.
  pose proof (CProofs.marks_write _ _ (c_pos c) pr MA) as W. cbn zeta in W.
  set (marks := if negb (pr =? 0) && (c_tape c (c_pos c) =? 0) then u32 (m_marks mm + 1)
                else if (pr =? 0) && negb (c_tape c (c_pos c) =? 0) then u32 (m_marks mm - 1) else m_marks mm).
  assert (W' : marks_are (c_tape c') marks /\ 0 <= marks <= Z.of_nat (S m)).
  { subst marks. unfold c'. cbn [c_tape].
    assert (NZ : c_tape c (c_pos c) <> 0 -> 1 <= m_marks mm).
    { intros N. destruct (Z.eq_dec (m_marks mm) 0) as [Q|Q]; [|lia]. elim N. exact (proj1 (CProofs.marks_zero _ _ MA) Q (c_pos c)). }
    destruct (Z.eqb_spec pr 0) as [P0|P0]; destruct (Z.eqb_spec (c_tape c (c_pos c)) 0) as [T0|T0]; cbn [negb andb] in W |- *.
    - split; [exact W|lia].
    - rewrite u32_id by lia. split; [exact W|lia].
    - rewrite u32_id by lia. split; [exact W|lia].
    - split; [exact W|lia]. }
  clearbody marks. clear W. destruct W' as (W & WB).
  assert (TT : forall i, 0 <= i < 2 * lim -> (if i =? lim + c_pos c then u32 pr else m_tape mm i) = c_tape c' (i - lim)).
  { intros i I. unfold c'. cbn [c_tape]. unfold write. rewrite T by lia. rewrite u32_id by lia.
    destruct (Z.eqb_spec i (lim + c_pos c)); destruct (Z.eqb_spec (i - lim) (c_pos c)); lia. }
  pose proof (CProofs.marks_zero _ _ W) as MZ.
  destruct (Z.eqb_spec marks 0) as [M0|M0].
  - left. assert (BL : is_blank c') by exact (proj1 MZ M0). split; [exact BL|].
    eexists. split; [reflexivity|]. cbn [m_steps m_marks m_pmin m_pmax m_tape].
    split; [lia|]. split; [auto|]. split; [auto|]. split; [auto|]. intros i I. rewrite TT by auto. apply BL.
  - right. assert (NBL : ~ is_blank c') by (intros BL; apply M0; exact (proj2 MZ BL)). split; [exact NBL|].
    assert (VC := V m c (Nat.le_refl _) E).
    assert (PU : u32 (lim + c_pos c + (if s then 1 else -1)) = lim + c_pos c + (if s then 1 else -1)) by (apply u32_id; destruct s; lia).
    rewrite PU. clear PU.
    eexists. exists (Z.min lo (c_pos c')), (Z.max hi (c_pos c')). split; [reflexivity|].
    assert (PC : c_pos c' = c_pos c + (if s then 1 else -1)) by (unfold c'; cbn; destruct s; cbn; lia).
    assert (B1 : -1 <= (if s then 1 else -1) <= 1) by (destruct s; lia).
    unfold inv. cbn [m_steps m_marks m_pmin m_pmax m_tape m_pos].
    split; [exact E'|]. split; [lia|]. split; [lia|]. split; [split; [exact W|exact WB]|]. split; [rewrite PC; ring|].
    split; [exact TT|].
    split. { intros p. unfold c'. cbn [c_tape]. unfold write. destruct (p =? c_pos c); [lia|apply CR]. }
    split.
    { rewrite PMI, PMA. set (q := (if s then 1 else -1)) in *. clearbody q.
      destruct (Z.ltb_spec (lim + c_pos c + q) (lim + lo)).
      - rewrite u32_id by lia. repeat split; lia.
      - destruct (Z.leb_spec (lim + hi + 1) (lim + c_pos c + q)); [rewrite u32_id by lia|]; repeat split; lia. }
    split. { intros j d J F. destruct (Nat.eq_dec j (S m)) as [EQ|NE]; [subst; rewrite E' in F; injection F as <-; lia|].
             specialize (V j d ltac:(lia) F). lia. }
    split. { destruct (Z.le_gt_cases lo (c_pos c')).
             - exists jl, dl. split; [lia|]. split; [auto|lia].
             - exists (S m), c'. split; [lia|]. split; [auto|lia]. }
    split. { destruct (Z.le_gt_cases (c_pos c') hi).
             - exists jh, dh. split; [lia|]. split; [auto|lia].
             - exists (S m), c'. split; [lia|]. split; [auto|lia]. }
    split. { intros p O. unfold c'. cbn [c_tape]. unfold write. destruct (Z.eqb_spec p (c_pos c)) as [EQ|NE]; [lia|]. apply OUT. lia. }
    intros _. exact NBL.
Qed.

Definition noend (m : nat) : Prop := forall j d, (j < m)%nat -> steps M j init = Some d -> ~ ended M j d.

(** From the invariant, at a reason to stop or at the limit. *)
Lemma inv_fin m c mm lo hi st : inv m c mm lo hi -> noend m ->
  ((ended M m c /\ ((c_state c = 7 \/ ((1 <= m)%nat /\ is_blank c)) /\ st = Z.of_nat m
           \/ ~ (c_state c = 7 \/ ((1 <= m)%nat /\ is_blank c))
              /\ st = Z.of_nat m + (if sm_early X (c_state c) then 0 else 1)))
      \/ (Z.of_nat m = lim /\ lim <= st)) ->
  fin (Mem (m_tape mm) (m_pos mm) (m_pmin mm) (m_pmax mm) (m_marks mm) st).
Proof.
  intros (E & ST & ML & (MA & MB) & P & T & CR & (PMI & PMA & LO & HI) & V & _ & (jh & dh & Jh & Eh & Ph) & OUT & NB) NE H.
  destruct OK as (_ & CO & LI & LI2). fold lim in LI, LI2.
  exists m, c, lo, hi. cbn [m_steps m_marks m_pmin m_pmax m_tape m_pos].
  split; [exact E|]. split; [exact ML|]. split; [exact NE|]. split; [repeat split; lia|].
  split. { intros i I O. rewrite T by auto. apply OUT. lia. }
  split.
  { intros HL. pose proof (pos_bound _ _ _ Eh). assert (J : jh = m) by lia. subst jh. rewrite E in Eh. injection Eh as <-.
    split; [lia|]. split; [lia|]. apply NB. lia. }
  split. { intros _ _. apply (V m c (Nat.le_refl _) E). }
  destruct H as [(H1 & H2)|H]; [left|right; exact H]. split; [exact H1|]. split; [exact MA|exact H2].
Qed.

Lemma run_right : forall k m c mm lo hi, inv m c mm lo hi -> noend m -> (Z.of_nat m + Z.of_nat k = lim)%Z ->
  0 <= c_state c < sm_states X \/ c_state c = 7 ->
  (exists mm', run X acts (S k) (c_state c) mm = AtH mm' /\ fin mm')
  \/ (run X acts (S k) (c_state c) mm = Undefined /\ overruns X M).
Proof.
  induction k as [|k IH]; intros m c mm lo hi I NE K SB.
  all: cbn [run]; destruct (Z.eqb_spec (c_state c) 7) as [S7|S7].
  1, 3: left; exists mm; split; [reflexivity|];
    assert (F := inv_fin m c mm lo hi (m_steps mm) I NE);
    destruct mm; apply F; left; split; [left; exact S7|]; left; split; [left; exact S7|apply I].
  all: destruct SB as [SB|SB]; [|contradiction].
  all: destruct OK as (SO & CO & LI & LI2); fold lim in LI, LI2.
  all: replace (negb ((0 <=? c_state c) && (c_state c <? 7))) with false by lia.
  all: replace (sm_states X <=? c_state c) with false by lia.
  all: assert (NS : forall m', ~ (c_state c = 7 \/ ((1 <= m')%nat /\ is_blank c)) <-> ~ ((1 <= m')%nat /\ is_blank c)) by tauto.
  all: assert (NBm : ~ ((1 <= m)%nat /\ is_blank c)) by (destruct I as (_ & _ & _ & _ & _ & _ & _ & _ & _ & _ & _ & _ & NB); tauto).
  all: assert (ST : m_steps mm = Z.of_nat m) by apply I.
  all: assert (EE : steps M m init = Some c) by apply I.
  all: pose proof (pos_bound _ _ _ EE) as PB.
  all: assert (TAIL : instruction X acts (c_state c) mm =
      match (if sm_early X (c_state c) then is_recur X (act X acts (c_state c) 0) (c_state c) mm else Some false) with
      | None => Astray
      | Some true => ToH mm
      | Some false =>
          if lim <? Z.of_nat (S m) then ToH (Mem (m_tape mm) (m_pos mm) (m_pmin mm) (m_pmax mm) (m_marks mm) (Z.of_nat (S m)))
          else match scan X mm with
               | None => Astray
               | Some v =>
                   if (1 <=? v) && (v <? sm_colors X)
                   then action X (act X acts (c_state c) v) (Mem (m_tape mm) (m_pos mm) (m_pmin mm) (m_pmax mm) (m_marks mm) (Z.of_nat (S m)))
                   else match is_recur X (act X acts (c_state c) 0) (c_state c) mm with
                        | None => Astray
                        | Some true => ToH (Mem (m_tape mm) (m_pos mm) (m_pmin mm) (m_pmax mm) (m_marks mm) (Z.of_nat (S m)))
                        | Some false => action X (act X acts (c_state c) 0) (Mem (m_tape mm) (m_pos mm) (m_pmin mm) (m_pmax mm) (m_marks mm) (Z.of_nat (S m)))
                        end
               end
      end)
    by (unfold instruction; cbn zeta; rewrite ST; rewrite u32_id by lia; replace (Z.of_nat m + 1) with (Z.of_nat (S m)) by lia;
        cbn [m_steps]; reflexivity).
  all: rewrite TAIL; clear TAIL.
  - (* the limit *)
    assert (LT : lim <? Z.of_nat (S m) = true) by (apply Z.ltb_lt; lia). rewrite LT.
    assert (STOP : exists mm', AtH (Mem (m_tape mm) (m_pos mm) (m_pmin mm) (m_pmax mm) (m_marks mm) (Z.of_nat (S m))) = AtH mm' /\ fin mm').
    { eexists. split; [reflexivity|]. apply (inv_fin _ _ _ _ _ _ I NE). right. lia. }
    destruct (sm_early X (c_state c)) eqn:EA; [|left; exact STOP].
    destruct (Z_lt_le_dec (c_pos c) lim) as [PL|PL].
    + destruct (recur_right m c mm lo hi (c_state c) I eq_refl SB PL) as (b & RB & BB). rewrite RB. destruct b; [|left; exact STOP].
      left. exists mm. split; [reflexivity|]. assert (F := inv_fin m c mm lo hi (m_steps mm) I NE). destruct mm. apply F. right. cbn in ST |- *. lia.
    + assert (OV : overruns X M).
      { exists c. fold lim. replace (Z.to_nat lim) with m by lia. split; [exact EE|]. split; [lia|].
        split; [intros BL; apply NBm; split; [lia|exact BL]|]. exact NE. }
      right. split; [|exact OV].
      assert (SC : scan X mm = None).
      { unfold scan, in_tape. fold lim. destruct I as (_ & _ & _ & _ & P & _). rewrite P.
        replace ((0 <=? lim + c_pos c) && (lim + c_pos c <? 2 * lim)) with false by lia. auto. }
      unfold is_recur. rewrite SC. destruct (act X acts (c_state c) 0) as [[? ?] ?]. reflexivity.
  - (* one more move *)
    assert (LT : lim <? Z.of_nat (S m) = false) by (apply Z.ltb_ge; lia). rewrite LT.
    destruct (recur_right m c mm lo hi (c_state c) I eq_refl SB ltac:(lia)) as (b & RB & BB). rewrite RB.
    assert (SC : scan X mm = Some (c_tape c (c_pos c))).
    { destruct I as (_ & _ & _ & _ & P & T & _). unfold scan, in_tape. fold lim. rewrite P.
      replace ((0 <=? lim + c_pos c) && (lim + c_pos c <? 2 * lim)) with true by lia.
      rewrite T by lia. f_equal. f_equal. lia. }
    rewrite SC.
    assert (CR : 0 <= c_tape c (c_pos c) < sm_colors X) by apply I.
    assert (MOVE : ~ edge_spin M m c -> forall v, v = c_tape c (c_pos c) ->
      (exists mm', match action X (act X acts (c_state c) v) (Mem (m_tape mm) (m_pos mm) (m_pmin mm) (m_pmax mm) (m_marks mm) (Z.of_nat (S m))) with
                   | Jump l m0 => run X acts (S k) l m0 | ToH m0 => AtH m0 | Astray => Undefined end = AtH mm' /\ fin mm')
      \/ (match action X (act X acts (c_state c) v) (Mem (m_tape mm) (m_pos mm) (m_pmin mm) (m_pmax mm) (m_marks mm) (Z.of_nat (S m))) with
          | Jump l m0 => run X acts (S k) l m0 | ToH m0 => AtH m0 | Astray => Undefined end = Undefined /\ overruns X M)).
    { intros NSP v ->. destruct (act_get (c_state c) (c_tape c (c_pos c)) SB CR) as (A & B).
      assert (NE' : noend (S m)).
      { intros j d J F. destruct (Nat.eq_dec j m) as [EQ|N]; [|apply NE; [lia|exact F]].
        subst j. rewrite EE in F. injection F as <-. unfold ended. tauto. }
      destruct (action_right m c mm lo hi _ I ltac:(lia) A ltac:(destruct (act X acts (c_state c) (c_tape c (c_pos c))) as [[? ?] ?]; tauto))
        as (c' & E' & S' & [(BL & mm' & AC & H1 & H2 & H3 & H4 & H5)|(NBL & mm' & lo' & hi' & AC & I')]); rewrite AC.
      - left. exists mm'. split; [reflexivity|].
        destruct I as (_ & _ & _ & _ & _ & _ & _ & (PMI & PMA & LO & HI) & _).
        exists (S m), c', lo, hi. split; [exact E'|]. split; [lia|]. split; [exact NE'|]. split; [rewrite H3, H4; repeat split; lia|].
        split; [intros; apply H5; auto|]. split; [intros; lia|]. split; [intros _ N; contradiction|].
        left. split; [right; left; split; [lia|exact BL]|]. rewrite H2. split; [exists []; split; [constructor|]; split; [intros p; split; [intros []|intros N; elim N; apply BL]|reflexivity]|].
        left. split; [right; split; [lia|exact BL]|exact H1].
      - rewrite <- S'. apply (IH (S m) c' mm' lo' hi' I' NE'); [lia|]. rewrite S'.
        destruct (act X acts (c_state c) (c_tape c (c_pos c))) as [[? ?] ?]. cbn. tauto. }
    assert (SPIN : forall st, edge_spin M m c -> st = Z.of_nat m + (if sm_early X (c_state c) then 0 else 1) ->
      fin (Mem (m_tape mm) (m_pos mm) (m_pmin mm) (m_pmax mm) (m_marks mm) st)).
    { intros st SP EQ. apply (inv_fin _ _ _ _ _ _ I NE). left. split; [right; right; exact SP|]. right. split; [tauto|exact EQ]. }
    destruct (sm_early X (c_state c)) eqn:EA.
    + destruct b.
      * left. exists mm. split; [reflexivity|]. assert (F := SPIN (m_steps mm) (proj1 BB eq_refl) ltac:(lia)). destruct mm. exact F.
      * assert (NSP : ~ edge_spin M m c) by (intros SP; discriminate (proj2 BB SP)).
        destruct (Z.leb_spec 1 (c_tape c (c_pos c))).
        -- replace (c_tape c (c_pos c) <? sm_colors X) with true by lia. cbn [andb]. apply MOVE; auto.
        -- cbn [andb]. apply MOVE; auto. lia.
    + destruct (Z.leb_spec 1 (c_tape c (c_pos c))) as [V1|V0].
      * replace (c_tape c (c_pos c) <? sm_colors X) with true by lia. cbn [andb]. apply MOVE; auto.
        intros (Z0 & _). lia.
      * cbn [andb]. destruct b.
        -- left. eexists. split; [reflexivity|]. apply SPIN; [exact (proj1 BB eq_refl)|lia].
        -- apply MOVE; [intros SP; discriminate (proj2 BB SP)|lia].
Qed.

End Sim.
