(** * Running the machines of machines/structured block by block: the long runs *)
From Verif Require Import Base TM TMFacts ProgModel ParseModel LinModel LinSpec StructModel StructSpec.
From Verif Require CProofs.
From Verif Require Import StructProofs StructRunProofs.

(** Blocks of cells: colour and number, nearest to the head first. *)
Definition blocks := list (Z * Z).
Fixpoint bnth (l : blocks) (i : Z) : Z :=
  match l with [] => 0 | (v, k) :: l => if i <? k then v else bnth l (i - k) end.
Fixpoint pos_counts (l : blocks) : Prop := match l with [] => True | (_, k) :: l => 0 < k /\ pos_counts l end.
Definition bpush (w k : Z) (l : blocks) : blocks :=
  match l with
  | [] => if w =? 0 then [] else [(w, k)]
  | (v, j) :: r => if v =? w then (v, j + k) :: r else (w, k) :: l
  end.
Definition bpop (l : blocks) : Z * blocks :=
  match l with [] => (0, []) | (v, j) :: r => (v, if j =? 1 then r else (v, j - 1) :: r) end.

Lemma bpush_nth w k l i : pos_counts l -> 0 < k -> 0 <= i -> bnth (bpush w k l) i = if i <? k then w else bnth l (i - k).
Proof.
  intros P K I0. unfold bpush. destruct l as [|[v j] r].
  - destruct (Z.eqb_spec w 0) as [->|N]; cbn; destruct (i <? k); auto.
  - cbn in P. destruct P as (J & P). destruct (Z.eqb_spec v w) as [->|N]; [|reflexivity]. cbn.
    destruct (Z.ltb_spec i (j + k)), (Z.ltb_spec i k), (Z.ltb_spec (i - k) j); try lia; auto. f_equal. lia.
Qed.
Lemma bpush_pos w k l : pos_counts l -> 0 < k -> pos_counts (bpush w k l).
Proof.
  intros P K. unfold bpush. destruct l as [|[v j] r]; [destruct (w =? 0); cbn; auto|]. cbn in P.
  destruct (v =? w); cbn; [split; [lia|tauto]|split; [lia|tauto]].
Qed.
Lemma bpop_head l : pos_counts l -> fst (bpop l) = bnth l 0.
Proof. destruct l as [|[v j] r]; [reflexivity|]. cbn. intros (J & _). destruct (Z.ltb_spec 0 j); [auto|lia]. Qed.
Lemma bpop_nth l i : pos_counts l -> 0 <= i -> bnth (snd (bpop l)) i = bnth l (i + 1).
Proof.
  destruct l as [|[v j] r]; [reflexivity|]. cbn. intros (J & _) I0. destruct (Z.eqb_spec j 1) as [->|N].
  - destruct (Z.ltb_spec (i + 1) 1); [lia|]. f_equal. lia.
  - cbn. destruct (Z.ltb_spec i (j - 1)), (Z.ltb_spec (i + 1) j); try lia; auto. f_equal. lia.
Qed.
Lemma bpop_pos l : pos_counts l -> pos_counts (snd (bpop l)).
Proof. destruct l as [|[v j] r]; [auto|]. cbn. intros (J & P). destruct (Z.eqb_spec j 1); cbn; [auto|]. split; [lia|auto]. Qed.

Record rle := Rle { r_state : Z; r_left : blocks; r_cell : Z; r_right : blocks; r_pos : Z; r_marks : Z; r_steps : Z }.

Definition r_stops (r : rle) : bool := (r_state r =? -1) || ((0 <? r_steps r) && (r_marks r =? 0)).

(** So many cells at once, and what is ahead of them. *)
Definition reach (same : bool) (v : Z) (ahead : blocks) : Z * blocks :=
  match ahead with
  | (v', j) :: l => if same && (v' =? v) then (j + 1, l) else (1, ahead)
  | [] => (1, [])
  end.

Definition sg (d : bool) : Z := if d then 1 else -1.

Definition r_move (T : list (list (option instr))) (r : rle) : option (Z * rle) :=
  match look T (r_state r) (r_cell r) with
  | None => None
  | Some (w, d, q) =>
    let delta := mark_of w - mark_of (r_cell r) in
    let (k, ahead) := reach (q =? r_state r) (r_cell r) (if d then r_right r else r_left r) in
    if (k =? 1) || ((0 <? r_marks r) && (0 <? r_marks r + (k - 1) * delta)) then
      let (h, ahead) := bpop ahead in
      let behind := bpush w k (if d then r_left r else r_right r) in
      Some (k, Rle q (if d then behind else ahead) h (if d then ahead else behind) (r_pos r + sg d * k)
                   (r_marks r + k * delta) (r_steps r + k))
    else None
  end.
Definition r_step (T : list (list (option instr))) (a b : Z) (r : rle) : option rle :=
  if r_stops r then None else
  match r_move T r with
  | Some (_, r') => if (a <=? r_pos r') && (r_pos r' <? b) then Some r' else None
  | None => None
  end.
Fixpoint r_run T a b (n : positive) (r : rle) : option rle :=
  match n with
  | xH => r_step T a b r
  | xO n => match r_run T a b n r with Some r => r_run T a b n r | None => None end
  | xI n => match r_step T a b r with
            | Some r => match r_run T a b n r with Some r => r_run T a b n r | None => None end
            | None => None
            end
  end.
Definition r_init : rle := Rle 0 [] 0 [] 0 0 0.

(** The machine of text [s] first stops after [n] moves, [blks] blocks, in state [q] with [k] marks. *)
Definition r_check (F : cfile) (s : text) (blks : positive) (n q k : Z) : bool :=
  (0 <? f_len F) &&
  match r_run (rows s) (- (f_len F / 2)) (f_len F - f_len F / 2) blks r_init with
  | Some r => r_stops r && (r_steps r =? n) && (r_state r =? q) && (r_marks r =? k)
  | None => false
  end.
(** Its head leaves the array with block [blks + 1], at the last cell of the block. *)
Definition r_leaves (F : cfile) (s : text) (blks : positive) (n : Z) : bool :=
  let a := - (f_len F / 2) in
  let b := f_len F - f_len F / 2 in
  (0 <? f_len F) &&
  match r_run (rows s) a b blks r_init with
  | Some r =>
    negb (r_stops r) &&
    match r_move (rows s) r with
    | Some (_, r') => ((r_pos r' =? b) || (r_pos r' =? a - 1)) && negb (r_stops r') && (r_steps r' =? n)
    | None => false
    end
  | None => false
  end.

Section Fast.
Variables (F : cfile) (T : list (list (option instr))).
Let M : program := look T.
Let a := - (f_len F / 2).
Let b := f_len F - f_len F / 2.

Definition shape (r : rle) (c : config) : Prop :=
  r_state r = c_state c /\ r_pos r = c_pos c /\ r_cell r = c_tape c (c_pos c)
  /\ (forall i, 0 <= i -> bnth (r_left r) i = c_tape c (c_pos c - 1 - i))
  /\ (forall i, 0 <= i -> bnth (r_right r) i = c_tape c (c_pos c + 1 + i))
  /\ pos_counts (r_left r) /\ pos_counts (r_right r)
  /\ marks_are (c_tape c) (r_marks r).
Definition rr (n : nat) (r : rle) (c : config) : Prop :=
  steps M n init = Some c /\ r_steps r = Z.of_nat n /\ shape r c
  /\ (forall j d, (j < n)%nat -> steps M j init = Some d -> ~ stops M [] j d).

Lemma r_stops_right n r c : rr n r c -> r_stops r = true <-> stops M [] n c.
Proof.
  intros (E & N & (ST & _ & _ & _ & _ & _ & _ & MA) & _). pose proof (CProofs.marks_zero _ _ MA) as MZ.
  unfold r_stops, stops. rewrite orb_true_iff, andb_true_iff, !Z.eqb_eq, Z.ltb_lt, ST, MZ, N. unfold is_blank. split.
  - intros [A|(A & B)]; [left; auto|right; left; split; [lia|auto]].
  - intros [A|[(A & B)|(A & _)]]; [left; auto|right; split; [lia|auto]|destruct A].
Qed.

Lemma marks_write' t k p w : marks_are t k -> marks_are (write t p w) (k + (mark_of w - mark_of (t p))).
Proof.
  intros MA. pose proof (CProofs.marks_write _ _ p w MA) as W. cbn zeta in W.
  replace (k + (mark_of w - mark_of (t p))) with
    (if (w =? 0) && negb (t p =? 0) then (if negb (w =? 0) && (t p =? 0) then k + 1 else k) - 1
     else if negb (w =? 0) && (t p =? 0) then k + 1 else k); [exact W|].
  unfold mark_of. destruct (w =? 0), (t p =? 0); cbn; lia.
Qed.

(** The cells passed. *)
Definition swept (d : bool) (p k x : Z) : bool := (0 <=? sg d * (x - p)) && (sg d * (x - p) <? k).

Lemma sweep c w d q m k : M (c_state c) (c_tape c (c_pos c)) = Some (w, d, q) -> marks_are (c_tape c) m ->
  (k = 1%nat \/ q = c_state c) ->
  (forall i, 0 <= i < Z.of_nat k -> c_tape c (c_pos c + sg d * i) = c_tape c (c_pos c)) ->
  forall i, (0 < i <= k)%nat -> exists e, steps M i c = Some e /\ c_state e = q /\ c_pos e = c_pos c + sg d * Z.of_nat i
    /\ (forall x, c_tape e x = if swept d (c_pos c) (Z.of_nat i) x then w else c_tape c x)
    /\ marks_are (c_tape e) (m + Z.of_nat i * (mark_of w - mark_of (c_tape c (c_pos c)))).
Proof.
  intros A MA KQ SAME i. induction i as [|i IH]; intros L; [lia|].
  destruct i as [|i].
  - exists (Cfg q (move d (c_pos c)) (write (c_tape c) (c_pos c) w)).
    split; [cbn; unfold step; rewrite A; reflexivity|]. split; [reflexivity|].
    split; [cbn; destruct d; cbn; lia|]. split.
    + intros x. cbn [c_tape]. unfold write, swept, sg. destruct (Z.eqb_spec x (c_pos c)) as [->|N].
      * destruct d; bdestr; auto; lia.
      * destruct d; bdestr; auto; lia.
    + cbn [c_tape]. replace (m + Z.of_nat 1 * (mark_of w - mark_of (c_tape c (c_pos c)))) with (m + (mark_of w - mark_of (c_tape c (c_pos c)))) by lia.
      apply marks_write'. exact MA.
  - destruct IH as (e & E & SE & PE & TE & ME); [lia|]. destruct KQ as [KQ|KQ]; [lia|].
    assert (HERE : c_tape e (c_pos e) = c_tape c (c_pos c)).
    { rewrite TE, PE. rewrite <- (SAME (Z.of_nat (S i)) ltac:(lia)). unfold swept, sg. destruct d; bdestr; auto; lia. }
    exists (Cfg q (move d (c_pos e)) (write (c_tape e) (c_pos e) w)).
    split; [rewrite steps_S_r, E; unfold step; rewrite HERE, SE, KQ, A, KQ; reflexivity|]. split; [reflexivity|].
    split; [cbn [c_pos]; destruct d; cbn [move sg]; cbn [sg] in PE; lia|]. split.
    + intros x. cbn [c_tape]. unfold write. rewrite TE, PE. unfold swept, sg.
      destruct d; bdestr; auto; lia.
    + cbn [c_tape]. replace (m + Z.of_nat (S (S i)) * (mark_of w - mark_of (c_tape c (c_pos c)))) with
        (m + Z.of_nat (S i) * (mark_of w - mark_of (c_tape c (c_pos c))) + (mark_of w - mark_of (c_tape e (c_pos e)))) by (rewrite HERE; lia).
      apply marks_write'. exact ME.
Qed.

Lemma reach_right same v l k l' : reach same v l = (k, l') -> pos_counts l ->
  0 < k /\ (k = 1 \/ same = true) /\ pos_counts l'
  /\ (forall i, 0 <= i < k - 1 -> bnth l i = v) /\ (forall i, 0 <= i -> bnth l' i = bnth l (i + (k - 1))).
Proof.
  unfold reach. destruct l as [|[v' j] l0]; intros E P.
  - injection E as <- <-. split; [lia|]. split; [auto|]. split; [exact P|]. split; [intros; lia|]. intros i I0. cbn. auto.
  - destruct (same && (v' =? v)) eqn:S.
    + injection E as <- <-. apply andb_true_iff in S. destruct S as (S & V). apply Z.eqb_eq in V. cbn in P. destruct P as (J & P).
      split; [lia|]. split; [auto|]. split; [exact P|]. split.
      * intros i I0. cbn. destruct (Z.ltb_spec i j); [auto|lia].
      * intros i I0. cbn. destruct (Z.ltb_spec (i + (j + 1 - 1)) j); [lia|]. f_equal. lia.
    + injection E as <- <-. split; [lia|]. split; [auto|]. split; [exact P|]. split; [intros; lia|]. intros i I0. f_equal. lia.
Qed.

Lemma r_move_right n r c k r' : rr n r c -> r_stops r = false -> r_move T r = Some (k, r') ->
  0 < k /\ (exists c', rr (n + Z.to_nat k) r' c')
  /\ exists d, r_pos r' = r_pos r + sg d * k
     /\ forall j e, (n < j < n + Z.to_nat k)%nat -> steps M j init = Some e -> c_pos e = c_pos c + sg d * Z.of_nat (j - n).
Proof.
  intros R NS E. pose proof R as (EN & N & (ST & P & CE & LE & RI & PL & PR & MA) & BEF).
  assert (NSC : ~ stops M [] n c) by (intros Q; apply (r_stops_right _ _ _ R) in Q; congruence).
  unfold r_move in E. destruct (look T (r_state r) (r_cell r)) as [[[w d] q]|] eqn:A; [|discriminate E].
  destruct (reach (q =? r_state r) (r_cell r) (if d then r_right r else r_left r)) as [k0 l'] eqn:RE.
  apply reach_right in RE; [|destruct d; assumption]. destruct RE as (K & KQ & PO & SM & RT).
  destruct ((k0 =? 1) || ((0 <? r_marks r) && (0 <? r_marks r + (k0 - 1) * (mark_of w - mark_of (r_cell r))))) eqn:G; [|discriminate E].
  pose proof (bpop_head l' PO) as HH. pose proof (bpop_pos l' PO) as HP. pose proof (fun i => bpop_nth l' i PO) as HN.
  destruct (bpop l') as [h l2] eqn:BP. cbn [fst snd] in HH, HP, HN. injection E as <- <-. split; [exact K|].
  change (look T) with M in A. rewrite ST, CE in A. rewrite ST in KQ.
  pose proof (sweep c w d q (r_marks r) (Z.to_nat k0) A MA) as SW.
  assert (KQ' : Z.to_nat k0 = 1%nat \/ q = c_state c) by (destruct KQ as [KQ|KQ]; [left; lia|right; apply Z.eqb_eq in KQ; exact KQ]).
  specialize (SW KQ').
  assert (AH : forall i, 0 <= i -> bnth (if d then r_right r else r_left r) i = c_tape c (c_pos c + sg d * (1 + i))).
  { intros i I0. destruct d; cbn [sg]; [rewrite RI|rewrite LE]; try assumption; f_equal; lia. }
  assert (BE : forall i, 0 <= i -> bnth (if d then r_left r else r_right r) i = c_tape c (c_pos c - sg d * (1 + i))).
  { intros i I0. destruct d; cbn [sg]; [rewrite LE|rewrite RI]; try assumption; f_equal; lia. }
  assert (SAME : forall i, 0 <= i < Z.of_nat (Z.to_nat k0) -> c_tape c (c_pos c + sg d * i) = c_tape c (c_pos c)).
  { intros i I0. destruct (Z.eq_dec i 0) as [->|NZ]; [f_equal; lia|].
    rewrite <- CE. rewrite <- (SM (i - 1)) by lia. rewrite AH by lia. f_equal. f_equal. f_equal. lia. }
  specialize (SW SAME). split.
  - destruct (SW (Z.to_nat k0)) as (e & E & SE & PE & TE & ME); [lia|]. rewrite Z2Nat.id in PE, TE, ME by lia.
    exists e. split; [rewrite steps_add, EN; exact E|]. split; [cbn [r_steps]; lia|]. split.
    + assert (SIDEA : forall i, 0 <= i -> c_tape e (c_pos e + sg d * i) = bnth l' i).
      { intros i I0. rewrite RT, AH by lia. rewrite TE, PE. unfold swept.
        replace (c_pos c + sg d * k0 + sg d * i - c_pos c) with (sg d * (k0 + i)) by lia.
        replace (sg d * (sg d * (k0 + i))) with (k0 + i) by (destruct d; cbn [sg]; lia).
        destruct (Z.ltb_spec (k0 + i) k0); [lia|]. rewrite andb_false_r. f_equal. destruct d; cbn [sg]; lia. }
      assert (SIDEB : forall i, 0 <= i -> c_tape e (c_pos e - sg d * (1 + i)) = bnth (bpush w k0 (if d then r_left r else r_right r)) i).
      { intros i I0. rewrite bpush_nth by (try destruct d; assumption). rewrite TE, PE. unfold swept.
        replace (c_pos c + sg d * k0 - sg d * (1 + i) - c_pos c) with (sg d * (k0 - 1 - i)) by lia.
        replace (sg d * (sg d * (k0 - 1 - i))) with (k0 - 1 - i) by (destruct d; cbn [sg]; lia).
        destruct (Z.ltb_spec i k0), (Z.leb_spec 0 (k0 - 1 - i)), (Z.ltb_spec (k0 - 1 - i) k0); try lia; [reflexivity|].
        cbn [andb]. rewrite BE by lia. f_equal. destruct d; cbn [sg]; lia. }
      assert (PB : pos_counts (bpush w k0 (if d then r_left r else r_right r))) by (apply bpush_pos; [destruct d; assumption|exact K]).
      split; [cbn [r_state]; auto|]. split; [cbn [r_pos]; lia|]. split.
      { cbn [r_cell]. rewrite HH. rewrite <- SIDEA by lia. f_equal. lia. }
      rewrite <- CE in ME.
      destruct d; cbn [r_left r_right r_marks sg] in *.
      * split; [intros i I0; rewrite <- SIDEB by lia; f_equal; lia|].
        split; [intros i I0; rewrite HN by lia; rewrite <- SIDEA by lia; f_equal; lia|]. auto.
      * split; [intros i I0; rewrite HN by lia; rewrite <- SIDEA by lia; f_equal; lia|].
        split; [intros i I0; rewrite <- SIDEB by lia; f_equal; lia|]. auto.
    + intros j f J G'. destruct (Nat.lt_trichotomy j n) as [Q|[Q|Q]]; [exact (BEF j f Q G')|rewrite Q in *; congruence|].
      destruct (SW (j - n)%nat) as (e' & E' & SE' & PE' & TE' & ME'); [lia|].
      replace j with (n + (j - n))%nat in G' by lia. rewrite steps_add, EN, E' in G'. injection G' as <-.
      assert (K2 : 1 < k0) by lia. destruct KQ as [KQ|KQ]; [lia|]. apply Z.eqb_eq in KQ.
      apply orb_true_iff in G. destruct G as [G|G]; [apply Z.eqb_eq in G; lia|].
      apply andb_true_iff in G. destruct G as (G1 & G2). apply Z.ltb_lt in G1, G2. rewrite CE in G2.
      intros [B|[(_ & B)|(B & _)]]; [|apply (CProofs.marks_zero _ _ ME') in B|destruct B].
      * apply NSC. left. congruence.
      * revert B G2. generalize (mark_of w - mark_of (c_tape c (c_pos c))). intros delta B G2.
        assert (1 <= Z.of_nat (j - n) <= k0 - 1) by lia. nia.
  - exists d. split; [reflexivity|]. intros j f J G'. destruct (SW (j - n)%nat) as (e' & E' & SE' & PE' & _); [lia|].
    replace j with (n + (j - n))%nat in G' by lia. rewrite steps_add, EN, E' in G'. injection G' as <-. exact PE'.
Qed.

Definition all_in (n : nat) : Prop := forall j d, (j <= n)%nat -> steps M j init = Some d -> inside F d.

(** All but the last move of a block stay in the array if the last is at most one cell outside. *)
Lemma between_in n r c k r' : rr n r c -> all_in n -> r_stops r = false -> r_move T r = Some (k, r') ->
  a - 1 <= r_pos r' <= b -> forall j d, (j < n + Z.to_nat k)%nat -> steps M j init = Some d -> inside F d.
Proof.
  intros R AI NS E B j f J G. destruct (Nat.le_gt_cases j n) as [Q|Q]; [exact (AI j f Q G)|].
  destruct (r_move_right _ _ _ _ _ R NS E) as (K & _ & d & P & W). specialize (W j f ltac:(lia) G).
  destruct R as (EN & _ & (_ & PC & _) & _). pose proof (AI n c (Nat.le_refl _) EN) as IC. unfold inside in *. unfold a, b in B.
  assert (1 <= Z.of_nat (j - n) <= k - 1) by lia. rewrite W. rewrite PC in P. destruct d; cbn [sg] in *; lia.
Qed.

Lemma r_step_right n r c r' : rr n r c -> all_in n -> r_step T a b r = Some r' -> exists n' c', rr n' r' c' /\ all_in n'.
Proof.
  intros R AI E. unfold r_step in E. destruct (r_stops r) eqn:NS; [discriminate E|].
  destruct (r_move T r) as [[k r1]|] eqn:EM; [|discriminate E].
  destruct ((a <=? r_pos r1) && (r_pos r1 <? b)) eqn:B; [|discriminate E]. injection E as <-.
  apply andb_true_iff in B. destruct B as (B1 & B2). apply Z.leb_le in B1. apply Z.ltb_lt in B2.
  destruct (r_move_right _ _ _ _ _ R NS EM) as (K & (c' & R') & _).
  exists (n + Z.to_nat k)%nat, c'. split; [exact R'|]. intros j d J G.
  destruct (Nat.eq_dec j (n + Z.to_nat k)) as [Q|Q].
  - rewrite Q in G. destruct R' as (E' & _ & (_ & P & _) & _). rewrite E' in G. injection G as <-.
    unfold inside. unfold a, b in *. lia.
  - refine (between_in n r c k r1 R AI NS EM _ j d _ G); lia.
Qed.
Lemma r_run_right p : forall n r c r', rr n r c -> all_in n -> r_run T a b p r = Some r' -> exists n' c', rr n' r' c' /\ all_in n'.
Proof.
  induction p as [p IH|p IH|]; intros n r c r' R AI E; cbn [r_run] in E.
  - destruct (r_step T a b r) as [r1|] eqn:E1; [|discriminate E]. destruct (r_step_right _ _ _ _ R AI E1) as (n1 & c1 & R1 & A1).
    destruct (r_run T a b p r1) as [r2|] eqn:E2; [|discriminate E]. destruct (IH _ _ _ _ R1 A1 E2) as (n2 & c2 & R2 & A2). eauto.
  - destruct (r_run T a b p r) as [r2|] eqn:E2; [|discriminate E]. destruct (IH _ _ _ _ R AI E2) as (n2 & c2 & R2 & A2). eauto.
  - exact (r_step_right _ _ _ _ R AI E).
Qed.

Lemma r_init_right : 0 < f_len F -> rr 0 r_init init /\ all_in 0.
Proof.
  intros LEN. split.
  - split; [reflexivity|]. split; [reflexivity|]. split; [|intros; lia].
    repeat (split; [first [reflexivity|exact Logic.I|intros; reflexivity]|]).
    exists []. split; [constructor|]. split; [|reflexivity]. intros p. cbn. unfold blank_tape. tauto.
  - intros j d J G. replace j with 0%nat in G by lia. injection G as <-. unfold inside. cbn.
    pose proof (Z.div_mod (f_len F) 2 ltac:(lia)). pose proof (Z.mod_pos_bound (f_len F) 2 ltac:(lia)). lia.
Qed.
End Fast.

Lemma r_check_right F s blks n q k : r_check F s blks n q k = true ->
  0 <= n /\ exists c, first_stop (machine_of s) [] (Z.to_nat n) c /\ c_state c = q /\ marks_are (c_tape c) k
  /\ forall j d, (j <= Z.to_nat n)%nat -> steps (machine_of s) j init = Some d -> inside F d.
Proof.
  intros E. unfold r_check in E. apply andb_true_iff in E. destruct E as (L & E). apply Z.ltb_lt in L.
  destruct (r_run (rows s) (- (f_len F / 2)) (f_len F - f_len F / 2) blks r_init) as [r|] eqn:R; [|discriminate E].
  apply andb_true_iff in E. destruct E as (E & MK). apply andb_true_iff in E. destruct E as (E & SQ). apply andb_true_iff in E. destruct E as (E & SN).
  apply Z.eqb_eq in MK, SQ, SN. destruct (r_init_right F (rows s) L) as (R0 & A0).
  destruct (r_run_right F (rows s) blks _ _ _ _ R0 A0 R) as (n' & c & R' & A').
  pose proof (proj1 (r_stops_right F _ _ _ _ R') E) as ST. destruct R' as (EN & N & (S & _ & _ & _ & _ & _ & _ & MA) & BEF).
  rewrite N in SN. split; [lia|]. replace (Z.to_nat n) with n' by lia.
  exists c. split; [split; [exact EN|split; [exact ST|exact BEF]]|]. split; [congruence|]. split; [rewrite <- MK; exact MA|exact A'].
Qed.

Lemma r_leaves_right F s blks n : r_leaves F s blks n = true ->
  exists c, steps (machine_of s) (Z.to_nat n) init = Some c
  /\ (forall j d, (j <= Z.to_nat n)%nat -> steps (machine_of s) j init = Some d -> ~ stops (machine_of s) [] j d)
  /\ (forall j d, (j < Z.to_nat n)%nat -> steps (machine_of s) j init = Some d -> inside F d)
  /\ ~ inside F c.
Proof.
  intros E. unfold r_leaves in E. apply andb_true_iff in E. destruct E as (L & E). apply Z.ltb_lt in L.
  destruct (r_run (rows s) (- (f_len F / 2)) (f_len F - f_len F / 2) blks r_init) as [r|] eqn:R; [|discriminate E].
  apply andb_true_iff in E. destruct E as (NS & E). apply negb_true_iff in NS.
  destruct (r_move (rows s) r) as [[k r']|] eqn:EM; [|discriminate E].
  apply andb_true_iff in E. destruct E as (E & SN). apply andb_true_iff in E. destruct E as (PO & NS').
  apply Z.eqb_eq in SN. apply negb_true_iff in NS'. apply orb_true_iff in PO. rewrite !Z.eqb_eq in PO.
  destruct (r_init_right F (rows s) L) as (R0 & A0).
  destruct (r_run_right F (rows s) blks _ _ _ _ R0 A0 R) as (n' & c & R' & A').
  destruct (r_move_right F (rows s) _ _ _ _ _ R' NS EM) as (K & (c' & R2) & _).
  pose proof (r_stops_right F _ _ _ _ R2) as RS. pose proof R2 as (EN & N & (_ & P & _) & BEF).
  assert (Q : Z.to_nat n = (n' + Z.to_nat k)%nat) by lia. rewrite Q. exists c'. split; [exact EN|]. split; [|split].
  - intros j d J G. destruct (Nat.eq_dec j (n' + Z.to_nat k)) as [QQ|QQ]; [|apply BEF; [lia|exact G]].
    rewrite QQ in *. change (machine_of s) with (look (rows s)) in G. rewrite EN in G. injection G as <-.
    intros ST. apply RS in ST. congruence.
  - eapply between_in; [exact R'|exact A'|exact NS|exact EM|]. lia.
  - unfold inside. rewrite <- P. lia.
Qed.
