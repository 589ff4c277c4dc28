(** * Running the machines of machines/structured, to see where they first stop *)
From Verif Require Import Base TM TMFacts ProgModel ParseModel LinModel LinSpec StructModel StructSpec.
From Verif Require CProofs StructProofs.

Record zip := Zip { z_state : Z; z_left : list Z; z_cell : Z; z_right : list Z; z_pos : Z; z_marks : Z; z_first : bool }.

Definition look (T : list (list (option instr))) : program := fun q c =>
  if (0 <=? q) && (0 <=? c) then nth (Z.to_nat c) (nth (Z.to_nat q) T []) None else None.

Definition is_nil {A} (l : list A) : bool := match l with [] => true | _ => false end.

Definition z_stops (T : list (list (option instr))) (spins : list Z) (z : zip) : bool :=
  (z_state z =? -1)
  || (negb (z_first z) && (z_marks z =? 0))
  || ((z_cell z =? 0) && StructProofs.member (z_state z) spins
      && match look T (z_state z) 0 with
         | Some (_, d, q) => (q =? z_state z) && is_nil (if d then z_right z else z_left z)
         | None => false
         end).

Definition z_move (T : list (list (option instr))) (a b : Z) (z : zip) : option zip :=
  match look T (z_state z) (z_cell z) with
  | None => None
  | Some (w, d, q) =>
    let marks := if w =? 0 then if z_cell z =? 0 then z_marks z else z_marks z - 1
                 else if z_cell z =? 0 then z_marks z + 1 else z_marks z in
    if d then
      if z_pos z + 1 <? b
      then Some (Zip q (w :: z_left z) (hd 0 (z_right z)) (tl (z_right z)) (z_pos z + 1) marks false) else None
    else
      if a <=? z_pos z - 1
      then Some (Zip q (tl (z_left z)) (hd 0 (z_left z)) (w :: z_right z) (z_pos z - 1) marks false) else None
  end.

Definition z_step T spins a b z : option zip := if z_stops T spins z then None else z_move T a b z.

Fixpoint z_run T spins a b (n : positive) (z : zip) : option zip :=
  match n with
  | xH => z_step T spins a b z
  | xO n => match z_run T spins a b n z with Some z => z_run T spins a b n z | None => None end
  | xI n => match z_step T spins a b z with
            | Some z => match z_run T spins a b n z with Some z => z_run T spins a b n z | None => None end
            | None => None
            end
  end.

Definition z_init : zip := Zip 0 [] 0 [] 0 0 true.

(** The machine of text [s] first stops after [n] moves, in state [q] with [k] marks, as [main] of [F] is to see. *)
Definition z_check (F : cfile) (s : text) (spins : list Z) (n : positive) (q k : Z) : bool :=
  let T := rows s in
  (0 <? f_len F) &&
  match z_run T spins (- (f_len F / 2)) (f_len F - f_len F / 2) n z_init with
  | Some z => z_stops T spins z && (z_state z =? q) && (z_marks z =? k)
  | None => false
  end.

Section Run.
Variables (F : cfile) (T : list (list (option instr))) (spins : list Z).
Let M : program := look T.
Let a := - (f_len F / 2).
Let b := f_len F - f_len F / 2.
Hypothesis LEN : 0 < f_len F.

Definition zr (n : nat) (z : zip) (c : config) : Prop :=
  steps M n init = Some c /\ z_state z = c_state c /\ z_pos z = c_pos c
  /\ (z_cell z = c_tape c (c_pos c)
      /\ (forall i, nth i (z_left z) 0 = c_tape c (c_pos c - 1 - Z.of_nat i))
      /\ (forall i, nth i (z_right z) 0 = c_tape c (c_pos c + 1 + Z.of_nat i)))
  /\ marks_are (c_tape c) (z_marks z)
  /\ (z_first z = true <-> n = 0%nat)
  /\ (let lo := c_pos c - Z.of_nat (length (z_left z)) in
      let hi := c_pos c + Z.of_nat (length (z_right z)) in
      (forall j d, (j <= n)%nat -> steps M j init = Some d -> lo <= c_pos d <= hi)
      /\ (exists j d, (j <= n)%nat /\ steps M j init = Some d /\ c_pos d = lo)
      /\ (exists j d, (j <= n)%nat /\ steps M j init = Some d /\ c_pos d = hi))
  /\ (forall j d, (j <= n)%nat -> steps M j init = Some d -> inside F d)
  /\ (forall j d, (j < n)%nat -> steps M j init = Some d -> ~ stops M spins j d).

Lemma is_nil_length {A} (l : list A) : is_nil l = true <-> length l = 0%nat.
Proof. destruct l; cbn; split; auto; discriminate. Qed.

Lemma z_stops_right n z c : zr n z c -> z_stops T spins z = true <-> stops M spins n c.
Proof.
  intros (E & ST & P & (CE & _) & MA & FI & (V & (jl & dl & Jl & El & Pl) & (jh & dh & Jh & Eh & Ph)) & _).
  pose proof (CProofs.marks_zero _ _ MA) as MZ. unfold z_stops, stops. rewrite !orb_true_iff, !andb_true_iff, negb_true_iff, !Z.eqb_eq.
  rewrite StructProofs.member_In, ST, CE.
  assert (FN : z_first z = false <-> (1 <= n)%nat).
  { destruct (z_first z); split; try discriminate; intros; auto.
    - assert (n = 0%nat) by (apply FI; auto). lia.
    - destruct n; [|lia]. assert (false = true) by (apply FI; auto). discriminate. }
  rewrite FN, MZ. unfold is_blank, edge_spin. change (look T) with M.
  split.
  - intros [[A|A]|((A & A') & B)]; [left; auto|right; left; auto|right; right]. split; [auto|]. split; [auto|].
    destruct (M (c_state c) 0) as [[[w d] q]|]; [|discriminate B]. apply andb_true_iff in B. destruct B as (B & B').
    apply Z.eqb_eq in B. subst q. apply is_nil_length in B'. exists w, d. split; [auto|]. intros j e J G. specialize (V j e J G).
    destruct d; lia.
  - intros [A|[A|(A & A' & w & d & B & B')]]; [left; left; auto|left; right; auto|right]. split; [auto|].
    rewrite B. rewrite Z.eqb_refl. cbn [andb]. apply is_nil_length. pose proof (B' _ _ Jl El). pose proof (B' _ _ Jh Eh).
    destruct d; lia.
Qed.

Lemma nth_tl {A} (d : A) l i : nth i (tl l) d = nth (S i) l d.
Proof. destruct l, i; auto. Qed.
Lemma hd_nth {A} (d : A) l : hd d l = nth 0 l d.
Proof. destruct l; auto. Qed.

Lemma z_step_right n z c z' : zr n z c -> z_step T spins a b z = Some z' -> exists c', zr (S n) z' c'.
Proof.
  intros R E. unfold z_step in E. destruct (z_stops T spins z) eqn:ZS; [discriminate E|].
  assert (NS : ~ stops M spins n c) by (intros S; apply (z_stops_right _ _ _ R) in S; congruence). clear ZS.
  destruct R as (EE & ST & P & (CE & LE & RI) & MA & FI & (V & (jl & dl & Jl & El & Pl) & (jh & dh & Jh & Eh & Ph)) & IN & FS).
  unfold z_move in E. rewrite ST, CE in E. change (look T) with M in E.
  destruct (M (c_state c) (c_tape c (c_pos c))) as [[[w d] q]|] eqn:A; [|discriminate E].
  set (c' := Cfg q (move d (c_pos c)) (write (c_tape c) (c_pos c) w)).
  assert (E' : steps M (S n) init = Some c') by (rewrite steps_S_r, EE; unfold step; rewrite A; auto).
  exists c'. pose proof (CProofs.marks_write _ _ (c_pos c) w MA) as W. cbn zeta in W.
  assert (W' : marks_are (c_tape c') (if w =? 0 then if c_tape c (c_pos c) =? 0 then z_marks z else z_marks z - 1
                 else if c_tape c (c_pos c) =? 0 then z_marks z + 1 else z_marks z)).
  { unfold c'. cbn [c_tape]. destruct (w =? 0), (c_tape c (c_pos c) =? 0); exact W. }
  clear W. set (mk := if w =? 0 then _ else _) in *. clearbody mk.
  assert (INC : a <= c_pos c < b) by (specialize (IN n c (Nat.le_refl _) EE); unfold inside in IN; subst a b; lia).
  assert (WR : forall p, p <> c_pos c -> c_tape c' p = c_tape c p).
  { intros p N. unfold c'. cbn. unfold write. replace (p =? c_pos c) with false by lia. auto. }
  assert (WS : c_tape c' (c_pos c) = w) by (unfold c'; cbn; unfold write; rewrite Z.eqb_refl; auto).
  assert (FST : forall j e, (j < S n)%nat -> steps M j init = Some e -> ~ stops M spins j e).
  { intros j e J G. destruct (Nat.eq_dec j n) as [EQ|N]; [rewrite EQ in *; congruence|]. apply FS; [lia|auto]. }
  assert (VIS : forall j e, (j <= S n)%nat -> steps M j init = Some e -> e = c' \/ (j <= n)%nat).
  { intros j e J G. destruct (Nat.eq_dec j (S n)) as [EQ|N]; [left; rewrite EQ in G; congruence|right; lia]. }
  assert (VC := V n c (Nat.le_refl _) EE).
  assert (TLL : forall l : list Z, Z.of_nat (length (tl l)) = Z.max 0 (Z.of_nat (length l) - 1)) by (intros [|]; cbn [tl length]; lia).
  assert (CON : forall z', z_state z' = q -> z_pos z' = c_pos c' -> z_marks z' = mk -> z_first z' = false -> a <= c_pos c' < b ->
    (z_cell z' = c_tape c' (c_pos c')
      /\ (forall i, nth i (z_left z') 0 = c_tape c' (c_pos c' - 1 - Z.of_nat i))
      /\ (forall i, nth i (z_right z') 0 = c_tape c' (c_pos c' + 1 + Z.of_nat i))) ->
    c_pos c' - Z.of_nat (length (z_left z')) = Z.min (c_pos c - Z.of_nat (length (z_left z))) (c_pos c') ->
    c_pos c' + Z.of_nat (length (z_right z')) = Z.max (c_pos c + Z.of_nat (length (z_right z))) (c_pos c') ->
    zr (S n) z' c').
  { intros y Y1 Y2 Y3 Y4 Y5 Y6 Y7 Y8. split; [exact E'|]. split; [exact Y1|]. split; [exact Y2|]. split; [exact Y6|].
    split; [rewrite Y3; exact W'|]. split; [rewrite Y4; split; discriminate|]. cbn zeta. rewrite Y7, Y8. split; [|split].
    - split; [|split].
      + intros j e J G. destruct (VIS j e J G) as [EQ|J']; [rewrite EQ; lia|]. specialize (V j e J' G). lia.
      + destruct (Z.le_gt_cases (c_pos c - Z.of_nat (length (z_left z))) (c_pos c')).
        * exists jl, dl. split; [lia|]. split; [auto|lia].
        * exists (S n), c'. split; [lia|]. split; [auto|lia].
      + destruct (Z.le_gt_cases (c_pos c') (c_pos c + Z.of_nat (length (z_right z)))).
        * exists jh, dh. split; [lia|]. split; [auto|lia].
        * exists (S n), c'. split; [lia|]. split; [auto|lia].
    - intros j e J G. destruct (VIS j e J G) as [EQ|J']; [|eauto]. rewrite EQ. unfold inside. subst a b. lia.
    - exact FST. }
  destruct d.
  - assert (PC : c_pos c' = c_pos c + 1) by reflexivity.
    destruct (Z.ltb_spec (z_pos z + 1) b) as [BB|]; [|discriminate E]. injection E as <-.
    apply CON; cbn [z_state z_left z_cell z_right z_pos z_marks z_first length]; auto; rewrite ?PC; try lia.
    + split; [rewrite hd_nth, RI, WR by lia; f_equal; lia|]. split.
      * intros [|i]; cbn [nth].
        -- replace (c_pos c + 1 - 1 - Z.of_nat 0) with (c_pos c) by lia. auto.
        -- rewrite LE, WR by lia. f_equal. lia.
      * intros i. rewrite nth_tl, RI, WR by lia. f_equal. lia.
    + rewrite TLL. lia.
  - assert (PC : c_pos c' = c_pos c - 1) by reflexivity.
    destruct (Z.leb_spec a (z_pos z - 1)) as [BB|]; [|discriminate E]. injection E as <-.
    apply CON; cbn [z_state z_left z_cell z_right z_pos z_marks z_first length]; auto; rewrite ?PC; try lia.
    + split; [rewrite hd_nth, LE, WR by lia; f_equal; lia|]. split.
      * intros i. rewrite nth_tl, LE, WR by lia. f_equal. lia.
      * intros [|i]; cbn [nth].
        -- replace (c_pos c - 1 + 1 + Z.of_nat 0) with (c_pos c) by lia. auto.
        -- rewrite RI, WR by lia. f_equal. lia.
    + rewrite TLL. lia.
Qed.

Lemma z_run_right p : forall n z c z', zr n z c -> z_run T spins a b p z = Some z' -> exists c', zr (n + Pos.to_nat p) z' c'.
Proof.
  induction p as [p IH|p IH|]; intros n z c z' R E; cbn [z_run] in E.
  - destruct (z_step T spins a b z) as [z1|] eqn:E1; [|discriminate E].
    destruct (z_run T spins a b p z1) as [z2|] eqn:E2; [|discriminate E].
    destruct (z_step_right _ _ _ _ R E1) as (c1 & R1). destruct (IH _ _ _ _ R1 E2) as (c2 & R2).
    destruct (IH _ _ _ _ R2 E) as (c3 & R3). exists c3. replace (n + Pos.to_nat p~1)%nat with (S n + Pos.to_nat p + Pos.to_nat p)%nat by lia. exact R3.
  - destruct (z_run T spins a b p z) as [z2|] eqn:E2; [|discriminate E].
    destruct (IH _ _ _ _ R E2) as (c2 & R2).
    destruct (IH _ _ _ _ R2 E) as (c3 & R3). exists c3. replace (n + Pos.to_nat p~0)%nat with (n + Pos.to_nat p + Pos.to_nat p)%nat by lia. exact R3.
  - destruct (z_step_right _ _ _ _ R E) as (c1 & R1). exists c1. replace (n + Pos.to_nat 1)%nat with (S n) by lia. exact R1.
Qed.

Lemma z_init_right : zr 0 z_init init.
Proof.
  pose proof (Z.div_pos (f_len F) 2). pose proof (Z.div_lt (f_len F) 2).
  split; [reflexivity|]. split; [reflexivity|]. split; [reflexivity|].
  split. { split; [reflexivity|]. split; intros [|]; reflexivity. }
  split. { exists []. split; [constructor|]. split; [|reflexivity]. intros p. cbn. unfold blank_tape. tauto. }
  split; [split; auto|]. cbn [z_left z_right z_init length c_pos init]. split; [|split].
  - split; [|split].
    + intros j d J E. replace j with 0%nat in E by lia. injection E as <-. cbn. lia.
    + exists 0%nat, init. split; [lia|]. split; [auto|cbn; lia].
    + exists 0%nat, init. split; [lia|]. split; [auto|cbn; lia].
  - intros j d J E. replace j with 0%nat in E by lia. injection E as <-. unfold inside. cbn [c_pos]. cbn. lia.
  - intros j d J. lia.
Qed.

End Run.

Lemma z_check_right F s spins n q k : z_check F s spins n q k = true ->
  exists c, first_stop (machine_of s) spins (Pos.to_nat n) c /\ c_state c = q /\ marks_are (c_tape c) k
  /\ forall j d, (j <= Pos.to_nat n)%nat -> steps (machine_of s) j init = Some d -> inside F d.
Proof.
  intros E. unfold z_check in E. apply andb_true_iff in E. destruct E as (L & E). apply Z.ltb_lt in L.
  destruct (z_run (rows s) spins (- (f_len F / 2)) (f_len F - f_len F / 2) n z_init) as [z|] eqn:R; [|discriminate E].
  apply andb_true_iff in E. destruct E as (E & MK). apply andb_true_iff in E. destruct E as (E & SQ).
  apply Z.eqb_eq in MK, SQ.
  destruct (z_run_right F (rows s) spins n 0 _ _ _ (z_init_right F (rows s) spins L) R) as (c & ZR).
  cbn [Nat.add] in ZR. change (look (rows s)) with (machine_of s) in ZR.
  exists c. pose proof (proj1 (z_stops_right _ _ _ _ _ _ ZR) E) as ST.
  destruct ZR as (E1 & SC & _ & _ & MA & _ & _ & IN & FS). unfold first_stop.
  split; [split; [exact E1|]; split; [exact ST|exact FS]|]. split; [congruence|]. split; [congruence|exact IN].
Qed.

(** The head leaves the array with move number [n + 1], without a reason to stop before or then. *)
Definition z_leaves (F : cfile) (s : text) (spins : list Z) (n : positive) : bool :=
  let T := rows s in
  let a := - (f_len F / 2) in
  let b := f_len F - f_len F / 2 in
  (0 <? f_len F) &&
  match z_run T spins a b n z_init with
  | Some z =>
    match z_step T spins (a - 1) (b + 1) z with
    | Some z' => negb (z_stops T spins z') && negb ((a <=? z_pos z') && (z_pos z' <? b))
    | None => false
    end
  | None => false
  end.

Lemma z_leaves_right F s spins n : z_leaves F s spins n = true ->
  exists c, steps (machine_of s) (S (Pos.to_nat n)) init = Some c
  /\ (forall j d, (j <= S (Pos.to_nat n))%nat -> steps (machine_of s) j init = Some d -> ~ stops (machine_of s) spins j d)
  /\ (forall j d, (j < S (Pos.to_nat n))%nat -> steps (machine_of s) j init = Some d -> inside F d)
  /\ ~ inside F c.
Proof.
  intros E. unfold z_leaves in E. apply andb_true_iff in E. destruct E as (L & E). apply Z.ltb_lt in L.
  destruct (z_run (rows s) spins (- (f_len F / 2)) (f_len F - f_len F / 2) n z_init) as [z|] eqn:R; [|discriminate E].
  destruct (z_step (rows s) spins (- (f_len F / 2) - 1) (f_len F - f_len F / 2 + 1) z) as [z'|] eqn:R'; [|discriminate E].
  apply andb_true_iff in E. destruct E as (NS & OUT). apply negb_true_iff in NS, OUT.
  destruct (z_run_right F (rows s) spins n 0 _ _ _ (z_init_right F (rows s) spins L) R) as (c & ZR).
  cbn [Nat.add] in ZR.
  assert (D2 : (f_len F + 2) / 2 = f_len F / 2 + 1).
  { replace (f_len F + 2) with (f_len F + 1 * 2) by lia. rewrite Z.div_add by lia. lia. }
  set (G := CFile (f_len F + 2) []).
  assert (ZG : zr G (rows s) spins (Pos.to_nat n) z c).
  { destruct ZR as (H1 & H2 & H3 & H4 & H5 & H6 & H7 & H8 & H9). unfold zr. do 7 (split; [assumption|]). split; [|assumption].
    intros j d J G'. specialize (H8 j d J G'). unfold inside in *. cbn [f_len G]. rewrite D2. lia. }
  destruct (z_step_right G (rows s) spins _ _ _ z' ZG) as (c' & ZC).
  { cbn [f_len G]. rewrite D2. replace (- (f_len F / 2 + 1)) with (- (f_len F / 2) - 1) by lia.
    replace (f_len F + 2 - (f_len F / 2 + 1)) with (f_len F - f_len F / 2 + 1) by lia. exact R'. }
  exists c'. pose proof (z_stops_right _ _ _ _ _ _ ZC) as ST.
  destruct ZR as (_ & _ & _ & _ & _ & _ & _ & IN & _). destruct ZC as (E' & _ & P & _ & _ & _ & _ & _ & FS).
  change (look (rows s)) with (machine_of s) in *. split; [exact E'|]. split; [|split].
  - intros j d J H. destruct (Nat.eq_dec j (S (Pos.to_nat n))) as [EQ|N]; [|apply FS; [lia|exact H]].
    rewrite EQ in *. rewrite E' in H. injection H as <-. intros S'. apply (proj2 ST) in S'. congruence.
  - intros j d J. apply IN. lia.
  - intros I. unfold inside in I. rewrite P in OUT. lia.
Qed.
