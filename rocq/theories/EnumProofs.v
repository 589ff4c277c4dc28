(** * Proofs about the enumerating tapes *)
From Verif Require Import Base TM TMFacts TapeModel TapeSpec TapeProofs EnumModel EnumSpec.

Lemma erase_enumerate side num s : erase_span (enumerate side num s) = s.
Proof.
  unfold erase_span. revert num. induction s as [|[c n] s IH]; cbn; intros; [reflexivity|].
  f_equal. apply IH.
Qed.

Lemma erase_to_enum t : erase (to_enum t) = t.
Proof. destruct t; unfold erase, to_enum; cbn. rewrite !erase_enumerate. reflexivity. Qed.

Definition espan (e : etape) (d : bool) := if d then et_r e else et_l e.
Definition eoff (e : etape) (d : bool) := if d then et_roff e else et_loff e.
Definition eedge (e : etape) (d : bool) := if d then et_redge e else et_ledge e.

Fixpoint esum (s : list eblock) : Z := match s with [] => 0 | b :: s => eb_count b + esum s end.
Definition ewf (s : list eblock) := Forall (fun b => 1 <= eb_count b) s.

Lemma esum_app a b : esum (a ++ b) = esum a + esum b.
Proof. induction a; cbn; lia. Qed.

Lemma esum_nonneg a : ewf a -> 0 <= esum a.
Proof. induction 1; cbn; lia. Qed.

Lemma ewf_erase s : ewf s <-> wf_span (erase_span s).
Proof.
  unfold ewf, wf_span, erase_span. rewrite Forall_map. reflexivity.
Qed.

(** ** The checks *)
Section check.
Variables (e : etape) (shift : bool) (color : Z) (skip : bool).
Let e' := check_step e shift color skip.

Lemma co_span b x d : espan (check_offsets x b) d = espan x d.
Proof. unfold check_offsets. destruct (eb_enum b) as [[[|] o]|]; destruct d; reflexivity. Qed.
Lemma co_scan b x : et_scan (check_offsets x b) = et_scan x.
Proof. unfold check_offsets. destruct (eb_enum b) as [[[|] o]|]; reflexivity. Qed.
Lemma co_off b x d : (eoff x d <= eoff (check_offsets x b) d)%nat.
Proof.
  unfold check_offsets. destruct (eb_enum b) as [[[|] o]|]; destruct d; cbn [eoff et_roff et_loff];
    repeat match goal with |- context [Nat.ltb ?a ?b] => destruct (Nat.ltb_spec a b) end; lia.
Qed.
Lemma co_tag b x d k : eb_enum b = Some (d, k) -> (k <= eoff (check_offsets x b) d)%nat.
Proof.
  unfold check_offsets. intros ->. destruct d; cbn [eoff et_roff et_loff];
    repeat match goal with |- context [Nat.ltb ?a ?b] => destruct (Nat.ltb_spec a b) end; lia.
Qed.
Lemma co_edge b x d : eedge (check_offsets x b) d = eedge x d.
Proof. unfold check_offsets. destruct (eb_enum b) as [[[|] o]|]; destruct d; reflexivity. Qed.
Lemma te_span x s d : espan (touch_edge x s) d = espan x d.
Proof. destruct d; reflexivity. Qed.
Lemma te_off x s d : eoff (touch_edge x s) d = eoff x d.
Proof. destruct d; reflexivity. Qed.
Lemma te_edge x s d : eedge x d = true -> eedge (touch_edge x s) d = true.
Proof. destruct d, s; cbn; auto. Qed.

Let pull := espan e shift.
Let push := espan e (negb shift).

Definition check_pull : etape :=
  match pull with
  | [] => touch_edge e shift
  | near_block :: rest =>
      let e1 := check_offsets e near_block in
      if skip && (eb_color near_block =? et_scan e1)
      then match rest with [] => touch_edge e1 shift | second :: _ => check_offsets e1 second end
      else e1
  end.

Lemma check_step_eq : e' = match push with
  | [] => check_pull
  | opp :: _ => if color =? eb_color opp then check_offsets check_pull opp else check_pull end.
Proof. unfold e', check_step, check_pull, pull, push. destruct shift; reflexivity. Qed.

Lemma cp_span d : espan check_pull d = espan e d.
Proof.
  unfold check_pull. destruct pull as [|b r]; [apply te_span|]. cbn zeta. destruct (_ && _); [|apply co_span].
  destruct r; rewrite ?te_span, ?co_span; reflexivity.
Qed.
Lemma cs_span d : espan e' d = espan e d.
Proof.
  rewrite check_step_eq. destruct push as [|o r]; [apply cp_span|]. destruct (_ =? _); rewrite ?co_span; apply cp_span.
Qed.
Lemma cp_scan : et_scan check_pull = et_scan e.
Proof.
  unfold check_pull. destruct pull as [|b r]; [reflexivity|]. cbn zeta. destruct (_ && _); [|apply co_scan].
  destruct r; cbn; rewrite ?co_scan; reflexivity.
Qed.
Lemma cs_scan : et_scan e' = et_scan e.
Proof.
  rewrite check_step_eq. destruct push as [|o r]; [apply cp_scan|]. destruct (_ =? _); rewrite ?co_scan; apply cp_scan.
Qed.
Lemma cp_off d : (eoff e d <= eoff check_pull d)%nat.
Proof.
  unfold check_pull. destruct pull as [|b r]; [rewrite te_off; lia|]. cbn zeta.
  pose proof (co_off b e d). destruct (_ && _); [|lia].
  destruct r as [|s r]; rewrite ?te_off; [lia|]. pose proof (co_off s (check_offsets e b) d). lia.
Qed.
Lemma cs_cp_off d : (eoff check_pull d <= eoff e' d)%nat.
Proof.
  rewrite check_step_eq. destruct push as [|o r]; [lia|]. destruct (_ =? _); [|lia]. apply co_off.
Qed.
Lemma cs_off d : (eoff e d <= eoff e' d)%nat.
Proof. pose proof (cp_off d); pose proof (cs_cp_off d); lia. Qed.
Lemma cp_edge d : eedge e d = true -> eedge check_pull d = true.
Proof.
  intros H. unfold check_pull. destruct pull as [|b r]; [apply te_edge; auto|]. cbn zeta.
  destruct (_ && _); rewrite ?co_edge; auto.
  destruct r as [|s r]; [apply te_edge|]; rewrite !co_edge; auto.
Qed.
Lemma cs_cp_edge d : eedge e' d = eedge check_pull d.
Proof.
  rewrite check_step_eq. destruct push as [|o r]; auto. destruct (_ =? _); rewrite ?co_edge; auto.
Qed.
Lemma cs_edge d : eedge e d = true -> eedge e' d = true.
Proof. rewrite cs_cp_edge. apply cp_edge. Qed.

(** What the checks leave behind on the pulled side. *)
Lemma cs_pull : eedge e' shift = true \/
  exists b r, pull = b :: r
  /\ (forall d k, eb_enum b = Some (d, k) -> (k <= eoff e' d)%nat)
  /\ (skip && (eb_color b =? et_scan e) = true ->
      exists s r', r = s :: r' /\ forall d k, eb_enum s = Some (d, k) -> (k <= eoff e' d)%nat).
Proof.
  rewrite cs_cp_edge.
  assert (G : eedge check_pull shift = true \/
    exists b r, pull = b :: r
    /\ (forall d k, eb_enum b = Some (d, k) -> (k <= eoff check_pull d)%nat)
    /\ (skip && (eb_color b =? et_scan e) = true ->
        exists s r', r = s :: r' /\ forall d k, eb_enum s = Some (d, k) -> (k <= eoff check_pull d)%nat)).
  { unfold check_pull. destruct pull as [|b r]; [left; destruct shift; reflexivity|]. cbn zeta.
    rewrite co_scan. destruct (skip && _) eqn:E.
    - destruct r as [|s r]; [left; destruct shift; reflexivity|]. right. exists b, (s :: r). split; [reflexivity|]. split.
      + intros d k H. pose proof (co_tag b e d k H). pose proof (co_off s (check_offsets e b) d). lia.
      + intros _. exists s, r. split; [reflexivity|]. intros d k H. apply co_tag; auto.
    - right. exists b, r. split; [reflexivity|]. split; [|intros X; rewrite X in E; discriminate].
      intros d k H. apply co_tag; auto. }
  destruct G as [G | (b & r & G1 & G2 & G3)]; [left; auto|]. right. exists b, r. split; [auto|]. split.
  - intros d k H. specialize (G2 d k H). pose proof (cs_cp_off d). lia.
  - intros X. destruct (G3 X) as (s & r' & -> & G4). exists s, r'. split; [reflexivity|].
    intros d k H. specialize (G4 d k H). pose proof (cs_cp_off d). lia.
Qed.

Lemma cs_push o r : push = o :: r -> eb_color o = color ->
  forall d k, eb_enum o = Some (d, k) -> (k <= eoff e' d)%nat.
Proof.
  intros H1 H2 d k H3. rewrite check_step_eq, H1, H2, Z.eqb_refl. apply co_tag; auto.
Qed.
End check.

(** ** Spans with an untouched far part *)
Section span.
Variables (side : bool) (S0 : span).

Definition far (k : nat) := enumerate side (S k) (skipn k S0).

Lemma far_S k b r : far k = b :: r ->
  eb_enum b = Some (side, S k) /\ r = far (S k) /\ reach S0 (S k) = reach S0 k + eb_count b
  /\ (k < length S0)%nat.
Proof.
  unfold far.
  assert (G : forall num, enumerate side num (skipn k S0) = b :: r ->
    eb_enum b = Some (side, num) /\ r = enumerate side (S num) (skipn (S k) S0)
    /\ reach S0 (S k) = reach S0 k + eb_count b /\ (k < length S0)%nat); [|intros H; apply (G _ H)].
  revert k. induction S0 as [|x s IH]; intros k num H.
  - destruct k; discriminate.
  - destruct k as [|k].
    + cbn in H. inv H. cbn. repeat split; try lia.
    + specialize (IH k num H). destruct IH as (A & B & C & D).
      cbn [skipn]. split; [exact A|]. split; [exact B|]. split; [|cbn; lia].
      change (reach (x :: s) (S (S k))) with (b_count x + reach s (S k)).
      change (reach (x :: s) (S k)) with (b_count x + reach s k). lia.
Qed.

Definition fits (E : list eblock) (off : nat) (dist : Z) (A : list eblock) (k : nat) : Prop :=
  E = A ++ far k /\ (k <= off)%nat /\ esum A <= reach S0 k + dist.

Lemma fits_absorb off dist A k b r :
  far k = b :: r -> (S k <= off)%nat -> esum A <= reach S0 k + dist ->
  fits (A ++ b :: r) off dist (A ++ [b]) (S k).
Proof.
  intros F O S. destruct (far_S _ _ _ F) as (_ & -> & R & _). split; [|split; [auto|]].
  - rewrite <- app_assoc. reflexivity.
  - rewrite esum_app, R. cbn. lia.
Qed.
End span.

Definition adequate (A : list eblock) (scan : Z) (skip : bool) : Prop :=
  match A with
  | [] => False
  | b :: A' => skip && (eb_color b =? scan) = true -> A' <> []
  end.

Lemma py_epull_local A B scan skip : adequate A scan skip -> ewf A ->
  exists A' pb sc n, py_epull (A ++ B) scan skip = (sc, A' ++ B, pb, n)
  /\ esum A' = esum A - n
  /\ match pb with None => n = 1 | Some b => eb_count b + 1 = n end.
Proof.
  intros AD W. unfold py_epull. destruct A as [|b A]; cbn in AD; [contradiction|]. cbn [app].
  inv W. destruct (skip && (eb_color b =? scan)) eqn:E.
  - destruct A as [|s A]; [destruct AD; auto|]. cbn [app]. inv H2.
    destruct (negb (eb_count s =? 1)) eqn:F.
    + exists (EB (eb_color s) (eb_count s - 1) (eb_enum s) :: A), (Some b), (eb_color s), (1 + eb_count b).
      cbn. split; [reflexivity|]. lia.
    + assert (eb_count s = 1) by (destruct (Z.eqb_spec (eb_count s) 1); [auto|discriminate]).
      exists A, (Some b), (eb_color s), (1 + eb_count b). cbn. split; [reflexivity|]. lia.
  - destruct (negb (eb_count b =? 1)) eqn:F.
    + exists (EB (eb_color b) (eb_count b - 1) (eb_enum b) :: A), None, (eb_color b), 1.
      cbn. split; [reflexivity|]. lia.
    + assert (eb_count b = 1) by (destruct (Z.eqb_spec (eb_count b) 1); [auto|discriminate]).
      exists A, (Some (EB (eb_color b) 0 (eb_enum b))), (eb_color b), 1. cbn. split; [reflexivity|]. lia.
Qed.

Lemma rs_epull_local A B scan skip : adequate A scan skip -> ewf A ->
  exists A' sc n, rs_epull (A ++ B) scan skip = (sc, A' ++ B, n) /\ esum A' = esum A - n.
Proof.
  intros AD W. unfold rs_epull. destruct A as [|b A]; cbn in AD; [contradiction|]. cbn [app].
  inv W. destruct (skip && (eb_color b =? scan)) eqn:E.
  - destruct A as [|s A]; [destruct AD; auto|]. cbn [app]. inv H2.
    destruct (eb_count s >? 1) eqn:F; zb.
    + exists (EB (eb_color s) (eb_count s - 1) (eb_enum s) :: A), (eb_color s), (1 + eb_count b).
      cbn. split; [reflexivity|]. lia.
    + exists A, (eb_color s), (1 + eb_count b). cbn. split; [reflexivity|]. lia.
  - destruct (eb_count b >? 1) eqn:F; zb.
    + exists (EB (eb_color b) (eb_count b - 1) (eb_enum b) :: A), (eb_color b), 1.
      cbn. split; [reflexivity|]. lia.
    + exists A, (eb_color b), 1. cbn. split; [reflexivity|]. lia.
Qed.

Definition open_end (A B : list eblock) (color : Z) : Prop :=
  A = [] -> forall b r, B = b :: r -> eb_color b <> color.

Lemma py_epush_local fresh A B pb color n : open_end A B color -> 0 <= n ->
  match pb with None => n = 1 | Some b => eb_count b + 1 = n end ->
  exists A', py_epush fresh (A ++ B) pb color n = A' ++ B /\ esum A' <= esum A + n.
Proof.
  intros O N P. unfold py_epush.
  set (ins := match pb with None => EB color 1 fresh | Some b => EB color (eb_count b + 1) (eb_enum b) end).
  assert (I : eb_count ins = n) by (unfold ins; destruct pb; cbn; lia).
  destruct A as [|a A]; cbn [app].
  - destruct B as [|b B].
    + destruct (negb _); [exists [ins]|exists []]; cbn; (split; [reflexivity|]); rewrite ?I; lia.
    + specialize (O eq_refl b B eq_refl). destruct (Z.eqb_spec (eb_color b) color); [contradiction|].
      exists [ins]. cbn. split; [reflexivity|]. lia.
  - destruct (Z.eqb_spec (eb_color a) color).
    + exists (EB (eb_color a) (eb_count a + n) (eb_enum a) :: A). cbn. split; [reflexivity|]. lia.
    + exists (ins :: a :: A). cbn. split; [reflexivity|]. lia.
Qed.

Lemma rs_epush_local A B color n : open_end A B color -> 0 <= n ->
  exists A', rs_epush (A ++ B) color n = A' ++ B /\ esum A' <= esum A + n.
Proof.
  intros O N. unfold rs_epush. destruct A as [|a A]; cbn [app].
  - destruct B as [|b B].
    + destruct (negb _); [exists [EB color n None]|exists []]; cbn; (split; [reflexivity|]); lia.
    + specialize (O eq_refl b B eq_refl). destruct (Z.eqb_spec (eb_color b) color); [contradiction|].
      exists [EB color n None]. cbn. split; [reflexivity|]. lia.
  - destruct (Z.eqb_spec (eb_color a) color).
    + exists (EB (eb_color a) (eb_count a + n) (eb_enum a) :: A). cbn. split; [reflexivity|]. lia.
    + exists (EB color n None :: a :: A). cbn. split; [reflexivity|]. lia.
Qed.

(** ** Erasure *)
Lemma erase_cons b s : erase_span (b :: s) = Blk (eb_color b) (eb_count b) :: erase_span s.
Proof. reflexivity. Qed.

Lemma rs_epull_erase s scan skip :
  rs_pull (erase_span s) scan skip
  = (let '(sc, s', n) := rs_epull s scan skip in (sc, n, erase_span s')).
Proof.
  unfold rs_pull, rs_epull. destruct s as [|b s]; [reflexivity|]. rewrite erase_cons. cbn [b_color b_count].
  destruct (skip && (eb_color b =? scan)).
  - destruct s as [|c s]; [reflexivity|]. rewrite erase_cons. cbn [b_color b_count].
    destruct (eb_count c >? 1); reflexivity.
  - cbn [b_color b_count]. destruct (eb_count b >? 1); reflexivity.
Qed.

Lemma rs_epush_erase s color n :
  rs_push (erase_span s) color n = erase_span (rs_epush s color n).
Proof.
  unfold rs_push, rs_epush. destruct s as [|b s]; [cbn; destruct (negb _); reflexivity|].
  rewrite erase_cons. cbn [b_color b_count]. destruct (_ =? _); reflexivity.
Qed.

Lemma py_epull_erase s scan skip :
  (let '(pb, pull) := py_skip_block (erase_span s) scan skip in
   let '(sc, pull', pb') := py_pull_one pull pb in
   (sc, pull', pb', py_stepped pb))
  = (let '(sc, s', pb, n) := py_epull s scan skip in
     (sc, erase_span s', option_map (fun b => Blk (eb_color b) (eb_count b)) pb, n)).
Proof.
  unfold py_skip_block, py_pull_one, py_epull. destruct s as [|b s]; [reflexivity|]. rewrite erase_cons.
  cbn [b_color b_count]. destruct (skip && (eb_color b =? scan)).
  - destruct s as [|c s]; [reflexivity|]. rewrite erase_cons. cbn [b_color b_count].
    destruct (negb (eb_count c =? 1)); reflexivity.
  - cbn [b_color b_count]. destruct (negb (eb_count b =? 1)); reflexivity.
Qed.

Lemma py_epush_erase fresh s pb color n :
  py_push (erase_span s) (option_map (fun b => Blk (eb_color b) (eb_count b)) pb) color n
  = erase_span (py_epush fresh s pb color n).
Proof.
  unfold py_push, py_epush, py_insert. destruct s as [|b s].
  - cbn. destruct (negb _); [|reflexivity]. destruct pb; reflexivity.
  - rewrite erase_cons. cbn [b_color b_count]. destruct (_ =? _); [reflexivity|]. destruct pb; reflexivity.
Qed.

Lemma py_estep_erase fresh e shift color skip :
  erase (py_estep fresh e shift color skip) = fst (py_step (erase e) shift color skip).
Proof.
  unfold py_estep, py_step. set (e' := check_step e shift color skip).
  assert (SL : et_l e' = et_l e) by apply (cs_span e shift color skip false).
  assert (SR : et_r e' = et_r e) by apply (cs_span e shift color skip true).
  assert (SC : et_scan e' = et_scan e) by apply cs_scan.
  rewrite SL, SR, SC. cbn [erase t_lspan t_rspan t_scan].
  pose proof (py_epull_erase (if shift then et_r e else et_l e) (et_scan e) skip) as P.
  pose proof (fun pb n => py_epush_erase fresh (if shift then et_l e else et_r e) pb color n) as Q.
  destruct shift;
    destruct (py_skip_block _ _ _) as [pb pull]; destruct (py_pull_one pull pb) as [[sc pull'] pb'];
    destruct (py_epull _ _ _) as [[[sc2 s2] pb2] n2]; inv P; unfold erase; cbn; f_equal; auto.
Qed.

Lemma rs_estep_erase e shift color skip :
  erase (rs_estep e shift color skip) = fst (rs_step (erase e) shift color skip).
Proof.
  unfold rs_estep, rs_step. set (e' := check_step e shift color skip).
  assert (SL : et_l e' = et_l e) by apply (cs_span e shift color skip false).
  assert (SR : et_r e' = et_r e) by apply (cs_span e shift color skip true).
  assert (SC : et_scan e' = et_scan e) by apply cs_scan.
  rewrite SL, SR, SC. cbn [erase t_lspan t_rspan t_scan].
  pose proof (rs_epull_erase (if shift then et_r e else et_l e) (et_scan e) skip) as P.
  pose proof (fun n => rs_epush_erase (if shift then et_l e else et_r e) color n) as Q.
  destruct shift;
    destruct (rs_pull _ _ _) as [[sc n] pull'];
    destruct (rs_epull _ _ _) as [[sc2 s2] n2]; inv P; unfold erase; cbn; f_equal; auto.
Qed.

(** ** One step keeps the far parts *)
Definition step_local (e e2 : etape) (shift : bool) (color : Z) (skip : bool) (n : Z) : Prop :=
  (forall d, eoff e2 d = eoff (check_step e shift color skip) d)
  /\ (forall d, eedge e2 d = eedge (check_step e shift color skip) d)
  /\ (forall A B, espan e shift = A ++ B -> adequate A (et_scan e) skip -> ewf A ->
      exists A', espan e2 shift = A' ++ B /\ esum A' = esum A - n)
  /\ (forall A B, espan e (negb shift) = A ++ B -> open_end A B color ->
      exists A', espan e2 (negb shift) = A' ++ B /\ esum A' <= esum A + n).

Lemma py_epull_block s scan skip sc s' pb n : ewf s -> py_epull s scan skip = (sc, s', pb, n) ->
  0 <= n /\ match pb with None => n = 1 | Some b => eb_count b + 1 = n end.
Proof.
  intros W. unfold py_epull. destruct s as [|b s]; [intros E; inv E; lia|].
  inv W. destruct (skip && _).
  - destruct s as [|c s]; [|destruct (negb _)]; intros E; inv E; lia.
  - destruct (negb _); intros E; inv E; cbn; lia.
Qed.

Lemma py_estep_local fresh e shift color skip : wf_tape (erase e) ->
  step_local e (py_estep fresh e shift color skip) shift color skip
    (snd (py_step (erase e) shift color skip)).
Proof.
  intros (WL & WR). apply ewf_erase in WL, WR. cbn in WL, WR.
  unfold py_estep, py_step. set (e' := check_step e shift color skip).
  assert (SL : et_l e' = et_l e) by apply (cs_span e shift color skip false).
  assert (SR : et_r e' = et_r e) by apply (cs_span e shift color skip true).
  assert (SC : et_scan e' = et_scan e) by apply cs_scan.
  rewrite SL, SR, SC. cbn [erase t_lspan t_rspan t_scan].
  pose proof (py_epull_erase (if shift then et_r e else et_l e) (et_scan e) skip) as P.
  unfold step_local. fold e'.
  destruct shift; cbn [espan negb];
    destruct (py_skip_block _ _ _) as [pb pull]; destruct (py_pull_one pull pb) as [[sc pull'] pb'];
    destruct (py_epull _ _ _) as [[[sc2 s2] pb2] n2] eqn:EP; inv P; cbn [fst snd].
  - split; [intros []; reflexivity|]. split; [intros []; reflexivity|]. split.
    + intros A B EQ AD W. destruct (py_epull_local A B (et_scan e) skip AD W) as (A' & x & y & z & F & G & _).
      rewrite <- EQ, EP in F. inv F. exists A'. split; [reflexivity|exact G].
    + intros A B EQ OP. destruct (py_epull_block _ _ _ _ _ _ _ WR EP) as (N & R).
      cbn [et_l]. rewrite EQ. apply py_epush_local; auto.
  - split; [intros []; reflexivity|]. split; [intros []; reflexivity|]. split.
    + intros A B EQ AD W. destruct (py_epull_local A B (et_scan e) skip AD W) as (A' & x & y & z & F & G & _).
      rewrite <- EQ, EP in F. inv F. exists A'. split; [reflexivity|exact G].
    + intros A B EQ OP. destruct (py_epull_block _ _ _ _ _ _ _ WL EP) as (N & R).
      cbn [et_r]. rewrite EQ. apply py_epush_local; auto.
Qed.

Lemma rs_estep_local e shift color skip : wf_tape (erase e) ->
  step_local e (rs_estep e shift color skip) shift color skip
    (snd (rs_step (erase e) shift color skip)).
Proof.
  intros (WL & WR). apply ewf_erase in WL, WR. cbn in WL, WR.
  unfold rs_estep, rs_step. set (e' := check_step e shift color skip).
  assert (SL : et_l e' = et_l e) by apply (cs_span e shift color skip false).
  assert (SR : et_r e' = et_r e) by apply (cs_span e shift color skip true).
  assert (SC : et_scan e' = et_scan e) by apply cs_scan.
  rewrite SL, SR, SC. cbn [erase t_lspan t_rspan t_scan].
  pose proof (rs_epull_erase (if shift then et_r e else et_l e) (et_scan e) skip) as P.
  assert (N : forall s sc s' n, ewf s -> rs_epull s (et_scan e) skip = (sc, s', n) -> 0 <= n).
  { intros s sc s' n W. unfold rs_epull. destruct s as [|b s]; [intros E; inv E; lia|].
    inv W. destruct (skip && _).
    - destruct s as [|c s]; [|destruct (_ >? _)]; intros E; inv E; lia.
    - destruct (_ >? _); intros E; inv E; lia. }
  unfold step_local. fold e'.
  destruct shift; cbn [espan negb];
    destruct (rs_pull _ _ _) as [[sc n] pull'];
    destruct (rs_epull _ _ _) as [[sc2 s2] n2] eqn:EP; inv P; cbn [fst snd].
  - split; [intros []; reflexivity|]. split; [intros []; reflexivity|]. split.
    + intros A B EQ AD W. destruct (rs_epull_local A B (et_scan e) skip AD W) as (A' & x & y & F & G).
      rewrite <- EQ, EP in F. inv F. exists A'. split; [reflexivity|exact G].
    + intros A B EQ OP. pose proof (N _ _ _ _ WR EP). cbn [et_l]. rewrite EQ. apply rs_epush_local; auto.
  - split; [intros []; reflexivity|]. split; [intros []; reflexivity|]. split.
    + intros A B EQ AD W. destruct (rs_epull_local A B (et_scan e) skip AD W) as (A' & x & y & F & G).
      rewrite <- EQ, EP in F. inv F. exists A'. split; [reflexivity|exact G].
    + intros A B EQ OP. pose proof (N _ _ _ _ WL EP). cbn [et_r]. rewrite EQ. apply rs_epush_local; auto.
Qed.

Lemma reach_mono s : wf_span s -> forall k m, (k <= m)%nat -> reach s k <= reach s m.
Proof.
  assert (NN : forall s m, wf_span s -> 0 <= reach s m).
  { clear. intros s m W. revert m. induction W; intros [|m]; cbn; try lia. specialize (IHW m). lia. }
  induction 1 as [|b s B W IH]; intros k m L; [destruct k, m; cbn; lia|].
  destruct k as [|k]; [change (reach (b :: s) 0) with 0; apply NN; constructor; auto|].
  destruct m as [|m]; [lia|]. cbn. specialize (IH k m ltac:(lia)). lia.
Qed.

Definition side_ok (S0 : span) (e : etape) (d : bool) (dist : Z) : Prop :=
  eedge e d = true
  \/ exists A k, fits d S0 (espan e d) (eoff e d) dist A k.

Lemma ewf_app a b : ewf (a ++ b) -> ewf a /\ ewf b.
Proof. apply Forall_app. Qed.

Lemma side_ok_here S0 e d dist : wf_span S0 -> ewf (espan e d) -> side_ok S0 e d dist ->
  eedge e d = true \/ 0 <= reach S0 (eoff e d) + dist.
Proof.
  intros W WE [H|(A & k & EQ & K & S)]; [left; auto|right].
  rewrite EQ in WE. apply ewf_app in WE as (WA & _). pose proof (esum_nonneg _ WA).
  pose proof (reach_mono S0 W _ _ K). lia.
Qed.

(** After the checks, what the pull takes is within the offset. *)
Lemma pull_adequate S0 e shift color skip dist :
  side_ok S0 e shift dist ->
  eedge (check_step e shift color skip) shift = true
  \/ exists A k, fits shift S0 (espan e shift) (eoff (check_step e shift color skip) shift) dist A k
     /\ adequate A (et_scan e) skip.
Proof.
  set (e' := check_step e shift color skip).
  intros [H|(A & k & EQ & K & S)]; [left; apply cs_edge; auto|].
  destruct (cs_pull e shift color skip) as [H|(b & r & PB & TB & TS)]; [left; auto|right].
  pose proof (cs_off e shift color skip shift) as MONO. fold e' in TB, TS, MONO.
  (* first absorb the near block *)
  assert (G : exists A1 k1, fits shift S0 (espan e shift) (eoff e' shift) dist (b :: A1) k1).
  { destruct A as [|a A].
    - cbn in EQ. rewrite PB in EQ. symmetry in EQ.
      destruct (far_S _ _ _ _ _ EQ) as (T & _).
      pose proof (fits_absorb shift S0 (eoff e' shift) dist [] k b r EQ (TB _ _ T) S) as F.
      exists [], (1 + k)%nat. rewrite PB. exact F.
    - rewrite PB in EQ. cbn in EQ. inv EQ. exists A, k. rewrite PB. split; [reflexivity|]. split; [lia|auto]. }
  destruct G as (A1 & k1 & EQ1 & K1 & S1).
  destruct (skip && (eb_color b =? et_scan e)) eqn:SK.
  - destruct (TS eq_refl) as (s & r' & -> & TG).
    destruct A1 as [|a A1].
    + rewrite PB in EQ1. cbn in EQ1. assert (EQ2 : far shift S0 k1 = s :: r') by congruence.
      destruct (far_S _ _ _ _ _ EQ2) as (T & _).
      pose proof (fits_absorb shift S0 (eoff e' shift) dist [b] k1 s r' EQ2 (TG _ _ T) S1) as F.
      exists ([b] ++ [s]), (1 + k1)%nat. rewrite PB. split; [exact F|]. cbn. discriminate.
    + exists (b :: a :: A1), k1. split; [split; auto|]. cbn. discriminate.
  - exists (b :: A1), k1. split; [split; auto|]. cbn. rewrite SK. discriminate.
Qed.

Lemma push_open S0 e shift color skip dist :
  side_ok S0 e (negb shift) dist ->
  eedge (check_step e shift color skip) (negb shift) = true
  \/ exists A k, fits (negb shift) S0 (espan e (negb shift)) (eoff (check_step e shift color skip) (negb shift)) dist A k
     /\ open_end A (far (negb shift) S0 k) color.
Proof.
  set (e' := check_step e shift color skip).
  intros [H|(A & k & EQ & K & S)]; [left; apply cs_edge; auto|right].
  pose proof (cs_off e shift color skip (negb shift)) as MONO. fold e' in MONO.
  destruct A as [|a A].
  - destruct (far (negb shift) S0 k) as [|b r] eqn:F.
    + exists [], k. rewrite F. split; [split; [rewrite EQ, F; reflexivity|split; [lia|auto]]|].
      intros _ b r X; discriminate.
    + destruct (Z.eq_dec (eb_color b) color) as [C|C].
      * destruct (far_S _ _ _ _ _ F) as (T & _).
        pose proof (cs_push e shift color skip b r EQ C _ _ T) as L. fold e' in L.
        pose proof (fits_absorb (negb shift) S0 (eoff e' (negb shift)) dist [] k b r F L S) as Q.
        exists [b], (1 + k)%nat. rewrite EQ. split; [exact Q|]. intros X; discriminate.
      * exists [], k. rewrite F. split; [split; [rewrite EQ, F; reflexivity|split; [lia|auto]]|].
        intros _ b' r' X. inv X. auto.
  - exists (a :: A), k. split; [split; [auto|split; [lia|auto]]|]. intros X; discriminate.
Qed.

Lemma step_sides S0 S1 e e2 shift color skip n dist dist' :
  wf_span S0 -> wf_span S1 ->
  ewf (espan e shift) -> ewf (espan e2 shift) ->
  step_local e e2 shift color skip n ->
  side_ok S0 e shift dist -> side_ok S1 e (negb shift) dist' ->
  side_ok S0 e2 shift (dist - n) /\ side_ok S1 e2 (negb shift) (dist' + n)
  /\ (eedge e2 shift = true \/ n <= reach S0 (eoff e2 shift) + dist).
Proof.
  intros W0 W1 WE WE2 (OFF & EDG & PL & PS) H H'.
  destruct (pull_adequate S0 e shift color skip dist H) as [X|(A & k & (EQ & K & S) & AD)].
  - split; [left; rewrite EDG; auto|]. split; [|left; rewrite EDG; auto].
    destruct (push_open S1 e shift color skip dist' H') as [Y|(A' & k' & (EQ' & K' & S') & OP)].
    + left; rewrite EDG; auto.
    + right. destruct (PS A' _ EQ' OP) as (A2 & E2 & L2). exists A2, k'. split; [auto|]. rewrite OFF. split; [auto|lia].
  - assert (WA : ewf A) by (rewrite EQ in WE; apply ewf_app in WE; tauto).
    destruct (PL A _ EQ AD WA) as (A1 & E1 & L1).
    assert (WA1 : ewf A1) by (rewrite E1 in WE2; apply ewf_app in WE2; tauto).
    pose proof (esum_nonneg _ WA1).
    split; [right; exists A1, k; split; [auto|]; rewrite OFF; split; [auto|lia]|].
    split.
    + destruct (push_open S1 e shift color skip dist' H') as [Y|(A' & k' & (EQ' & K' & S') & OP)].
      * left; rewrite EDG; auto.
      * right. destruct (PS A' _ EQ' OP) as (A2 & E2 & L2). exists A2, k'. split; [auto|]. rewrite OFF. split; [auto|lia].
    + right. rewrite OFF. pose proof (reach_mono S0 W0 _ _ K). lia.
Qed.

(** ** Runs *)
Lemma step_pos M c d : step M c = Some d -> c_pos d = c_pos c + 1 \/ c_pos d = c_pos c - 1.
Proof.
  unfold step. destruct (M _ _) as [[[col dir] nx]|]; intros E; inv E. cbn. destruct dir; cbn; auto.
Qed.

Lemma steps_pos M n : forall c d, steps M n c = Some d -> Z.abs (c_pos d - c_pos c) <= Z.of_nat n.
Proof.
  induction n as [|n IH]; cbn; intros c d E; [inv E; lia|].
  destruct (step M c) as [c'|] eqn:F; [|discriminate]. apply step_pos in F. apply IH in E. lia.
Qed.

Lemma steps_straight M n c d (shift : bool) j :
  steps M n c = Some d -> c_pos d = (if shift then c_pos c + Z.of_nat n else c_pos c - Z.of_nat n) ->
  (j <= n)%nat -> exists cj, steps M j c = Some cj
    /\ c_pos cj = (if shift then c_pos c + Z.of_nat j else c_pos c - Z.of_nat j).
Proof.
  intros E P L. destruct (steps_le _ _ _ _ _ L E) as (cj & EJ). exists cj. split; [auto|].
  replace n with (j + (n - j))%nat in E by lia. rewrite (steps_add_some _ _ _ _ _ EJ) in E.
  apply steps_pos in E. apply steps_pos in EJ. destruct shift; lia.
Qed.

Lemma run_local_depends M W c : forall k,
  (forall j, (j <= k)%nat -> exists cj, steps M j c = Some cj /\ W (c_pos cj)) ->
  (forall p, W p \/ ~ W p) ->
  depends_only_on M W k c
  /\ forall cj, steps M k c = Some cj -> forall p, ~ W p -> c_tape cj p = c_tape c p.
Proof.
  intros k H DEC.
  assert (G : depends_only_on M W k c).
  { intros d SD PD TD j. induction j as [|j IH]; intros L.
    - destruct (H 0%nat ltac:(lia)) as (cj & E & WP). cbn in E. inv E.
      exists cj, d. cbn. repeat split; auto.
    - destruct IH as (cj & dj & Ec & Ed & SS & P & WP & AG & OUT); [lia|].
      destruct (H (S j) L) as (cs & Es & WPs).
      rewrite steps_S_r, Ec in Es.
      assert (Ed2 : exists ds, step M dj = Some ds /\ c_state ds = c_state cs /\ c_pos ds = c_pos cs
        /\ (forall p, W p -> c_tape ds p = c_tape cs p) /\ (forall p, ~ W p -> c_tape ds p = c_tape dj p)).
      { unfold step in *. rewrite SS, P, (AG _ WP).
        destruct (M _ _) as [[[col dir] nx]|]; [|discriminate]. inv Es.
        eexists. split; [reflexivity|]. cbn. split; [auto|]. split; [auto|]. split.
        - intros p Hp. unfold write. destruct (_ =? _); auto.
        - intros p Hp. unfold write. destruct (Z.eqb_spec p (c_pos cj)); auto. subst. contradiction. }
      destruct Ed2 as (ds & Eds & S2 & P2 & AG2 & OUT2).
      exists cs, ds. rewrite !steps_S_r, Ec, Ed. repeat split; auto.
      intros p Hp. rewrite OUT2, OUT; auto. }
  split; [exact G|]. intros cj E p Hp.
  destruct (G c eq_refl eq_refl (fun _ _ => eq_refl) k (le_n k)) as (c1 & d1 & E1 & E2 & _ & _ & _ & _ & OUT).
  rewrite E in E2. inv E2. auto.
Qed.

Section run.
Variables (M : program) (t0 : tape) (pos0 : Z).
Hypothesis W0 : wf_tape t0.
Let S0 (d : bool) := if d then t_rspan t0 else t_lspan t0.
Let dist (d : bool) (p : Z) := if d then pos0 - p else p - pos0.

Definition good (e : etape) (c : config) : Prop :=
  wf_tape (erase e) /\ represents (erase e) c /\ forall d, side_ok (S0 d) e d (dist d (c_pos c)).

Definition inw (e : etape) (p : Z) : Prop :=
  forall d, eedge e d = true \/ 0 <= reach (S0 d) (eoff e d) + dist d p.

Definition later (e e2 : etape) : Prop :=
  forall d, (eoff e d <= eoff e2 d)%nat /\ (eedge e d = true -> eedge e2 d = true).

Lemma wf_S0 d : wf_span (S0 d).
Proof. destruct W0. destruct d; auto. Qed.

Lemma inw_later e e2 p : later e e2 -> inw e p -> inw e2 p.
Proof.
  intros L H d. destruct (L d) as (A & B). destruct (H d) as [X|X]; [left; auto|right].
  pose proof (reach_mono _ (wf_S0 d) _ _ A). lia.
Qed.

Lemma good_step e e2 c shift color skip next t' n :
  good e c -> step_local e e2 shift color skip n ->
  erase e2 = t' -> rs_step (erase e) shift color skip = (t', n) ->
  M (c_state c) (et_scan e) = Some (color, shift, next) -> (skip = true -> next = c_state c) ->
  later e e2 /\ exists d, steps M (Z.to_nat n) c = Some d /\ c_state d = next /\ good e2 d
  /\ forall j, (j <= Z.to_nat n)%nat -> exists cj, steps M j c = Some cj /\ inw e2 (c_pos cj).
Proof.
  intros (WF & RP & OK) LOC ER EQ HM HS.
  destruct (rs_step_refines M (erase e) c shift color next skip t' n WF RP HM HS EQ)
    as (N & WF' & _ & d & E & RP' & ST & PD).
  assert (LT : later e e2).
  { intros x. destruct LOC as (A & B & _). rewrite A, B. split; [apply cs_off|apply cs_edge]. }
  assert (WE : forall x, ewf (espan e x)).
  { destruct WF as (A & B). apply ewf_erase in A, B. intros []; auto. }
  assert (WE2 : forall x, ewf (espan e2 x)).
  { rewrite <- ER in WF'. destruct WF' as (A & B). apply ewf_erase in A, B. intros []; auto. }
  destruct (step_sides (S0 shift) (S0 (negb shift)) e e2 shift color skip n
    (dist shift (c_pos c)) (dist (negb shift) (c_pos c)) (wf_S0 _) (wf_S0 _) (WE _) (WE2 _) LOC (OK _) (OK _))
    as (OK1 & OK2 & BD).
  assert (D1 : dist shift (c_pos c) - n = dist shift (c_pos d)).
  { unfold dist. rewrite PD. destruct shift; lia. }
  assert (D2 : dist (negb shift) (c_pos c) + n = dist (negb shift) (c_pos d)).
  { unfold dist. rewrite PD. destruct shift; cbn; lia. }
  rewrite D1 in OK1. rewrite D2 in OK2.
  split; [auto|]. exists d. split; [auto|]. split; [auto|]. split.
  - split; [rewrite ER; auto|]. split; [rewrite ER; auto|].
    intros x. destruct (Bool.bool_dec x shift) as [->|NE]; [auto|].
    replace x with (negb shift) by (destruct x, shift; auto; contradiction NE; auto). auto.
  - intros j L.
    assert (PD' : c_pos d = (if shift then c_pos c + Z.of_nat (Z.to_nat n) else c_pos c - Z.of_nat (Z.to_nat n)))
      by (rewrite Z2Nat.id by lia; auto).
    destruct (steps_straight M _ c d shift j E PD' L) as (cj & EJ & PJ). exists cj. split; [auto|].
    intros x. destruct (Bool.bool_dec x shift) as [->|NE].
    + destruct BD as [BD|BD]; [left; auto|right]. unfold dist in *. rewrite PJ. destruct shift; lia.
    + destruct (side_ok_here _ _ _ _ (wf_S0 x) (WE x) (OK x)) as [X|X].
      * left. apply LT. auto.
      * right. pose proof (reach_mono _ (wf_S0 x) _ _ (proj1 (LT x))).
        unfold dist in *. rewrite PJ. destruct x, shift; try lia; contradiction NE; auto.
Qed.

Lemma py_enum_run_good fresh : forall rounds e c q e2,
  good e c -> py_enum_run M fresh rounds (c_state c) e = Some (q, e2) ->
  later e e2 /\ exists k d, steps M k c = Some d /\ c_state d = q /\ good e2 d
  /\ forall j, (j <= k)%nat -> exists cj, steps M j c = Some cj /\ inw e2 (c_pos cj).
Proof.
  induction rounds as [|rounds IH]; intros e c q e2 G E.
  - cbn in E. inv E. split; [intros d; split; auto|]. exists 0%nat, c. split; [reflexivity|]. split; [auto|].
    split; [auto|]. intros j L. assert (j = 0%nat) by lia. subst. exists c. split; [reflexivity|].
    intros x. destruct G as (WF & RP & OK). apply side_ok_here; [apply wf_S0| |auto].
    destruct WF as (A & B). apply ewf_erase in A, B. destruct x; auto.
  - cbn in E. destruct (M (c_state c) (et_scan e)) as [[[color shift] next]|] eqn:HM; [|discriminate].
    set (skip := c_state c =? next) in *.
    destruct (py_step (erase e) shift color skip) as [t' n] eqn:PS.
    pose proof (py_estep_erase (fresh rounds) e shift color skip) as ER. rewrite PS in ER. cbn in ER.
    pose proof (py_estep_local (fresh rounds) e shift color skip (proj1 G)) as LOC. rewrite PS in LOC. cbn in LOC.
    rewrite py_rs_step in PS by apply G.
    destruct (good_step e _ c shift color skip next t' n G LOC ER PS HM) as (L1 & d1 & E1 & ST1 & G1 & W1).
    { unfold skip. intros X. zb. auto. }
    rewrite <- ST1 in E. destruct (IH _ _ _ _ G1 E) as (L2 & k & d & E2 & ST & G2 & W2).
    split; [intros x; destruct (L1 x), (L2 x); split; [lia|auto]|].
    exists (Z.to_nat n + k)%nat, d. split; [rewrite (steps_add_some _ _ _ _ _ E1); auto|].
    split; [auto|]. split; [auto|].
    intros j L. destruct (le_lt_dec j (Z.to_nat n)) as [LE|GT].
    + destruct (W1 j LE) as (cj & EJ & WJ). exists cj. split; [auto|]. eapply inw_later; eauto.
    + destruct (W2 (j - Z.to_nat n)%nat ltac:(lia)) as (cj & EJ & WJ). exists cj.
      replace j with (Z.to_nat n + (j - Z.to_nat n))%nat by lia. rewrite (steps_add_some _ _ _ _ _ E1). auto.
Qed.

Lemma rs_enum_run_good : forall rounds e c q e2,
  good e c -> rs_enum_run M rounds (c_state c) e = Some (q, e2) ->
  later e e2 /\ exists k d, steps M k c = Some d /\ c_state d = q /\ good e2 d
  /\ forall j, (j <= k)%nat -> exists cj, steps M j c = Some cj /\ inw e2 (c_pos cj).
Proof.
  induction rounds as [|rounds IH]; intros e c q e2 G E.
  - cbn in E. inv E. split; [intros d; split; auto|]. exists 0%nat, c. split; [reflexivity|]. split; [auto|].
    split; [auto|]. intros j L. assert (j = 0%nat) by lia. subst. exists c. split; [reflexivity|].
    intros x. destruct G as (WF & RP & OK). apply side_ok_here; [apply wf_S0| |auto].
    destruct WF as (A & B). apply ewf_erase in A, B. destruct x; auto.
  - cbn in E. destruct (M (c_state c) (et_scan e)) as [[[color shift] next]|] eqn:HM; [|discriminate].
    set (skip := c_state c =? next) in *.
    destruct (rs_step (erase e) shift color skip) as [t' n] eqn:PS.
    pose proof (rs_estep_erase e shift color skip) as ER. rewrite PS in ER. cbn in ER.
    pose proof (rs_estep_local e shift color skip (proj1 G)) as LOC. rewrite PS in LOC. cbn in LOC.
    destruct (good_step e _ c shift color skip next t' n G LOC ER PS HM) as (L1 & d1 & E1 & ST1 & G1 & W1).
    { unfold skip. intros X. zb. auto. }
    rewrite <- ST1 in E. destruct (IH _ _ _ _ G1 E) as (L2 & k & d & E2 & ST & G2 & W2).
    split; [intros x; destruct (L1 x), (L2 x); split; [lia|auto]|].
    exists (Z.to_nat n + k)%nat, d. split; [rewrite (steps_add_some _ _ _ _ _ E1); auto|].
    split; [auto|]. split; [auto|].
    intros j L. destruct (le_lt_dec j (Z.to_nat n)) as [LE|GT].
    + destruct (W1 j LE) as (cj & EJ & WJ). exists cj. split; [auto|]. eapply inw_later; eauto.
    + destruct (W2 (j - Z.to_nat n)%nat ltac:(lia)) as (cj & EJ & WJ). exists cj.
      replace j with (Z.to_nat n + (j - Z.to_nat n))%nat by lia. rewrite (steps_add_some _ _ _ _ _ E1). auto.
Qed.

Lemma good_init c : represents t0 c -> c_pos c = pos0 -> good (to_enum t0) c.
Proof.
  intros R P. split; [rewrite erase_to_enum; auto|]. split; [rewrite erase_to_enum; auto|].
  intros d. right. exists [], 0%nat. split; [destruct d; reflexivity|]. split; [lia|].
  unfold dist. rewrite P. destruct d; cbn [esum]; change (reach (S0 true) 0) with 0; change (reach (S0 false) 0) with 0; lia.
Qed.

Lemma inw_window e p : inw e p <-> window t0 pos0 (et_loff e) (et_roff e) (et_ledge e) (et_redge e) p.
Proof.
  unfold inw, window, S0, dist. split.
  - intros H. pose proof (H false) as A. pose proof (H true) as B. cbn in A, B. split; [destruct A|destruct B]; auto; right; lia.
  - intros (A & B) []; cbn; [destruct B|destruct A]; auto; right; lia.
Qed.
End run.

Lemma window_dec t pos lo ro le re p : window t pos lo ro le re p \/ ~ window t pos lo ro le re p.
Proof.
  unfold window. destruct le, re;
    destruct (Z_le_dec (pos - reach (t_lspan t) lo) p); destruct (Z_le_dec p (pos + reach (t_rspan t) ro));
    intuition discriminate.
Qed.

Lemma enum_conclude M t c e q k d :
  represents t c -> wf_tape t ->
  steps M k c = Some d -> c_state d = q -> good t (c_pos c) e d ->
  (forall j, (j <= k)%nat -> exists cj, steps M j c = Some cj /\ inw t (c_pos c) e (c_pos cj)) ->
  let W := window t (c_pos c) (et_loff e) (et_roff e) (et_ledge e) (et_redge e) in
  exists k c', steps M k c = Some c' /\ c_state c' = q /\ represents (erase e) c'
    /\ (forall p, ~ W p -> c_tape c' p = c_tape c p)
    /\ depends_only_on M W k c.
Proof.
  intros RP WF E ST (WF' & RP' & _) H W.
  destruct (run_local_depends M W c k) as (A & B).
  - intros j L. destruct (H j L) as (cj & EJ & I). exists cj. split; [auto|]. apply inw_window; auto.
  - intros p. apply window_dec.
  - exists k, d. repeat split; auto.
Qed.

Lemma py_enum_lemma M fresh rounds t c q e :
  wf_tape t -> represents t c ->
  py_enum_run M fresh rounds (c_state c) (to_enum t) = Some (q, e) ->
  let W := window t (c_pos c) (et_loff e) (et_roff e) (et_ledge e) (et_redge e) in
  exists k c', steps M k c = Some c' /\ c_state c' = q /\ represents (erase e) c'
    /\ (forall p, ~ W p -> c_tape c' p = c_tape c p)
    /\ depends_only_on M W k c.
Proof.
  intros WF RP E.
  destruct (py_enum_run_good M t (c_pos c) WF fresh rounds (to_enum t) c q e (good_init _ _ WF c RP eq_refl) E)
    as (_ & k & d & E2 & ST & G & H).
  exact (enum_conclude M t c e q k d RP WF E2 ST G H).
Qed.

Lemma rs_enum_lemma M rounds t c q e :
  wf_tape t -> represents t c ->
  rs_enum_run M rounds (c_state c) (to_enum t) = Some (q, e) ->
  let W := window t (c_pos c) (et_loff e) (et_roff e) (et_ledge e) (et_redge e) in
  exists k c', steps M k c = Some c' /\ c_state c' = q /\ represents (erase e) c'
    /\ (forall p, ~ W p -> c_tape c' p = c_tape c p)
    /\ depends_only_on M W k c.
Proof.
  intros WF RP E.
  destruct (rs_enum_run_good M t (c_pos c) WF rounds (to_enum t) c q e (good_init _ _ WF c RP eq_refl) E)
    as (_ & k & d & E2 & ST & G & H).
  exact (enum_conclude M t c e q k d RP WF E2 ST G H).
Qed.

(** ** Offsets stay within the spans *)
Section range.
Variable t : tape.

Definition tag_ok (o : option enums) : Prop :=
  match o with
  | None => True
  | Some (side, k) => (k <= length (if side then t_rspan t else t_lspan t))%nat
  end.
Definition tags_ok (s : list eblock) := Forall (fun b => tag_ok (eb_enum b)) s.
Definition offs_ok (e : etape) :=
  (et_loff e <= length (t_lspan t))%nat /\ (et_roff e <= length (t_rspan t))%nat.
Definition range_ok (e : etape) := tags_ok (et_l e) /\ tags_ok (et_r e) /\ offs_ok e.

Lemma check_offsets_ok e b : tag_ok (eb_enum b) -> offs_ok e -> offs_ok (check_offsets e b).
Proof.
  unfold check_offsets, offs_ok. intros H (A & B). destruct (eb_enum b) as [[[|] k]|]; cbn [et_loff et_roff]; auto;
    cbn in H; destruct (Nat.ltb _ _); auto.
Qed.

Lemma check_step_ok e shift color skip : range_ok e -> range_ok (check_step e shift color skip).
Proof.
  intros (L & R & O).
  assert (SL : et_l (check_step e shift color skip) = et_l e) by apply (cs_span e shift color skip false).
  assert (SR : et_r (check_step e shift color skip) = et_r e) by apply (cs_span e shift color skip true).
  unfold range_ok. rewrite SL, SR. split; [auto|]. split; [auto|].
  rewrite check_step_eq.
  assert (TS : forall d b r, espan e d = b :: r -> tag_ok (eb_enum b) /\ tags_ok r).
  { intros d b r E. destruct d; cbn in E; [rewrite E in R; inv R|rewrite E in L; inv L]; auto. }
  assert (G : offs_ok (check_pull e shift skip)).
  { unfold check_pull. destruct (espan e shift) as [|b r] eqn:E; [exact O|].
    destruct (TS _ _ _ E) as (T1 & T2). cbn zeta.
    destruct (_ && _); [|apply check_offsets_ok; auto].
    destruct r as [|s r]; [exact (check_offsets_ok _ _ T1 O)|].
    apply check_offsets_ok; [inv T2; auto|apply check_offsets_ok; auto]. }
  destruct (espan e (negb shift)) as [|b r] eqn:E; [exact G|]. destruct (_ =? _); [|exact G].
  apply check_offsets_ok; [|exact G]. eapply TS; eauto.
Qed.

Lemma py_estep_range fresh e shift color skip : tag_ok fresh -> range_ok e -> range_ok (py_estep fresh e shift color skip).
Proof.
  intros F H. apply (check_step_ok e shift color skip) in H. unfold py_estep.
  destruct (check_step e shift color skip) as [l sc r lo ro le re]. destruct H as (L & R & O). cbn in L, R.
  assert (G : forall s sc0 sc' s' pb n, tags_ok s -> py_epull s sc0 skip = (sc', s', pb, n) ->
    tags_ok s' /\ match pb with None => True | Some b => tag_ok (eb_enum b) end).
  { intros s sc0 sc' s' pb n T. unfold py_epull. destruct s as [|b s]; [intros E; inv E; auto|]. inv T.
    destruct (skip && _).
    - destruct s as [|c s]; [intros E; inv E; auto|]. inv H2. destruct (negb _); intros E; inv E; split; auto.
      constructor; auto.
    - destruct (negb _); intros E; inv E; split; auto. constructor; auto. }
  assert (P : forall s pb n, tags_ok s -> match pb with None => True | Some b => tag_ok (eb_enum b) end ->
    tags_ok (py_epush fresh s pb color n)).
  { intros s pb n T Q. unfold py_epush. destruct s as [|b s].
    - destruct (negb _); auto. constructor; [destruct pb; auto|constructor].
    - inv T. destruct (_ =? _); [constructor; auto|]. constructor; [destruct pb; auto|constructor; auto]. }
  cbn [et_l et_r et_scan]. destruct shift; destruct (py_epull _ _ _) as [[[sc' s'] pb] n] eqn:E;
    apply G in E; auto; destruct E as (E1 & E2); (split; [|split; [|exact O]]); cbn; auto.
Qed.

Lemma rs_estep_range e shift color skip : range_ok e -> range_ok (rs_estep e shift color skip).
Proof.
  intros H. apply (check_step_ok e shift color skip) in H. unfold rs_estep.
  destruct (check_step e shift color skip) as [l sc r lo ro le re]. destruct H as (L & R & O). cbn in L, R.
  assert (G : forall s sc0 sc' s' n, tags_ok s -> rs_epull s sc0 skip = (sc', s', n) -> tags_ok s').
  { intros s sc0 sc' s' n T. unfold rs_epull. destruct s as [|b s]; [intros E; inv E; auto|]. inv T.
    destruct (skip && _).
    - destruct s as [|c s]; [intros E; inv E; auto|]. inv H2. destruct (_ >? _); intros E; inv E; auto.
      constructor; auto.
    - destruct (_ >? _); intros E; inv E; auto. constructor; auto. }
  assert (P : forall s n, tags_ok s -> tags_ok (rs_epush s color n)).
  { intros s n T. unfold rs_epush. destruct s as [|b s].
    - destruct (negb _); auto. constructor; [exact I|constructor].
    - inv T. destruct (_ =? _); [constructor; auto|]. constructor; [exact I|constructor; auto]. }
  cbn [et_l et_r et_scan]. destruct shift; destruct (rs_epull _ _ _) as [[sc' s'] n] eqn:E;
    apply G in E; auto; (split; [|split; [|exact O]]); cbn; auto.
Qed.

Lemma to_enum_range : range_ok (to_enum t).
Proof.
  assert (G : forall (side : bool) (s : span) num n, (n + 1 = num + length s)%nat ->
    (n <= length (if side then t_rspan t else t_lspan t))%nat -> tags_ok (enumerate side num s)).
  { intros side s. induction s as [|b s IH]; intros num n E L; [constructor|].
    constructor; [cbn in *; lia|]. apply (IH (S num) n); auto. cbn in E. lia. }
  split; [|split; [|split; cbn; lia]]; cbn.
  - apply (G false _ 1%nat (length (t_lspan t))); lia.
  - apply (G true _ 1%nat (length (t_rspan t))); lia.
Qed.

Lemma rs_enum_range M : forall rounds q e q2 e2, range_ok e -> rs_enum_run M rounds q e = Some (q2, e2) -> range_ok e2.
Proof.
  induction rounds as [|rounds IH]; cbn; intros q e q2 e2 H E; [inv E; auto|].
  destruct (M _ _) as [[[color shift] next]|]; [|discriminate]. eapply IH; [|eauto]. apply rs_estep_range; auto.
Qed.

Lemma py_enum_range M fresh : (forall n, tag_ok (fresh n)) ->
  forall rounds q e q2 e2, range_ok e -> py_enum_run M fresh rounds q e = Some (q2, e2) -> range_ok e2.
Proof.
  intros F. induction rounds as [|rounds IH]; cbn; intros q e q2 e2 H E; [inv E; auto|].
  destruct (M _ _) as [[[color shift] next]|]; [|discriminate]. eapply IH; [|eauto]. apply py_estep_range; auto.
Qed.
End range.

Lemma rs_enum_offsets M rounds t q q' e :
  rs_enum_run M rounds q (to_enum t) = Some (q', e) ->
  (et_loff e <= length (t_lspan t))%nat /\ (et_roff e <= length (t_rspan t))%nat.
Proof. intros E. apply (rs_enum_range t M _ _ _ _ _ (to_enum_range t) E). Qed.

Lemma py_enum_offsets M (fresh : nat -> option enums) rounds t q q' e :
  (forall n (side : bool) k, fresh n = Some (side, k) -> (k <= length (if side then t_rspan t else t_lspan t))%nat) ->
  py_enum_run M fresh rounds q (to_enum t) = Some (q', e) ->
  (et_loff e <= length (t_lspan t))%nat /\ (et_roff e <= length (t_rspan t))%nat.
Proof.
  intros F E. apply (py_enum_range t M fresh) in E; [apply E| |apply to_enum_range].
  intros n. unfold tag_ok. destruct (fresh n) as [[side k]|] eqn:G; auto. eapply F; eauto.
Qed.
