(** * Proofs about the texts of tapes (C90) *)
From Verif Require Import Base TapeModel TermRecModel NumModel ParseModel NumShowModel TapeShowModel TapeShowSpec MachLineProofs.
Local Open Scope string_scope.
Local Open Scope list_scope.
Local Open Scope Z_scope.

(** ** Pieces between spaces *)
Lemma spaces_inj : forall l1 l2, Forall (fr 32) l1 -> Forall (fr 32) l2 -> l1 <> [] -> l2 <> [] ->
  join (quoted " ") l1 = join (quoted " ") l2 -> l1 = l2.
Proof.
  assert (J : forall e d l, join (quoted " ") (e :: d :: l) = e ++ 32 :: join (quoted " ") (d :: l)) by (intros; reflexivity).
  assert (NO : forall (x : text) e d l, fr 32 x -> x = join (quoted " ") (e :: d :: l) -> False).
  { intros x e d l F ->. rewrite J in F. apply F. apply in_app_iff. right. left. reflexivity. }
  induction l1 as [|e1 [|d1 l1] IH]; intros [|e2 [|d2 l2]] F1 F2 N1 N2 E; try congruence.
  - cbn in E. congruence.
  - inv F1. cbn [join] in E. destruct (NO e1 e2 d2 l2); auto.
  - inv F2. symmetry in E. cbn [join] in E. destruct (NO e2 e1 d1 l1); auto.
  - rewrite !J in E. inversion F1 as [|? ? A1 B1]; subst. inversion F2 as [|? ? A2 B2]; subst.
    apply cut in E; [|assumption..]. destruct E as [-> E]. f_equal. apply IH; auto; discriminate.
Qed.

Definition block_text (num : Z -> text) (b : block) : text :=
  if b_count b =? 1 then str_int (b_color b) else str_int (b_color b) ++ 94 :: num (b_count b).
Definition tape_pieces (num : Z -> text) (t : tape) : list text :=
  map (block_text num) (rev (t_lspan t)) ++ [91 :: str_int (t_scan t) ++ [93]] ++ map (block_text num) (t_rspan t).

Section Num.
Variable num : Z -> text.
Variable ok : Z -> Prop.
Hypothesis num_inj : forall a b, ok a -> ok b -> num a = num b -> a = b.
Hypothesis num_fr : forall a, ok a -> fr 32 (num a).

Definition b_ok (b : block) : Prop := ok (b_count b).
Definition t_ok (t : tape) : Prop := Forall b_ok (t_lspan t) /\ Forall b_ok (t_rspan t).

Lemma block_text_inj a b : b_ok a -> b_ok b -> block_text num a = block_text num b -> a = b.
Proof.
  unfold block_text, b_ok. destruct a as [c n], b as [d m]. cbn [b_color b_count]. intros A B.
  assert (NO : forall c d x, str_int c <> str_int d ++ 94 :: x).
  { intros c' d' x E. apply (str_int_fr 94 c'); [lia|lia|]. rewrite E. apply in_app_iff. right. left. reflexivity. }
  destruct (Z.eqb_spec n 1) as [->|N], (Z.eqb_spec m 1) as [->|M]; intros E.
  - apply str_int_inj in E. congruence.
  - now apply NO in E.
  - symmetry in E. now apply NO in E.
  - apply cut in E; [|apply str_int_fr; lia..]. destruct E as [E1 E2]. apply str_int_inj in E1. apply num_inj in E2; congruence.
Qed.
Lemma blocks_inj : forall l1 l2, Forall b_ok l1 -> Forall b_ok l2 -> map (block_text num) l1 = map (block_text num) l2 -> l1 = l2.
Proof.
  induction l1 as [|a l1 IH]; intros [|b l2] F1 F2 E; try discriminate; [reflexivity|]. inv F1. inv F2. cbn [map] in E.
  f_equal; [apply block_text_inj; congruence|apply IH; congruence].
Qed.
Lemma block_text_fr b : b_ok b -> fr 32 (block_text num b).
Proof.
  intros B. unfold block_text. destruct (b_count b =? 1); [apply str_int_fr; lia|].
  apply fr_app; [apply str_int_fr; lia|]. intros [X|X]; [discriminate X|]. exact (num_fr _ B X).
Qed.
Lemma block_text_head b : exists c s, block_text num b = c :: s /\ c <> 91.
Proof.
  assert (S : exists c s, str_int (b_color b) = c :: s).
  { destruct (str_int (b_color b)) eqn:E; [|eauto]. exfalso. unfold str_int in E. destruct (b_color b <? 0) eqn:N; [discriminate E|].
    apply Z.ltb_ge in N. destruct (decimal_int (b_color b) N) as [_ V]. rewrite E in V. cbn in V. rewrite <- V in E. discriminate E. }
  destruct S as (c & s & E). assert (c <> 91).
  { intros ->. apply (str_int_fr 91 (b_color b)); [lia|lia|]. rewrite E. left. reflexivity. }
  unfold block_text. rewrite E. destruct (b_count b =? 1); eexists; eexists; (split; [reflexivity|assumption]).
Qed.
Lemma mid_inj : forall (l1 l2 : list block) a b r1 r2,
  map (block_text num) l1 ++ (91 :: a) :: r1 = map (block_text num) l2 ++ (91 :: b) :: r2 ->
  map (block_text num) l1 = map (block_text num) l2 /\ a = b /\ r1 = r2.
Proof.
  induction l1 as [|x l1 IH]; intros [|y l2] a b r1 r2 E; cbn [map app] in *.
  - inv E. auto.
  - destruct (block_text_head y) as (c & s & Y & N). rewrite Y in E. inv E. congruence.
  - destruct (block_text_head x) as (c & s & X & N). rewrite X in E. inv E. congruence.
  - injection E as E1 E2. destruct (IH l2 a b r1 r2 E2) as (-> & -> & ->). rewrite E1. auto.
Qed.
Lemma pieces_inj t u : t_ok t -> t_ok u -> join (quoted " ") (tape_pieces num t) = join (quoted " ") (tape_pieces num u) -> t = u.
Proof.
  intros [L1 R1] [L2 R2] E.
  assert (P : forall v, t_ok v -> Forall (fr 32) (tape_pieces num v) /\ tape_pieces num v <> []).
  { intros v [L R]. unfold tape_pieces. split; [|intros X; destruct (map (block_text num) (rev (t_lspan v))); discriminate X].
    assert (M : forall l, Forall b_ok l -> Forall (fr 32) (map (block_text num) l)).
    { intros l F. apply Forall_forall. intros x X. apply in_map_iff in X. destruct X as (b & <- & X). apply block_text_fr. rewrite Forall_forall in F. auto. }
    apply Forall_app. split; [apply M; apply Forall_rev; exact L|]. constructor; [|apply M, R].
    intros [X|X]; [discriminate X|]. apply in_app_iff in X. destruct X as [X|[X|[]]]; [|discriminate X].
    revert X. apply str_int_fr; lia. }
  apply spaces_inj in E; [|apply P; split; assumption..]. unfold tape_pieces in E. cbn [app] in E. apply mid_inj in E. destruct E as (EL & EM & ER).
  apply blocks_inj in EL; [|now apply Forall_rev..]. apply blocks_inj in ER; [|assumption..].
  apply app_inv_tail in EM. apply str_int_inj in EM.
  destruct t as [l s r], u as [l' s' r']. cbn [t_lspan t_scan t_rspan] in *. subst.
  rewrite <- (rev_involutive l), EL, rev_involutive. reflexivity.
Qed.
End Num.

Theorem rs_text_tells t u : rs_tape_text t = rs_tape_text u -> t = u.
Proof.
  assert (E : forall t, rs_tape_text t = join (quoted " ") (tape_pieces str_int t)).
  { intros v. unfold rs_tape_text, tape_pieces. rewrite <- map_rev. reflexivity. }
  rewrite !E. apply (pieces_inj str_int (fun _ => True)).
  - intros a b _ _. apply str_int_inj.
  - intros a _. apply str_int_fr; lia.
  - split; apply Forall_forall; intros; exact Logic.I.
  - split; apply Forall_forall; intros; exact Logic.I.
Qed.
Theorem head_text_tells h k : rs_head_text h = rs_head_text k -> h = k.
Proof.
  destruct h as [x t], k as [y u]. unfold rs_head_text. cbn [h_head h_tape]. intros E. apply (app_inv_head (quoted "(")) in E.
  apply (cut 41 _ _ (32 :: rs_tape_text t) (32 :: rs_tape_text u)) in E; [|apply str_int_fr; lia..].
  destruct E as [E1 E2]. apply str_int_inj in E1. inv E2. f_equal. now apply rs_text_tells.
Qed.

Lemma full_number order n : Z.abs n < 10 ^ 12 -> show_number order (I n) (str_int n) = str_int n.
Proof. intros S. unfold show_number, TRUNCATE_COUNT. destruct (Z.leb_spec (10 ^ 12) (Z.abs n)); [lia|reflexivity]. Qed.
Theorem texts_agree order t : full_counts t -> py_tape_text order t = rs_tape_text t.
Proof.
  intros F. unfold py_tape_text, rs_tape_text. rewrite <- map_rev.
  assert (M : forall l, Forall (fun b => Z.abs (b_count b) < 10 ^ 12) l -> map (py_block_text order) l = map rs_block_text l).
  { intros l FL. apply map_ext_in. intros b B. rewrite Forall_forall in FL. unfold py_block_text, rs_block_text. rewrite full_number by auto. reflexivity. }
  apply Forall_app in F. destruct F as [FL FR]. rewrite (M (rev (t_lspan t))) by now apply Forall_rev. rewrite (M (t_rspan t)) by assumption. reflexivity.
Qed.
Theorem py_text_tells order t u : full_counts t -> full_counts u -> py_tape_text order t = py_tape_text order u -> t = u.
Proof. intros F1 F2. rewrite !texts_agree by assumption. apply rs_text_tells. Qed.
