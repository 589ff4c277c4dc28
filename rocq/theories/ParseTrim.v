(** * White space around a program text: proofs (C24) *)
From Verif Require Import Base TM ProgModel ParseModel.

(** A space, or one of the control characters from tab to carriage return. *)
Definition white (c : Z) : Prop := c = 32 \/ 9 <= c <= 13.

Lemma white_is c : white c -> is_whitespace c = true.
Proof.
  intros [->|H]; [reflexivity|]. unfold is_whitespace. assert (E : (9 <=? c) && (c <=? 13) = true) by (rewrite andb_true_iff, !Z.leb_le; lia).
  rewrite E. reflexivity.
Qed.

Lemma trim_skip w : forall x, Forall white w -> trim_start (w ++ x) = trim_start x.
Proof. induction w as [|c w IH]; intros x H; [reflexivity|]. inv H. cbn [app trim_start]. rewrite white_is by assumption. auto. Qed.

Lemma trim_all w : Forall white w -> trim_start w = [].
Proof. intro H. rewrite <- (app_nil_r w), trim_skip by exact H. reflexivity. Qed.

Lemma trim_app s : forall w, Forall white w ->
  trim_start (s ++ w) = match trim_start s with [] => [] | t => t ++ w end.
Proof.
  induction s as [|c s IH]; intros w H; cbn [app trim_start]; [apply trim_all; exact H|].
  destruct (is_whitespace c); [apply IH; exact H|reflexivity].
Qed.

Lemma trim_around w s w' : Forall white w -> Forall white w' -> trim (w ++ s ++ w') = trim s.
Proof.
  intros H H'. unfold trim. rewrite trim_skip by exact H. rewrite trim_app by exact H'.
  destruct (trim_start s) as [|c t]; [reflexivity|]. rewrite rev_app_distr, trim_skip; [reflexivity|].
  apply Forall_rev. exact H'.
Qed.

Lemma read_around w s w' : Forall white w -> Forall white w' -> from_str (w ++ s ++ w') = from_str s.
Proof. intros H H'. unfold from_str. rewrite trim_around; auto. Qed.
