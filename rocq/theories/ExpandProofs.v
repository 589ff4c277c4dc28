(** Lemmas about the compact notation. *)
From Verif Require Import Base TM ProgModel ParseModel ParseSpec ParseProofs ExpandModel ExpandSpec.

Definition pl (s : text) : Prop := Forall plain_char s.
Lemma cell_pl i s : compact_cell i s -> pl s /\ length s = 3%nat.
Proof.
  unfold compact_cell, pl. destruct i as [[[c sh] tr]|].
  - intros (A & B & ->). split; [|reflexivity]. repeat constructor; destruct sh; lia.
  - intros (a & b & c & -> & A & B & C & _). split; [|reflexivity]. repeat constructor; apply A || apply B || apply C.
Qed.
Lemma cell_expand i s : compact_cell i s -> cell_text i (expand_instr s).
Proof.
  unfold compact_cell, expand_instr, cell_text. destruct i as [[[c sh] tr]|].
  - intros (A & B & ->). destruct sh; cbn [existsb];
      repeat match goal with |- context [?a =? ?b] => destruct (Z.eqb_spec a b); [lia|] end; (split; [exact A|split; [lia|reflexivity]]).
  - intros (a & b & c & -> & _ & _ & _ & X).
    assert (E : forall k, In k [a; b; c] -> existsb (Z.eqb k) [a; b; c] = true).
    { intros k Y. apply existsb_exists. exists k. split; [exact Y|apply Z.eqb_refl]. }
    destruct X as [X|X]; rewrite (E _ X); [rewrite Bool.orb_true_r|]; reflexivity.
Qed.
Lemma row_pl r s : compact_row r s -> pl s /\ s <> [].
Proof.
  induction 1 as [i s C|i s r t C R [IH1 IH2]].
  - destruct (cell_pl _ _ C) as [A B]. split; [exact A|]. intros ->. discriminate.
  - destruct (cell_pl _ _ C) as [A B]. split; [apply Forall_app; auto|]. destruct s; discriminate.
Qed.
Lemma row_expand r s : compact_row r s -> row_text r (join [SPACE] (map expand_instr (chunks s))).
Proof.
  induction 1 as [i s C|i s r t C R IH]; pose proof (cell_expand _ _ C) as E; destruct (cell_pl _ _ C) as [_ L];
    destruct s as [|a [|b [|c [|d s]]]]; try discriminate L.
  - apply (row_one _ _ E).
  - cbn [app chunks map]. assert (N : chunks t <> []) by (destruct (row_pl _ _ R) as [_ N]; destruct t as [|? [|? [|? ?]]]; [congruence| | | ]; discriminate).
    destruct (chunks t) as [|x l] eqn:X; [congruence|]. cbn [map] in *. apply (row_cons _ _ _ _ E IH).
Qed.
Lemma split_last s : pl s -> split_rows s = [s].
Proof. induction 1 as [|c s [_ A] F IH]; [reflexivity|]. cbn. destruct (Z.eqb_spec c 95); [congruence|]. now rewrite IH. Qed.
Lemma split_cons s t : pl s -> split_rows (s ++ 95 :: t) = s :: split_rows t.
Proof. induction 1 as [|c s [_ A] F IH]; [reflexivity|]. cbn. destruct (Z.eqb_spec c 95); [congruence|]. now rewrite IH. Qed.
Lemma split_some s : split_rows s <> [].
Proof. destruct s as [|c s]; cbn; [discriminate|]. destruct (c =? 95); [discriminate|]. destruct (split_rows s); discriminate. Qed.
Lemma prog_expand g s : compact_text g s ->
  prog_text g (join [SPACE; SPACE] (map (fun st => join [SPACE] (map expand_instr (chunks st))) (split_rows s))).
Proof.
  induction 1 as [r s R|r s g t R G IH]; pose proof (row_expand _ _ R) as E; destruct (row_pl _ _ R) as [P _].
  - rewrite split_last by exact P. apply (prog_one _ _ E).
  - change ([95] ++ t) with (95 :: t). rewrite split_cons by exact P. cbn [map]. pose proof (split_some t) as N.
    destruct (split_rows t) as [|x l]; [congruence|]. cbn [map] in *. apply (prog_cons _ _ _ _ E IH).
Qed.

(** ** White space around *)
Definition inner (s : text) : Prop := Forall (fun c => 33 <= c < 127) s.
Lemma prog_inner g s : compact_text g s -> inner s /\ s <> [].
Proof.
  assert (K : forall r s, compact_row r s -> inner s /\ s <> []).
  { intros r' s' R. destruct (row_pl _ _ R) as [A B]. split; [|exact B]. eapply Forall_impl; [|exact A]. intros c [X _]; exact X. }
  induction 1 as [r s R|r s g t R G [IH _]]; [eauto|]. destruct (K _ _ R) as [A B]. split.
  - apply Forall_app. split; [exact A|]. constructor; [lia|exact IH].
  - destruct s; [congruence|discriminate].
Qed.
Lemma inner_space c : 33 <= c < 127 -> py_space c = false.
Proof.
  intros X. unfold py_space.
  repeat match goal with
  | |- context [?a <=? ?b] => destruct (Z.leb_spec a b); try lia
  | |- context [?a =? ?b] => destruct (Z.eqb_spec a b); try lia
  end; reflexivity.
Qed.
Lemma lstrip_pre a s : line_space a -> lstrip (a ++ s) = lstrip s.
Proof. induction 1 as [|c a [->|[->| ->]] F IH]; cbn; auto. Qed.
Lemma lstrip_inner s t : inner s -> s <> [] -> lstrip (s ++ t) = s ++ t.
Proof. intros [|c s' X F] N; [congruence|]. cbn. now rewrite inner_space. Qed.
Lemma strip_around a s b : line_space a -> line_space b -> inner s -> s <> [] -> strip (a ++ s ++ b) = s.
Proof.
  intros A B I0 N. unfold strip. rewrite lstrip_pre by exact A. rewrite lstrip_inner by assumption. rewrite rev_app_distr.
  rewrite lstrip_pre by (apply Forall_rev; exact B).
  rewrite <- (app_nil_r (rev s)), lstrip_inner.
  - now rewrite app_nil_r, rev_involutive.
  - apply Forall_rev; exact I0.
  - intros E. apply N. rewrite <- (rev_involutive s), E. reflexivity.
Qed.
Lemma no_space a s b : line_space a -> line_space b -> inner s -> existsb (Z.eqb SPACE) (a ++ s ++ b) = false.
Proof.
  intros A B I0. destruct (existsb _ _) eqn:E; [|reflexivity]. apply existsb_exists in E as (c & X & Y). apply Z.eqb_eq in Y.
  unfold SPACE in Y. subst c. exfalso. rewrite !in_app_iff in X. destruct X as [X|[X|X]].
  - unfold line_space in A. rewrite Forall_forall in A. destruct (A _ X) as [?|[?|?]]; lia.
  - unfold inner in I0. rewrite Forall_forall in I0. specialize (I0 _ X). cbn in I0. lia.
  - unfold line_space in B. rewrite Forall_forall in B. destruct (B _ X) as [?|[?|?]]; lia.
Qed.

Theorem expand_ok g s a b : compact_text g s -> line_space a -> line_space b ->
  exists e p, expand (a ++ s ++ b) = Some e /\ prog_text g e /\ from_str e = Some p /\ forall sl, comp_get p sl = table_get g sl.
Proof.
  intros G A B. destruct (prog_inner _ _ G) as [I0 N]. pose proof (prog_expand _ _ G) as P.
  destruct (parse_table _ _ P) as (p & Q & R). do 2 eexists. split; [|split; [exact P|split; [exact Q|exact R]]].
  unfold expand. now rewrite no_space, strip_around.
Qed.
