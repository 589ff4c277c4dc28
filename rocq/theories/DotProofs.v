(** * Proofs about tools/dot.py *)
From Verif Require Import Base TM ProgModel ParseModel NormModel GraphModel CModel CSpec DotModel DotSpec.
Local Open Scope string_scope.

Definition name_char (c : Z) : Prop := 65 <= c <= 90 \/ c = 95.

Lemma lex_name c r : name_char c -> dot_lex Between (c :: 32 :: r) = prefixed (DId [c]) (dot_lex Between r).
Proof.
  unfold name_char. intros H. cbn [dot_lex]. unfold dot_blank, dot_sign, id_start, id_char, existsb.
  replace (c =? 32) with false by lia. replace (c =? 10) with false by lia. replace (c =? 34) with false by lia.
  replace (c =? 45) with false by lia.
  replace (c =? 123) with false by lia. replace (c =? 125) with false by lia. replace (c =? 91) with false by lia.
  replace (c =? 93) with false by lia. replace (c =? 61) with false by lia. replace (c =? 59) with false by lia.
  replace (c =? 44) with false by lia. cbn [orb].
  replace (_ && _) with true by (destruct H as [H| ->]; [|reflexivity]; lia). reflexivity.
Qed.

Lemma lex_string r : forall w u, dot_quotable w ->
  dot_lex (InString u) (w ++ 34 :: r) = prefixed (DId (rev u ++ w)) (dot_lex Between r).
Proof.
  induction w as [|c w IH]; intros u Q.
  - rewrite app_nil_r. reflexivity.
  - inversion Q as [|? ? [A B] Q']; subst. cbn [app dot_lex].
    replace (c =? 34) with false by lia. replace (c =? 92) with false by lia. rewrite IH by auto.
    cbn [rev]. rewrite <- app_assoc. reflexivity.
Qed.

(** The signs of one edge. *)
Definition edge_toks (a b : Z) (color : text) : list dtok :=
  [DId [a]; DArrow; DId [b]; DSym 91; DId (lit "color"); DSym 61; DId (32 :: color); DSym 93; DSym 59].

Lemma prefixed_some k ks : prefixed k (Some ks) = Some (k :: ks).
Proof. reflexivity. Qed.

Lemma lex_color i color r : nth_error COLORS i = Some color ->
  dot_lex Between (lit "[ color="" " ++ color ++ lit """ ];" ++ r)
  = option_map (app [DSym 91; DId (lit "color"); DSym 61; DId (32 :: color); DSym 93; DSym 59]) (dot_lex Between r).
Proof.
  intros H.
  transitivity (prefixed (DSym 91) (prefixed (DId (lit "color")) (prefixed (DSym 61) (prefixed (DId (32 :: color))
       (prefixed (DSym 93) (prefixed (DSym 59) (dot_lex Between r))))))); [|destruct (dot_lex Between r); reflexivity].
  destruct i as [|[|[|[|[|[|[|[|i]]]]]]]]; cbn in H; try (destruct i; discriminate); inversion H; subst; clear H; reflexivity.
Qed.

Lemma lex_indent x : dot_lex Between (lit "  " ++ x) = dot_lex Between x.
Proof. reflexivity. Qed.
Lemma lex_arrow x : dot_lex Between (lit "-> " ++ x) = prefixed DArrow (dot_lex Between x).
Proof. reflexivity. Qed.
Lemma cut_arrow a x : [a] ++ lit " -> " ++ x = a :: 32 :: lit "-> " ++ x.
Proof. reflexivity. Qed.
Lemma cut_color a x : [a] ++ lit " [ color="" " ++ x = a :: 32 :: lit "[ color="" " ++ x.
Proof. reflexivity. Qed.

Lemma lex_edge node i target e r : name_char (show_state (Some node)) -> name_char (show_state (Some target)) ->
  dot_edge node i target = Some e -> exists color, nth_error COLORS i = Some color /\
  dot_lex Between (e ++ r) = option_map (app (edge_toks (show_state (Some node)) (show_state (Some target)) color)) (dot_lex Between r).
Proof.
  unfold dot_edge. intros N T H. destruct (nth_error COLORS i) as [color|] eqn:C; [|discriminate].
  exists color. split; auto.
  match type of H with Some ?x = Some e => assert (X : e = x) by exact (f_equal (fun o => match o with Some y => y | None => e end) (eq_sym H)); rewrite X; clear X H end.
  rewrite <- !app_assoc. rewrite lex_indent, cut_arrow, cut_color, lex_name, lex_arrow, lex_name, (lex_color i) by auto.
  generalize (dot_lex Between r). intros [l|]; reflexivity.
Qed.

(** ** All edges *)

(** Node, column, target. *)
Fixpoint row_triples (node : Z) (i : nat) (targets : list (option Z)) : list (Z * nat * Z) :=
  match targets with
  | [] => []
  | None :: targets => row_triples node (S i) targets
  | Some target :: targets => (node, i, target) :: row_triples node (S i) targets
  end.
Definition triples (arrows : list (Z * list (option Z))) : list (Z * nat * Z) :=
  flat_map (fun e => row_triples (fst e) 0 (snd e)) arrows.

Definition writes (tr : Z * nat * Z) (e : text) : Prop := let '(n, i, t) := tr in dot_edge n i t = Some e.

Lemma dot_row_writes node : forall targets i, (forall c t, In (node, c, t) (row_triples node i targets) -> (c < 8)%nat) ->
  exists es, dot_row node i targets = Some es /\ Forall2 writes (row_triples node i targets) es.
Proof.
  induction targets as [|[t|] targets IH]; intros i H; cbn [dot_row row_triples] in *.
  - exists []. split; auto.
  - destruct (IH (S i)) as (es & -> & F); [intros c t' X; apply (H c t'); right; auto|].
    assert (L : (i < 8)%nat) by (apply (H i t); left; auto).
    assert (E : exists e, dot_edge node i t = Some e).
    { unfold dot_edge. destruct (nth_error COLORS i) eqn:C; [eauto|]. apply nth_error_None in C.
      change (length COLORS) with 8%nat in C. lia. }
    destruct E as (e & E). rewrite E. exists (e :: es). split; [reflexivity|]. constructor; [exact E|exact F].
  - apply IH. auto.
Qed.

Lemma dot_edges_write arrows : (forall n c t, In (n, c, t) (triples arrows) -> (c < 8)%nat) ->
  exists ls, map_opt (fun e => dot_row (fst e) 0 (snd e)) arrows = Some ls /\ Forall2 writes (triples arrows) (concat ls).
Proof.
  unfold triples. induction arrows as [|[n row] arrows IH]; intros H; cbn [map_opt flat_map fst snd] in *.
  - exists []. split; [reflexivity|constructor].
  - destruct (dot_row_writes n row 0) as (es & -> & F). { intros c t X. apply (H n c t). apply in_or_app; auto. }
    destruct IH as (ls & -> & G). { intros n' c t X. apply (H n' c t). apply in_or_app; auto. }
    exists (es :: ls). split; auto. cbn [concat]. apply Forall2_app; auto.
Qed.

Definition named (tr : Z * nat * Z) : Prop :=
  let '(n, i, t) := tr in name_char (show_state (Some n)) /\ name_char (show_state (Some t)).
Definition triple_toks (tr : Z * nat * Z) : list dtok :=
  let '(n, i, t) := tr in edge_toks (show_state (Some n)) (show_state (Some t)) (nth i COLORS []).

Lemma lex_edges r : forall trs es, Forall2 writes trs es -> Forall named trs ->
  dot_lex Between (join nl es ++ nl ++ r) = option_map (app (flat_map triple_toks trs)) (dot_lex Between r).
Proof.
  intros trs es F. induction F as [|[[n i] t] e trs es W F IH]; intros N.
  - change (dot_lex Between (join nl [] ++ nl ++ r)) with (dot_lex Between r). cbn [flat_map].
    generalize (dot_lex Between r). intros [l|]; reflexivity.
  - inversion N as [|? ? AB N']; subst. cbn [named] in AB. destruct AB as [A B]. cbn [writes] in W.
    assert (J : exists r', join nl (e :: es) ++ nl ++ r = e ++ nl ++ r' /\ dot_lex Between r' = dot_lex Between (join nl es ++ nl ++ r)).
    { destruct es as [|e' es]; [exists r; split; [reflexivity|]; reflexivity|].
      exists (join nl (e' :: es) ++ nl ++ r). split; auto.
      change (join nl (e :: e' :: es)) with (e ++ nl ++ join nl (e' :: es)). rewrite <- !app_assoc. reflexivity. }
    destruct J as (r' & -> & J). destruct (lex_edge n i t e (nl ++ r') A B W) as (color & C & ->).
    change (dot_lex Between (nl ++ r')) with (dot_lex Between r'). rewrite J, IH by auto.
    cbn [flat_map triple_toks]. rewrite (nth_error_nth _ _ _ C).
    generalize (dot_lex Between r). intros [l|]; cbn [option_map]; [|reflexivity]. rewrite app_assoc. reflexivity.
Qed.

(** ** The whole graph *)

Definition triple_edge (tr : Z * nat * Z) : text * text * text :=
  let '(n, i, t) := tr in ([show_state (Some n)], [show_state (Some t)], nth i COLORS []).

Lemma stmts_edges : forall trs, (forall n i t, In (n, i, t) trs -> (i < 8)%nat) ->
  dot_stmts (flat_map triple_toks trs ++ [DSym 125]) = Some (DG [] (map triple_edge trs)).
Proof.
  induction trs as [|[[n i] t] trs IH]; intros H; [reflexivity|].
  assert (L : (i < 8)%nat) by (apply (H n i t); left; auto).
  specialize (IH (fun n i t X => H n i t (or_intror X))).
  cbn [flat_map triple_toks map triple_edge]. unfold edge_toks at 1. cbn [app dot_stmts].
  change (text_eqb (lit "color") (str "color")) with true. cbn iota. rewrite IH. cbn [dg_attrs dg_edges].
  do 8 (destruct i as [|i]; [reflexivity|]). lia.
Qed.

Definition head_toks (prog : text) : list dtok :=
  if (length prog <? 50)%nat then
    [DId (lit "labelloc"); DSym 61; DId (lit "t"); DSym 59; DId (lit "label"); DSym 61; DId prog; DSym 59;
     DId (lit "fontname"); DSym 61; DId (lit "courier")]
  else [].

Lemma lex_label x : dot_lex Between (lit "  label=""" ++ x) = prefixed (DId (lit "label")) (prefixed (DSym 61) (dot_lex (InString []) x)).
Proof. reflexivity. Qed.
Lemma lex_loc x : dot_lex Between (lit "  labelloc=""t"";" ++ nl ++ x)
  = prefixed (DId (lit "labelloc")) (prefixed (DSym 61) (prefixed (DId (lit "t")) (prefixed (DSym 59) (dot_lex Between x)))).
Proof. reflexivity. Qed.
Lemma lex_font x : dot_lex Between (lit ";" ++ nl ++ lit "  fontname=""courier""" ++ x)
  = prefixed (DSym 59) (prefixed (DId (lit "fontname")) (prefixed (DSym 61) (prefixed (DId (lit "courier")) (dot_lex Between x)))).
Proof. reflexivity. Qed.
Lemma cut_quote x : lit """;" ++ x = 34 :: lit ";" ++ x.
Proof. reflexivity. Qed.

Lemma lex_header prog r : dot_quotable prog ->
  dot_lex Between (dot_header prog ++ nl ++ nl ++ r) = option_map (app (head_toks prog)) (dot_lex Between r).
Proof.
  intros Q. unfold dot_header, head_toks. destruct (length prog <? 50)%nat.
  - cbn [join]. rewrite <- !app_assoc. rewrite lex_loc, lex_label, cut_quote, lex_string, lex_font by auto.
    change (dot_lex Between (nl ++ nl ++ r)) with (dot_lex Between r).
    generalize (dot_lex Between r). intros [l|]; reflexivity.
  - change (dot_lex Between ([] ++ nl ++ nl ++ r)) with (dot_lex Between r).
    generalize (dot_lex Between r). intros [l|]; reflexivity.
Qed.

Lemma lex_digraph x : dot_lex Between (lit "digraph NAME {" ++ nl ++ x)
  = prefixed (DId (lit "digraph")) (prefixed (DId (lit "NAME")) (prefixed (DSym 123) (dot_lex Between x))).
Proof. reflexivity. Qed.

Lemma stmts_head prog ks g : dot_stmts ks = Some g ->
  (forall d, ks <> DArrow :: d) ->
  exists attrs, dot_stmts (head_toks prog ++ ks) = Some (DG (attrs ++ dg_attrs g) (dg_edges g))
    /\ attrs = if (length prog <? 50)%nat then [(lit "labelloc", lit "t"); (lit "label", prog); (lit "fontname", lit "courier")] else [].
Proof.
  intros E _. unfold head_toks. destruct (length prog <? 50)%nat; cbn [app dot_stmts]; rewrite E; destruct g; (eexists; split; [|reflexivity]); reflexivity.
Qed.

(** ** The edges drawn *)

Lemma enum_least {A} (x : Z * list A) (l : list (list A)) : forall k, fst x < k -> key_insert x (enum k l) = x :: enum k l.
Proof. intros k L. destruct l as [|y l]; [reflexivity|]. cbn. replace (fst x <=? k) with true by lia. reflexivity. Qed.
Lemma enum_sorted {A} (l : list (list A)) : forall k, key_sorted (enum k l) = enum k l.
Proof.
  unfold key_sorted. induction l as [|x l IH]; intros k; [reflexivity|]. cbn [enum fold_right]. rewrite IH. apply enum_least. cbn. lia.
Qed.

Lemma in_row node n c t : forall targets i, In (n, c, t) (row_triples node i targets) <->
  n = node /\ exists k, c = (i + k)%nat /\ nth_error targets k = Some (Some t).
Proof.
  induction targets as [|[x|] targets IH]; intros i; cbn [row_triples].
  - split; [intros []|]. intros (_ & [|k] & _ & E); discriminate.
  - cbn [In]. rewrite IH. split.
    + intros [E|(-> & k & -> & E)].
      * inversion E; subst. split; auto. exists 0%nat. split; [lia|reflexivity].
      * split; auto. exists (S k). split; [lia|exact E].
    + intros (-> & [|k] & -> & E).
      * left. cbn in E. inversion E; subst. f_equal. f_equal. lia.
      * right. split; auto. exists k. split; [lia|exact E].
  - rewrite IH. split; intros (-> & k & -> & E); split; auto.
    + exists (S k). split; [lia|exact E].
    + destruct k as [|k]; [discriminate|]. exists k. split; [lia|exact E].
Qed.

Lemma in_triples n c t : forall (rows : list (list (option Z))) k, In (n, c, t) (triples (enum k rows)) <->
  exists s row, n = k + Z.of_nat s /\ nth_error rows s = Some row /\ nth_error row c = Some (Some t).
Proof.
  unfold triples. induction rows as [|row rows IH]; intros k; cbn [enum flat_map fst snd].
  - split; [intros []|]. intros ([|s] & row & _ & E & _); discriminate.
  - rewrite in_app_iff, in_row, IH. split.
    + intros [(-> & j & -> & E)|(s & r & -> & E & F)].
      * exists 0%nat, row. split; [lia|]. split; [reflexivity|exact E].
      * exists (S s), r. split; [lia|]. split; [exact E|exact F].
    + intros ([|s] & r & -> & E & F).
      * left. split; [lia|]. exists c. split; auto. cbn in E. inversion E; subst. exact F.
      * right. exists s, r. split; [lia|]. split; [exact E|exact F].
Qed.

Lemma in_arrows g n c t : In (n, c, t) (triples (arrows_of g)) <-> exists s, n = Z.of_nat s /\ leads_to g s c t.
Proof.
  unfold arrows_of. rewrite in_triples. unfold leads_to. split.
  - intros (s & row & -> & E & F). exists s. split; [lia|]. rewrite nth_error_map in E.
    destruct (nth_error g s) as [r|] eqn:G; [|discriminate]. inversion E; subst. rewrite nth_error_map in F.
    destruct (nth_error r c) as [[[[pr sh] tr]|]|] eqn:R; inversion F; subst. eauto 6.
  - intros (s & -> & row & pr & sh & E & F). exists s, (map (option_map (fun i : instr => snd i)) row). split; [lia|].
    rewrite !nth_error_map, E, F. split; reflexivity.
Qed.

Lemma nodup_row (f : Z * nat * Z -> text * text * text) node : forall targets i,
  (forall c c' t t', In (node, c, t) (row_triples node i targets) -> In (node, c', t') (row_triples node i targets) ->
     f (node, c, t) = f (node, c', t') -> c = c') ->
  NoDup (map f (row_triples node i targets)).
Proof.
  induction targets as [|[x|] targets IH]; intros i H; cbn [row_triples map]; [constructor| |].
  - constructor.
    + intros X. apply in_map_iff in X. destruct X as ([[n c] t] & E & X). pose proof X as Y. apply in_row in Y.
      destruct Y as (-> & k & -> & _). symmetry in E. apply H in E; [lia|left; reflexivity|right; exact X].
    + apply IH. intros c c' t t' A B. apply H; right; auto.
  - apply IH. exact H.
Qed.

Lemma nodup_app {A} (l m : list A) : NoDup l -> NoDup m -> (forall x, In x l -> ~ In x m) -> NoDup (l ++ m).
Proof.
  induction l as [|x l IH]; intros L M D; auto. inversion L; subst. cbn. constructor.
  - rewrite in_app_iff. intros [X|X]; [auto|]. apply (D x); [left|]; auto.
  - apply IH; auto. intros y Y. apply D. right. auto.
Qed.

Lemma nodup_triples (f : Z * nat * Z -> text * text * text) : forall (rows : list (list (option Z))) k,
  (forall n n' c c' t t', In (n, c, t) (triples (enum k rows)) -> In (n', c', t') (triples (enum k rows)) ->
     f (n, c, t) = f (n', c', t') -> n = n' /\ c = c') ->
  NoDup (map f (triples (enum k rows))).
Proof.
  induction rows as [|row rows IH]; intros k H; [constructor|].
  change (triples (enum k (row :: rows))) with (row_triples k 0 row ++ triples (enum (k + 1) rows)) in *.
  rewrite map_app. apply nodup_app.
  - apply nodup_row. intros c c' t t' A B E. eapply (H k k c c' t t'); auto; apply in_or_app; auto.
  - apply IH. intros n n' c c' t t' A B. apply H; apply in_or_app; auto.
  - intros x X Y. apply in_map_iff in X. apply in_map_iff in Y. destruct X as ([[n c] t] & <- & X). destruct Y as ([[n' c'] t'] & E & Y).
    apply H in E; [|apply in_or_app; auto|apply in_or_app; auto]. apply in_row in X. apply in_triples in Y.
    destruct X as (-> & _). destruct Y as (s & r & -> & _). lia.
Qed.

Lemma colors_inj c c' : (c < 8)%nat -> (c' < 8)%nat -> nth c COLORS [] = nth c' COLORS [] -> c = c'.
Proof.
  intros A B. do 8 (destruct c as [|c]; [do 8 (destruct c' as [|c']; [first [reflexivity|intros E; vm_compute in E; discriminate E]|]); lia|]). lia.
Qed.

Lemma show_small s : 0 <= s < 26 \/ s = 30 -> show_state (Some s) = 65 + s.
Proof. intros H. cbn. rewrite (Z.mod_small s) by lia. rewrite Z.mod_small; lia. Qed.

Lemma make_dot_draws prog g : parse prog = Some g -> drawable g -> dot_quotable prog ->
  exists t d, make_dot prog = Some t /\ dot_read t = Some d /\ draws g d
    /\ (In (str "label", prog) (dg_attrs d) <-> (length prog < 50)%nat).
Proof.
  intros P [G D] Q.
  assert (S1 : forall n c t, In (n, c, t) (triples (arrows_of g)) -> (c < 8)%nat /\ 0 <= n < 26 /\ (0 <= t < 26 \/ t = 30)).
  { intros n c t X. apply in_arrows in X. destruct X as (s & -> & X). destruct (D _ _ _ X) as (A & B). split; auto. split; auto.
    destruct X as (row & _ & _ & E & _). assert (s < length g)%nat by (apply nth_error_Some; congruence). lia. }
  destruct (dot_edges_write (arrows_of g)) as (ls & E & W). { intros n c t X. apply S1 in X. tauto. }
  assert (ND : Forall named (triples (arrows_of g))).
  { apply Forall_forall. intros [[n c] t] X. apply S1 in X. unfold named, name_char. rewrite !show_small by tauto. lia. }
  assert (L : forall n c t, In (n, c, t) (triples (arrows_of g)) -> (c < 8)%nat) by (intros n c t X; apply S1 in X; tauto).
  pose proof (stmts_edges _ L) as ST.
  destruct (stmts_head prog _ _ ST) as (attrs & SH & AT).
  { intros d. destruct (triples (arrows_of g)) as [|[[? ?] ?] ?]; cbn; discriminate. }
  set (t := lit "digraph NAME {" ++ nl ++ dot_header prog ++ nl ++ nl ++ join nl (concat ls) ++ nl ++ lit "}").
  exists t, (DG (attrs ++ []) (map triple_edge (triples (arrows_of g)))).
  split; [|split; [|split]].
  - unfold make_dot. rewrite P. unfold dot_edges, arrows_of. rewrite enum_sorted. fold (arrows_of g). rewrite E. reflexivity.
  - unfold dot_read, t. rewrite lex_digraph, lex_header, (lex_edges _ _ _ W ND) by auto.
    change (dot_lex Between (lit "}")) with (Some [DSym 125]). cbn [option_map prefixed].
    change (text_eqb (lit "digraph") (str "digraph")) with true. cbn iota. exact SH.
  - clear t SH. unfold draws. cbn [dg_edges]. split.
    + unfold arrows_of in *. apply nodup_triples. intros n n' c c' u u' A B X. apply S1 in A. apply S1 in B.
      unfold triple_edge in X. rewrite !show_small in X by tauto.
      assert (65 + n = 65 + n') by congruence. assert (nth c COLORS [] = nth c' COLORS []) by congruence.
      split; [lia|]. apply colors_inj; tauto.
    + intros a b v. rewrite in_map_iff. split.
      * intros ([[n c] u] & X & I). pose proof (S1 _ _ _ I) as (C & N & U). apply in_arrows in I. destruct I as (s & -> & I).
        unfold triple_edge in X. rewrite !show_small in X by tauto. exists s, c, u. split; auto.
        inversion X; subst. split; auto. split; auto. clear - C.
        do 8 (destruct c as [|c]; [reflexivity|]). lia.
      * intros (s & c & u & I & -> & -> & V). exists (Z.of_nat s, c, u).
        assert (J : In (Z.of_nat s, c, u) (triples (arrows_of g))) by (apply in_arrows; eauto).
        split; auto. apply S1 in J. unfold triple_edge. rewrite !show_small by tauto. unfold state_name. f_equal.
        destruct J as (C & _). clear - C V. do 8 (destruct c as [|c]; [inversion V; reflexivity|]). lia.
  - cbn [dg_attrs]. rewrite app_nil_r, AT. destruct (Nat.ltb_spec (length prog) 50) as [LT|LT].
    + split; auto. intros _. right. left. reflexivity.
    + split; [intros []|lia].
Qed.
