From Verif Require Import Base PastModel PastSpec.

Lemma delta_loop_spec e d c b a is_ : (forall i, In i is_ -> 1 <= i <= 4) ->
  match delta_loop e d c b a is_ with
  | PPanic => False
  | PNone => True
  | PSome d1 d2 d3 => 0 <= d1 /\ 0 <= d2 /\ 0 <= d3 /\ extrapolates e d c b a d1 d2 d3
  end.
Proof.
  induction is_ as [|i is_ IH]; intros H; cbn [delta_loop]; auto.
  assert (H' : forall j, In j is_ -> 1 <= j <= 4) by (intros; apply H; right; auto).
  specialize (IH H').
  destruct (Z.eqb_spec (b - c * i - (c - d * i)) (a - b * i - (b - c * i))) as [E1|]; cbn [negb]; auto.
  destruct (Z.eqb_spec (c - d * i - (d - e * i)) (a - b * i - (b - c * i))) as [E2|]; cbn [negb]; auto.
  destruct (_ || _ || _) eqn:E3; auto. zb. split; [lia|]. split; [lia|]. split; [lia|].
  exists i, (d - i * e), (a - b * i - (b - c * i)).
  split; [apply H; left; auto|]. repeat split; try lia.
Qed.

(** Last [n] elements. *)
Definition lastn (n : nat) (l : list Z) : list Z := skipn (length l - n) l.


Definition held (s0 c0 : Z) (cs : list pcall) (m : past_configs) : Prop :=
  forall s, match events s0 c0 s cs with
            | [] => pcs_get m s = None
            | ev => pcs_get m s = Some (lastn 4 ev)
            end.

Lemma pcs_get_remove m s s' : pcs_get (pcs_remove m s) s' = if s =? s' then None else pcs_get m s'.
Proof.
  unfold pcs_remove in *. induction m as [|[k v] m IH]; cbn; [destruct (s =? s'); auto|].
  destruct (Z.eqb_spec k s) as [->|N]; cbn [negb].
  - cbn. rewrite IH. destruct (Z.eqb_spec s s'); auto.
  - cbn. destruct (Z.eqb_spec k s') as [->|N'].
    + destruct (Z.eqb_spec s s'); [congruence|auto].
    + auto.
Qed.

Lemma pcs_get_set m s v s' : pcs_get (pcs_set m s v) s' = if s =? s' then Some v else pcs_get m s'.
Proof. unfold pcs_set. cbn. destruct (Z.eqb_spec s s') as [->|N]; auto. rewrite pcs_get_remove. bdestr; congruence. Qed.

Lemma next_on_events l c : l <> [] ->
  fst (pc_next_deltas (lastn 4 l) c) = lastn 4 (l ++ [c])
  /\ match snd (pc_next_deltas (lastn 4 l) c) with
     | PPanic => False
     | PNone => True
     | PSome d1 d2 d3 => 0 <= d1 /\ 0 <= d2 /\ 0 <= d3
         /\ exists pre w x y z, l ++ [c] = pre ++ [w; x; y; z; c] /\ extrapolates w x y z c d1 d2 d3
     end.
Proof.
  intros N. unfold lastn. rewrite app_length. cbn [length].
  destruct (le_lt_dec (length l) 3) as [L|L].
  - replace (length l - 4)%nat with 0%nat by lia. replace (length l + 1 - 4)%nat with 0%nat by lia.
    cbn [skipn]. unfold pc_next_deltas. rewrite app_length. cbn [length].
    replace (Nat.ltb (length l + 1) 5) with true by (symmetry; apply Nat.ltb_lt; lia). cbn [fst snd]. auto.
  - assert (E : exists pre w x y z, l = pre ++ [w; x; y; z]).
    { exists (firstn (length l - 4) l).
      pose proof (firstn_skipn (length l - 4) l) as F.
      assert (LS : length (skipn (length l - 4) l) = 4%nat) by (rewrite skipn_length; lia).
      destruct (skipn (length l - 4) l) as [|w [|x [|y [|z [|]]]]]; try discriminate.
      exists w, x, y, z. auto. }
    destruct E as (pre & w & x & y & z & ->).
    rewrite app_length. cbn [length]. replace (length pre + 4 - 4)%nat with (length pre) by lia.
    replace (length pre + 4 + 1 - 4)%nat with (length (pre ++ [w])) by (rewrite app_length; cbn; lia).
    rewrite skipn_app, Nat.sub_diag, skipn_all. cbn [app skipn].
    replace ((pre ++ [w; x; y; z]) ++ [c]) with ((pre ++ [w]) ++ [x; y; z; c]) by (rewrite <- !app_assoc; auto).
    rewrite skipn_app, Nat.sub_diag, skipn_all. cbn [app skipn].
    unfold pc_next_deltas. cbn [app length Nat.ltb Nat.leb fst snd]. split; auto.
    pose proof (delta_loop_spec w x y z c [1; 2; 3; 4]) as D.
    destruct (delta_loop w x y z c [1; 2; 3; 4]).
    + apply D. cbn. intuition lia.
    + auto.
    + destruct D as (A & B & C & D); [cbn; intuition lia|]. repeat split; auto.
      exists pre, w, x, y, z. split; auto. rewrite <- !app_assoc. auto.
Qed.

Lemma events_nonempty_step (l : list Z) c : l <> [] -> exists h t, l ++ [c] = h :: t.
Proof. destruct l; [congruence|]. cbn. eauto. Qed.

Lemma held_next s0 c0 cs m s c : held s0 c0 cs m ->
  held s0 c0 (CNext s c :: cs) (fst (pcs_next_deltas m s c))
  /\ match snd (pcs_next_deltas m s c) with
     | PPanic => False
     | PNone => True
     | PSome d1 d2 d3 => 0 <= d1 /\ 0 <= d2 /\ 0 <= d3
         /\ exists pre w x y z, events s0 c0 s (CNext s c :: cs) = pre ++ [w; x; y; z; c]
              /\ extrapolates w x y z c d1 d2 d3
     end.
Proof.
  intros H. pose proof (H s) as Hs. unfold pcs_next_deltas.
  set (cfg := match pcs_get m s with Some v => v | None => [c] end).
  assert (X : exists l, l <> [] /\ cfg = lastn 4 l /\ events s0 c0 s (CNext s c :: cs) = l ++ [c]).
  { cbn [events]. rewrite Z.eqb_refl. unfold cfg. destruct (events s0 c0 s cs) as [|h t] eqn:E.
    - rewrite Hs. exists [c]. repeat split; auto; discriminate.
    - rewrite Hs. exists (h :: t). repeat split; auto; discriminate. }
  destruct X as (l & Nl & Ec & El). rewrite Ec.
  destruct (next_on_events l c Nl) as (A & B).
  destruct (pc_next_deltas (lastn 4 l) c) as [cfg' r]. cbn [fst snd] in *. split.
  - intros s'. rewrite pcs_get_set. destruct (Z.eqb_spec s s') as [<-|N].
    + rewrite El. destruct (events_nonempty_step l c Nl) as (h & t & E). rewrite E. rewrite <- E. f_equal. exact A.
    + cbn [events]. replace (s =? s') with false by (symmetry; apply Z.eqb_neq; auto). apply H.
  - rewrite El. exact B.
Qed.

Lemma held_delete s0 c0 cs m s : held s0 c0 cs m -> held s0 c0 (CDelete s :: cs) (pcs_delete m s).
Proof.
  intros H s'. unfold pcs_delete. rewrite pcs_get_remove. cbn [events].
  destruct (Z.eqb_spec s s'); auto. apply H.
Qed.

Lemma held_new s0 c0 : held s0 c0 [] (pcs_new s0 c0).
Proof. intros s. cbn. destruct (s0 =? s); auto. Qed.

Lemma held_calls s0 c0 : forall cs past m, held s0 c0 past m -> held s0 c0 (rev cs ++ past) (pcs_calls m cs).
Proof.
  induction cs as [|c cs IH]; intros past m H; cbn; auto.
  rewrite <- app_assoc. cbn. apply IH. destruct c as [s c|s]; cbn [pcs_call].
  - apply held_next; auto.
  - apply held_delete; auto.
Qed.

Lemma past_configs_lemma s0 c0 cs s c :
  match snd (pcs_next_deltas (pcs_calls (pcs_new s0 c0) cs) s c) with
  | PPanic => False
  | PNone => True
  | PSome d1 d2 d3 => 0 <= d1 /\ 0 <= d2 /\ 0 <= d3
      /\ exists pre w x y z, events s0 c0 s (rev (cs ++ [CNext s c])) = pre ++ [w; x; y; z; c]
           /\ extrapolates w x y z c d1 d2 d3
  end.
Proof.
  pose proof (held_calls s0 c0 cs [] _ (held_new s0 c0)) as H. rewrite app_nil_r in H.
  rewrite rev_app_distr. apply (held_next _ _ _ _ s c H).
Qed.

Lemma past_configs_bounded s0 c0 cs s l :
  pcs_get (pcs_calls (pcs_new s0 c0) cs) s = Some l -> (1 <= length l <= 4)%nat.
Proof.
  pose proof (held_calls s0 c0 cs [] _ (held_new s0 c0) s) as H.
  destruct (events s0 c0 s (rev cs ++ [])) as [|h t]; rewrite H; intros E; inv E.
  unfold lastn. rewrite skipn_length. assert (1 <= length (h :: t))%nat by (cbn; lia). lia.
Qed.
