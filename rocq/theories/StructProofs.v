(** * Proofs about the programs of machines/structured: a checker that compares a program with a machine *)
From Verif Require Import Base TM TMFacts ProgModel ParseModel LinModel LinSpec StructModel StructSpec.
From Verif Require CProofs LinProofs.

(** ** Equality of programs *)

Fixpoint cond_eqb (a b : cond) : bool :=
  match a, b with
  | Always, Always => true
  | Scan c, Scan d => c =? d
  | Not a, Not b => cond_eqb a b
  | Or a a', Or b b' => cond_eqb a b && cond_eqb a' b'
  | _, _ => false
  end.
Lemma cond_eqb_eq a : forall b, cond_eqb a b = true -> a = b.
Proof.
  induction a as [|c|a IH|a IH a' IH']; intros [|d|b|b b'] E; cbn in E; try discriminate E; auto.
  - zb. congruence.
  - f_equal. auto.
  - zb. f_equal; auto.
Qed.

Definition list_eqb {A} (eqb : A -> A -> bool) : list A -> list A -> bool :=
  fix go a b := match a, b with
    | [], [] => true
    | x :: a, y :: b => eqb x y && go a b
    | _, _ => false
    end.
Lemma list_eqb_eq {A} (eqb : A -> A -> bool) a : Forall (fun x => forall y, eqb x y = true -> x = y) a ->
  forall b, list_eqb eqb a b = true -> a = b.
Proof.
  induction a as [|x a IH]; intros F [|y b] E; cbn in E; try discriminate E; auto.
  inversion F; subst. zb. f_equal; auto.
Qed.

Fixpoint stmt_eqb (a b : stmt) : bool :=
  match a, b with
  | Write c, Write d => c =? d
  | Move r, Move r' => Bool.eqb r r'
  | CheckRecur r, CheckRecur r' => Bool.eqb r r'
  | If b x y, If b' x' y' => cond_eqb b b' && list_eqb stmt_eqb x x' && list_eqb stmt_eqb y y'
  | While b x, While b' x' => cond_eqb b b' && list_eqb stmt_eqb x x'
  | DoWhile x b, DoWhile x' b' => cond_eqb b b' && list_eqb stmt_eqb x x'
  | Switch x, Switch x' =>
    list_eqb (fun c d : Z * list stmt => let '(c, s) := c in let '(d, t) := d in (c =? d) && list_eqb stmt_eqb s t) x x'
  | Break, Break | Continue, Continue | Return, Return | CheckSteps, CheckSteps => true
  | Goto l, Goto l' => l =? l'
  | _, _ => false
  end.

Section StmtInd.
  Variable P : stmt -> Prop.
  Hypothesis HW : forall c, P (Write c).
  Hypothesis HM : forall r, P (Move r).
  Hypothesis HR : forall r, P (CheckRecur r).
  Hypothesis HI : forall b x y, Forall P x -> Forall P y -> P (If b x y).
  Hypothesis HL : forall b x, Forall P x -> P (While b x).
  Hypothesis HD : forall x b, Forall P x -> P (DoWhile x b).
  Hypothesis HS : forall x, Forall (fun c => Forall P (snd c)) x -> P (Switch x).
  Hypothesis HB : P Break.
  Hypothesis HC : P Continue.
  Hypothesis HG : forall l, P (Goto l).
  Hypothesis HE : P Return.
  Hypothesis HK : P CheckSteps.
  Fixpoint stmt_rec' (s : stmt) : P s :=
    let all := fix all (l : list stmt) : Forall P l :=
      match l with [] => Forall_nil _ | x :: l => Forall_cons x (stmt_rec' x) (all l) end in
    match s with
    | Write c => HW c
    | Move r => HM r
    | CheckRecur r => HR r
    | If b x y => HI b x y (all x) (all y)
    | While b x => HL b x (all x)
    | DoWhile x b => HD x b (all x)
    | Switch x => HS x ((fix go (l : list (Z * list stmt)) : Forall (fun c => Forall P (snd c)) l :=
        match l with [] => Forall_nil _ | c :: l => Forall_cons c (all (snd c)) (go l) end) x)
    | Break => HB
    | Continue => HC
    | Goto l => HG l
    | Return => HE
    | CheckSteps => HK
    end.
End StmtInd.

Lemma stmt_eqb_eq a : forall b, stmt_eqb a b = true -> a = b.
Proof.
  induction a using stmt_rec'; intros b' E; destruct b'; cbn in E; try discriminate E; auto; zb; subst; auto.
  - f_equal. apply Bool.eqb_prop. auto.
  - f_equal. apply Bool.eqb_prop. auto.
  - f_equal; [apply cond_eqb_eq; auto|eapply list_eqb_eq; eauto|eapply list_eqb_eq; eauto].
  - f_equal; [apply cond_eqb_eq; auto|eapply list_eqb_eq; eauto].
  - f_equal; [eapply list_eqb_eq; eauto|apply cond_eqb_eq; auto].
  - f_equal. revert E. apply list_eqb_eq. eapply Forall_impl; [|exact H].
    intros [c s] F [d t] E. zb. subst. f_equal. eapply list_eqb_eq; eauto.
Qed.

Definition frame_eqb (a b : frame) : bool :=
  match a, b with
  | Todo s, Todo t => list_eqb stmt_eqb s t
  | Loop b s, Loop b' t => cond_eqb b b' && list_eqb stmt_eqb s t
  | EndSwitch, EndSwitch => true
  | _, _ => false
  end.
Lemma stmts_eqb_eq a b : list_eqb stmt_eqb a b = true -> a = b.
Proof. apply list_eqb_eq. apply Forall_forall. intros x _. apply stmt_eqb_eq. Qed.
Lemma frame_eqb_eq a b : frame_eqb a b = true -> a = b.
Proof.
  destruct a, b; cbn; intros E; try discriminate E; auto; zb; f_equal; auto using stmts_eqb_eq, cond_eqb_eq.
Qed.
Lemma frames_eqb_eq a b : list_eqb frame_eqb a b = true -> a = b.
Proof. apply list_eqb_eq. apply Forall_forall. intros x _. apply frame_eqb_eq. Qed.

Definition opt_eqb {A} (eqb : A -> A -> bool) (a b : option A) : bool :=
  match a, b with Some x, Some y => eqb x y | None, None => true | _, _ => false end.

(** ** From one move to the next *)

Inductive quiet_end :=
| AtMove (right_ : bool) (k : list frame) (v : option Z) (rec : option bool)
| AtCheck
| Lost.

Fixpoint quiet (F : cfile) (fuel : nat) (k : list frame) (v : option Z) (clean : bool) (rec : option bool) : quiet_end :=
  match fuel with
  | O => Lost
  | S fuel =>
    match k with
    | [] => Lost
    | Todo [] :: k => quiet F fuel k v clean rec
    | EndSwitch :: k => quiet F fuel k v clean rec
    | Loop b s :: k' =>
      match test b v with
      | Some true => quiet F fuel (Todo s :: k) v clean rec
      | Some false => quiet F fuel k' v clean rec
      | None => Lost
      end
    | Todo (s :: r) :: k =>
      match s with
      | Write c => match v with Some _ => quiet F fuel (Todo r :: k) (Some c) false rec | None => Lost end
      | Move d => AtMove d (Todo r :: k) v rec
      | CheckRecur d =>
        match rec, v with
        | None, Some 0 => if clean then quiet F fuel (Todo r :: k) v clean (Some d) else Lost
        | _, _ => Lost
        end
      | If b yes no =>
        match test b v with
        | Some t => quiet F fuel (Todo (if t then yes else no) :: Todo r :: k) v clean rec
        | None => Lost
        end
      | While b body =>
        match test b v with
        | Some true => quiet F fuel (Todo body :: Loop b body :: Todo r :: k) v clean rec
        | Some false => quiet F fuel (Todo r :: k) v clean rec
        | None => Lost
        end
      | DoWhile body b => quiet F fuel (Todo body :: Loop b body :: Todo r :: k) v clean rec
      | Switch cases =>
        match v with
        | Some x => quiet F fuel (Todo (cases_from cases x) :: EndSwitch :: Todo r :: k) v clean rec
        | None => Lost
        end
      | Break => quiet F fuel (break_out k) v clean rec
      | Continue => quiet F fuel (continue_with k) v clean rec
      | Goto l => quiet F fuel (goto (f_main F) l) v clean rec
      | Return => Lost
      | CheckSteps => AtCheck
      end
    end
  end.

Lemma c_run_add F i : forall j k m,
  c_run F (i + j) k m = match c_run F i k m with Goes k' m' => c_run F j k' m' | o => o end.
Proof.
  induction i as [|i IH]; intros j k m; [reflexivity|]. cbn [Nat.add c_run].
  destruct (c_step F k m); auto.
Qed.
Lemma c_run_1 F k m k' m' : c_step F k m = Goes k' m' -> c_run F 1 k m = Goes k' m'.
Proof. intros E. cbn. rewrite E. auto. Qed.
Lemma c_run_cons F k m k' m' i o : c_step F k m = Goes k' m' -> c_run F i k' m' = o -> c_run F (S i) k m = o.
Proof. intros E R. cbn. rewrite E. auto. Qed.

Lemma checks_unique F f f' m m' : c_main F f = Checks m -> c_main F f' = Checks m' -> m = m'.
Proof.
  unfold c_main. intros A B. destruct (Nat.le_gt_cases f f') as [L|L].
  - replace f' with (f + (f' - f))%nat in B by lia. rewrite c_run_add, A in B. injection B as <-. auto.
  - replace f with (f' + (f - f'))%nat in A by lia. rewrite c_run_add, B in A. injection A as <-. auto.
Qed.

Lemma test_none b t : test b None = Some t -> forall v, test b v = Some t.
Proof.
  revert t. induction b as [|c|b IH|a IH b IH']; intros t E v; cbn in E |- *; try discriminate E; auto.
  - destruct (test b None) as [u|]; [|discriminate E]. rewrite (IH u eq_refl v). auto.
  - destruct (test a None) as [[|]|]; [|..|discriminate E]; rewrite (IH _ eq_refl v); auto.
Qed.

Definition val (F : cfile) (v : option Z) (m : mem) : Prop := match v with Some _ => scan (f_len F) m = v | None => True end.
Lemma val_test F v m b t : val F v m -> test b v = Some t -> test b (scan (f_len F) m) = Some t.
Proof. destruct v; cbn; intros V E; [rewrite V; auto|apply test_none; auto]. Qed.

Definition mark_of (v : Z) : Z := if v =? 0 then 0 else 1.

(** Memory between two moves. *)
Definition wrote (m m' : mem) (v v' : option Z) : Prop :=
  m_pos m' = m_pos m /\ m_pmin m' = m_pmin m /\ m_pmax m' = m_pmax m /\ m_steps m' = m_steps m
  /\ match v, v' with
     | Some x, Some y => m_marks m' = m_marks m - mark_of x + mark_of y
         /\ (forall p, m_tape m' p = if p =? m_pos m then y else m_tape m p)
     | None, None => m' = m
     | _, _ => False
     end.

Lemma wrote_refl F m v : val F v m -> wrote m m v v.
Proof.
  intros V. unfold wrote. do 4 (split; [auto|]). destruct v as [x|]; [|auto]. split; [lia|]. intros p.
  destruct (Z.eqb_spec p (m_pos m)) as [->|]; auto. cbn in V. unfold scan in V. destruct (_ && _); congruence.
Qed.

Lemma write_wrote F m x c v' m' : val F (Some x) m -> wrote (write_cell c x m) m' (Some c) v' -> wrote m m' (Some x) v'.
Proof.
  intros V (A & B & C & D & W). destruct v' as [y|]; [|destruct W]. destruct W as (W & T).
  unfold write_cell in *. cbn in *. unfold wrote. do 4 (split; [auto|]). split.
  - rewrite W. unfold mark_of. bdestr; lia.
  - intros p. rewrite T. unfold write. destruct (p =? m_pos m); auto.
Qed.
Lemma val_write F m x c : val F (Some x) m -> val F (Some c) (write_cell c x m).
Proof.
  cbn. unfold scan, write_cell. cbn. destruct (_ && _); [|discriminate]. intros _. unfold write. rewrite Z.eqb_refl. auto.
Qed.

Lemma quiet_move F fuel : forall k v clean rec d k' v' rec' m,
  quiet F fuel k v clean rec = AtMove d k' v' rec' -> val F v m ->
  (rec = None /\ (exists e, rec' = Some e /\ v = Some 0 /\ clean = true /\ into_edge e m = true)
   /\ exists i, c_run F i k m = Goes (goto (f_main F) labelH) m)
  \/ ((rec' = rec \/ rec = None /\ exists e, rec' = Some e /\ v = Some 0 /\ clean = true /\ into_edge e m = false)
      /\ exists i r k0 m', k' = Todo r :: k0 /\ c_run F i k m = Goes (Todo (Move d :: r) :: k0) m' /\ wrote m m' v v').
Proof.
  assert (LIFT : forall k k1 m v (clean clean' : bool) rec rec' d k' v', c_step F k m = Goes k1 m ->
    ((rec = None /\ (exists e, rec' = Some e /\ v = Some 0 /\ clean = true /\ into_edge e m = true)
      /\ exists i, c_run F i k1 m = Goes (goto (f_main F) labelH) m)
     \/ ((rec' = rec \/ rec = None /\ exists e, rec' = Some e /\ v = Some 0 /\ clean = true /\ into_edge e m = false)
         /\ exists i r k0 m', k' = Todo r :: k0 /\ c_run F i k1 m = Goes (Todo (Move d :: r) :: k0) m' /\ wrote m m' v v')) ->
    ((rec = None /\ (exists e, rec' = Some e /\ v = Some 0 /\ clean = true /\ into_edge e m = true)
      /\ exists i, c_run F i k m = Goes (goto (f_main F) labelH) m)
     \/ ((rec' = rec \/ rec = None /\ exists e, rec' = Some e /\ v = Some 0 /\ clean = true /\ into_edge e m = false)
         /\ exists i r k0 m', k' = Todo r :: k0 /\ c_run F i k m = Goes (Todo (Move d :: r) :: k0) m' /\ wrote m m' v v'))).
  { intros k k1 m v clean clean' rec rec' d k' v' ST [(A & B & i & C)|(A & i & r & k0 & m' & B & C & D)].
    - left. split; [exact A|]. split; [exact B|]. exists (S i). eapply c_run_cons; eauto.
    - right. split; [exact A|]. exists (S i), r, k0, m'. split; [exact B|]. split; [eapply c_run_cons; eauto|exact D]. }
  induction fuel as [|fuel IH]; intros k v clean rec d k' v' rec' m E V; [discriminate E|]. cbn [quiet] in E.
  destruct k as [|[[|s r]|b s|] k]; [discriminate E|..].
  - eapply LIFT; [exact clean|reflexivity|eauto].
  - destruct s as [c|d'|d'|b yes no|b body|body b|cases| | |l| |].
    + destruct v as [x|]; [|discriminate E].
      assert (ST : c_step F (Todo (Write c :: r) :: k) m = Goes (Todo r :: k) (write_cell c x m)).
      { cbn. cbn in V. rewrite V. auto. }
      destruct (IH _ _ _ _ _ _ _ _ (write_cell c x m) E (val_write _ _ _ _ V)) as [(A & (e & _ & _ & B & _) & _)|(A & i & r0 & k0 & m' & B & C & D)];
        [discriminate B|].
      right. split.
      * destruct A as [A|(A & e & _ & _ & B' & _)]; [left; exact A|discriminate B'].
      * exists (S i), r0, k0, m'. split; [exact B|]. split; [eapply c_run_cons; eauto|]. eapply write_wrote; eauto.
    + injection E as <- <- <- <-. right. split; [left; auto|]. exists 0%nat, r, k, m. split; [auto|]. split; [auto|]. eapply wrote_refl; eauto.
    + destruct rec; [discriminate E|]. destruct v as [[| |]|]; try discriminate E. destruct clean; [|discriminate E].
      destruct (into_edge d' m) eqn:IE.
      * assert (R' : rec' = Some d').
        { clear -E. revert E. generalize (Some 0) as v. generalize (Todo r :: k) as kk. generalize true as cl. induction fuel as [|fuel IH]; intros cl kk v E; [discriminate E|].
          cbn [quiet] in E. destruct kk as [|[[|s r']|b s|] kk]; try discriminate E; eauto.
          - destruct s; try discriminate E; eauto.
            + destruct v; [|discriminate E]. eauto.
            + injection E as _ _ _ <-. auto.
            + destruct (test b v); [eauto|discriminate E].
            + destruct (test b v) as [[|]|]; [eauto|eauto|discriminate E].
            + destruct v; [eauto|discriminate E].
          - destruct (test b v) as [[|]|]; [eauto|eauto|discriminate E]. }
        left. split; [auto|]. split; [exists d'; auto|]. exists 1%nat. apply c_run_1. cbn. rewrite IE. auto.
      * assert (ST : c_step F (Todo (CheckRecur d' :: r) :: k) m = Goes (Todo r :: k) m) by (cbn; rewrite IE; auto).
        destruct (IH _ _ _ _ _ _ _ _ m E V) as [(A & _)|(A & i & r0 & k0 & m' & B & C & D)]; [discriminate A|].
        right. split.
        -- destruct A as [A|(A & _)]; [|discriminate A]. right. split; [auto|]. exists d'. auto.
        -- exists (S i), r0, k0, m'. split; [exact B|]. split; [eapply c_run_cons; eauto|exact D].
    + destruct (test b v) as [t|] eqn:T; [|discriminate E].
      eapply LIFT; [exact clean|cbn; rewrite (val_test _ _ _ _ _ V T); reflexivity|eauto].
    + destruct (test b v) as [[|]|] eqn:T; [|..|discriminate E];
      (eapply LIFT; [exact clean|cbn; rewrite (val_test _ _ _ _ _ V T); reflexivity|eauto]).
    + eapply LIFT; [exact clean|reflexivity|eauto].
    + destruct v as [x|]; [|discriminate E].
      eapply LIFT; [exact clean|cbn; cbn in V; rewrite V; reflexivity|eauto].
    + eapply LIFT; [exact clean|reflexivity|eauto].
    + eapply LIFT; [exact clean|reflexivity|eauto].
    + eapply LIFT; [exact clean|reflexivity|eauto].
    + discriminate E.
    + discriminate E.
  - destruct (test b v) as [[|]|] eqn:T; [|..|discriminate E];
    (eapply LIFT; [exact clean|cbn; rewrite (val_test _ _ _ _ _ V T); reflexivity|eauto]).
  - eapply LIFT; [exact clean|reflexivity|eauto].
Qed.

Lemma quiet_check F fuel : forall k clean rec m,
  quiet F fuel k None clean rec = AtCheck -> exists i, c_run F i k m = Checks m.
Proof.
  assert (LIFT : forall k k1 m, c_step F k m = Goes k1 m -> (exists i, c_run F i k1 m = Checks m) -> exists i, c_run F i k m = Checks m).
  { intros k k1 m ST (i & C). exists (S i). eapply c_run_cons; eauto. }
  induction fuel as [|fuel IH]; intros k clean rec m E; [discriminate E|]. cbn [quiet] in E.
  destruct k as [|[[|s r]|b s|] k]; [discriminate E|..].
  - eapply LIFT; [reflexivity|eauto].
  - destruct s as [c|d'|d'|b yes no|b body|body b|cases| | |l| |]; try discriminate E; try (eapply LIFT; [reflexivity|eauto]; fail).
    + destruct rec; discriminate E.
    + destruct (test b None) as [t|] eqn:T; [|discriminate E].
      eapply LIFT; [cbn; rewrite (test_none _ _ T); reflexivity|eauto].
    + destruct (test b None) as [[|]|] eqn:T; [|..|discriminate E];
      (eapply LIFT; [cbn; rewrite (test_none _ _ T); reflexivity|eauto]).
    + exists 1%nat. reflexivity.
  - destruct (test b None) as [[|]|] eqn:T; [|..|discriminate E];
    (eapply LIFT; [cbn; rewrite (test_none _ _ T); reflexivity|eauto]).
  - eapply LIFT; [reflexivity|eauto].
Qed.

(** Reading before moving. *)
Fixpoint blind (F : cfile) (fuel : nat) (k : list frame) : bool :=
  match fuel with
  | O => false
  | S fuel =>
    match k with
    | [] => false
    | Todo [] :: k => blind F fuel k
    | EndSwitch :: k => blind F fuel k
    | Loop b s :: k' =>
      match test b None with
      | Some true => blind F fuel (Todo s :: k)
      | Some false => blind F fuel k'
      | None => true
      end
    | Todo (s :: r) :: k =>
      match s with
      | Write _ | Switch _ => true
      | If b yes no => match test b None with Some t => blind F fuel (Todo (if t then yes else no) :: Todo r :: k) | None => true end
      | While b body =>
        match test b None with
        | Some true => blind F fuel (Todo body :: Loop b body :: Todo r :: k)
        | Some false => blind F fuel (Todo r :: k)
        | None => true
        end
      | DoWhile body b => blind F fuel (Todo body :: Loop b body :: Todo r :: k)
      | Break => blind F fuel (break_out k)
      | Continue => blind F fuel (continue_with k)
      | Goto l => blind F fuel (goto (f_main F) l)
      | Move _ | CheckRecur _ | Return | CheckSteps => false
      end
    end
  end.

Lemma blind_right F fuel : forall k m, blind F fuel k = true -> scan (f_len F) m = None ->
  exists i, c_run F i k m = Undefined.
Proof.
  assert (LIFT : forall k k1 m, c_step F k m = Goes k1 m -> (exists i, c_run F i k1 m = Undefined) -> exists i, c_run F i k m = Undefined).
  { intros k k1 m ST (i & C). exists (S i). eapply c_run_cons; eauto. }
  assert (ONE : forall k m, c_step F k m = Undefined -> exists i, c_run F i k m = Undefined).
  { intros k m ST. exists 1%nat. cbn. rewrite ST. auto. }
  induction fuel as [|fuel IH]; intros k m E V; [discriminate E|]. cbn [blind] in E.
  destruct k as [|[[|s r]|b s|] k]; [discriminate E|..].
  - eapply LIFT; [reflexivity|eauto].
  - destruct s as [c|d'|d'|b yes no|b body|body b|cases| | |l| |]; try discriminate E; try (eapply LIFT; [reflexivity|eauto]; fail).
    + apply ONE. cbn. rewrite V. auto.
    + destruct (test b None) as [t|] eqn:TE.
      * eapply LIFT; [cbn; rewrite V, TE; reflexivity|eauto].
      * apply ONE. cbn. rewrite V, TE. auto.
    + destruct (test b None) as [[|]|] eqn:TE.
      * eapply LIFT; [cbn; rewrite V, TE; reflexivity|eauto].
      * eapply LIFT; [cbn; rewrite V, TE; reflexivity|eauto].
      * apply ONE. cbn. rewrite V, TE. auto.
    + apply ONE. cbn. rewrite V. auto.
  - destruct (test b None) as [[|]|] eqn:TE.
    * eapply LIFT; [cbn; rewrite V, TE; reflexivity|eauto].
    * eapply LIFT; [cbn; rewrite V, TE; reflexivity|eauto].
    * apply ONE. cbn. rewrite V, TE. auto.
  - eapply LIFT; [reflexivity|eauto].
Qed.

(** ** The checker *)

(** A place between two moves: what is left to do, the state of the machine, the direction of the last move, and what
    is known of the cells to the left, under the head and to the right. *)
Record place := Place { p_todo : list frame; p_state : Z; p_last : option bool;
                        p_left : list Z; p_here : option Z; p_right : list Z }.

Definition place_eqb (a b : place) : bool :=
  (p_state a =? p_state b)
  && opt_eqb Bool.eqb (p_last a) (p_last b)
  && list_eqb Z.eqb (p_left a) (p_left b)
  && opt_eqb Z.eqb (p_here a) (p_here b)
  && list_eqb Z.eqb (p_right a) (p_right b)
  && list_eqb frame_eqb (p_todo a) (p_todo b).
Lemma Zs_eqb_eq a b : list_eqb Z.eqb a b = true -> a = b.
Proof. apply list_eqb_eq. apply Forall_forall. intros x _ y E. zb. auto. Qed.
Lemma place_eqb_eq a b : place_eqb a b = true -> a = b.
Proof.
  destruct a as [k q la l h r], b as [k' q' la' l' h' r']. unfold place_eqb. cbn. intros E. zb. subst. f_equal.
  - apply frames_eqb_eq. auto.
  - destruct la, la'; cbn in *; try discriminate; auto. f_equal. apply Bool.eqb_prop. auto.
  - apply Zs_eqb_eq. auto.
  - destruct h, h'; cbn in *; try discriminate; auto. zb. congruence.
  - apply Zs_eqb_eq. auto.
Qed.

Definition member (q : Z) (l : list Z) : bool := existsb (Z.eqb q) l.
Lemma member_In q l : member q l = true <-> In q l.
Proof.
  unfold member. rewrite existsb_exists. split.
  - intros (x & I & E). zb. subst. auto.
  - intros I. exists q. rewrite Z.eqb_refl. auto.
Qed.

(** Enough statements from one move to the next; so many cells are remembered on each side. *)
Definition qfuel : nat := 60.
Definition radius : nat := 2.

(** The place after printing [w] and moving, with [k] left to do. *)
Definition next_place (x : place) (k : list frame) (q w : Z) (d : bool) : place :=
  if d then Place k q (Some d) (firstn radius (w :: p_left x)) (hd_error (p_right x)) (tl (p_right x))
  else Place k q (Some d) (tl (p_left x)) (hd_error (p_left x)) (firstn radius (w :: p_right x)).

Definition check_slot (F : cfile) (M : program) (spins : list Z) (lax : bool) (colors : Z) (L : list place) (x : place) (v : Z) : bool :=
  match M (p_state x) v with
  | None => true
  | Some (w, d, q) =>
    (0 <=? w) && (w <? colors) &&
    match quiet F qfuel (p_todo x) (Some v) true None with
    | AtMove d' k (Some v') rec =>
      Bool.eqb d' d
      && match rec with Some e => member (p_state x) spins && Bool.eqb e d && (q =? p_state x) | None => true end
      && (if member (p_state x) spins && (v =? 0) && (q =? p_state x)
          then match rec with Some _ => true | None => match p_last x with Some d0 => Bool.eqb d0 (negb d) | None => false end end
          else true)
      && (if q =? -1
          then ((w =? v') || (lax && negb (w =? 0) && negb (v' =? 0)))
               && match quiet F qfuel k None false None with AtCheck => true | _ => false end
          else (w =? v') && existsb (place_eqb (next_place x k q w d)) L)
    | _ => false
    end
  end.

Definition colors_of (n : Z) : list Z := map Z.of_nat (seq 0 (Z.to_nat n)).
Definition possible (x : place) (v : Z) : bool := match p_here x with Some h => h =? v | None => true end.
Definition check_place (F : cfile) (M : program) (spins : list Z) (lax : bool) (colors : Z) (L : list place) (x : place) : bool :=
  forallb (fun v => negb (possible x v) || check_slot F M spins lax colors L x v) (colors_of colors).

Definition start (F : cfile) : place :=
  Place [Todo (concat (map snd (f_main F)))] 0 None (repeat 0 radius) (Some 0) (repeat 0 radius).

Definition check (F : cfile) (M : program) (spins : list Z) (lax : bool) (colors : Z) (L : list place) : bool :=
  (0 <? f_len F) && (f_len F <? 2 ^ 31) && (0 <? colors)
  && match quiet F qfuel (goto (f_main F) labelH) None false None with AtCheck => true | _ => false end
  && existsb (place_eqb (start F)) L
  && negb (member (-1) spins)
  && forallb (check_place F M spins lax colors L) L.

(** Finding the places. *)
Definition nexts (F : cfile) (M : program) (colors : Z) (x : place) : list place :=
  flat_map (fun v =>
    match M (p_state x) v with
    | Some (w, d, q) =>
      if q =? -1 then [] else
      match quiet F qfuel (p_todo x) (Some v) true None with
      | AtMove _ k _ _ => [next_place x k q w d]
      | _ => []
      end
    | None => []
    end) (filter (possible x) (colors_of colors)).
Fixpoint explore (F : cfile) (M : program) (colors : Z) (fuel : nat) (todo seen : list place) : list place :=
  match fuel with
  | O => seen
  | S fuel =>
    match todo with
    | [] => seen
    | x :: todo =>
      if existsb (place_eqb x) seen then explore F M colors fuel todo seen
      else explore F M colors fuel (nexts F M colors x ++ todo) (x :: seen)
    end
  end.
Definition places (F : cfile) (M : program) (colors : Z) : list place := explore F M colors 3000 [start F] [].

(** ** The checker is right *)

Section Right.
Variables (F : cfile) (M : program) (spins : list Z) (lax : bool) (colors : Z) (L : list place).
Hypothesis OK : check F M spins lax colors L = true.

Let ctr := f_len F / 2.

Lemma ok_parts : 0 < f_len F < 2 ^ 31 /\ 0 < colors /\ (forall m, exists i, c_run F i (goto (f_main F) labelH) m = Checks m)
  /\ In (start F) L /\ ~ In (-1) spins /\ forall x, In x L -> check_place F M spins lax colors L x = true.
Proof.
  unfold check in OK. zb. split; [lia|]. split; [lia|]. split.
  { intros m. eapply quiet_check. destruct (quiet F qfuel (goto (f_main F) labelH) None false None) eqn:E; try discriminate. exact E. }
  split. { apply existsb_exists in H2. destruct H2 as (x & I & E). apply place_eqb_eq in E. subst. auto. }
  split. { intros I. apply member_In in I. congruence. }
  apply forallb_forall. auto.
Qed.

(** What holds after [n] moves. *)
Definition inv (n : nat) (c : config) (m : mem) (lo hi : Z) : Prop :=
  steps M n init = Some c /\ m_steps m = Z.of_nat n
  /\ marks_are (c_tape c) (m_marks m)
  /\ m_pos m = ctr + c_pos c
  /\ (forall i, m_tape m i = c_tape c (i - ctr))
  /\ (forall p, 0 <= c_tape c p < colors)
  /\ (m_pmin m = ctr + lo /\ m_pmax m = ctr + hi + 1 /\ 0 <= ctr + lo /\ ctr + hi < f_len F)
  /\ (forall j d, (j <= n)%nat -> steps M j init = Some d -> lo <= c_pos d <= hi)
  /\ (exists j d, (j <= n)%nat /\ steps M j init = Some d /\ c_pos d = lo)
  /\ (exists j d, (j <= n)%nat /\ steps M j init = Some d /\ c_pos d = hi).

(** What is known at a place is so. *)
Definition at_place (x : place) (c : config) (lo hi : Z) : Prop :=
  In x L /\ p_state x = c_state c
  /\ (forall d, p_last x = Some d -> lo <= c_pos c - (if d then 1 else -1) <= hi)
  /\ (forall i v, nth_error (p_left x) i = Some v -> c_tape c (c_pos c - 1 - Z.of_nat i) = v)
  /\ (forall v, p_here x = Some v -> c_tape c (c_pos c) = v)
  /\ (forall i v, nth_error (p_right x) i = Some v -> c_tape c (c_pos c + 1 + Z.of_nat i) = v).

Definition same_tape (c : config) (m : mem) : Prop :=
  forall i, if lax then m_tape m i = 0 <-> c_tape c (i - ctr) = 0 else m_tape m i = c_tape c (i - ctr).

Definition done (n : nat) (c : config) (m : mem) : Prop :=
  m_steps m = Z.of_nat n /\ marks_are (c_tape c) (m_marks m) /\ m_pos m = u32 (ctr + c_pos c) /\ same_tape c m.

Lemma inv_done n c m lo hi : inv n c m lo hi -> done n c m.
Proof.
  intros (E & A & B & P & C & _ & (_ & _ & LO & HI) & V & _). split; [auto|]. split; [auto|].
  destruct ok_parts as (LEN & _). pose proof (V n c (Nat.le_refl _) E) as VC.
  split; [rewrite P; symmetry; apply LinProofs.u32_id; lia|]. intros i. rewrite C. destruct lax; tauto.
Qed.

Lemma nth_firstn {A} (l : list A) r i v : nth_error (firstn r l) i = Some v -> nth_error l i = Some v.
Proof.
  revert r i. induction l as [|x l IH]; intros r i E; destruct r, i; cbn in *; try discriminate; auto. eauto.
Qed.

Lemma edge_iff n c m lo hi d : inv n c m lo hi ->
  into_edge d m = true <-> forall j e, (j <= n)%nat -> steps M j init = Some e -> if d then c_pos e <= c_pos c else c_pos c <= c_pos e.
Proof.
  intros (E & _ & _ & P & _ & _ & (PMI & PMA & LO & HI) & V & (jl & dl & Jl & El & Pl) & (jh & dh & Jh & Eh & Ph)).
  destruct ok_parts as (LEN & _). pose proof (V n c (Nat.le_refl _) E) as VC.
  unfold into_edge. rewrite P, PMI, PMA. rewrite LinProofs.u32_id by lia.
  rewrite orb_true_iff, !andb_true_iff, negb_true_iff, !Z.eqb_eq. split.
  - intros D j e J EE. specialize (V j e J EE). destruct D as [(D & ->)|(D & ->)]; lia.
  - intros D. destruct d; [right|left].
    + specialize (D jh dh Jh Eh). split; [lia|auto].
    + specialize (D jl dl Jl El). split; [lia|auto].
Qed.

Lemma val_here n c m lo hi : inv n c m lo hi -> val F (Some (c_tape c (c_pos c))) m.
Proof.
  intros (E & _ & _ & P & T & _ & (PMI & PMA & LO & HI) & V & _). pose proof (V n c (Nat.le_refl _) E) as VC.
  cbn. unfold scan. rewrite P, T. replace ((0 <=? ctr + c_pos c) && (ctr + c_pos c <? f_len F)) with true by lia.
  f_equal. f_equal. lia.
Qed.

(** Memory after the move. *)
Lemma move_right n c m lo hi w d q v' m' : inv n c m lo hi -> M (c_state c) (c_tape c (c_pos c)) = Some (w, d, q) ->
  0 <= w < colors -> wrote m m' (Some (c_tape c (c_pos c))) (Some v') ->
  let c' := Cfg q (move d (c_pos c)) (write (c_tape c) (c_pos c) w) in
  mark_of v' = mark_of w ->
  steps M (S n) init = Some c' /\ m_pos (moved d m') = u32 (ctr + c_pos c')
  /\ m_steps (moved d m') = Z.of_nat (S n) /\ marks_are (c_tape c') (m_marks (moved d m'))
  /\ (forall i, m_tape (moved d m') i = if i =? ctr + c_pos c then v' else c_tape c' (i - ctr))
  /\ (inside F c' -> v' = w -> inv (S n) c' (moved d m') (Z.min lo (c_pos c')) (Z.max hi (c_pos c'))).
Proof.
  intros I A B (P' & PMI' & PMA' & ST' & MA' & T') c' MK.
  destruct I as (E & ST & MA & P & T & CR & (PMI & PMA & LO & HI) & V & (jl & dl & Jl & El & Pl) & (jh & dh & Jh & Eh & Ph)).
  destruct ok_parts as (LEN & CO & _). pose proof (V n c (Nat.le_refl _) E) as VC.
  assert (E' : steps M (S n) init = Some c') by (rewrite steps_S_r, E; unfold step; rewrite A; auto).
  assert (S' : m_steps (moved d m') = Z.of_nat (S n)) by (cbn; lia).
  assert (MK' : marks_are (c_tape c') (m_marks (moved d m'))).
  { cbn [moved m_marks]. rewrite MA', MK. pose proof (CProofs.marks_write _ _ (c_pos c) w MA) as W. cbn zeta in W.
    replace (m_marks m - mark_of (c_tape c (c_pos c)) + mark_of w) with
      (if (w =? 0) && negb (c_tape c (c_pos c) =? 0) then (if negb (w =? 0) && (c_tape c (c_pos c) =? 0) then m_marks m + 1 else m_marks m) - 1
       else if negb (w =? 0) && (c_tape c (c_pos c) =? 0) then m_marks m + 1 else m_marks m); [exact W|].
    unfold mark_of. destruct (w =? 0), (c_tape c (c_pos c) =? 0); cbn; lia. }
  assert (TT : forall i, m_tape (moved d m') i = if i =? ctr + c_pos c then v' else c_tape c' (i - ctr)).
  { intros i. cbn [moved m_tape]. rewrite T', P. destruct (Z.eqb_spec i (ctr + c_pos c)) as [EQ|NE]; [auto|].
    rewrite T. unfold c'. cbn [c_tape]. unfold write. replace (i - ctr =? c_pos c) with false by lia. auto. }
  assert (PC : c_pos c' = c_pos c + (if d then 1 else -1)) by (unfold c'; destruct d; cbn; lia).
  assert (PW : m_pos (moved d m') = u32 (ctr + c_pos c')).
  { cbn [moved m_pos]. rewrite P', P, PC. f_equal. destruct d; lia. }
  split; [exact E'|]. split; [exact PW|]. split; [exact S'|]. split; [exact MK'|]. split; [exact TT|]. intros IN ->.
  unfold inside in IN. fold ctr in IN.
  split; [exact E'|]. split; [exact S'|]. split; [exact MK'|].
  assert (PU : m_pos (moved d m') = ctr + c_pos c').
  { rewrite PW. apply LinProofs.u32_id. lia. }
  split; [exact PU|].
  split. { intros i. rewrite TT. destruct (Z.eqb_spec i (ctr + c_pos c)) as [->|]; auto. unfold c'. cbn [c_tape]. unfold write.
           replace (ctr + c_pos c - ctr =? c_pos c) with true by lia. auto. }
  split. { intros p. unfold c'. cbn [c_tape]. unfold write. destruct (p =? c_pos c); [lia|apply CR]. }
  split.
  { change (u32 (if d then m_pos m' + 1 else m_pos m' - 1)) with (m_pos (moved d m')).
    assert (Q1 : m_pmin (moved d m') = if m_pos (moved d m') <? m_pmin m' then u32 (m_pmin m' - 1) else m_pmin m') by reflexivity.
    assert (Q2 : m_pmax (moved d m') = if m_pos (moved d m') <? m_pmin m' then m_pmax m'
                   else if m_pmax m' <=? m_pos (moved d m') then u32 (m_pmax m' + 1) else m_pmax m') by reflexivity.
    rewrite Q1, Q2, PU, PMI', PMA', PMI, PMA. clear Q1 Q2.
    assert (B1 : -1 <= (if d then 1 else -1) <= 1) by (destruct d; lia).
    destruct (Z.ltb_spec (ctr + c_pos c') (ctr + lo)).
    - rewrite LinProofs.u32_id by lia. repeat split; lia.
    - destruct (Z.leb_spec (ctr + hi + 1) (ctr + c_pos c')); [rewrite LinProofs.u32_id by lia|]; repeat split; lia. }
  split. { intros j e J G. destruct (Nat.eq_dec j (S n)) as [EQ|NE]; [subst; rewrite E' in G; injection G as <-; lia|].
           specialize (V j e ltac:(lia) G). lia. }
  split. { destruct (Z.le_gt_cases lo (c_pos c')).
           - exists jl, dl. split; [lia|]. split; [auto|lia].
           - exists (S n), c'. split; [lia|]. split; [auto|lia]. }
  { destruct (Z.le_gt_cases (c_pos c') hi).
    - exists jh, dh. split; [lia|]. split; [auto|lia].
    - exists (S n), c'. split; [lia|]. split; [auto|lia]. }
Qed.

Lemma in_colors v : 0 <= v < colors -> In v (colors_of colors).
Proof. intros B. unfold colors_of. apply in_map_iff. exists (Z.to_nat v). split; [lia|]. apply in_seq. lia. Qed.

Lemma slot_ok x c lo hi : at_place x c lo hi -> 0 <= c_tape c (c_pos c) < colors ->
  check_slot F M spins lax colors L x (c_tape c (c_pos c)) = true.
Proof.
  intros (I & _ & _ & _ & H & _) B. destruct ok_parts as (_ & _ & _ & _ & _ & CH). specialize (CH x I).
  unfold check_place in CH. rewrite forallb_forall in CH. specialize (CH _ (in_colors _ B)).
  apply orb_true_iff in CH. destruct CH as [CH|CH]; [|exact CH]. apply negb_true_iff in CH. unfold possible in CH.
  destruct (p_here x) as [h|]; [|discriminate CH]. rewrite (H h eq_refl) in CH. rewrite Z.eqb_refl in CH. discriminate CH.
Qed.

Lemma next_ok x c lo hi k q w d : at_place x c lo hi -> lo <= c_pos c <= hi ->
  In (next_place x k q w d) L ->
  let c' := Cfg q (move d (c_pos c)) (write (c_tape c) (c_pos c) w) in
  at_place (next_place x k q w d) c' (Z.min lo (c_pos c')) (Z.max hi (c_pos c')).
Proof.
  intros (_ & SQ & LA & LE & HE & RI) VC I c'. split; [exact I|]. clear I.
  assert (HD : forall l v, hd_error l = Some v -> @nth_error Z l 0 = Some v) by (intros [|]; auto).
  assert (TL : forall l i v, nth_error (tl l) i = Some v -> @nth_error Z l (S i) = Some v) by (intros [|] [|]; cbn; auto; discriminate).
  unfold next_place, c'. destruct d; cbn [p_state p_last p_left p_here p_right c_state c_pos c_tape move].
  - split; [auto|]. split. { intros d [= <-]. lia. }
    split. { intros i v G. apply nth_firstn in G. unfold write. destruct i as [|i]; cbn in G.
             - replace (c_pos c + 1 - 1 - Z.of_nat 0 =? c_pos c) with true by (symmetry; apply Z.eqb_eq; lia). congruence.
             - replace (c_pos c + 1 - 1 - Z.of_nat (Datatypes.S i) =? c_pos c) with false by (symmetry; apply Z.eqb_neq; lia).
               rewrite <- (LE _ _ G). f_equal. lia. }
    split. { intros v G. unfold write. replace (c_pos c + 1 =? c_pos c) with false by (symmetry; apply Z.eqb_neq; lia).
             rewrite <- (RI _ _ (HD _ _ G)). f_equal. lia. }
    intros i v G. unfold write. replace (c_pos c + 1 + 1 + Z.of_nat i =? c_pos c) with false by (symmetry; apply Z.eqb_neq; lia).
    rewrite <- (RI _ _ (TL _ _ _ G)). f_equal. lia.
  - split; [auto|]. split. { intros d [= <-]. lia. }
    split. { intros i v G. unfold write. replace (c_pos c - 1 - 1 - Z.of_nat i =? c_pos c) with false by (symmetry; apply Z.eqb_neq; lia).
             rewrite <- (LE _ _ (TL _ _ _ G)). f_equal. lia. }
    split. { intros v G. unfold write. replace (c_pos c - 1 =? c_pos c) with false by (symmetry; apply Z.eqb_neq; lia).
             rewrite <- (LE _ _ (HD _ _ G)). f_equal. lia. }
    intros i v G. apply nth_firstn in G. unfold write. destruct i as [|i]; cbn in G.
    + replace (c_pos c - 1 + 1 + Z.of_nat 0 =? c_pos c) with true by (symmetry; apply Z.eqb_eq; lia). congruence.
    + replace (c_pos c - 1 + 1 + Z.of_nat (Datatypes.S i) =? c_pos c) with false by (symmetry; apply Z.eqb_neq; lia).
      rewrite <- (RI _ _ G). f_equal. lia.
Qed.

Lemma checks_after i k m k' m' : c_run F i k m = Goes k' m' -> (exists j, c_run F j k' m' = Checks m') ->
  exists j, c_run F j k m = Checks m'.
Proof. intros A (j & B). exists (i + j)%nat. rewrite c_run_add, A. exact B. Qed.

(** One move of the machine. *)
Lemma one_move x n c m lo hi : inv n c m lo hi -> at_place x c lo hi ->
  M (c_state c) (c_tape c (c_pos c)) <> None ->
  (In (c_state c) spins -> edge_spin M n c -> exists i, c_run F i (p_todo x) m = Checks m)
  /\ (~ (In (c_state c) spins /\ edge_spin M n c) -> forall c', steps M (S n) init = Some c' ->
      (exists i m', c_run F i (p_todo x) m = Checks m' /\ done (S n) c' m' /\ (is_blank c' \/ c_state c' = -1))
      \/ (~ is_blank c' /\ c_state c' <> -1 /\ exists i x' m', c_run F (S i) (p_todo x) m = Goes (p_todo x') m'
          /\ In x' L /\ m_pos m' = u32 (ctr + c_pos c')
          /\ (inside F c' -> exists lo' hi', inv (S n) c' m' lo' hi' /\ at_place x' c' lo' hi'))).
Proof.
  intros I AT NN. assert (CR : 0 <= c_tape c (c_pos c) < colors) by apply I.
  pose proof (slot_ok _ _ _ _ AT CR) as SL. unfold check_slot in SL.
  assert (ST : p_state x = c_state c) by apply AT. rewrite ST in SL.
  destruct (M (c_state c) (c_tape c (c_pos c))) as [[[w d] q]|] eqn:A; [|contradiction]. clear NN.
  apply andb_true_iff in SL. destruct SL as (WC & SL).
  assert (WB : 0 <= w < colors) by lia. clear WC.
  destruct (quiet F qfuel (p_todo x) (Some (c_tape c (c_pos c))) true None) as [d' k [v'|] rec| |] eqn:Q; try discriminate SL.
  apply andb_true_iff in SL. destruct SL as (SL & NX). apply andb_true_iff in SL. destruct SL as (SL & SP).
  apply andb_true_iff in SL. destruct SL as (DD & RC). apply Bool.eqb_prop in DD. subst d'.
  pose proof (quiet_move _ _ _ _ _ _ _ _ _ _ m Q (val_here _ _ _ _ _ I)) as QM.
  assert (E : steps M n init = Some c) by apply I.
  assert (VC : lo <= c_pos c <= hi) by (destruct I as (_ & _ & _ & _ & _ & _ & _ & V & _); exact (V n c (Nat.le_refl _) E)).
  destruct ok_parts as (LEN & CO & HC & _ & NS & _).
  split.
  - intros IS (Z0 & pr & dir & A' & ED). rewrite Z0 in A. rewrite A in A'. injection A' as -> -> ->.
    rewrite Z0 in SP. rewrite (proj2 (member_In _ _) IS), !Z.eqb_refl in SP. cbn [andb] in SP.
    destruct rec as [e|].
    + apply andb_true_iff in RC. destruct RC as (RC & _). apply andb_true_iff in RC. destruct RC as (_ & RC). apply Bool.eqb_prop in RC. subst e.
      pose proof (proj2 (edge_iff _ _ _ _ _ dir I) ED) as IE.
      destruct QM as [(_ & _ & i & R)|(D & _)].
      * eapply checks_after; [exact R|apply HC].
      * destruct D as [D|(_ & e & D & _ & _ & NE)]; [discriminate D|]. injection D as <-. rewrite IE in NE. discriminate NE.
    + destruct (p_last x) as [d0|] eqn:PL; [|discriminate SP]. apply Bool.eqb_prop in SP. subst d0.
      destruct AT as (_ & _ & LA & _). specialize (LA _ PL).
      destruct I as (_ & _ & _ & _ & _ & _ & _ & _ & (jl & dl & Jl & El & Pl) & (jh & dh & Jh & Eh & Ph)).
      pose proof (ED _ _ Jl El). pose proof (ED _ _ Jh Eh). destruct dir; cbn in LA; lia.
  - intros NSP c' E'.
    assert (C' : c' = Cfg q (move d (c_pos c)) (write (c_tape c) (c_pos c) w)).
    { rewrite steps_S_r, E in E'. unfold step in E'. rewrite A in E'. congruence. }
    destruct QM as [(_ & (e & -> & V0 & _ & IE) & _)|(_ & i & r & k0 & m' & -> & R & WR)].
    + exfalso. injection V0 as V0. rewrite V0 in A.
      apply andb_true_iff in RC. destruct RC as (RC & QS). apply andb_true_iff in RC. destruct RC as (MB & RC). apply Bool.eqb_prop in RC. subst e.
      apply Z.eqb_eq in QS. subst q. apply NSP. split; [apply member_In; exact MB|]. split; [exact V0|].
      exists w, d. split; [exact A|]. exact (proj1 (edge_iff _ _ _ _ _ d I) IE).
    + assert (MK : mark_of v' = mark_of w).
      { destruct (q =? -1); apply andb_true_iff in NX; destruct NX as (NX & _).
        - apply orb_true_iff in NX. destruct NX as [NX|NX]; [apply Z.eqb_eq in NX; subst; auto|].
          unfold mark_of. destruct (v' =? 0), (w =? 0); cbn in NX; rewrite ?andb_false_r in NX; auto; discriminate.
        - apply Z.eqb_eq in NX. subst. auto. }
      subst c'. destruct (move_right _ _ _ _ _ _ _ _ _ _ I A WB WR MK) as (_ & PW & S' & MA' & TT & I').
      assert (STEP : c_step F (Todo (Move d :: r) :: k0) m' =
        if (m_marks (moved d m') =? 0) && (0 <? m_steps (moved d m')) then Goes (goto (f_main F) labelH) (moved d m') else Goes (Todo r :: k0) (moved d m'))
        by reflexivity.
      rewrite S' in STEP. replace (0 <? Z.of_nat (S n)) with true in STEP by (symmetry; apply Z.ltb_lt; lia). rewrite andb_true_r in STEP.
      pose proof (CProofs.marks_zero _ _ MA') as MZ.
      set (c' := Cfg q (move d (c_pos c)) (write (c_tape c) (c_pos c) w)) in *.
      assert (DN : (v' = w \/ lax = true) -> done (S n) c' (moved d m')).
      { intros O. split; [exact S'|]. split; [exact MA'|]. split; [exact PW|]. intros i0. rewrite TT.
        assert (CW : c_tape c' (ctr + c_pos c - ctr) = w) by (unfold c'; cbn [c_tape]; unfold write; replace (ctr + c_pos c - ctr =? c_pos c) with true by lia; auto).
        destruct (Z.eqb_spec i0 (ctr + c_pos c)) as [->|]; [rewrite CW|destruct lax; tauto].
        destruct O as [O|O].
        - rewrite O. destruct lax; tauto.
        - rewrite O. revert MK. unfold mark_of. bdestr; intros; try lia; tauto. }
      destruct (m_marks (moved d m') =? 0) eqn:MM.
      * apply Z.eqb_eq in MM. left.
        assert (R1 : c_run F (i + 1) (p_todo x) m = Goes (goto (f_main F) labelH) (moved d m')).
        { rewrite c_run_add, R. apply c_run_1. exact STEP. }
        destruct (checks_after _ _ _ _ _ R1 (HC (moved d m'))) as (j & CJ).
        exists j, (moved d m'). split; [exact CJ|]. split; [|left; exact (proj1 MZ MM)].
        apply DN. left. assert (W0 : w = 0).
        { pose proof (proj1 MZ MM (c_pos c)) as W0. unfold c' in W0. cbn in W0. unfold write in W0. rewrite Z.eqb_refl in W0. exact W0. }
        subst w. unfold mark_of in MK. destruct (Z.eqb_spec v' 0); [auto|discriminate MK].
      * apply Z.eqb_neq in MM. assert (NB : ~ is_blank c') by (intros B; apply MM; exact (proj2 MZ B)).
        assert (R1 : c_run F (i + 1) (p_todo x) m = Goes (Todo r :: k0) (moved d m')).
        { rewrite c_run_add, R. apply c_run_1. exact STEP. }
        destruct (Z.eqb_spec q (-1)) as [Q1|Q1].
        -- left. apply andb_true_iff in NX. destruct NX as (NX & CK).
           destruct (quiet F qfuel (Todo r :: k0) None false None) eqn:QC; try discriminate CK.
           destruct (checks_after _ _ _ _ _ R1 (quiet_check _ _ _ _ _ (moved d m') QC)) as (j & CJ).
           exists j, (moved d m'). split; [exact CJ|]. split; [|right; exact Q1].
           apply DN. apply orb_true_iff in NX. destruct NX as [NX|NX]; [left; apply Z.eqb_eq in NX; auto|right].
           apply andb_true_iff in NX. destruct NX as (NX & _). apply andb_true_iff in NX. tauto.
        -- right. split; [exact NB|]. split; [exact Q1|]. apply andb_true_iff in NX. destruct NX as (NX & IL). apply Z.eqb_eq in NX.
           apply existsb_exists in IL. destruct IL as (y & IY & EY). apply place_eqb_eq in EY. subst y.
           exists i, (next_place x (Todo r :: k0) q w d), (moved d m').
           split; [unfold next_place; rewrite Nat.add_1_r in R1; destruct d; exact R1|].
           split; [exact IY|]. split; [exact PW|]. intros IN. exists (Z.min lo (c_pos c')), (Z.max hi (c_pos c')).
           split; [apply I'; auto|]. apply (next_ok x c lo hi); auto.
Qed.

Lemma start_right : inside F init -> inv 0 init (c_mem F) 0 0 /\ at_place (start F) init 0 0.
Proof.
  intros IN. unfold inside in IN. fold ctr in IN. cbn in IN. destruct ok_parts as (LEN & CO & HC & IS & NS & _). split.
  - split; [reflexivity|]. split; [reflexivity|]. split. { exists []. split; [constructor|]. split; [|reflexivity]. intros p. cbn. unfold blank_tape. tauto. }
    split; [cbn; unfold center, ctr; lia|]. split; [reflexivity|]. split; [intros; cbn; unfold blank_tape; lia|].
    split; [cbn; unfold center; fold ctr; repeat split; lia|].
    split. { intros j d J E. replace j with 0%nat in E by lia. injection E as <-. cbn. lia. }
    split; exists 0%nat, init; repeat split; auto.
  - split; [exact IS|]. split; [reflexivity|]. split; [intros d; discriminate|].
    assert (R : forall i v, nth_error (repeat 0 radius) i = Some v -> 0 = v).
    { intros i v E. apply nth_error_In in E. apply repeat_spec in E. auto. }
    split; [intros i v E; exact (R _ _ E)|]. split; [intros v E; injection E as <-; reflexivity|]. intros i v E. exact (R _ _ E).
Qed.

(** After [n] moves without a reason to stop. *)
Lemma moves_right n : forall c, steps M n init = Some c ->
  (forall j d, (j <= n)%nat -> steps M j init = Some d -> ~ stops M spins j d) ->
  (forall j d, (j <= n)%nat -> steps M j init = Some d -> inside F d) ->
  exists i x m lo hi, (n <= i)%nat /\ c_run F i [Todo (concat (map snd (f_main F)))] (c_mem F) = Goes (p_todo x) m
    /\ inv n c m lo hi /\ at_place x c lo hi.
Proof.
  induction n as [|n IH]; intros c E NST IN.
  - injection E as <-. destruct (start_right (IN 0%nat init (Nat.le_refl _) eq_refl)) as (A & B).
    exists 0%nat, (start F), (c_mem F), 0, 0. split; [lia|]. split; [reflexivity|]. auto.
  - pose proof E as E1. rewrite steps_S_r in E1. destruct (steps M n init) as [c0|] eqn:E0; [|discriminate E1].
    destruct (IH c0 eq_refl) as (i & x & m & lo & hi & LI & R & I & AT).
    { intros j d J. apply NST. lia. }
    { intros j d J. apply IN. lia. }
    destruct (one_move x n c0 m lo hi I AT) as (_ & MV).
    { unfold step in E1. destruct (M (c_state c0) (c_tape c0 (c_pos c0))); [discriminate|discriminate E1]. }
    destruct (MV) with (c' := c) as [(j & m' & _ & _ & D)|(NB & NH & j & x' & m' & R' & _ & _ & IA)]; auto.
    { intros (A & B). apply (NST n c0 ltac:(lia) E0). right. right. auto. }
    { exfalso. apply (NST (S n) c (Nat.le_refl _) E). destruct D as [D|D]; [right; left; split; [lia|exact D]|left; exact D]. }
    destruct (IA (IN (S n) c (Nat.le_refl _) E)) as (lo' & hi' & I' & AT').
    exists (i + S j)%nat, x', m', lo', hi'. split; [lia|]. split; [rewrite c_run_add, R; exact R'|]. auto.
Qed.

Lemma done_same (same : cfile -> nat -> config -> mem -> Prop) n c m :
  same = (if lax then agrees_up_to_color else agrees) -> inside F c -> done n c m -> same F n c m.
Proof.
  intros -> IN (A & B & P & C). unfold inside in IN. fold ctr in IN. destruct ok_parts as (LEN & _).
  rewrite LinProofs.u32_id in P by lia. unfold same_tape in C. destruct lax.
  - split; [exact A|]. split; [exact B|]. split; [exact P|].
    intros p _. fold ctr. rewrite (C (ctr + p)). replace (ctr + p - ctr) with p by lia. tauto.
  - split; [exact A|]. split; [exact B|]. split; [exact P|]. intros p _. fold ctr. rewrite (C (ctr + p)). f_equal. lia.
Qed.

Theorem check_right : simulates F M spins (if lax then agrees_up_to_color else agrees).
Proof.
  split.
  - intros n c (E & ST & FI) IN. destruct ok_parts as (LEN & CO & HC & IS & NS & _).
    destruct n as [|n].
    + injection E as <-. destruct (start_right (IN 0%nat init (Nat.le_refl _) eq_refl)) as (A & B).
      destruct ST as [ST|[(ST & _)|(ST & ES)]]; [discriminate ST|lia|].
      destruct (one_move _ _ _ _ _ _ A B) as (SP & _).
      { destruct ES as (_ & pr & dir & EM & _). cbn in EM |- *. unfold blank_tape. rewrite EM. discriminate. }
      destruct (SP ST ES) as (i & R). exists i, (c_mem F). split; [exact R|].
      apply (done_same _ _ _ _ eq_refl); [exact (IN 0%nat init (Nat.le_refl _) eq_refl)|]. eapply inv_done. exact A.
    + pose proof E as E1. rewrite steps_S_r in E1. destruct (steps M n init) as [c0|] eqn:E0; [|discriminate E1].
      destruct (moves_right n c0 E0) as (i & x & m & lo & hi & LI & R & I & AT).
      { intros j d J. apply FI. lia. }
      { intros j d J. apply IN. lia. }
      destruct (one_move x n c0 m lo hi I AT) as (_ & MV).
      { unfold step in E1. destruct (M (c_state c0) (c_tape c0 (c_pos c0))); [discriminate|discriminate E1]. }
      destruct (MV) with (c' := c) as [(j & m' & R' & D & _)|(NB & NH & j & x' & m' & R' & _ & _ & IA)]; auto.
      { intros (A & B). apply (FI n c0 ltac:(lia) E0). right. right. auto. }
      { exists (i + j)%nat, m'. split; [unfold c_main; rewrite c_run_add, R; exact R'|]. apply (done_same _ _ _ _ eq_refl (IN (S n) c (Nat.le_refl _) E) D). }
      destruct (IA (IN (S n) c (Nat.le_refl _) E)) as (lo' & hi' & I' & AT').
      destruct ST as [ST|[(_ & ST)|(ST & ES)]]; [contradiction|contradiction|].
      destruct (one_move x' (S n) c m' lo' hi' I' AT') as (SP & _).
      { destruct ES as (Z0 & pr & dir & EM & _). rewrite Z0, EM. discriminate. }
      destruct (SP ST ES) as (l & R2). exists (i + (S j + l))%nat, m'.
      split; [unfold c_main; rewrite c_run_add, R, c_run_add, R'; exact R2|].
      apply (done_same _ _ _ _ eq_refl (IN (S n) c (Nat.le_refl _) E)). eapply inv_done. exact I'.
  - intros NV fuel.
    destruct (NV fuel) as (c & E & _).
    destruct (moves_right fuel c E) as (i & x & m & lo & hi & LI & R & _).
    { intros j d J G. destruct (NV j) as (d' & G' & N & _). congruence. }
    { intros j d J G. destruct (NV j) as (d' & G' & _ & N). congruence. }
    unfold c_main. replace i with (fuel + (i - fuel))%nat in R by lia. rewrite c_run_add in R.
    destruct (c_run F fuel [Todo (concat (map snd (f_main F)))] (c_mem F)) as [k' m'| | |]; try discriminate R. eauto.
Qed.

(** Where the machine stops, has no instruction, or leaves the array, or that it goes on. *)
Lemma spin_dec n c m lo hi : inv n c m lo hi -> {edge_spin M n c} + {~ edge_spin M n c}.
Proof.
  intros I. unfold edge_spin. destruct (Z.eq_dec (c_tape c (c_pos c)) 0) as [Z0|N]; [|right; tauto].
  destruct (M (c_state c) 0) as [[[w d] q]|] eqn:A; [|right; intros (_ & pr & dir & B & _); discriminate B].
  destruct (Z.eq_dec q (c_state c)) as [->|N]; [|right; intros (_ & pr & dir & B & _); congruence].
  destruct (into_edge d m) eqn:IE.
  - left. split; [exact Z0|]. exists w, d. split; [reflexivity|]. exact (proj1 (edge_iff _ _ _ _ _ d I) IE).
  - right. intros (_ & pr & dir & B & C). injection B as <- <-. rewrite (proj2 (edge_iff _ _ _ _ _ d I) C) in IE. discriminate IE.
Qed.
Lemma inside_dec c : {inside F c} + {~ inside F c}.
Proof. unfold inside. destruct (Z_le_dec 0 (f_len F / 2 + c_pos c)), (Z_lt_dec (f_len F / 2 + c_pos c) (f_len F)); [left|right..]; lia. Qed.

Definition quits (n : nat) : Prop := exists j c, (j <= n)%nat /\ steps M j init = Some c
  /\ (forall i d, (i < j)%nat -> steps M i init = Some d -> ~ stops M spins i d /\ inside F d)
  /\ (stops M spins j c /\ inside F c \/ ~ inside F c \/ ~ stops M spins j c /\ M (c_state c) (c_tape c (c_pos c)) = None).
Definition runs (n : nat) : Prop := exists c, steps M n init = Some c
  /\ forall j d, (j <= n)%nat -> steps M j init = Some d -> ~ stops M spins j d /\ inside F d.

Lemma quits_or_runs n : quits n \/ runs n.
Proof.
  destruct ok_parts as (LEN & CO & HC & IS & NS & _).
  assert (IN0 : inside F init).
  { unfold inside. cbn [c_pos init]. pose proof (Z.div_pos (f_len F) 2). pose proof (Z.div_lt (f_len F) 2). lia. }
  induction n as [|n [(j & c & J & H)|(c & E & H)]].
  - destruct (start_right IN0) as (A & B).
    assert (D : stops M spins 0 init \/ ~ stops M spins 0 init).
    { unfold stops. destruct (spin_dec _ _ _ _ _ A) as [S|S]; [|right; intros [Q|[(Q & _)|(_ & Q)]]; [discriminate Q|lia|contradiction]].
      destruct (in_dec Z.eq_dec (c_state init) spins) as [Q|Q]; [left; auto|].
      right; intros [Q'|[(Q' & _)|(Q' & _)]]; [discriminate Q'|lia|contradiction]. }
    destruct D as [D|D].
    + left. exists 0%nat, init. split; [lia|]. split; [reflexivity|]. split; [intros; lia|]. left. auto.
    + right. exists init. split; [reflexivity|]. intros j d J E. replace j with 0%nat in * by lia. injection E as <-. auto.
  - left. exists j, c. split; [lia|exact H].
  - destruct (moves_right n c E) as (i & x & m & lo & hi & LI & R & I & AT).
    { intros j d J G. apply (H j d J G). }
    { intros j d J G. apply (H j d J G). }
    destruct (M (c_state c) (c_tape c (c_pos c))) as [[[w d] q]|] eqn:A.
    2: { left. exists n, c. split; [lia|]. split; [exact E|]. split; [intros; eapply H; [|eassumption]; lia|].
         right. right. split; [|exact A]. apply (H n c (Nat.le_refl _) E). }
    destruct (one_move x n c m lo hi I AT ltac:(rewrite A; discriminate)) as (_ & MV).
    assert (E' : exists c', steps M (S n) init = Some c') by (rewrite steps_S_r, E; unfold step; rewrite A; eauto).
    destruct E' as (c' & E').
    assert (BEF : forall i d, (i < S n)%nat -> steps M i init = Some d -> ~ stops M spins i d /\ inside F d).
    { intros i0 d0 J G. apply H; [lia|exact G]. }
    destruct (inside_dec c') as [IN|OUT].
    2: { left. exists (S n), c'. split; [lia|]. split; [exact E'|]. split; [exact BEF|]. right. left. exact OUT. }
    destruct (MV) with (c' := c') as [(j & m' & _ & _ & D)|(NB & NH & j & x' & m' & _ & _ & _ & IA)]; auto.
    { intros (S1 & S2). apply (proj1 (H n c (Nat.le_refl _) E)). right. right. auto. }
    + left. exists (S n), c'. split; [lia|]. split; [exact E'|]. split; [exact BEF|]. left. split; [|exact IN].
      destruct D as [D|D]; [right; left; split; [lia|exact D]|left; exact D].
    + destruct (IA IN) as (lo' & hi' & I' & _).
      assert (D : stops M spins (S n) c' \/ ~ stops M spins (S n) c').
      { unfold stops. destruct (spin_dec _ _ _ _ _ I') as [S|S]; [|right; intros [Q|[(_ & Q)|(_ & Q)]]; contradiction].
        destruct (in_dec Z.eq_dec (c_state c') spins) as [Q|Q]; [left; auto|].
        right; intros [Q'|[(_ & Q')|(Q' & _)]]; contradiction. }
      destruct D as [D|D].
      * left. exists (S n), c'. split; [lia|]. split; [exact E'|]. split; [exact BEF|]. left. auto.
      * right. exists c'. split; [exact E'|]. intros k d0 J G. destruct (Nat.eq_dec k (S n)) as [EQ|N]; [|apply BEF; [lia|exact G]].
        rewrite EQ in *. rewrite E' in G. injection G as <-. auto.
Qed.

Theorem check_converse : only_there F M spins (if lax then agrees_up_to_color else agrees).
Proof.
  intros fuel m C. destruct (quits_or_runs fuel) as [(n & c & _ & E & BEF & Q)|(c & E & H)].
  - exists n, c. split; [exact E|]. split; [exact BEF|].
    destruct Q as [(ST & IN)|Q]; [left|right; exact Q].
    assert (FI : first_stop M spins n c).
    { split; [exact E|]. split; [exact ST|]. intros j d J G. apply (BEF j d J G). }
    split; [exact ST|]. destruct check_right as (CR & _).
    destruct (CR n c FI) as (fuel' & m' & C' & SM).
    { intros j d J G. destruct (Nat.eq_dec j n) as [EQ|N]; [subst j; rewrite E in G; injection G as <-; exact IN|]. apply (BEF j d); [lia|exact G]. }
    rewrite (checks_unique _ _ _ _ _ C C'). exact SM.
  - destruct (moves_right fuel c E) as (i & x & m' & lo & hi & LI & R & _).
    { intros j d J G. apply (H j d J G). }
    { intros j d J G. apply (H j d J G). }
    unfold c_main in C. replace i with (fuel + (i - fuel))%nat in R by lia. rewrite c_run_add, C in R. discriminate R.
Qed.

(** Where the head leaves the array. *)
Theorem check_overruns : forallb (fun x => blind F qfuel (p_todo x)) L = true -> overrun_undefined F M spins.
Proof.
  intros BL n c E NST IN OUT. destruct ok_parts as (LEN & _). destruct n as [|n].
  - injection E as <-. elim OUT. unfold inside. cbn [c_pos init]. pose proof (Z.div_pos (f_len F) 2). pose proof (Z.div_lt (f_len F) 2). lia.
  - pose proof E as E1. rewrite steps_S_r in E1. destruct (steps M n init) as [c0|] eqn:E0; [|discriminate E1].
    destruct (moves_right n c0 E0) as (i & x & m & lo & hi & LI & R & I & AT).
    { intros j d J. apply NST. lia. }
    { intros j d J. apply IN. lia. }
    destruct (one_move x n c0 m lo hi I AT) as (_ & MV).
    { unfold step in E1. destruct (M (c_state c0) (c_tape c0 (c_pos c0))); [discriminate|discriminate E1]. }
    destruct (MV) with (c' := c) as [(j & m' & _ & _ & D)|(NB & NH & j & x' & m' & R' & IX & PW & _)]; auto.
    { intros (A & B). apply (NST n c0 ltac:(lia) E0). right. right. auto. }
    { exfalso. apply (NST (S n) c (Nat.le_refl _) E). destruct D as [D|D]; [right; left; split; [lia|exact D]|left; exact D]. }
    assert (SC : scan (f_len F) m' = None).
    { unfold scan. rewrite PW. pose proof (IN n c0 ltac:(lia) E0) as IN0. unfold inside in IN0, OUT. fold ctr in IN0, OUT.
      assert (PC : c_pos c = c_pos c0 + 1 \/ c_pos c = c_pos c0 - 1).
      { unfold step in E1. destruct (M (c_state c0) (c_tape c0 (c_pos c0))) as [[[w [|]] q]|]; [..|discriminate E1]; injection E1 as <-; cbn; lia. }
      assert (CS : ctr + c_pos c = -1 \/ ctr + c_pos c = f_len F) by lia.
      destruct CS as [CS|CS]; rewrite CS.
      - replace (u32 (-1)) with (2 ^ 32 - 1) by reflexivity. replace (2 ^ 32 - 1 <? f_len F) with false by lia. rewrite andb_false_r. auto.
      - rewrite LinProofs.u32_id by lia. rewrite Z.ltb_irrefl, andb_false_r. auto. }
    rewrite forallb_forall in BL. destruct (blind_right _ _ _ _ (BL x' IX) SC) as (l & RL).
    exists (i + (S j + l))%nat. unfold c_main. rewrite c_run_add, R, c_run_add, R'. exact RL.
Qed.

End Right.
