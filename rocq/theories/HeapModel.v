(** * Python tapes as objects: Block objects with identity, updated in place (tm/tape.py) *)
From Verif Require Import Base TapeModel.

(** Identity of a Block object (what id() gives; used in tm/tape.py 219-232, EnumTape). *)
Definition ref : Type := nat.

(** The contents of the Block objects, tm/tape.py 27-30. *)
Definition heap : Type := ref -> block.

(** tm/tape.py 44-48: a Tape whose spans are lists of Block objects.  Simplified: the list objects
    themselves have no identity; every Tape gets lists of its own (56-58, 61-65). *)
Record ptape := PT { p_l : list ref; p_scan : Z; p_r : list ref }.

(** Assignment to an attribute of a Block, e.g. tm/tape.py 132, 180, 186, 189, 194-195. *)
Definition upd (h : heap) (r : ref) (b : block) : heap := fun r' => if Nat.eqb r' r then b else h r'.

(** tm/tape.py 157-201 (Tape.step) on objects: new heap, new tape, returned number.  [fresh] is the
    identity the allocator gives to the Block of 192. *)
Definition heap_step (fresh : ref) (h : heap) (t : ptape) (shift : bool) (color : Z) (skip : bool) : heap * ptape * Z :=
  let '(pull, push) := if shift then (p_r t, p_l t) else (p_l t, p_r t) in
  let '(push_block, pull) :=
    match pull with
    | r :: pull' => if skip && (b_color (h r) =? p_scan t) then (Some r, pull') else (None, pull)
    | [] => (None, pull)
    end in
  let stepped := match push_block with None => 1 | Some r => 1 + b_count (h r) end in
  let '(h, next_scan, pull, push_block) :=
    match pull with
    | [] => (h, 0, pull, push_block)
    | next_pull :: pull' =>
        let next_scan := b_color (h next_pull) in
        if negb (b_count (h next_pull) =? 1)
        then (upd h next_pull (Blk (b_color (h next_pull)) (b_count (h next_pull) - 1)), next_scan, pull, push_block)
        else match push_block with
             | None => (upd h next_pull (Blk (b_color (h next_pull)) 0), next_scan, pull', Some next_pull)
             | Some r => (h, next_scan, pull', Some r)
             end
    end in
  let '(h, push) :=
    match push with
    | top_block :: _ =>
        if b_color (h top_block) =? color
        then (upd h top_block (Blk (b_color (h top_block)) (b_count (h top_block) + stepped)), push)
        else match push_block with
             | None => (upd h fresh (Blk color 1), fresh :: push)
             | Some r => (upd h r (Blk color (b_count (h r) + 1)), r :: push)
             end
    | [] =>
        if negb (color =? 0)
        then match push_block with
             | None => (upd h fresh (Blk color 1), fresh :: push)
             | Some r => (upd h r (Blk color (b_count (h r) + 1)), r :: push)
             end
        else (h, push)
    end in
  (h, if shift then PT push next_scan pull else PT pull next_scan push, stepped).

(** tm/tape.py 62, 64: one span cloned into new objects with the identities [ids]. *)
Fixpoint clone_span (h : heap) (s : list ref) (ids : list ref) : heap :=
  match s, ids with
  | r :: s, i :: ids => clone_span (upd h i (Blk (b_color (h r)) (b_count (h r)))) s ids
  | _, _ => h
  end.

(** tm/tape.py 60-65 (Tape.clone), 67-68 (to_enum, which wraps a clone). *)
Definition heap_clone (lids rids : list ref) (h : heap) (t : ptape) : heap * ptape :=
  (clone_span (clone_span h (p_l t) lids) (p_r t) rids, PT lids (p_scan t) rids).

(** tm/tape.py 127-132 (set_count); [None] models the IndexError. *)
Definition heap_set_count (h : heap) (t : ptape) (side : bool) (pos : nat) (v : Z) : option heap :=
  match nth_error (if side then p_r t else p_l t) pos with
  | None => None
  | Some r => Some (upd h r (Blk (b_color (h r)) v))
  end.

(** What a program can do with its tapes (tm/tape.py 50, 60, 127, 157), the first argument saying which. *)
Inductive op :=
| ONew
| OStep (i : nat) (shift : bool) (color : Z) (skip : bool)
| OClone (i : nat)
| OSetCount (i : nat) (side : bool) (pos : nat) (v : Z)
| ODrop (i : nat).

(** The live tapes and their Block objects (tm/tape.py 27-48). *)
Record world := World { w_heap : heap; w_tapes : list ptape }.

(** The objects in use by a tape (tm/tape.py 44-48). *)
Definition refs (t : ptape) : list ref := p_l t ++ p_r t.
(** The objects in use by all tapes (tm/tape.py 44-48). *)
Definition live (w : world) : list ref := flat_map refs (w_tapes w).

(** Replacing an entry of the list of tapes; not code of /repo (bookkeeping for tm/tape.py 44-205). *)
Fixpoint set_nth {A} (l : list A) (i : nat) (x : A) : list A :=
  match l, i with
  | [], _ => []
  | _ :: l, O => x :: l
  | y :: l, S i => y :: set_nth l i x
  end.
(** Removing an entry of the list of tapes; not code of /repo (bookkeeping for tm/tape.py 44-205). *)
Fixpoint del_nth {A} (l : list A) (i : nat) : list A :=
  match l, i with
  | [], _ => []
  | _ :: l, O => l
  | y :: l, S i => y :: del_nth l i
  end.

(** One operation (tm/tape.py 50-58, 60-65, 127-132, 157-205) and the number it returns (0 if it returns none).  The allocator may give any
    identity that is not in use; dropped tapes and popped blocks are freed at once. *)
Inductive wop : world -> op -> Z -> world -> Prop :=
| WNew h ts : wop (World h ts) ONew 0 (World h (ts ++ [PT [] 0 []]))
| WStep h ts i t shift color skip fresh h' t' n :
    nth_error ts i = Some t -> ~ In fresh (live (World h ts)) ->
    heap_step fresh h t shift color skip = (h', t', n) ->
    wop (World h ts) (OStep i shift color skip) n (World h' (set_nth ts i t'))
| WClone h ts i t lids rids h' t' :
    nth_error ts i = Some t ->
    length lids = length (p_l t) -> length rids = length (p_r t) -> NoDup (lids ++ rids) ->
    (forall r, In r (lids ++ rids) -> ~ In r (live (World h ts))) ->
    heap_clone lids rids h t = (h', t') ->
    wop (World h ts) (OClone i) 0 (World h' (ts ++ [t']))
| WSetCount h ts i t side pos v h' :
    nth_error ts i = Some t -> heap_set_count h t side pos v = Some h' ->
    wop (World h ts) (OSetCount i side pos v) 0 (World h' ts)
| WDrop h ts i t : nth_error ts i = Some t ->
    wop (World h ts) (ODrop i) 0 (World h (del_nth ts i)).

(** A sequence of operations of tm/tape.py 44-205. *)
Inductive wops : world -> list op -> list Z -> world -> Prop :=
| wops_nil w : wops w [] [] w
| wops_cons w o n w' os ns w'' : wop w o n w' -> wops w' os ns w'' -> wops w (o :: os) (n :: ns) w''.
