(** * Model of the run-length tapes: tm/tape.py and src/tape.rs *)
From Verif Require Import Base.

(** tm/tape.py 27-30 (dataclass Block), src/tape.rs 45-49 (struct BasicBlock).
    Simplified: counts are integers here; symbolic counts (tm/num.py) are not modelled. *)
Record block := Blk { b_color : Z; b_count : Z }.

(** tm/tape.py 46-48, src/tape.rs 85-86 (Span). *)
Definition span : Type := list block.

(** tm/tape.py 44-48 (dataclass Tape), src/tape.rs 218-223 (struct Tape). *)
Record tape := Tape { t_lspan : span; t_scan : Z; t_rspan : span }.

(** tm/tape.py 50-58 with default arguments, src/tape.rs 282-284 [Tape::init] with scan 0. *)
Definition init_tape : tape := Tape [] 0 [].

(** src/tape.rs 286-288 [Tape::init_stepped]. *)
Definition init_stepped : tape := Tape [Blk 1 1] 0 [].

(** tm/tape.py 41-42, 60-65 (clone).  Simplified: values have no identity in this file,
    see HeapModel.v for object identity. *)
Definition clone (t : tape) : tape :=
  Tape (map (fun b => Blk (b_color b) (b_count b)) (t_lspan t)) (t_scan t)
       (map (fun b => Blk (b_color b) (b_count b)) (t_rspan t)).

(** [not span], tm/tape.py 78, 95; [is_empty], src/tape.rs 94. *)
Definition is_nil {A} (l : list A) : bool := match l with [] => true | _ => false end.

(** tm/tape.py 76-78, src/tape.rs 313-315. *)
Definition t_blank (t : tape) : bool :=
  (t_scan t =? 0) && is_nil (t_lspan t) && is_nil (t_rspan t).

(** tm/tape.py 84-87 (one of the two sums), src/tape.rs 109-115 [Span::marks]. *)
Fixpoint span_marks (s : span) : Z :=
  match s with
  | [] => 0
  | b :: s => (if b_color b =? 0 then 0 else b_count b) + span_marks s
  end.

(** tm/tape.py 80-89, src/tape.rs 290-294. *)
Definition t_marks (t : tape) : Z :=
  (if t_scan t =? 0 then 0 else 1) + span_marks (t_lspan t) + span_marks (t_rspan t).

(** tm/tape.py 91-95, src/tape.rs 308-311. *)
Definition t_at_edge (t : tape) (edge : bool) : bool :=
  (t_scan t =? 0) && is_nil (if edge then t_rspan t else t_lspan t).

(** tm/tape.py 97-99, src/tape.rs 304-306. *)
Definition t_span_lens (t : tape) : nat * nat := (length (t_lspan t), length (t_rspan t)).

(** src/tape.rs 296-298 [Tape::blocks]. *)
Definition t_blocks (t : tape) : nat := (length (t_lspan t) + length (t_rspan t))%nat.

(** tm/tape.py 101-106, src/tape.rs 300-302. *)
Definition t_counts (t : tape) : list Z * list Z :=
  (map b_count (t_lspan t), map b_count (t_rspan t)).

(** tm/tape.py 112-114: one entry of a signature, [(color,)] when the count is 1;
    src/tape.rs 177-198 (ColorCount::Just / Mult). *)
Inductive colcount := Just (c : Z) | Mult (c : Z).

(** tm/tape.py 143 ([c[0]] or the color), src/tape.rs 183-187. *)
Definition cc_color (c : colcount) : Z := match c with Just c => c | Mult c => c end.

(** tm/tape.py 112-114, src/tape.rs 190-198. *)
Definition sig_of_block (b : block) : colcount :=
  if b_count b =? 1 then Just (b_color b) else Mult (b_color b).

(** tm/tape.py 12-16 (Signature), src/tape.rs 202-207. *)
Record signature := Sig { sg_scan : Z; sg_l : list colcount; sg_r : list colcount }.

(** tm/tape.py 108-118, src/tape.rs 243-255. *)
Definition t_signature (t : tape) : signature :=
  Sig (t_scan t) (map sig_of_block (t_lspan t)) (map sig_of_block (t_rspan t)).

(** tm/tape.py 120-125, src/tape.rs 369-373.  [None] models the IndexError / panic.
    Simplified: Python's negative indices do not occur (indices are naturals). *)
Definition t_get_count (t : tape) (side : bool) (pos : nat) : option Z :=
  option_map b_count (nth_error (if side then t_rspan t else t_lspan t) pos).

(** The assignment of tm/tape.py 132, src/tape.rs 375-383; [None] models the IndexError / panic. *)
Fixpoint set_nth_count (s : span) (pos : nat) (v : Z) : option span :=
  match s, pos with
  | [], _ => None
  | b :: s, O => Some (Blk (b_color b) v :: s)
  | b :: s, S pos => option_map (cons b) (set_nth_count s pos v)
  end.

(** tm/tape.py 127-132, src/tape.rs 375-383. *)
Definition t_set_count (t : tape) (side : bool) (pos : nat) (v : Z) : option tape :=
  if side
  then option_map (fun r => Tape (t_lspan t) (t_scan t) r) (set_nth_count (t_rspan t) pos v)
  else option_map (fun l => Tape l (t_scan t) (t_rspan t)) (set_nth_count (t_lspan t) pos v).

(** tm/tape.py 141-147 (the [all(... zip ...)] of one side), src/tape.rs 101-107. *)
Fixpoint span_compatible (s : span) (g : list colcount) : bool :=
  match s, g with
  | b :: s, c :: g => (b_color b =? cc_color c) && span_compatible s g
  | _, _ => true
  end.

(** tm/tape.py 134-155, src/tape.rs 317-326. *)
Definition t_sig_compatible (t : tape) (g : signature) : bool :=
  (t_scan t =? sg_scan g)
  && (length (sg_l g) <=? length (t_lspan t))%nat
  && (length (sg_r g) <=? length (t_rspan t))%nat
  && span_compatible (firstn (length (sg_l g)) (t_lspan t)) (sg_l g)
  && span_compatible (firstn (length (sg_r g)) (t_rspan t)) (sg_r g).

(** tm/tape.py 164-168: the block skipped over, and what is left of [pull]. *)
Definition py_skip_block (pull : span) (scan : Z) (skip : bool) : option block * span :=
  match pull with
  | b :: pull' => if skip && (b_color b =? scan) then (Some b, pull') else (None, pull)
  | [] => (None, pull)
  end.

(** tm/tape.py 170. *)
Definition py_stepped (push_block : option block) : Z :=
  match push_block with None => 1 | Some b => 1 + b_count b end.

(** tm/tape.py 172-186: take one cell from [pull]; a block emptied this way is re-used
    (with count 0) as [push_block] if there is none yet. *)
Definition py_pull_one (pull : span) (push_block : option block) : Z * span * option block :=
  match pull with
  | [] => (0, pull, push_block)
  | next_pull :: pull' =>
      if negb (b_count next_pull =? 1)
      then (b_color next_pull, Blk (b_color next_pull) (b_count next_pull - 1) :: pull', push_block)
      else (b_color next_pull, pull',
            match push_block with
            | None => Some (Blk (b_color next_pull) 0)
            | Some b => Some b
            end)
  end.

(** tm/tape.py 190-197: insertion of a block in front of [push]. *)
Definition py_insert (push : span) (push_block : option block) (color : Z) : span :=
  match push_block with
  | None => Blk color 1
  | Some b => Blk color (b_count b + 1)
  end :: push.

(** tm/tape.py 188-197. *)
Definition py_push (push : span) (push_block : option block) (color stepped : Z) : span :=
  match push with
  | top_block :: push' =>
      if b_color top_block =? color
      then Blk (b_color top_block) (b_count top_block + stepped) :: push'
      else py_insert push push_block color
  | [] => if negb (color =? 0) then py_insert push push_block color else push
  end.

(** tm/tape.py 157-201 [Tape.step]; returns the new tape and the number of steps. *)
Definition py_step (t : tape) (shift : bool) (color : Z) (skip : bool) : tape * Z :=
  let '(pull, push) := if shift then (t_rspan t, t_lspan t) else (t_lspan t, t_rspan t) in
  let '(push_block, pull) := py_skip_block pull (t_scan t) skip in
  let stepped := py_stepped push_block in
  let '(next_scan, pull, push_block) := py_pull_one pull push_block in
  let push := py_push push push_block color stepped in
  (if shift then Tape push next_scan pull else Tape pull next_scan push, stepped).

(** src/tape.rs 131-155 [Span::pull]: next scan, steps, remaining span. *)
Definition rs_pull (s : span) (scan : Z) (skip : bool) : Z * Z * span :=
  let '(stepped, s) :=
    match s with
    | b :: s' => if skip && (b_color b =? scan) then (1 + b_count b, s') else (1, s)
    | [] => (1, s)
    end in
  match s with
  | [] => (0, stepped, s)
  | next_pull :: s' =>
      if b_count next_pull >? 1
      then (b_color next_pull, stepped, Blk (b_color next_pull) (b_count next_pull - 1) :: s')
      else (b_color next_pull, stepped, s')
  end.

(** src/tape.rs 157-171 [Span::push]. *)
Definition rs_push (s : span) (print stepped : Z) : span :=
  match s with
  | [] => if negb (print =? 0) then [Blk print stepped] else []
  | b :: s' =>
      if b_color b =? print
      then Blk (b_color b) (b_count b + stepped) :: s'
      else Blk print stepped :: s
  end.

(** src/tape.rs 337-356 [Tape::step]. *)
Definition rs_step (t : tape) (shift : bool) (color : Z) (skip : bool) : tape * Z :=
  let '(pull, push) := if shift then (t_rspan t, t_lspan t) else (t_lspan t, t_rspan t) in
  let '(next_scan, stepped, pull) := rs_pull pull (t_scan t) skip in
  let push := rs_push push color stepped in
  (if shift then Tape push next_scan pull else Tape pull next_scan push, stepped).

(** src/tape.rs 121-125 [Span::unroll]. *)
Definition unroll_span (s : span) : list Z :=
  flat_map (fun b => repeat (b_color b) (Z.to_nat (b_count b))) s.

(** src/tape.rs 328-335 [Tape::unroll]. *)
Definition t_unroll (t : tape) : list Z :=
  rev (unroll_span (t_lspan t)) ++ [t_scan t] ++ unroll_span (t_rspan t).
