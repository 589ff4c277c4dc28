(** * Specification: how a run-length tape is to be read as an unbounded tape.

    Only the data type of block lists is taken from the model. *)
From Verif Require Import Base TM TapeModel.

(** The cell [n] places away from the head on the side held by span [s]
    (cells beyond the last block are blank). *)
Fixpoint cell (s : span) (n : Z) : Z :=
  match s with
  | [] => 0
  | b :: s => if n <? b_count b then b_color b else cell s (n - b_count b)
  end.

(** The cell at offset [i] from the head. *)
Definition tape_cell (t : tape) (i : Z) : Z :=
  if i =? 0 then t_scan t
  else if 0 <? i then cell (t_rspan t) (i - 1)
  else cell (t_lspan t) (- i - 1).

(** [t] holds the contents of the configuration's tape around its head. *)
Definition represents (t : tape) (c : config) : Prop :=
  forall i, c_tape c (c_pos c + i) = tape_cell t i.

(** Every block has a positive count. *)
Definition wf_span (s : span) : Prop := Forall (fun b => 1 <= b_count b) s.
Definition wf_tape (t : tape) : Prop := wf_span (t_lspan t) /\ wf_span (t_rspan t).

(** Canonical form: positive counts, neighbours differ, outermost block not blank. *)
Fixpoint canon_span (s : span) : Prop :=
  match s with
  | [] => True
  | b :: s' =>
      1 <= b_count b
      /\ (match s' with [] => b_color b <> 0 | b' :: _ => b_color b <> b_color b' end)
      /\ canon_span s'
  end.
Definition canon (t : tape) : Prop := canon_span (t_lspan t) /\ canon_span (t_rspan t).
