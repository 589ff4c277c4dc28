(** * Tapes as plain values: what a user of the Python tapes expects *)
From Verif Require Import Base TapeModel HeapModel.

(** The contents of a tape object. *)
Definition denote (h : heap) (t : ptape) : tape := Tape (map h (p_l t)) (p_scan t) (map h (p_r t)).

(** The same operations on a list of values; [None] for a tape that is not there. *)
Definition vop (ts : list tape) (o : op) : option (Z * list tape) :=
  match o with
  | ONew => Some (0, ts ++ [Tape [] 0 []])
  | OStep i shift color skip =>
      match nth_error ts i with
      | Some t => let '(t', n) := py_step t shift color skip in Some (n, set_nth ts i t')
      | None => None
      end
  | OClone i => match nth_error ts i with Some t => Some (0, ts ++ [t]) | None => None end
  | OSetCount i side pos v =>
      match nth_error ts i with
      | Some t => match t_set_count t side pos v with Some t' => Some (0, set_nth ts i t') | None => None end
      | None => None
      end
  | ODrop i => match nth_error ts i with Some _ => Some (0, del_nth ts i) | None => None end
  end.

Fixpoint vops (ts : list tape) (os : list op) : option (list Z * list tape) :=
  match os with
  | [] => Some ([], ts)
  | o :: os =>
      match vop ts o with
      | None => None
      | Some (n, ts') => match vops ts' os with Some (ns, ts'') => Some (n :: ns, ts'') | None => None end
      end
  end.
