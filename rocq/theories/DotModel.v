(** * Model of tools/dot.py: programs drawn as graphs *)
From Verif Require Import Base TM ProgModel ParseModel NormModel GraphModel CModel.
Local Open Scope string_scope.

(** tools/dot.py 3-12 (COLORS). *)
Definition COLORS : list text :=
  [lit "blue"; lit "red"; lit "forestgreen"; lit "purple"; lit "goldenrod"; lit "black"; lit "brown"; lit "deeppink"].

(** tools/dot.py 17-21: the header. *)
Definition dot_header (prog : text) : text :=
  if (length prog <? 50)%nat
  then join nl [lit "  labelloc=""t"";"; lit "  label=""" ++ prog ++ lit """;"; lit "  fontname=""courier"""]
  else [].

(** tools/dot.py 24: one edge; [None] is the IndexError of [COLORS[i]]. *)
Definition dot_edge (node : Z) (i : nat) (target : Z) : option text :=
  match nth_error COLORS i with
  | None => None
  | Some color =>
      Some (lit "  " ++ [show_state (Some node)] ++ lit " -> " ++ [show_state (Some target)]
            ++ lit " [ color="" " ++ color ++ lit """ ];")
  end.

(** [sorted(...items())], tools/dot.py 25: the keys are all different, so only they are compared. *)
Fixpoint key_insert {V} (e : Z * V) (l : list (Z * V)) : list (Z * V) :=
  match l with
  | [] => [e]
  | f :: l => if fst e <=? fst f then e :: f :: l else f :: key_insert e l
  end.
(** [sorted(...items())], tools/dot.py 25. *)
Definition key_sorted {V} (l : list (Z * V)) : list (Z * V) := fold_right key_insert [] l.

(** tools/dot.py 26-27: the edges of one node, from column [i] on. *)
Fixpoint dot_row (node : Z) (i : nat) (targets : list (option Z)) : option (list text) :=
  match targets with
  | [] => Some []
  | None :: targets => dot_row node (S i) targets
  | Some target :: targets =>
      match dot_edge node i target, dot_row node (S i) targets with
      | Some e, Some es => Some (e :: es)
      | _, _ => None
      end
  end.

(** tools/dot.py 23-28: the lines of all nodes. *)
Definition dot_edges (arrows : list (Z * list (option Z))) : option (list text) :=
  option_map (@concat text) (map_opt (fun e => dot_row (fst e) 0 (snd e)) (key_sorted arrows)).

(** tools/dot.py 16-30 (make_dot); [None] is an exception. *)
Definition make_dot (prog : text) : option text :=
  match parse prog with
  | None => None
  | Some parsed =>
      match dot_edges (arrows_of parsed) with
      | None => None
      | Some edges =>
          Some (lit "digraph NAME {" ++ nl ++ dot_header prog ++ nl ++ nl ++ join nl edges ++ nl ++ lit "}")
      end
  end.
