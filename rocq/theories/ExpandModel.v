(** * Model of expand, tools/normalize.py 16-27

    A text is the list of its characters' code points, as in [ParseModel]. *)
From Verif Require Import Base TM ProgModel ParseModel.

(** What Python's [str.strip] takes for white space, tools/normalize.py 26. *)
Definition py_space (c : Z) : bool :=
  ((9 <=? c) && (c <=? 13)) || ((28 <=? c) && (c <=? 32)) || (c =? 133) || (c =? 160) || (c =? 5760)
  || ((8192 <=? c) && (c <=? 8202)) || (c =? 8232) || (c =? 8233) || (c =? 8239) || (c =? 8287) || (c =? 12288).
(** [strip], tools/normalize.py 26: at the beginning. *)
Fixpoint lstrip (s : text) : text :=
  match s with
  | [] => []
  | c :: s' => if py_space c then lstrip s' else s
  end.
(** [strip], tools/normalize.py 26: both ends. *)
Definition strip (s : text) : text := rev (lstrip (rev (lstrip s))).

(** [split('_')], tools/normalize.py 26. *)
Fixpoint split_rows (s : text) : list text :=
  match s with
  | [] => [[]]
  | c :: s => if c =? 95 then [] :: split_rows s
              else match split_rows s with r :: rs => (c :: r) :: rs | [] => [[c]] end
  end.

(** [state[i:i+3] for i in range(0, len(state), 3)], tools/normalize.py 21-24; the last slice may be short. *)
Fixpoint chunks (s : text) : list text :=
  match s with
  | [] => []
  | a :: b :: c :: s => [a; b; c] :: chunks s
  | short => [short]
  end.

(** tools/normalize.py 21-23: one instruction; 'Z' is 90, '-' is 45. *)
Definition expand_instr (s : text) : text :=
  if existsb (Z.eqb 90) s || existsb (Z.eqb 45) s then [UNDF; UNDF; UNDF] else s.

(** tools/normalize.py 16-27; [None] for the AssertionError of 17. *)
Definition expand (prog : text) : option text :=
  if existsb (Z.eqb SPACE) prog then None
  else Some (join [SPACE; SPACE] (map (fun state => join [SPACE] (map expand_instr (chunks state))) (split_rows (strip prog)))).
