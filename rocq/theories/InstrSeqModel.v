(** * Model of tools/instr_seq.py *)
From Verif Require Import Base TM ProgModel TapeModel ParseModel NormModel.

(** tools/normalize.py 30-38 (init_prog); [None] is the IndexError of line 36. *)
Definition init_prog (states colors : nat) : option text :=
  match states, colors with
  | S s, S c =>
      Some (join [SPACE; SPACE] (map (join [SPACE])
        (([49; 82; 66] :: repeat [46; 46; 46] c) :: repeat (repeat [46; 46; 46] (S c)) s)))
  | _, _ => None
  end.

(** tools/normalize.py 56-58 (Normalizer.init). *)
Definition n_init (states colors : nat) : option nprog :=
  match init_prog states colors with
  | None => None
  | Some t => match parse t with None => None | Some parsed => Some (norm_of parsed) end
  end.

(** tools/normalize.py 85-88 (__setitem__); [None] is KeyError. *)
Definition n_set (n : nprog) (sl : slot) (i : instr) : option nprog :=
  match dget n (fst sl) with
  | None => None
  | Some sw => Some (dset n (fst sl) (dset sw (snd sl) (Some i)))
  end.

(** tools/instr_seq.py 43-62: the loop of run_for_undefined, [fuel] turns left. *)
Fixpoint rfu_loop (prog : nprog) (fuel : nat) (t : tape) (step state : Z) : option (Z * slot) :=
  match fuel with
  | O => None
  | S fuel =>
      match n_get prog state (t_scan t) with
      | None => Some (step, (state, t_scan t))
      | Some (color, shift, next_state) =>
          let same := state =? next_state in
          if same && t_at_edge t shift then None
          else let '(t, stepped) := py_step t shift color same in
               rfu_loop prog fuel t (step + stepped) next_state
      end
  end.

(** tools/instr_seq.py 36-62.  Simplified: the number of turns, 100_000_000 in the code, is the
    parameter [lim]. *)
Definition run_for_undefined (lim : nat) (prog : nprog) : option (Z * slot) :=
  rfu_loop prog lim init_tape 0 0.

(** tools/instr_seq.py 22-33: the loop, as the list of what it yields. *)
Fixpoint is_loop (lim fuel : nat) (program partial : nprog) : list (text * Z * slot) :=
  match fuel with
  | O => []
  | S fuel =>
      match run_for_undefined lim partial with
      | None => []
      | Some (step, sl) =>
          (n_repr partial, step, sl)
          :: match n_get program (fst sl) (snd sl) with
             | None => []
             | Some i =>
                 match n_set partial sl i with
                 | None => []
                 | Some partial => is_loop lim fuel program partial
                 end
             end
      end
  end.

(** tools/instr_seq.py 15-33.  [None] is an exception raised before anything is yielded. *)
Definition instr_seq (lim : nat) (prog : text) : option (list (text * Z * slot)) :=
  match parse prog with
  | None => None
  | Some parsed =>
      let program := norm_of parsed in
      match n_colors program with
      | None => None
      | Some colors =>
          match n_init (length (n_states program)) (length colors) with
          | None => None
          | Some partial =>
              Some (is_loop lim (length (n_states program) * length colors - 1) program partial)
          end
      end
  end.
