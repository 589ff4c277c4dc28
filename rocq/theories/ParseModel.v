(** * Model of src/instrs.rs: reading and showing programs

    A text is the list of its characters' code points.  Panics are [None]. *)
From Verif Require Import Base TM ProgModel.

(** src/instrs.rs 46 (&str / String). *)
Definition text : Type := list Z.

(** src/instrs.rs 32-35. *)
Definition UNDF : Z := 46.
(** src/instrs.rs 34: 'L'. *)
Definition LEFT : Z := 76.
(** src/instrs.rs 35: 'R'. *)
Definition RIGHT : Z := 82.
(** src/instrs.rs 48-49: the separator. *)
Definition SPACE : Z := 32.

(** [char::is_whitespace], used by [trim] in src/instrs.rs 47 (the White_Space property). *)
Definition is_whitespace (c : Z) : bool :=
  ((9 <=? c) && (c <=? 13)) || (c =? 32) || (c =? 133) || (c =? 160) || (c =? 5760)
  || ((8192 <=? c) && (c <=? 8202)) || (c =? 8232) || (c =? 8233) || (c =? 8239) || (c =? 8287) || (c =? 12288).

(** [trim], src/instrs.rs 47. *)
Fixpoint trim_start (s : text) : text :=
  match s with
  | [] => []
  | c :: s' => if is_whitespace c then trim_start s' else s
  end.
(** [trim], src/instrs.rs 47: both ends. *)
Definition trim (s : text) : text := rev (trim_start (rev (trim_start s))).

(** [split(' ')], src/instrs.rs 49. *)
Fixpoint split1 (s : text) : list text :=
  match s with
  | [] => [[]]
  | c :: s => if c =? SPACE then [] :: split1 s
              else match split1 s with r :: rs => (c :: r) :: rs | [] => [[c]] end
  end.

(** [split("  ")], src/instrs.rs 48: leftmost, non-overlapping. *)
Fixpoint split2 (s : text) : list text :=
  match s with
  | [] => [[]]
  | c :: t =>
      match t with
      | d :: s' => if (c =? SPACE) && (d =? SPACE) then [] :: split2 s'
                   else match split2 t with r :: rs => (c :: r) :: rs | [] => [[c]] end
      | [] => [[c]]
      end
  end.

(** [join], src/instrs.rs 80, 83. *)
Fixpoint join (sep : text) (l : list text) : text :=
  match l with
  | [] => []
  | [x] => x
  | x :: l => x ++ sep ++ join sep l
  end.

(** src/instrs.rs 89-91. *)
Definition read_color (c : Z) : option Z := if (48 <=? c) && (c <=? 57) then Some (c - 48) else None.

(** src/instrs.rs 93-95. *)
Definition read_shift (c : Z) : bool := c =? RIGHT.

(** src/instrs.rs 97-104, 106-108: u8 arithmetic, wrapping as in the release build that the
    Makefile makes (a debug build panics instead). *)
Definition show_state (s : option Z) : Z :=
  match s with None => UNDF | Some s => (s mod 256 + 65) mod 256 end.
(** src/instrs.rs 105-108. *)
Definition read_state (c : Z) : Z := (c mod 256 - 65) mod 256.

(** [format!("{}", color)] of a u64, src/instrs.rs 113, 131: at most 20 digits. *)
Fixpoint show_num_go (fuel : nat) (n : Z) : text :=
  if n <? 10 then [48 + n]
  else match fuel with
       | O => []
       | S fuel => show_num_go fuel (n / 10) ++ [48 + n mod 10]
       end.
(** [format!("{}", color)], src/instrs.rs 113, 131. *)
Definition show_num (n : Z) : text := show_num_go 20 n.

(** src/instrs.rs 110-114. *)
Definition show_slot (s : slot) : text := show_state (Some (fst s)) :: show_num (snd s).

(** src/instrs.rs 116-123. *)
Definition read_slot (s : text) : option slot :=
  match s with
  | st :: co :: _ => match read_color co with Some c => Some (read_state st, c) | None => None end
  | _ => None
  end.

(** src/instrs.rs 125-137. *)
Definition show_instr (i : option instr) : text :=
  match i with
  | None => [UNDF; UNDF; UNDF]
  | Some (color, shift, trans) => show_num color ++ [if shift then RIGHT else LEFT; show_state (Some trans)]
  end.

(** src/instrs.rs 139-151: [Some None] is an undefined instruction, [None] a panic. *)
Definition read_instr (s : text) : option (option instr) :=
  if existsb (Z.eqb UNDF) s then Some None
  else match s with
       | co :: sh :: st :: _ =>
           match read_color co with
           | Some c => Some (Some (c, read_shift sh, read_state st))
           | None => None
           end
       | _ => None
       end.

(** src/instrs.rs 49-58: one row, [enumerate]d from [color]. *)
Fixpoint read_row (state color : Z) (instrs : list text) : option comp_prog :=
  match instrs with
  | [] => Some []
  | s :: instrs =>
      match read_instr s, read_row state (color + 1) instrs with
      | Some None, Some p => Some p
      | Some (Some i), Some p => Some (((state, color), i) :: p)
      | _, _ => None
      end
  end.

(** src/instrs.rs 50-58: the rows, [enumerate]d from [state]. *)
Fixpoint read_rows (state : Z) (rows : list text) : option comp_prog :=
  match rows with
  | [] => Some []
  | r :: rows =>
      match read_row state 0 (split1 r), read_rows (state + 1) rows with
      | Some p, Some q => Some (p ++ q)
      | _, _ => None
      end
  end.

(** src/instrs.rs 46-60 (tcompile). *)
Definition from_str (prog : text) : option comp_prog := read_rows 0 (split2 (trim prog)).

(** src/instrs.rs 63-71: the inferred params. *)
Definition max_params (p : comp_prog) : Z * Z :=
  let '(ms, mc) :=
    fold_left (fun acc (e : slot * instr) =>
      let '(ms, mc) := acc in
      let '((ss, sc), ((ic, _), is)) := e in
      (Z.max (Z.max ms ss) is, Z.max (Z.max mc sc) ic)) p (1, 1) in
  (1 + ms, 1 + mc).

(** [(0..n).map], src/instrs.rs 73-82. *)
Definition range (n : Z) : list Z := map Z.of_nat (seq 0 (Z.to_nat n)).

(** src/instrs.rs 62-84 (py_show_comp). *)
Definition show_comp (p : comp_prog) (params : option (Z * Z)) : text :=
  let '(max_state, max_color) := match params with Some q => q | None => max_params p end in
  join [SPACE; SPACE]
    (map (fun state => join [SPACE] (map (fun color => show_instr (comp_get p (state, color))) (range max_color)))
         (range max_state)).
