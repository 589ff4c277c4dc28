(** * The compact notation of programs, independently of the reader (C86) *)
From Verif Require Import Base TM ProgModel ParseModel.

(** A character that can stand in a cell: printable ASCII other than the space and the separator of rows. *)
Definition plain_char (c : Z) : Prop := 33 <= c < 127 /\ c <> 95.
(** A cell: three characters, (digit, direction, letter); the cell of an undefined instruction has a dash somewhere or
    the letter Z, as "---" or "1RZ", so the letter Z does not name a state. *)
Definition compact_cell (i : option instr) (s : text) : Prop :=
  match i with
  | None => exists a b c, s = [a; b; c] /\ plain_char a /\ plain_char b /\ plain_char c /\ (In 45 s \/ In 90 s)
  | Some (c, sh, tr) => 0 <= c < 10 /\ 0 <= tr < 25 /\ s = [48 + c; if sh then 82 else 76; 65 + tr]
  end.
(** A row: cells without anything between. *)
Inductive compact_row : list (option instr) -> text -> Prop :=
  | crow_one i s : compact_cell i s -> compact_row [i] s
  | crow_cons i s r t : compact_cell i s -> compact_row r t -> compact_row (i :: r) (s ++ t).
(** A program: rows with an underscore between. *)
Inductive compact_text : list (list (option instr)) -> text -> Prop :=
  | cprog_one r s : compact_row r s -> compact_text [r] s
  | cprog_cons r s g t : compact_row r s -> compact_text g t -> compact_text (r :: g) (s ++ [95] ++ t).
(** What may stand around it, as the end of a line. *)
Definition line_space (s : text) : Prop := Forall (fun c => c = 9 \/ c = 10 \/ c = 13) s.
