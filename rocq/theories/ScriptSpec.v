(** * Files of programs *)
From Verif Require Import Base TM ProgModel ParseModel ParseSpec.

(** The file with these lines. *)
Definition file_of (lines : list text) : text := concat (map (fun s => s ++ [10]) lines).
(** The text of a table; of a table with more than one cell. *)
Definition table_text (s : text) : Prop := exists g, prog_text g s.
Definition table_text2 (s : text) : Prop := exists g, prog_text g s /\ (2 <= length (concat g))%nat.

(** The machine [M] with [i] at the slot. *)
Definition filled (M : program) (sl : slot) (i : instr) : program :=
  fun s c => if (s =? fst sl) && (c =? snd sl) then Some i else M s c.
(** All instructions over the states below [states] and the colours below [colors], each once. *)
Definition lists_instrs (states colors : Z) (l : list instr) : Prop :=
  NoDup l /\ forall pr sh tr, In (pr, sh, tr) l <-> 0 <= pr < colors /\ 0 <= tr < states.

(** Decimal digits, without zeros in front, of a number. *)
Definition numeral (ds : text) (n : Z) : Prop :=
  Forall (fun d => 48 <= d <= 57) ds /\ fold_left (fun a d => 10 * a + (d - 48)) ds 0 = n
  /\ (ds = [48] \/ exists d ds', ds = d :: ds' /\ d <> 48).
(** The line of a Python dictionary from a text to a number, right-aligned in two places, and the name of a slot. *)
Definition says_entry (line : text) (partial : text) (step : Z) (sl : slot) : Prop :=
  exists pad ds cs, line = repeat 32 8 ++ [34] ++ partial ++ [34; 58; 32; 40] ++ pad ++ ds ++ [44; 32; 39] ++ [65 + fst sl] ++ cs ++ [39; 41; 44; 10]
  /\ numeral ds step /\ numeral cs (snd sl) /\ Forall (fun c => c = 32) pad /\ (2 <= length (pad ++ ds))%nat /\ (pad = [] \/ length (pad ++ ds) = 2%nat).
(** The lines for one program: its text, the entries, the closing brace. *)
Definition says_sequence (out : text) (s : text) (l : list (text * Z * slot)) : Prop :=
  exists lines, out = repeat 32 4 ++ [34] ++ s ++ [34; 58; 32; 123; 10] ++ concat lines ++ repeat 32 4 ++ [125; 44; 10]
  /\ Forall2 (fun line e => says_entry line (fst (fst e)) (snd (fst e)) (snd e)) lines l.

(** The text with an underscore for each space. *)
Definition spaces_underscored (s t : text) : Prop := Forall2 (fun c d => (c = 32 -> d = 95) /\ (c <> 32 -> d = c)) s t.
