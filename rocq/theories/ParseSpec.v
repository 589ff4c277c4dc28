(** * Program texts, independently of the reader *)
From Verif Require Import Base TM ProgModel ParseModel.

(** A cell of a program table: undefined, or (digit, direction, letter). *)
Definition cell_text (i : option instr) (s : text) : Prop :=
  match i with
  | None => s = [46; 46; 46]
  | Some (c, sh, tr) => 0 <= c < 10 /\ 0 <= tr < 26 /\ s = [48 + c; if sh then 82 else 76; 65 + tr]
  end.

(** A row: cells separated by one space. *)
Inductive row_text : list (option instr) -> text -> Prop :=
  | row_one i s : cell_text i s -> row_text [i] s
  | row_cons i s r t : cell_text i s -> row_text r t -> row_text (i :: r) (s ++ [32] ++ t).

(** A program: rows separated by two spaces. *)
Inductive prog_text : list (list (option instr)) -> text -> Prop :=
  | prog_one r s : row_text r s -> prog_text [r] s
  | prog_cons r s g t : row_text r s -> prog_text g t -> prog_text (r :: g) (s ++ [32; 32] ++ t).

(** The instruction in a table at a slot. *)
Definition table_get (g : list (list (option instr))) (s : slot) : option instr :=
  if (0 <=? fst s) && (0 <=? snd s) then nth (Z.to_nat (snd s)) (nth (Z.to_nat (fst s)) g []) None else None.

(** All rows have the same number of cells. *)
Definition rectangular (g : list (list (option instr))) (cols : nat) : Prop := Forall (fun r => length r = cols) g.

(** A compiled program has its slots inside [params] and contents that one character can show. *)
Definition fits (p : comp_prog) (states colors : Z) : Prop :=
  forall s c i, comp_get p (s, c) = Some i -> 0 <= s < states /\ 0 <= c < colors.
Definition shows_ok (p : comp_prog) : Prop :=
  forall s c pr sh tr, comp_get p (s, c) = Some (pr, sh, tr) -> 0 <= pr < 10 /\ 0 <= tr < 26.
