(** * Model of idris/Parse.idr, with the casts of idris/Program.idr

    A text is the list of its characters' code points; a parser is a function on texts, giving at most one result. *)
From Verif Require Import Base TM ParseModel IdrisModel.

(** idris/Parse.idr 12-13. *)
Definition parser (A : Type) : Type := text -> list (A * text).
(** idris/Parse.idr 21-22 (pure). *)
Definition ppure {A} (v : A) : parser A := fun inp => [(v, inp)].
(** idris/Parse.idr 29-33 ([>>=]). *)
Definition pbind {A B} (p : parser A) (f : A -> parser B) : parser B := fun inp =>
  match p inp with [(v, out)] => f v out | _ => [] end.
(** idris/Parse.idr 35-36 (empty). *)
Definition pempty {A} : parser A := fun _ => [].
(** idris/Parse.idr 43-47. *)
Definition run_parser {A} (p : parser A) (inp : text) : option A :=
  match p inp with [(res, [])] => Some res | _ => None end.

(** idris/Parse.idr 51-55. *)
Definition item : parser Z := fun inp => match inp with [] => [] | c :: cs => [(c, cs)] end.
(** idris/Parse.idr 57-60. *)
Definition sat (p : Z -> bool) : parser Z := pbind item (fun x => if p x then ppure x else pempty).

(** [isUpper] of Idris' prelude, idris/Parse.idr 64. *)
Definition is_upper (x : Z) : bool := (65 <=? x) && (x <=? 90).
(** [isDigit] of Idris' prelude, idris/Parse.idr 74. *)
Definition is_digit (x : Z) : bool := (48 <=? x) && (x <=? 57).
(** [isSpace] of Idris' prelude, idris/Parse.idr 86: blank, tab, return, newline, form feed, vertical tab, no-break space. *)
Definition is_space (x : Z) : bool :=
  (x =? 32) || (x =? 9) || (x =? 13) || (x =? 10) || (x =? 12) || (x =? 11) || (x =? 160).

(** idris/Program.idr 35-53 (CastState). *)
Definition cast_state (x : Z) : Z := if (65 <=? x) && (x <=? 76) then x - 64 else 0.
(** idris/Program.idr 12-16. *)
Definition cast_shift (x : Z) : bool := if x =? 76 then false else true.
(** idris/Parse.idr 62-65. *)
Definition pstate : parser Z :=
  pbind (sat (fun x => is_upper x || (x =? 95) || (x =? 46))) (fun s => ppure (cast_state s)).
(** idris/Parse.idr 67-70. *)
Definition pshift : parser bool :=
  pbind (sat (fun x => (x =? 76) || (x =? 82) || (x =? 46))) (fun s => ppure (cast_shift s)).
(** idris/Parse.idr 72-75; stringToNatOrZ gives 0 for what is not a number. *)
Definition pcolor : parser Z :=
  pbind (sat (fun x => is_digit x || (x =? 46))) (fun c => ppure (if is_digit c then c - 48 else 0)).
(** idris/Parse.idr 77-82. *)
Definition pinstruction : parser (Z * bool * Z) :=
  pbind pcolor (fun co => pbind pshift (fun sh => pbind pstate (fun st => ppure (co, sh, st)))).
(** idris/Parse.idr 84-87. *)
Definition pspace : parser unit := pbind (sat is_space) (fun _ => ppure tt).

(** idris/Parse.idr 95-102. *)
Fixpoint pinstructions (k : nat) : parser (list (Z * bool * Z)) :=
  match k with
  | O => ppure []
  | S k' =>
      match k' with
      | O => pbind pinstruction (fun i => ppure [i])
      | _ => pbind pinstruction (fun i => pbind pspace (fun _ => pbind (pinstructions k') (fun is => ppure (i :: is))))
      end
  end.
(** idris/Parse.idr 104-112. *)
Fixpoint pprogram (n c : nat) : parser (list (list (Z * bool * Z))) :=
  match n with
  | O => ppure []
  | S k =>
      match k with
      | O => pbind (pinstructions c) (fun i => ppure [i])
      | _ => pbind (pinstructions c) (fun i => pbind pspace (fun _ => pbind pspace (fun _ =>
               pbind (pprogram k c) (fun is => ppure (i :: is)))))
      end
  end.

(** idris/Parse.idr 114-117. *)
Definition color_index (c : Z) (instrs : list (Z * bool * Z)) : Z * bool * Z := nth (Z.to_nat c) instrs (1, true, ihalt).
(** idris/Parse.idr 119-128; [pred] of 0 is 0, so that state 0, which is to halt, has the instructions of A. *)
Definition cast_prog (prog : list (list (Z * bool * Z))) : iprogram := fun state color =>
  match nth_error prog (Z.to_nat (state - 1)) with
  | Some instrs => color_index color instrs
  | None => (1, true, ihalt)
  end.
(** idris/Parse.idr 130-134. *)
Definition iparse (n k : nat) (prog : text) : option iprogram := option_map cast_prog (run_parser (pprogram n k) prog).
