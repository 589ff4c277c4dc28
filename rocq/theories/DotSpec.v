(** * Specification: the part of the DOT language that graphs are written in

    After graphviz.org/doc/info/lang.html: identifiers are words or quoted strings; a graph is a
    list of statements; a statement gives an attribute or an edge with a list of attributes; semicolons
    are optional. *)
From Coq Require String Ascii.
From Verif Require Import Base TM ProgModel ParseModel CSpec.
Local Open Scope string_scope.

(** ** Words and signs *)

Inductive dtok := DId (w : text) | DSym (c : Z) | DArrow.

Definition id_char (c : Z) : bool :=
  ((65 <=? c) && (c <=? 90)) || ((97 <=? c) && (c <=? 122)) || (c =? 95) || ((48 <=? c) && (c <=? 57)).
(** Only words whose first character is no digit. *)
Definition id_start (c : Z) : bool := id_char c && negb ((48 <=? c) && (c <=? 57)).
(** { } [ ] = ; , *)
Definition dot_sign (c : Z) : bool :=
  existsb (Z.eqb c) [123; 125; 91; 93; 61; 59; 44].
Definition dot_blank (c : Z) : bool := (c =? 32) || (c =? 10).

(** Where the reader is: between words, in a word (its characters so far, last first), in a string, after a minus,
    or after a backslash in a string. *)
Inductive dmode := Between | InWord (w : text) | InString (w : text) | AfterMinus | Escaped (w : text).

Definition prefixed (k : dtok) (r : option (list dtok)) : option (list dtok) := option_map (cons k) r.

Fixpoint dot_lex (m : dmode) (t : text) : option (list dtok) :=
  match t with
  | [] => match m with Between => Some [] | InWord w => Some [DId (rev w)] | _ => None end
  | c :: t =>
      let start :=
        if dot_blank c then dot_lex Between t
        else if c =? 34 then dot_lex (InString []) t
        else if c =? 45 then dot_lex AfterMinus t
        else if dot_sign c then prefixed (DSym c) (dot_lex Between t)
        else if id_start c then dot_lex (InWord [c]) t
        else None in
      match m with
      | Between => start
      | InWord w => if id_char c then dot_lex (InWord (c :: w)) t else prefixed (DId (rev w)) start
      | InString w =>
          if c =? 34 then prefixed (DId (rev w)) (dot_lex Between t)
          else if c =? 92 then dot_lex (Escaped w) t
          else dot_lex (InString (c :: w)) t
      | Escaped w => if c =? 34 then dot_lex (InString (34 :: w)) t else dot_lex (InString (c :: 92 :: w)) t
      | AfterMinus => if c =? 62 then prefixed DArrow (dot_lex Between t) else None
      end
  end.

(** ** Statements *)

(** Attributes of the graph, and edges with the attribute [color]; Graphviz skips blanks before the name
    of a colour. *)
Record dgraph := DG { dg_attrs : list (text * text); dg_edges : list (text * text * text) }.

Fixpoint dot_stmts (ks : list dtok) : option dgraph :=
  match ks with
  | [DSym 125] => Some (DG [] [])
  | DSym 59 :: ks => dot_stmts ks
  | DId a :: DSym 61 :: DId v :: ks =>
      match dot_stmts ks with Some g => Some (DG ((a, v) :: dg_attrs g) (dg_edges g)) | None => None end
  | DId a :: DArrow :: DId b :: DSym 91 :: DId k :: DSym 61 :: DId v :: DSym 93 :: ks =>
      if text_eqb k (str "color") then
        match dot_stmts ks with Some g => Some (DG (dg_attrs g) ((a, b, strip v) :: dg_edges g)) | None => None end
      else None
  | _ => None
  end.

Definition dot_read (t : text) : option dgraph :=
  match dot_lex Between t with
  | Some (DId d :: DId _ :: DSym 123 :: ks) => if text_eqb d (str "digraph") then dot_stmts ks else None
  | _ => None
  end.

(** ** What is to be drawn *)

(** The colours of the arrows, by column. *)
Definition arrow_colors : list text :=
  [str "blue"; str "red"; str "forestgreen"; str "purple"; str "goldenrod"; str "black"; str "brown"; str "deeppink"].

(** The name of a state that has one: a letter, or '_' for 30. *)
Definition state_name (s : Z) : text := [65 + s].

(** In state [s] and colour [c] the table [g] has an instruction that leads to [t]. *)
Definition leads_to (g : list (list (option instr))) (s c : nat) (t : Z) : Prop :=
  exists row pr sh, nth_error g s = Some row /\ nth_error row c = Some (Some (pr, sh, t)).

(** Exactly one arrow for every instruction, from its state to the next, in the colour of its column. *)
Definition draws (g : list (list (option instr))) (d : dgraph) : Prop :=
  NoDup (dg_edges d) /\
  forall a b v, In (a, b, v) (dg_edges d) <->
    exists s c t, leads_to g s c t /\ a = state_name (Z.of_nat s) /\ b = state_name t
      /\ nth_error arrow_colors c = Some v.

(** Tables with names for all states and colours for all columns. *)
Definition drawable (g : list (list (option instr))) : Prop :=
  (length g <= 26)%nat /\
  forall s c t, leads_to g s c t -> (c < 8)%nat /\ (0 <= t < 26 \/ t = 30).

(** A text that can be quoted. *)
Definition dot_quotable (t : text) : Prop := Forall (fun c => c <> 34 /\ c <> 92) t.
