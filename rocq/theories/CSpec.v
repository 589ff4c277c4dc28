(** * Specification: the part of C that written-out programs use, and what they should do

    The C text is read line by line, by a reader that knows nothing of how it was written, and run with
    the macros of machines/structured/machine.h.  The tape is taken to be unbounded. *)
From Coq Require String Ascii.
From Verif Require Import Base TM ProgModel ParseModel ParseSpec.
Export String.StringSyntax.
Local Open Scope string_scope.

(** ** Reading *)

(** A string constant as code points. *)
Fixpoint str (s : String.string) : text :=
  match s with
  | String.EmptyString => []
  | String.String c s => Z.of_nat (Ascii.nat_of_ascii c) :: str s
  end.

Fixpoint text_eqb (a b : text) : bool :=
  match a, b with
  | [], [] => true
  | x :: a, y :: b => (x =? y) && text_eqb a b
  | _, _ => false
  end.

(** The lines of a text. *)
Fixpoint lines (t : text) : list text :=
  match t with
  | [] => [[]]
  | c :: t => if c =? 10 then [] :: lines t
              else match lines t with l :: ls => (c :: l) :: ls | [] => [[c]] end
  end.

Fixpoint strip (t : text) : text :=
  match t with [] => [] | c :: t' => if c =? 32 then strip t' else t end.

(** Statements: PRINT, ERASE and WRITE(c); LEFT and RIGHT; goto. *)
Inductive ccmd := KWrite (c : Z) | KShift (right : bool) | KGoto (label : Z).

Inductive token :=
  | TNothing                            (* empty, a comment, or for the preprocessor *)
  | TMain | TOpen | TClose | TIf | TElse | TWhile (mark : bool) | TSwitch | TCase (color : Z)
  | TLabel (label : Z) | TCmd (k : ccmd) | TCheck.

Definition keywords : list (text * token) :=
  [(str "", TNothing); (str "int main(void)", TMain); (str "{", TOpen); (str "}", TClose);
   (str "if (BLANK)", TIf); (str "else", TElse); (str "while (BLANK) {", TWhile false);
   (str "while (!BLANK) {", TWhile true); (str "switch (SCAN) {", TSwitch);
   (str "PRINT;", TCmd (KWrite 1)); (str "ERASE;", TCmd (KWrite 0));
   (str "LEFT;", TCmd (KShift false)); (str "RIGHT;", TCmd (KShift true)); (str "CHECK_STEPS;", TCheck)].

Fixpoint keyword (l : list (text * token)) (t : text) : option token :=
  match l with [] => None | (k, v) :: l => if text_eqb k t then Some v else keyword l t end.

Definition is_letter (c : Z) : bool := (65 <=? c) && (c <=? 90).
Definition is_digit (c : Z) : bool := (48 <=? c) && (c <=? 57).

(** [pre] and [post] around one character that [ok] accepts. *)
Fixpoint around (pre post : text) (ok : Z -> bool) (t : text) : option Z :=
  match pre, t with
  | [], c :: t => if ok c && text_eqb t post then Some c else None
  | x :: pre, c :: t => if x =? c then around pre post ok t else None
  | _, [] => None
  end.

Definition first_some {A} (a b : option A) : option A := match a with Some _ => a | None => b end.

(** A line without its indentation. *)
Definition token_of (t : text) : option token :=
  match t with
  | 35 :: _ => Some TNothing            (* # *)
  | 47 :: 47 :: _ => Some TNothing      (* // *)
  | _ =>
      first_some (keyword keywords t)
      (first_some (option_map TLabel (around (str "") (str ":") is_letter t))
      (first_some (option_map (fun c => TCmd (KGoto c)) (around (str "goto ") (str ";") is_letter t))
      (first_some (option_map (fun c => TCase (c - 48)) (around (str "case ") (str ":") is_digit t))
                  (option_map (fun c => TCmd (KWrite (c - 48))) (around (str "WRITE(") (str ");") is_digit t)))))
  end.

Fixpoint tokens (ls : list text) : option (list token) :=
  match ls with
  | [] => Some []
  | l :: ls =>
      match token_of (strip l), tokens ls with
      | Some TNothing, Some ts => Some ts
      | Some t, Some ts => Some (t :: ts)
      | _, _ => None
      end
  end.

Inductive cstmt :=
  | KIf (blank nonblank : list ccmd)
  | KWhile (mark : bool) (loop rest : list ccmd)
  | KSwitch (cases : list (Z * list ccmd)).

(** The labelled statements of main, in order, but for H. *)
Definition cprog : Type := list (Z * cstmt).

(** The longest row of simple statements. *)
Fixpoint p_cmds (ts : list token) : list ccmd * list token :=
  match ts with
  | TCmd k :: ts => let '(ks, ts) := p_cmds ts in (k :: ks, ts)
  | _ => ([], ts)
  end.

Fixpoint p_cases (fuel : nat) (ts : list token) : option (list (Z * list ccmd) * list token) :=
  match fuel, ts with
  | S fuel, TCase c :: ts =>
      let '(ks, ts) := p_cmds ts in
      match p_cases fuel ts with Some (cs, ts) => Some ((c, ks) :: cs, ts) | None => None end
  | _, TClose :: ts => Some ([], ts)
  | _, _ => None
  end.

Definition p_stmt (ts : list token) : option (cstmt * list token) :=
  match ts with
  | TIf :: TOpen :: ts =>
      match p_cmds ts with
      | (a, TClose :: TElse :: TOpen :: ts) =>
          match p_cmds ts with
          | (b, TClose :: ts) => Some (KIf a b, ts)
          | _ => None
          end
      | _ => None
      end
  | TWhile mark :: ts =>
      match p_cmds ts with
      | (a, TClose :: ts) => let '(b, ts) := p_cmds ts in Some (KWhile mark a b, ts)
      | _ => None
      end
  | TSwitch :: ts =>
      match p_cases (length ts) ts with Some (cs, ts) => Some (KSwitch cs, ts) | None => None end
  | _ => None
  end.

(** 'H' *)
Definition H : Z := 72.

Fixpoint p_labels (fuel : nat) (ts : list token) : option cprog :=
  match fuel, ts with
  | S _, [TLabel l; TCheck; TClose] => if l =? H then Some [] else None
  | S fuel, TLabel l :: ts =>
      match p_stmt ts with
      | Some (s, ts) => match p_labels fuel ts with Some p => Some ((l, s) :: p) | None => None end
      | None => None
      end
  | _, _ => None
  end.

(** All gotos of a statement. *)
Definition targets (ks : list ccmd) : list Z := flat_map (fun k => match k with KGoto l => [l] | _ => [] end) ks.
Definition stmt_targets (s : cstmt) : list Z :=
  match s with
  | KIf a b | KWhile _ a b => targets (a ++ b)
  | KSwitch cs => flat_map (fun c => targets (snd c)) cs
  end.

Fixpoint distinct (l : list Z) : bool :=
  match l with [] => true | x :: l => negb (existsb (Z.eqb x) l) && distinct l end.

(** What a compiler checks: no label occurs twice, no case occurs twice, every goto has its label. *)
Definition compiles (p : cprog) : bool :=
  let labels := H :: map fst p in
  distinct labels
  && forallb (fun e => forallb (fun l => existsb (Z.eqb l) labels) (stmt_targets (snd e))) p
  && forallb (fun e => match snd e with KSwitch cs => distinct (map fst cs) | _ => true end) p.

(** The C program a text is, if it is one. *)
Definition c_read (t : text) : option cprog :=
  match tokens (lines t) with
  | Some (TMain :: TOpen :: ts) =>
      match p_labels (length ts) ts with
      | Some p => if compiles p then Some p else None
      | None => None
      end
  | _ => None
  end.

(** ** Running *)

Record cstate := CS { cs_tape : Z -> Z; cs_pos : Z; cs_steps : Z; cs_marks : Z }.

(** TAPE all 0, STEPS = MARKS = 0; POS counted from CENTER_SQUARE. *)
Definition c_init : cstate := CS blank_tape 0 0 0.

Definition scan (s : cstate) : Z := cs_tape s (cs_pos s).

(** One statement; the label it jumps to, if it does. *)
Definition c_cmd (k : ccmd) (s : cstate) : cstate * option Z :=
  match k with
  | KWrite c =>
      let m := cs_marks s in
      let m := if negb (c =? 0) && (scan s =? 0) then m + 1 else m in
      let m := if (c =? 0) && negb (scan s =? 0) then m - 1 else m in
      (CS (write (cs_tape s) (cs_pos s) c) (cs_pos s) (cs_steps s) m, None)
  | KShift right_ =>
      let s := CS (cs_tape s) (if right_ then cs_pos s + 1 else cs_pos s - 1) (cs_steps s + 1) (cs_marks s) in
      (s, if (cs_marks s =? 0) && (0 <? cs_steps s) then Some H else None)
  | KGoto l => (s, Some l)
  end.

Fixpoint c_cmds (ks : list ccmd) (s : cstate) : cstate * option Z :=
  match ks with
  | [] => (s, None)
  | k :: ks => let '(s, j) := c_cmd k s in match j with Some _ => (s, j) | None => c_cmds ks s end
  end.

(** The statement at a label, and the label after it. *)
Fixpoint c_at (p : cprog) (l : Z) : option (cstmt * Z) :=
  match p with
  | [] => None
  | (l', s) :: p => if l' =? l then Some (s, match p with (n, _) :: _ => n | [] => H end) else c_at p l
  end.

Definition jump (r : cstate * option Z) (fall : Z) : cstate * Z :=
  (fst r, match snd r with Some l => l | None => fall end).

(** One round: a statement at a label, or one round of a loop at a label (after which the loop, and so
    the label, is next). *)
Definition c_round (st : cstmt) (l fall : Z) (s : cstate) : cstate * Z :=
  match st with
  | KIf a b => jump (c_cmds (if scan s =? 0 then a else b) s) fall
  | KWhile mark a b =>
      if (if mark then negb (scan s =? 0) else scan s =? 0) then jump (c_cmds a s) l
      else jump (c_cmds b s) fall
  | KSwitch cs =>
      match find (fun e : Z * list ccmd => fst e =? scan s) cs with
      | Some (_, ks) => jump (c_cmds ks s) fall
      | None => (s, fall)
      end
  end.

(** From label [l] on; the state on reaching H, [None] if [fuel] rounds do not get there. *)
Fixpoint c_run (p : cprog) (fuel : nat) (l : Z) (s : cstate) : option cstate :=
  if l =? H then Some s
  else match fuel with
       | O => None
       | S fuel =>
           match c_at p l with
           | None => None
           | Some (st, fall) => let '(s, l) := c_round st l fall s in c_run p fuel l s
           end
       end.

(** main starts at its first label. *)
Definition c_main (p : cprog) (fuel : nat) : option cstate :=
  match p with
  | [] => Some c_init
  | (l, _) :: _ => c_run p fuel l c_init
  end.

(** ** What it should do *)

(** [f] is what is left when the machine [M] with [states] states is run from blank until the tape is
    blank again, or a state is entered that is not in the table, or there is no instruction: then 1 is
    printed and one more step made, to the right. *)
Definition c_stops (M : program) (states : Z) (f : cstate) : Prop :=
  exists n c, steps M n init = Some c
    /\ (forall j d, (0 < j < n)%nat -> steps M j init = Some d -> ~ is_blank d)
    /\ marks_are (cs_tape f) (cs_marks f)
    /\ (((0 < n)%nat /\ is_blank c
         /\ (forall p, cs_tape f p = c_tape c p) /\ cs_pos f = c_pos c /\ cs_steps f = Z.of_nat n)
        \/ ((0 < n)%nat /\ ~ is_blank c /\ states <= c_state c
            /\ (forall p, cs_tape f p = c_tape c p) /\ cs_pos f = c_pos c /\ cs_steps f = Z.of_nat n)
        \/ (((0 < n)%nat -> ~ is_blank c) /\ c_state c < states /\ M (c_state c) (c_tape c (c_pos c)) = None
            /\ (forall p, cs_tape f p = write (c_tape c) (c_pos c) 1 p) /\ cs_pos f = c_pos c + 1
            /\ cs_steps f = Z.of_nat n + 1)).

(** Tables that can be written out: at most seven states, at most ten columns, no colour printed that has
    no column, and instructions that go to a state of the table, to 'H' or to '_'. *)
Definition c_fits (g : list (list (option instr))) (columns : nat) : Prop :=
  (1 <= length g <= 7)%nat /\ (1 <= columns <= 10)%nat
  /\ Forall (fun row : list (option instr) => length row = columns
       /\ Forall (fun i : option instr => match i with
                           | None => True
                           | Some (pr, _, tr) => 0 <= pr < Z.of_nat columns
                                                 /\ (0 <= tr < Z.of_nat (length g) \/ tr = 7 \/ tr = 30)
                           end) row) g.

(** A program text that can stand between the quotes of a #define. *)
Definition quotable (t : text) : Prop := Forall (fun c => c <> 10 /\ c <> 34 /\ c <> 92) t.
