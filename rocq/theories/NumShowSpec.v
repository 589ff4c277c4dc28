(** * Specification: reading arithmetic as Python does

    Texts are split into tokens, parsed with Python's precedences ([**] binds tighter than a minus sign in front of it, which
    binds tighter than [*] and [//], which bind tighter than [+] and [-]), and worked out with unbounded ints. *)
From Verif Require Import Base NumModel.

Inductive token := TNum (n : Z) | TOpen | TClose | TPlus | TMinus | TTimes | TOver | TPower.

(** Parse trees, with the parentheses. *)
Inductive tree :=
| PNum (n : Z)
| PNeg (a : tree)
| PParen (a : tree)
| PAdd (a b : tree)
| PSub (a b : tree)
| PMul (a b : tree)
| PFloor (a b : tree)
| PPow (a b : tree).

(** ** Tokens *)

Definition number (n : option Z) (ts : option (list token)) : option (list token) :=
  match n, ts with
  | Some n, Some ts => Some (TNum n :: ts)
  | None, Some ts => Some ts
  | _, None => None
  end.
Definition after (t : token) (ts : option (list token)) : option (list token) :=
  match ts with Some ts => Some (t :: ts) | None => None end.

(** [n] is the value of the digits just read. *)
Fixpoint lex (t : list Z) (n : option Z) : option (list token) :=
  match t with
  | [] => number n (Some [])
  | c :: t' =>
    if (48 <=? c) && (c <=? 57) then lex t' (Some (match n with Some v => 10 * v + (c - 48) | None => c - 48 end))
    else number n (
      if c =? 32 then lex t' None
      else if c =? 40 then after TOpen (lex t' None)
      else if c =? 41 then after TClose (lex t' None)
      else if c =? 43 then after TPlus (lex t' None)
      else if c =? 45 then after TMinus (lex t' None)
      else if c =? 42 then
        match t' with
        | d :: t'' => if d =? 42 then after TPower (lex t'' None) else after TTimes (lex t' None)
        | [] => after TTimes (lex t' None)
        end
      else if c =? 47 then
        match t' with
        | d :: t'' => if d =? 47 then after TOver (lex t'' None) else None
        | [] => None
        end
      else None)
  end.

(** ** Python's grammar *)

Fixpoint sum (f : nat) (ts : list token) : option (tree * list token) :=
  match f with
  | O => None
  | S f => match term f ts with Some (a, ts') => sum_rest f a ts' | None => None end
  end
with sum_rest (f : nat) (a : tree) (ts : list token) : option (tree * list token) :=
  match f with
  | O => None
  | S f =>
    match ts with
    | TPlus :: ts' => match term f ts' with Some (b, ts'') => sum_rest f (PAdd a b) ts'' | None => None end
    | TMinus :: ts' => match term f ts' with Some (b, ts'') => sum_rest f (PSub a b) ts'' | None => None end
    | _ => Some (a, ts)
    end
  end
with term (f : nat) (ts : list token) : option (tree * list token) :=
  match f with
  | O => None
  | S f => match factor f ts with Some (a, ts') => term_rest f a ts' | None => None end
  end
with term_rest (f : nat) (a : tree) (ts : list token) : option (tree * list token) :=
  match f with
  | O => None
  | S f =>
    match ts with
    | TTimes :: ts' => match factor f ts' with Some (b, ts'') => term_rest f (PMul a b) ts'' | None => None end
    | TOver :: ts' => match factor f ts' with Some (b, ts'') => term_rest f (PFloor a b) ts'' | None => None end
    | _ => Some (a, ts)
    end
  end
with factor (f : nat) (ts : list token) : option (tree * list token) :=
  match f with
  | O => None
  | S f =>
    match ts with
    | TMinus :: ts' => match factor f ts' with Some (a, ts'') => Some (PNeg a, ts'') | None => None end
    | _ => power f ts
    end
  end
with power (f : nat) (ts : list token) : option (tree * list token) :=
  match f with
  | O => None
  | S f =>
    match atom f ts with
    | Some (a, TPower :: ts') => match factor f ts' with Some (b, ts'') => Some (PPow a b, ts'') | None => None end
    | r => r
    end
  end
with atom (f : nat) (ts : list token) : option (tree * list token) :=
  match f with
  | O => None
  | S f =>
    match ts with
    | TNum n :: ts' => Some (PNum n, ts')
    | TOpen :: ts' => match sum f ts' with Some (a, TClose :: ts'') => Some (PParen a, ts'') | _ => None end
    | _ => None
    end
  end.

Fixpoint worth (a : tree) : option Z :=
  match a with
  | PNum n => Some n
  | PNeg a => match worth a with Some x => Some (- x) | None => None end
  | PParen a => worth a
  | PAdd a b => match worth a, worth b with Some x, Some y => Some (x + y) | _, _ => None end
  | PSub a b => match worth a, worth b with Some x, Some y => Some (x - y) | _, _ => None end
  | PMul a b => match worth a, worth b with Some x, Some y => Some (x * y) | _, _ => None end
  | PFloor a b => match worth a, worth b with Some x, Some y => if y =? 0 then None else Some (x / y) | _, _ => None end
  | PPow a b => match worth a, worth b with Some x, Some y => if y <? 0 then None else Some (x ^ y) | _, _ => None end
  end.

(** What Python makes of a text. *)
Definition python_eval (t : list Z) : option Z :=
  match lex t None with
  | Some ts => match sum (8 * length ts + 8) ts with Some (a, []) => worth a | _ => None end
  | None => None
  end.

(** ** Numbers that are shown in full *)

(** How many ints occur, bases and divisors included. *)
Fixpoint ints (e : cnt) : Z :=
  match e with
  | I _ => 1
  | Add l r | Mul l r => ints l + ints r
  | Div n _ => ints n + 1
  | Exp _ x => 1 + ints x
  end.

(** Short enough to be shown as first operand or exponent. *)
Definition short (e : cnt) : Prop := match e with I n => Z.abs n < 10 ^ 12 | _ => ints e <= 120 end.

(** Every first operand and every exponent is short. *)
Fixpoint in_full (e : cnt) : Prop :=
  match e with
  | I _ => True
  | Add l r | Mul l r => short l /\ in_full l /\ in_full r
  | Div n _ => in_full n
  | Exp _ x => short x /\ in_full x
  end.

(** As the classes have it: the second operand of a sum or product, and the dividend, are never ints. *)
Fixpoint well_made (e : cnt) : Prop :=
  match e with
  | I _ => True
  | Add l r | Mul l r => well_made l /\ well_made r /\ is_int r = false
  | Div n _ => well_made n /\ is_int n = false
  | Exp _ x => well_made x
  end.

(** No base is negative. *)
Fixpoint bases_ok (e : cnt) : Prop :=
  match e with
  | I _ => True
  | Add l r | Mul l r => bases_ok l /\ bases_ok r
  | Div n _ => bases_ok n
  | Exp b x => 0 <= b /\ bases_ok x
  end.
