(** * Model of the symbolic numbers, tm/num.py

    A [cnt] is a Count: an int or a Num.  Nums are built only by make_add, make_mul, make_div and
    make_exp, which look their arguments up in tables first, so two Nums are the same object exactly
    when they are the same expression; [==], which is identity, is equality of expressions here (NumHeapModel.v has
    the objects and the tables).  Simplified: the class Tet (estimates only) is left out; [leaves] and printing are in
    NumShowModel.v, [tower_est], [digits] and [estimate] in NumEstModel.v.

    The operators call each other without any bound on the depth.  They are written over a record of
    the operators they call, [ops]; [ops_at n] allows calls to nest [n] deep. *)
From Verif Require Import Base NumTables.

(** ** Expressions *)

(** tm/num.py 20 (Count), 154-170 (Add), 348-373 (Mul), 657-671 (Div), 823-839 (Exp). *)
Inductive cnt :=
| I (z : Z)
| Add (l r : cnt)
| Mul (l r : cnt)
| Div (num : cnt) (den : Z)
| Exp (base : Z) (exp : cnt).

(** [other is self], tm/num.py 66-67, and equality of ints. *)
Fixpoint cnt_eqb (a b : cnt) : bool :=
  match a, b with
  | I x, I y => x =? y
  | Add l r, Add l' r' => cnt_eqb l l' && cnt_eqb r r'
  | Mul l r, Mul l' r' => cnt_eqb l l' && cnt_eqb r r'
  | Div n d, Div n' d' => cnt_eqb n n' && (d =? d')
  | Exp b e, Exp b' e' => (b =? b') && cnt_eqb e e'
  | _, _ => false
  end.

(** [depth], tm/num.py 162, 363, 666, 832, 837; ints have none. *)
Fixpoint depth (a : cnt) : Z :=
  match a with
  | I _ => 0
  | Add _ r | Mul _ r => 1 + depth r
  | Div n _ => 1 + depth n
  | Exp _ (I _) => 1
  | Exp _ e => 1 + depth e
  end.

(** [isinstance(x, int)]: tm/num.py 92, 143 and throughout. *)
Definition is_int (a : cnt) : bool := match a with I _ => true | _ => false end.
(** [isinstance(x, Exp)]: tm/num.py 369 and throughout. *)
Definition is_exp (a : cnt) : bool := match a with Exp _ _ => true | _ => false end.

(** Outcomes of the operators of tm/num.py 88-1180: a value, NotImplementedError, any other exception, or calls nested too deep. *)
Inductive res (A : Type) := Ok (a : A) | NotImpl | Fail | Fuel.
Arguments Ok {A} a.
Arguments NotImpl {A}.
Arguments Fail {A}.
Arguments Fuel {A}.

(** Sequencing: an exception ends the computation (tm/num.py 88-1180 throughout).  Not code of /repo. *)
Definition bind {A B} (x : res A) (k : A -> res B) : res B :=
  match x with Ok a => k a | NotImpl => NotImpl | Fail => Fail | Fuel => Fuel end.
(** Notation for the sequencing of tm/num.py expressions; not code of /repo. *)
Notation "x <- e ; k" := (bind e (fun x => k)) (at level 61, e at next level, k at level 200, right associativity).
(** [try: return x / except NotImplementedError: pass], tm/num.py 491-494, 499-502, 966-969, 974-977, 988-991. *)
Definition or_else {A} (x : res A) (k : res A) : res A := match x with NotImpl => k | r => r end.
(** [try: if x: return b / except NotImplementedError: pass], tm/num.py 73-83, 628-632, 1157-1167. *)
Definition or_if (x : res bool) (b : bool) (k : res bool) : res bool :=
  match x with Ok true => Ok b | Ok false => k | NotImpl => k | Fail => Fail | Fuel => Fuel end.
(** [assert], tm/num.py 279, 369 and throughout. *)
Definition ensure {A} (b : bool) (k : res A) : res A := if b then k else Fail.
(** [x and y], tm/num.py 74, 80 and throughout. *)
Definition and_then (x y : res bool) : res bool := b <- x; if b then y else Ok false.

(** What floating point says: [fl_root b] is [Some r] when floor(sqrt(b)) == ceil(sqrt(b)) == r
    (tm/num.py 808, 812), [fl_log b r] is int(log(b, r)) (tm/num.py 811, 1322), and [fl_two3 m] says whether
    m == 2 * 3 ** round(log(m / 2, 3)) (tm/num.py 1338, 1353), [fl_pow2 m] is int(log2(m)) if that is
    log2(m) (tm/num.py 914).  Floating point is not modelled. *)
Record floats := Floats {
  fl_root : Z -> option Z;
  fl_log : Z -> Z -> Z;
  fl_two3 : Z -> bool;
  fl_pow2 : Z -> option Z
}.

(** The operators, tm/num.py 107-139 (the protocol): [+] [*] [-x] [-] [//] [<] on Counts. *)
Record ops := Ops {
  o_add : cnt -> cnt -> res cnt;
  o_mul : cnt -> cnt -> res cnt;
  o_neg : cnt -> res cnt;
  o_sub : cnt -> cnt -> res cnt;
  o_div : cnt -> cnt -> res cnt;
  o_lt : cnt -> cnt -> res bool
}.

Section Ops.
Variable fl : floats.
Variable o : ops.

(** ** Comparisons other than [<] *)

(** tm/num.py 100-101 (__gt__ of a Num). *)
Definition num_gt (a b : cnt) : res bool := if cnt_eqb a b then Ok false else x <- o_lt o a b; Ok (negb x).
(** [a > b]; for an int on the left the reflected method. tm/num.py 69-95, 100-101. *)
Definition gt (a b : cnt) : res bool :=
  match a, b with
  | I x, I y => Ok (y <? x)
  | I _, _ => o_lt o b a
  | _, _ => num_gt a b
  end.
(** [a <= b]; for an int on the left the reflected [>=]. tm/num.py 97-98, 103-104. *)
Definition le (a b : cnt) : res bool :=
  match a, b with
  | I x, I y => Ok (x <=? y)
  | I _, _ => num_gt b a
  | _, _ => if cnt_eqb a b then Ok true else o_lt o a b
  end.

(** ** Constructors *)

(** tm/num.py 142-151 (make_add). *)
Definition make_add (l r : cnt) : cnt :=
  if negb (is_int l) && (depth r <? depth l) then Add r l else Add l r.

(** tm/num.py 353-358, 369 (assertions of Mul). *)
Definition new_mul (l r : cnt) : res cnt :=
  neg_l <- o_lt o l (I 0);
  ok1 <- (if neg_l : bool then gt r (I 0) else Ok true);
  ensure ok1 (
  neg_r <- o_lt o r (I 0);
  ok2 <- (if neg_r : bool then and_then (gt l (I 0)) (Ok (negb (is_int l))) else Ok true);
  ensure ok2 (
  ensure (negb (is_int l) || is_exp r) (Ok (Mul l r)))).
(** tm/num.py 335-345 (make_mul). *)
Definition make_mul (l r : cnt) : res cnt :=
  if negb (is_int l) && (depth r <? depth l) then new_mul r l else new_mul l r.

(** tm/num.py 647-654 (make_div), 662 (assertion of Div). *)
Definition make_div (num : cnt) (den : Z) : res cnt := ensure (0 <? den) (Ok (Div num den)).

(** tm/num.py 831-834 (Exp.__init__): log10 of an exponent that is not positive raises. *)
Definition new_exp (base : Z) (exp : cnt) : res cnt :=
  match exp with I e => ensure (0 <? e) (Ok (Exp base exp)) | _ => Ok (Exp base exp) end.
(** tm/num.py 799-812: the loop; it divides the base by at least its root, [fuel] counts the rounds. *)
Fixpoint exp_loop (fuel : nat) (base : Z) (exp : cnt) : res (Z * cnt) :=
  match fuel with
  | O => Fuel
  | S fuel =>
      if base <=? 1 then Ok (base, exp)
      else if base =? 8 then e <- o_mul o exp (I 3); Ok (2, e)
      else match fl_root fl base with
           | None => Ok (base, exp)
           | Some r => e <- o_mul o exp (I (fl_log fl base r)); exp_loop fuel r e
           end
  end.
(** tm/num.py 798-820 (make_exp). *)
Definition make_exp (base : Z) (exp : cnt) : res cnt :=
  be <- exp_loop (Z.to_nat (Z.log2 base) + 2) base exp; new_exp (fst be) (snd be).

(** ** gcd *)

(** tm/num.py 1326-1333: the loop; [blog] rounds at most. *)
Fixpoint gcd_loop (fuel : nat) (l base over blog : Z) : res Z :=
  match fuel with
  | O => Fuel
  | S fuel => if over =? 0 then Fail
              else if l mod over =? 0 then (if blog <? 0 then Fail else Ok (base ^ blog))
              else gcd_loop fuel l base (over / base) (blog - 1)
  end.
(** tm/num.py 1295-1333 (gcd); log raises on what is not positive, and divides by log 1.  A base that is not
    positive is refused here. *)
Fixpoint num_gcd (l : Z) (r : cnt) : res Z :=
  if l =? 1 then Ok 1 else
  match r with
  | I r => Ok (Z.gcd l r)
  | Add a b =>
      lgcd <- num_gcd l a;
      if lgcd =? 1 then Ok 1 else
      rgcd <- num_gcd l b;
      if rgcd =? 1 then Ok 1 else Ok (Z.min lgcd rgcd)
  | Mul a b => x <- num_gcd l a; y <- num_gcd l b; Ok (Z.max x y)
  | Div _ _ => Fail
  | Exp base _ =>
      if l =? base then Ok l
      else if base <=? 0 then Fail
      else if negb (l mod base =? 0) then Ok (Z.gcd l base)
      else if (l <=? 0) || (base =? 1) then Fail
      else let blog := fl_log fl l base in
           if blog <? 0 then Fail else gcd_loop (Z.to_nat blog + 1) l base (base ^ blog) blog
  end.

(** ** add_exponents *)

(** [base ** diff] for ints and Counts, tm/num.py 138-139, 1287: a negative int power is a float, an error here. *)
Definition int_pow (base : Z) (e : cnt) : res cnt :=
  match e with I e => ensure (0 <=? e) (Ok (I (base ^ e))) | _ => make_exp base e end.

(** tm/num.py 1269-1292 (add_exponents); the powers are given by base and exponent. *)
Definition add_exponents (l_base : Z) (l_pow l_co : cnt) (r_base : Z) (r_pow r_co : cnt) : res cnt :=
  if cnt_eqb (Exp l_base l_pow) (Exp r_base r_pow) then c <- o_add o l_co r_co; o_mul o c (Exp l_base l_pow)
  else ensure (l_base =? r_base) (
    swap <- gt l_pow r_pow;
    let '(l_pow, l_co, r_pow, r_co) := if swap : bool then (r_pow, r_co, l_pow, l_co) else (l_pow, l_co, r_pow, r_co) in
    ok <- le l_pow r_pow;
    if negb ok then NotImpl else
    diff <- o_sub o r_pow l_pow;
    small <- o_lt o diff (I 1000);
    diff_exp <- (if small : bool then int_pow l_base diff else make_exp l_base diff);
    x <- o_mul o r_co diff_exp;
    y <- o_add o l_co x;
    o_mul o y (Exp l_base l_pow)).

(** ** Add *)

(** tm/num.py 199-200 (Add.__neg__). *)
Definition add_neg (l r : cnt) : res cnt := x <- o_neg o l; y <- o_neg o r; o_add o x y.
(** tm/num.py 202-209 (Add.__radd__). *)
Definition add_radd (other : Z) (l r : cnt) : res cnt :=
  if other =? 0 then Ok (Add l r)
  else match l with
       | I l => o_add o (I (l + other)) r
       | _ => Ok (make_add (I other) (Add l r))
       end.
(** tm/num.py 232-238: the last cases of Add.__add__. *)
Definition add_add_rest (l r other : cnt) : res cnt :=
  match l with
  | I _ => x <- o_add o other r; o_add o l x
  | _ => if (depth other <? depth l) && (depth l <=? 8) then x <- o_add o other l; o_add o x r
         else Ok (make_add (Add l r) other)
  end.
(** tm/num.py 211-238 (Add.__add__). *)
Definition add_add (l r other : cnt) : res cnt :=
  match other with
  | I z =>
      if z =? 0 then Ok (Add l r)
      else match l with
           | I l => o_add o (I (l + z)) r
           | _ => Ok (make_add other (Add l r))
           end
  | Add lo ro =>
      match lo with
      | I _ => x <- o_add o lo l; y <- o_add o r ro; o_add o x y
      | _ => if cnt_eqb (Add l r) lo then x <- o_mul o (I 2) (Add l r); o_add o x ro
             else add_add_rest l r other
      end
  | _ => add_add_rest l r other
  end.
(** tm/num.py 240-253 (Add.__sub__). *)
Definition add_sub (l r other : cnt) : res cnt :=
  if cnt_eqb other (I 0) then Ok (Add l r)
  else if cnt_eqb (Add l r) other then Ok (I 0)
  else
    let rest := x <- o_neg o other; o_add o (Add l r) x in
    match other, l with
    | Add (I lo) ro, I l => x <- o_sub o r ro; o_add o (I (l - lo)) x
    | _, _ => rest
    end.
(** tm/num.py 255-259 (Add.__mul__). *)
Definition add_mul (l r other : cnt) : res cnt :=
  match other with I _ => o_mul o other (Add l r) | _ => make_mul (Add l r) other end.
(** tm/num.py 261-273 (Add.__rmul__). *)
Definition add_rmul (other : Z) (l r : cnt) : res cnt :=
  if other =? 0 then Ok (I 0)
  else if other =? 1 then Ok (Add l r)
  else if other =? -1 then o_neg o (Add l r)
  else x <- o_mul o (I other) l; y <- o_mul o (I other) r; o_add o x y.
(** tm/num.py 275-286 (Add.__floordiv__). *)
Definition add_div (l r other : cnt) : res cnt :=
  if cnt_eqb other (I 1) then Ok (Add l r)
  else match other with
  | I d =>
      lgcd <- num_gcd d l;
      if lgcd =? 1 then make_div (Add l r) d else
      rgcd <- num_gcd d r;
      if rgcd =? 1 then make_div (Add l r) d else
      div <- num_gcd lgcd (I rgcd);
      if div =? 1 then make_div (Add l r) d else
      if div =? 0 then Fail else
      x <- o_div o l (I div);
      y <- o_div o r (I div);
      s <- o_add o x y;
      o_div o s (I (d / div))
  | _ => Fail
  end.
(** tm/num.py 321-332: the last cases of Add.__lt__. *)
Definition add_lt_rest (l r other : cnt) : res bool :=
  if cnt_eqb other r then o_lt o l (I 0)
  else match l with
       | I z => if Z.abs z <? 10 then o_lt o r other else NotImpl
       | _ => if cnt_eqb other l then o_lt o r (I 0) else NotImpl
       end.
(** tm/num.py 288-332 (Add.__lt__). *)
Definition add_lt (l r other : cnt) : res bool :=
  match other with
  | I _ =>
      match l with
      | I _ => o_lt o r (I 0)
      | _ => x <- and_then (o_lt o l (I 0)) (o_lt o r (I 0));
             if x : bool then Ok true else
             y <- and_then (o_lt o (I 0) l) (o_lt o (I 0) r);
             if y : bool then Ok false else add_lt_rest l r other
      end
  | Add lo ro =>
      if cnt_eqb (Add l r) ro then gt lo (I 0)
      else if cnt_eqb l lo then o_lt o r ro
      else if cnt_eqb r ro then o_lt o l lo
      else if cnt_eqb l ro then o_lt o r lo
      else if is_int l && is_int lo then o_lt o r ro
      else x <- and_then (o_lt o l lo) (o_lt o r lo);
           if x : bool then Ok true else add_lt_rest l r other
  | _ => add_lt_rest l r other
  end.

(** ** Mul *)

(** tm/num.py 406-407 (Mul.__neg__). *)
Definition mul_neg (l r : cnt) : res cnt := x <- o_neg o l; o_mul o x r.
(** tm/num.py 1020-1030 (multiplies_with). *)
Fixpoint multiplies_with (base : Z) (other : cnt) : bool :=
  match other with
  | Exp b _ => b =? base
  | Mul l r => multiplies_with base l || multiplies_with base r
  | _ => false
  end.
(** tm/num.py 421-437 (Mul.__mul__). *)
Definition mul_mul (l r other : cnt) : res cnt :=
  match other with
  | I _ => o_mul o other (Mul l r)
  | _ =>
      if cnt_eqb l (I (-1)) then x <- o_mul o r other; o_mul o (I (-1)) x
      else
        let rest := x <- o_mul o l other; o_mul o x r in
        match other with
        | Exp b _ => if multiplies_with b r then x <- o_mul o r other; o_mul o l x else rest
        | Div n d => x <- o_mul o (Mul l r) n; o_div o x (I d)
        | _ => rest
        end
  end.
(** tm/num.py 439-456 (Mul.__rmul__). *)
Definition mul_rmul (other : Z) (l r : cnt) : res cnt :=
  if other =? -1 then
    if cnt_eqb l (I (-1)) then Ok r
    else match l with
         | I l => o_mul o (I (- l)) r
         | Exp _ _ => match r with Add _ _ => x <- o_neg o r; o_mul o l x | _ => Fail end
         | _ => Fail
         end
  else if other =? 1 then Ok (Mul l r)
  else x <- o_mul o (I other) l; o_mul o x r.
(** tm/num.py 458-462 (Mul.__radd__), and the same in 949-953 (Exp.__radd__). *)
Definition plain_radd (other : Z) (self : cnt) : res cnt := if other =? 0 then Ok self else Ok (make_add (I other) self).

(** tm/num.py 528-531: the end of Mul.__add__. *)
Definition mul_add_end (l r other : cnt) : res cnt :=
  if cnt_eqb l (I (-1)) && cnt_eqb other r then Ok (I 0) else Ok (make_add (Mul l r) other).
(** tm/num.py 487-502: two products with powers. *)
Definition mul_add_exps (l r lo ro : cnt) : res cnt :=
  match r with
  | Exp rb re =>
      let second :=
        match lo with
        | Exp b e => ensure (rb =? b) (or_else (add_exponents rb re l b e ro) (mul_add_end l r (Mul lo ro)))
        | _ => mul_add_end l r (Mul lo ro)
        end in
      match ro with
      | Exp b e => ensure (rb =? b) (or_else (add_exponents rb re l b e lo) second)
      | _ => second
      end
  | _ => mul_add_end l r (Mul lo ro)
  end.
(** tm/num.py 481-502: from [if l == ro] on. *)
Definition mul_add_mul_rest (l r lo ro : cnt) : res cnt :=
  if cnt_eqb l ro then x <- o_add o r lo; o_mul o l x
  else if cnt_eqb r lo then x <- o_add o l ro; o_mul o x r
  else mul_add_exps l r lo ro.
(** tm/num.py 470-502: the case of another product in Mul.__add__. *)
Definition mul_add_mul (l r lo ro : cnt) : res cnt :=
  if cnt_eqb r ro then x <- o_add o l lo; o_mul o x r
  else if negb (cnt_eqb l (I (-1))) && cnt_eqb l lo then
    nr <- o_add o r ro;
    match nr with
    | Add nl _ => if negb (cnt_eqb nl r) && negb (cnt_eqb nl ro) then o_mul o l nr else mul_add_mul_rest l r lo ro
    | _ => o_mul o l nr
    end
  else mul_add_mul_rest l r lo ro.
(** tm/num.py 504-520: the case of a sum in Mul.__add__. *)
Definition mul_add_add (l r lo ro : cnt) : res cnt :=
  let self := Mul l r in
  let last := if depth lo <? depth self then x <- o_add o self ro; o_add o lo x else mul_add_end l r (Add lo ro) in
  match lo with
  | I _ => x <- o_add o ro self; o_add o lo x
  | _ =>
      if negb (cnt_eqb l (I (-1))) then
        match lo with
        | Mul lol _ => if cnt_eqb lol l then x <- o_add o self lo; o_add o x ro
                       else match ro with
                            | Mul rol _ => if cnt_eqb rol l then x <- o_add o self ro; o_add o lo x else last
                            | _ => last
                            end
        | _ => match ro with
               | Mul rol _ => if cnt_eqb rol l then x <- o_add o self ro; o_add o lo x else last
               | _ => last
               end
        end
      else last
  end.
(** tm/num.py 464-531 (Mul.__add__). *)
Definition mul_add (l r other : cnt) : res cnt :=
  match other with
  | I z => if z =? 0 then Ok (Mul l r) else Ok (make_add other (Mul l r))
  | Mul lo ro => mul_add_mul l r lo ro
  | Add lo ro => mul_add_add l r lo ro
  | Exp _ _ | Div _ _ => o_add o other (Mul l r)
  end.
(** tm/num.py 558-561: the end of Mul.__sub__. *)
Definition mul_sub_end (l r other : cnt) : res cnt :=
  if cnt_eqb other l then x <- o_sub o r (I 1); o_mul o l x
  else x <- o_neg o other; o_add o (Mul l r) x.
(** tm/num.py 533-561 (Mul.__sub__). *)
Definition mul_sub (l r other : cnt) : res cnt :=
  match other with
  | Mul lo ro =>
      if cnt_eqb (Mul l r) other then Ok (I 0)
      else if cnt_eqb l lo then x <- o_sub o r ro; o_mul o l x
      else if cnt_eqb r ro then x <- o_sub o l lo; o_mul o x r
      else mul_sub_end l r other
  | I z => if z =? 0 then Ok (Mul l r) else o_add o (I (- z)) (Mul l r)
  | Add lo ro => if cnt_eqb (Mul l r) ro then o_neg o lo else mul_sub_end l r other
  | _ => mul_sub_end l r other
  end.
(** tm/num.py 563-577 (Mul.__floordiv__). *)
Definition mul_div (l r other : cnt) : res cnt :=
  if cnt_eqb other (I 1) then Ok (Mul l r)
  else match other with
  | I d =>
      lgcd <- num_gcd d l;
      if 1 <? lgcd then x <- o_div o l (I lgcd); y <- o_mul o x r; o_div o y (I (d / lgcd))
      else
        rgcd <- num_gcd d r;
        if 1 <? rgcd then x <- o_div o r (I rgcd); y <- o_mul o l x; o_div o y (I (d / rgcd))
        else make_div (Mul l r) d
  | _ => Fail
  end.
(** tm/num.py 69-95 (Num.__lt__), which Mul falls back on. *)
Definition num_lt (self other : cnt) : res bool :=
  match other with
  | Add l r | Mul l r =>
      or_if (and_then (le self r) (gt l (I 0))) true (
      or_if (and_then (le self l) (gt r (I 0))) true (
      if cnt_eqb self r then o_lt o (I 0) l
      else if cnt_eqb self l then o_lt o (I 0) r
      else match other with
           | Add (I z) _ => if Z.abs z <? 10 then o_lt o self r else NotImpl
           | _ => NotImpl
           end))
  | _ => NotImpl
  end.
(** [ceil(a / b)] of ints, tm/num.py 614, 620; floating point division is taken to be exact. *)
Definition ceil_div (a b : Z) : Z := - ((- a) / b).
(** tm/num.py 622-644: the cases of Mul.__lt__ after those for another product. *)
Definition mul_lt_rest (l r other : cnt) : res bool :=
  neg_l <- o_lt o l (I 0);
  if neg_l : bool then (neg_o <- o_lt o other (I 0); if neg_o : bool then NotImpl else Ok true)
  else
  let big := x <- and_then (le other l) (o_lt o (I 0) r);
             if x : bool then Ok true else and_then (le other r) (o_lt o (I 0) l) in
  or_if big false (
  small <- (x <- and_then (o_lt o l other) (o_lt o r (I 0));
            if x : bool then Ok true else and_then (o_lt o r other) (o_lt o l (I 0)));
  if small : bool then Ok true else
  near <- (if is_exp other then and_then (o_lt o (I 0) l) (o_lt o l (I 10)) else Ok false);
  if near : bool then o_lt o r other else
  pos <- o_lt o (I 0) l;
  match pos, r with
  | true, Add rl rr => if cnt_eqb rl (I (-1)) && cnt_eqb rr other then Ok false else num_lt (Mul l r) other
  | _, _ => num_lt (Mul l r) other
  end).
(** tm/num.py 579-644 (Mul.__lt__). *)
Definition mul_lt (l r other : cnt) : res bool :=
  match other with
  | I _ => o_lt o l (I 0)
  | Mul lo ro =>
      if cnt_eqb l lo then o_lt o r ro
      else if cnt_eqb r ro then o_lt o l lo
      else if cnt_eqb l ro then o_lt o r lo
      else if cnt_eqb r lo then o_lt o l ro
      else match l, r, lo, ro with
           | I zl, Exp b e, I zlo, Exp bo eo =>
               ensure (b =? bo) (
               if cnt_eqb e eo then Ok (zl <? zlo)
               else
                 less <- o_lt o e eo;
                 if less : bool then
                   diff <- o_sub o eo e;
                   match diff with
                   | I d => ensure (negb (zlo =? 0)) (ensure (0 <=? d) (Ok (ceil_div zl zlo <=? b ^ d)))
                   | _ => Ok true
                   end
                 else
                   diff <- o_sub o e eo;
                   match diff with
                   | I d => ensure (negb (zl =? 0)) (ensure (0 <=? d) (Ok (b ^ d <? ceil_div zlo zl)))
                   | _ => Ok false
                   end)
           | _, _, _, _ => mul_lt_rest l r other
           end
  | _ => mul_lt_rest l r other
  end.

(** ** Div *)

(** tm/num.py 685-686 (Div.__neg__). *)
Definition div_neg (num : cnt) (den : Z) : res cnt := x <- o_neg o num; o_div o x (I den).
(** tm/num.py 707-725 (Div.__add__). *)
Definition div_add (num : cnt) (den : Z) (other : cnt) : res cnt :=
  if cnt_eqb other (I 0) then Ok (Div num den)
  else match other with
  | Div onum oden =>
      if den =? oden then x <- o_add o num onum; o_div o x (I den)
      else if den <? oden then o_add o other (Div num den)
      else if 1 <? Z.gcd den oden then
        ensure (negb (oden =? 0)) (y <- o_mul o (I (den / oden)) onum; x <- o_add o num y; o_div o x (I den))
      else x <- o_mul o (I oden) num; y <- o_mul o (I den) onum; s <- o_add o x y; o_div o s (I (den * oden))
  | _ => y <- o_mul o other (I den); x <- o_add o num y; o_div o x (I den)
  end.
(** tm/num.py 727-731 (Div.__radd__). *)
Definition div_radd (other : Z) (num : cnt) (den : Z) : res cnt :=
  if other =? 0 then Ok (Div num den) else x <- o_add o (I (other * den)) num; o_div o x (I den).
(** tm/num.py 733-745 (Div.__sub__). *)
Definition div_sub (num : cnt) (den : Z) (other : cnt) : res cnt :=
  if cnt_eqb other (I 0) then Ok (Div num den)
  else if cnt_eqb (Div num den) other then Ok (I 0)
  else match other with
  | Div onum oden => if den =? oden then x <- o_sub o num onum; o_div o x (I den) else Fail
  | I z => o_add o (I (- z)) (Div num den)
  | _ => Fail
  end.
(** tm/num.py 747-757 (Div.__mul__). *)
Definition div_mul (num : cnt) (den : Z) (other : cnt) : res cnt :=
  let rest := x <- o_mul o num other; o_div o x (I den) in
  match other with
  | I z => if z =? den then Ok num
           else let cden := Z.gcd den z in
                if 1 <? cden then x <- o_mul o (I (z / cden)) num; o_div o x (I (den / cden)) else rest
  | _ => rest
  end.
(** tm/num.py 759-771 (Div.__rmul__). *)
Definition div_rmul (other : Z) (num : cnt) (den : Z) : res cnt :=
  if other =? 0 then Ok (I 0)
  else if other =? 1 then Ok (Div num den)
  else if 0 <? other then o_mul o (Div num den) (I other)
  else x <- o_mul o (Div num den) (I (- other)); o_neg o x.
(** tm/num.py 773-784 (Div.__floordiv__). *)
Definition div_div (num : cnt) (den : Z) (other : cnt) : res cnt :=
  if cnt_eqb other (I 1) then Ok (Div num den)
  else match other with
  | I d =>
      cden <- num_gcd d num;
      if cden =? 1 then make_div num (d * den)
      else if cden =? 0 then Fail
      else x <- o_div o num (I cden); o_div o x (I ((d / cden) * den))
  | _ => Fail
  end.
(** tm/num.py 786-795 (Div.__lt__). *)
Definition div_lt (num : cnt) (den : Z) (other : cnt) : res bool :=
  match other with
  | I _ => o_lt o num (I 0)
  | Div onum oden => ensure (den =? oden) (o_lt o num onum)
  | _ => NotImpl
  end.

(** ** Exp *)

(** tm/num.py 854-855 (Exp.__neg__). *)
Definition exp_neg (base : Z) (exp : cnt) : res cnt := o_mul o (I (-1)) (Exp base exp).
(** tm/num.py 955-1001 (Exp.__add__). *)
Definition exp_add (base : Z) (exp other : cnt) : res cnt :=
  let self := Exp base exp in
  let last := Ok (make_add self other) in
  match other with
  | I z => if z =? 0 then Ok self else Ok (make_add other self)
  | Mul l r =>
      let second :=
        match l with
        | Exp b e => ensure (base =? b) (or_else (add_exponents base exp (I 1) b e r) last)
        | _ => last
        end in
      match r with
      | Exp b e => ensure (base =? b) (or_else (add_exponents base exp (I 1) b e l) second)
      | _ => second
      end
  | Exp b e =>
      ensure (base =? b) (
      if (base =? 2) && cnt_eqb exp e then x <- o_add o (I 1) exp; make_exp 2 x
      else or_else (add_exponents base exp (I 1) b e (I 1)) last)
  | Div _ _ => o_add o other self
  | Add l r => match l with I _ => x <- o_add o self r; o_add o l x | _ => last end
  end.
(** tm/num.py 1003-1018 (Exp.__sub__). *)
Definition exp_sub (base : Z) (exp other : cnt) : res cnt :=
  let self := Exp base exp in
  if cnt_eqb other (I 0) then Ok self
  else if cnt_eqb self other then Ok (I 0)
  else match other with
  | Exp b e => ensure (base =? b) (add_exponents base exp (I 1) b e (I (-1)))
  | I z => Ok (make_add (I (- z)) self)
  | _ => x <- o_neg o other; o_add o self x
  end.
(** tm/num.py 1032-1057 (Exp.__mul__). *)
Definition exp_mul (base : Z) (exp other : cnt) : res cnt :=
  let self := Exp base exp in
  match other with
  | I _ => o_mul o other self
  | Exp b e => ensure (base =? b) (x <- o_add o exp e; make_exp base x)
  | Add l r => x <- o_mul o self l; y <- o_mul o self r; o_add o x y
  | Mul l r =>
      match l with
      | I _ => x <- o_mul o self r; o_mul o l x
      | _ => if multiplies_with base l then x <- o_mul o self l; o_mul o x r
             else if multiplies_with base r then x <- o_mul o self r; o_mul o l x
             else make_mul self other
      end
  | Div _ _ => Fail
  end.
(** tm/num.py 1079-1084, 1107-1112: dividing out the base; returns what is left and the number of rounds. *)
Fixpoint divide_out (fuel : nat) (other base i : Z) : res (Z * Z) :=
  match fuel with
  | O => Fuel
  | S fuel => if base =? 0 then Fail
              else if negb (other mod base =? 0) then Ok (other, i)
              else divide_out fuel (other / base) base (i + 1)
  end.
(** tm/num.py 1059-1086 (Exp.__rmul__). *)
Definition exp_rmul (other base : Z) (exp : cnt) : res cnt :=
  let self := Exp base exp in
  if other =? 0 then Ok (I 0)
  else if other =? 1 then Ok self
  else if other =? -1 then make_mul (I (-1)) self
  else if base =? 0 then Fail
  else if (other <? -1) && ((- other) mod base =? 0) then x <- o_mul o (I (- other)) self; o_neg o x
  else if negb (other mod base =? 0) then make_mul (I other) self
  else
    oi <- divide_out (Z.to_nat (Z.log2 (Z.abs other)) + 2) other base 0;
    e <- o_add o exp (I (snd oi));
    x <- make_exp base e;
    o_mul o (I (fst oi)) x.
(** tm/num.py 1088-1124 (Exp.__floordiv__). *)
Definition exp_div (base : Z) (exp other : cnt) : res cnt :=
  let self := Exp base exp in
  if cnt_eqb other (I 1) then Ok self
  else match other with
  | Exp b e =>
      ensure (b =? base) (
      ok <- le e exp;
      ensure ok (
      diff <- o_sub o exp e;
      if cnt_eqb diff (I 0) then Ok (I 1)
      else if cnt_eqb diff (I 1) then Ok (I base)
      else make_exp base diff))
  | I d =>
      oi <- divide_out (Z.to_nat (Z.log2 (Z.abs d)) + 2) d base 0;
      let '(other, i) := oi in
      e <- o_sub o exp (I i);
      if 1 <? other then
        ensure (other <? base) (ensure (base mod other =? 0) (
        e1 <- o_sub o e (I 1);
        x <- make_exp base e1;
        o_mul o (I (base / other)) x))
      else if cnt_eqb e (I 0) then Ok (I 1)
      else if cnt_eqb e (I 1) then Ok (I base)
      else make_exp base e
  | _ => Fail
  end.
(** tm/num.py 1157-1178: the end of the case of a product in Exp.__lt__. *)
Definition exp_lt_mul_end (self l r : cnt) : res bool :=
  or_if (and_then (le self r) (gt l (I 0))) true (
  or_if (and_then (le self l) (gt r (I 0))) true (
  if cnt_eqb self r then o_lt o (I 0) l
  else if cnt_eqb self l then o_lt o (I 0) r
  else NotImpl)).
(** tm/num.py 1151-1178. *)
Definition exp_lt_mul_r (base : Z) (exp l r : cnt) : res bool :=
  let self := Exp base exp in
  match r with
  | Exp b e => ensure (b =? base) (
      c <- le e exp;
      if c : bool then q <- o_div o self r; o_lt o q l else exp_lt_mul_end self l r)
  | _ => exp_lt_mul_end self l r
  end.
(** tm/num.py 1126-1178 (Exp.__lt__). *)
Definition exp_lt (base : Z) (exp other : cnt) : res bool :=
  let self := Exp base exp in
  match other with
  | I _ => Ok false
  | Exp b e => ensure (base =? b) (o_lt o exp e)
  | Add l r => match l with I _ => o_lt o self r | _ => NotImpl end
  | Mul l r =>
      match l with
      | Exp b e => ensure (b =? base) (
          c <- le e exp;
          if c : bool then q <- o_div o self l; o_lt o q r else exp_lt_mul_r base exp l r)
      | _ => exp_lt_mul_r base exp l r
      end
  | Div _ _ => NotImpl
  end.

(** ** Dispatch: what Python calls for [a + b] etc.; ints on the left use the reflected methods. *)

(** [a + b]: tm/num.py 202-238, 458-531, 707-731, 949-1001. *)
Definition do_add (a b : cnt) : res cnt :=
  match a with
  | I x => match b with
           | I y => Ok (I (x + y))
           | Add l r => add_radd x l r
           | Mul _ _ | Exp _ _ => plain_radd x b
           | Div n d => div_radd x n d
           end
  | Add l r => add_add l r b
  | Mul l r => mul_add l r b
  | Div n d => div_add n d b
  | Exp base e => exp_add base e b
  end.
(** [a * b]: tm/num.py 255-273, 421-456, 747-771, 1032-1086. *)
Definition do_mul (a b : cnt) : res cnt :=
  match a with
  | I x => match b with
           | I y => Ok (I (x * y))
           | Add l r => add_rmul x l r
           | Mul l r => mul_rmul x l r
           | Div n d => div_rmul x n d
           | Exp base e => exp_rmul x base e
           end
  | Add l r => add_mul l r b
  | Mul l r => mul_mul l r b
  | Div n d => div_mul n d b
  | Exp base e => exp_mul base e b
  end.
(** [-a]: tm/num.py 199-200, 406-407, 685-686, 854-855. *)
Definition do_neg (a : cnt) : res cnt :=
  match a with
  | I x => Ok (I (- x))
  | Add l r => add_neg l r
  | Mul l r => mul_neg l r
  | Div n d => div_neg n d
  | Exp base e => exp_neg base e
  end.
(** [a - b]: tm/num.py 115-116 (__rsub__), 240-253, 533-561, 733-745, 1003-1018. *)
Definition do_sub (a b : cnt) : res cnt :=
  match a with
  | I x => match b with
           | I y => Ok (I (x - y))
           | _ => n <- o_neg o b; o_add o a n
           end
  | Add l r => add_sub l r b
  | Mul l r => mul_sub l r b
  | Div n d => div_sub n d b
  | Exp base e => exp_sub base e b
  end.
(** [a // b]: tm/num.py 275-286, 563-577, 773-784, 1088-1124. *)
Definition do_div (a b : cnt) : res cnt :=
  match a with
  | I x => match b with
           | I y => if y =? 0 then Fail else Ok (I (x / y))
           | _ => Fail
           end
  | Add l r => add_div l r b
  | Mul l r => mul_div l r b
  | Div n d => div_div n d b
  | Exp base e => exp_div base e b
  end.
(** [a < b]: tm/num.py 288-332, 579-644, 786-795, 1126-1178; for an int on the left 100-101. *)
Definition do_lt (a b : cnt) : res bool :=
  match a with
  | I x => match b with I y => Ok (x <? y) | _ => num_gt b a end
  | Add l r => add_lt l r b
  | Mul l r => mul_lt l r b
  | Div n d => div_lt n d b
  | Exp base e => exp_lt base e b
  end.
End Ops.

(** The operators of tm/num.py 88-1180 with calls nested at most [n] deep. *)
Fixpoint ops_at (fl : floats) (n : nat) : ops :=
  match n with
  | O => Ops (fun _ _ => Fuel) (fun _ _ => Fuel) (fun _ => Fuel) (fun _ _ => Fuel) (fun _ _ => Fuel) (fun _ _ => Fuel)
  | S n => let o := ops_at fl n in
           Ops (do_add fl o) (do_mul fl o) (do_neg o) (do_sub fl o) (do_div fl o) (do_lt o)
  end.

(** ** Remainders *)

(** tm/num.py 1341-1349: the loop of find_period. *)
Fixpoint period_loop (fuel : nat) (base mod_ val period : Z) : Z :=
  match fuel with
  | O => 0
  | S fuel =>
      let val := (val * base) mod mod_ in
      if val =? 1 then period else period_loop fuel base mod_ val (period + 1)
  end.
(** tm/num.py 1336-1349 (find_period). *)
Definition find_period (fl : floats) (base mod_ : Z) : Z :=
  if (base =? 2) && fl_two3 fl mod_ then 0 else period_loop (Z.to_nat (mod_ - 1)) base mod_ 1 1.

(** tm/num.py 936-947: the loop.  [exp] is halved in each round. *)
Fixpoint pow_loop (fuel : nat) (base exp res mod_ : Z) : Z :=
  match fuel with
  | O => res
  | S fuel =>
      if (exp <=? 0) || (res <=? 0) then res
      else
        let res := if exp mod 2 =? 1 then (res * base) mod mod_ else res in
        pow_loop fuel ((base * base) mod mod_) (exp / 2) res mod_
  end.

(** [values[period]], tm/num.py 2235-2239. *)
Fixpoint assoc (k : Z) (l : list (Z * Z)) : option Z :=
  match l with [] => None | (a, v) :: l => if a =? k then Some v else assoc k l end.

(** tm/num.py 1352-2239 (exp_mod_special_cases), given the remainder of the exponent by mod // 3. *)
Definition special_cases (fl : floats) (mod_ base : Z) (period : res Z) : res Z :=
  if negb (base =? 2) || negb (fl_two3 fl mod_) then Fail
  else
    p <- period;
    match mod_table mod_ with
    | None => Fail
    | Some t => match assoc p t with Some v => Ok v | None => Fail end
    end.

(** tm/num.py 869-947 (Exp.__mod__).  [emod] is the remainder of the exponent; [above_one] says 1 < exp.
    The match of lines 887-923 either returns or reduces the exponent. *)
Definition exp_mod (fl : floats) (emod : Z -> res Z) (is_int_exp : bool) (above_one : res bool) (exp base mod_ : Z) : res Z :=
  if mod_ =? 1 then Ok 0
  else if mod_ =? base then Ok 0
  else if mod_ =? 2 then Ok (base mod 2)
  else if mod_ =? 0 then Fail
  else if base mod mod_ =? 0 then Fail
  else
    ok <- above_one;
    ensure ok (
    let finish (e : Z) :=
      if e =? 0 then Ok 1 else Ok (pow_loop (Z.to_nat (Z.log2 e) + 1) base e 1 mod_) in
    let rest :=
      let period := find_period fl base mod_ in
      if 0 <? period then e <- emod period; finish e
      else if is_int_exp then finish exp
      else special_cases fl mod_ base (emod (mod_ / 3)) in
    let reduced (m : Z) :=
      if m =? 0 then Fail else
      e <- emod m;
      let period := find_period fl base mod_ in
      finish (if 0 <? period then e mod period else e) in
    if base =? 2 then
      if mod_ =? 4 then Ok 0
      else if mod_ =? 6 then e <- emod 2; Ok (if e =? 0 then 4 else 2)
      else if mod_ =? 12 then e <- emod 2; Ok (if e =? 0 then 4 else 8)
      else if mod_ =? 30 then e <- emod 4; Ok (if e =? 3 then 8 else if e =? 0 then 15 else if e =? 1 then 2 else 4)
      else rest
    else if base =? 3 then
      if mod_ =? 6 then Ok 3
      else match fl_pow2 fl mod_ with
           | Some k => reduced (if k <? 2 then 0 else 2 ^ (k - 2))
           | None => rest
           end
    else if base =? 6 then if mod_ =? 10 then Ok 6 else rest
    else if base =? 7 then if mod_ =? 12 then e <- emod 2; Ok (if e =? 0 then 1 else 7) else rest
    else rest).

(** [1 < exp]: the reflected [exp > 1], tm/num.py 100-101, 885; [lt] is [exp < 1]. *)
Definition above_one (lt : res bool) (exp : cnt) : res bool :=
  match exp with I e => Ok (1 <? e) | _ => x <- lt; Ok (negb x) end.

(** [a % m]: tm/num.py 193-197 (Add), 409-419 (Mul), 688-702 (Div), 869-947 (Exp).  [lt] is [<]. *)
Fixpoint num_mod (fl : floats) (lt : cnt -> cnt -> res bool) (a : cnt) (m : Z) : res Z :=
  match a with
  | I z => if m =? 0 then Fail else Ok (z mod m)
  | Add l r =>
      if m =? 1 then Ok 0
      else x <- num_mod fl lt l m; y <- num_mod fl lt r m; Ok ((x + y) mod m)
  | Mul l r =>
      if m =? 1 then Ok 0
      else x <- num_mod fl lt l m;
           if x =? 0 then Ok 0 else
           y <- num_mod fl lt r m;
           if y =? 0 then Ok 0 else Ok ((x * y) mod m)
  | Div n d =>
      if m =? 1 then Ok 0
      else if 200 <? depth n then Fail
      else x <- num_mod fl lt n (m * d); ensure (x mod d =? 0) (Ok ((x / d) mod m))
  | Exp base e =>
      exp_mod fl (num_mod fl lt e) (is_int e) (above_one (lt e (I 1)) e)
        (match e with I z => z | _ => 0 end) base m
  end.

(** [divmod(a, m)] of a Num: tm/num.py 127-133. *)
Definition num_divmod (fl : floats) (o : ops) (a : cnt) (m : Z) : res (cnt * Z) :=
  if m =? 1 then Ok (a, 0)
  else
    r <- num_mod fl (o_lt o) a m;
    d <- o_sub o a (I r);
    q <- o_div o d (I m);
    Ok (q, r).

(** [int(a)]: tm/num.py 181-182, 387-388, 682-683, 857-858. *)
Fixpoint num_int (a : cnt) : Z :=
  match a with
  | I z => z
  | Add l r => num_int l + num_int r
  | Mul l r => num_int l * num_int r
  | Div n d => num_int n / d
  | Exp base e => base ^ num_int e
  end.
