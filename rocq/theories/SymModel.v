(** * Model of tm/rules.py on symbolic counts

    Counts are ints or expressions ([cnt] of [NumModel]).  A tape is seen only through its counts
    ([IndexTape], tm/rules.py 250-252).  [fl] and [o] are the floating point functions and the operators. *)
From Verif Require Import Base TapeModel RulesModel NumModel.

(** The operators of an operation sequence, tm/rules.py 22, 341-359: '+', '*', '//', '**', '~'. *)
Inductive opn := OAdd | OMul | ODiv | OPow | OLog.
(** tm/rules.py 22 (OpSeq). *)
Definition opseq : Type := list (opn * Z).
(** tm/rules.py 24 (Op). *)
Inductive sop := SPlus (d : Z) | SMult (m a : Z) | SOps (ops : opseq).
(** tm/rules.py 26 (Rule); the dict in insertion order. *)
Definition srule : Type := list (index * sop).

(** How the functions of tm/rules.py 51-363 end: with a value, UnknownRule (37), RuleLimit (34), InfiniteRule (40),
    SuspectedRule (43), or another exception; [SFuel] if the operators nest too deep. *)
Inductive out (A : Type) := Got (a : A) | SUnknown | SLimit | SInfinite | SSuspected (x y : Z) | SFail | SFuel.
Arguments Got {A} a.
Arguments SUnknown {A}.
Arguments SLimit {A}.
Arguments SInfinite {A}.
Arguments SSuspected {A} x y.
Arguments SFail {A}.
Arguments SFuel {A}.

(** Sequencing: an exception ends the computation (tm/rules.py 51-363).  Not code of /repo. *)
Definition obind {A B} (x : out A) (k : A -> out B) : out B :=
  match x with
  | Got a => k a
  | SUnknown => SUnknown
  | SLimit => SLimit
  | SInfinite => SInfinite
  | SSuspected x y => SSuspected x y
  | SFail => SFail
  | SFuel => SFuel
  end.
(** Notation for the sequencing in tm/rules.py; not code of /repo. *)
Notation "x <~ e ; k" := (obind e (fun x => k)) (at level 61, e at next level, k at level 200, right associativity).

(** An operator of tm/num.py called from tm/rules.py: its exceptions pass through.  Simplified: which exception it is
    is not kept (ExpModLimit and ModDepthLimit become RuleLimit in tm/rules.py 269-272). *)
Definition lift {A} (x : res A) : out A :=
  match x with Ok a => Got a | NotImpl => SFail | Fail => SFail | Fuel => SFuel end.

(** [a in b], tm/num.py 39-40, 178-179, 384-385, 679-680, 847-852. *)
Fixpoint cnt_in (a b : cnt) : bool :=
  cnt_eqb a b ||
  match b with
  | I _ => false
  | Add _ r | Mul _ r => cnt_in a r
  | Div n _ => cnt_in a n
  | Exp _ (I _) => false
  | Exp _ e => cnt_in a e
  end.

Section Rules.
Variable fl : floats.
Variable o : ops.

(** ** apply_ops *)

(** tm/rules.py 340-361: one operation. *)
Definition apply_op (op : opn * Z) (result : cnt) : out cnt :=
  let '(n, val) := op in
  match n with
  | OAdd => lift (o_add o result (I val))
  | OMul => lift (o_mul o result (I val))
  | ODiv => lift (o_div o result (I val))
  | OPow => lift (make_exp fl o val result)
  | OLog => match result with Exp _ e => Got e | _ => SLimit end
  end.
(** tm/rules.py 339-361: once through the sequence. *)
Fixpoint apply_once (ops : opseq) (result : cnt) : out cnt :=
  match ops with
  | [] => Got result
  | op :: ops => r <~ apply_op op result; apply_once ops r
  end.
(** tm/rules.py 338-361: [n] times. *)
Fixpoint apply_times (n : nat) (ops : opseq) (result : cnt) : out cnt :=
  match n with
  | O => Got result
  | S n => r <~ apply_once ops result; apply_times n ops r
  end.
(** tm/rules.py 332-363 (apply_ops). *)
Definition apply_ops (count times : cnt) (ops : opseq) : out cnt :=
  match times with
  | I n => apply_times (Z.to_nat n) ops count
  | _ => SLimit
  end.

(** ** calculate_op_seq *)

(** tm/rules.py 31. *)
Definition rule_descent : nat := 50.

(** tm/rules.py 128-170: what is left of [sub] and the operations that lead there.  (An int has no parts: the match
    of 134 falls through until the rounds are used up.) *)
Fixpoint descend (fuel : nat) (sub sup : cnt) : out (cnt * opseq) :=
  match fuel with
  | O => SLimit
  | S fuel =>
      if cnt_in sub sup then Got (sub, [])
      else match sub with
           | Add (I l) r => x <~ descend fuel r sup; Got (fst x, (OAdd, - l) :: snd x)
           | Mul (I l) r => x <~ descend fuel r sup; Got (fst x, (ODiv, l) :: snd x)
           | Div n d => x <~ descend fuel n sup; Got (fst x, (OMul, d) :: snd x)
           | Exp _ (I _) => SLimit
           | Exp b e => x <~ descend fuel e sup; Got (fst x, (OLog, b) :: snd x)
           | _ => SLimit
           end
  end.
(** tm/rules.py 172-213: the operations from [sub] up to [sup], outermost first. *)
Fixpoint ascend (fuel : nat) (sub sup : cnt) : out opseq :=
  match fuel with
  | O => SLimit
  | S fuel =>
      if cnt_eqb sup sub then Got []
      else match sup with
           | Add (I l) r => x <~ ascend fuel sub r; Got ((OAdd, l) :: x)
           | Add _ _ => SFail
           | Mul (I l) r => x <~ ascend fuel sub r; Got ((OMul, l) :: x)
           | Div n d => x <~ ascend fuel sub n; Got ((ODiv, d) :: x)
           | Exp _ (I _) => SLimit
           | Exp b e => x <~ ascend fuel sub e; Got ((OPow, b) :: x)
           | _ => SLimit
           end
  end.
(** tm/rules.py 125-221 (calculate_op_seq), for four counts. *)
Definition calculate_op_seq (c1 c2 c3 c4 : cnt) : out opseq :=
  d <~ descend rule_descent c1 c2;
  a <~ ascend rule_descent (fst d) c2;
  let ops := snd d ++ rev a in
  r3 <~ apply_once ops c2;
  if negb (cnt_eqb r3 c3) then SUnknown
  else
    r4 <~ apply_once ops c3;
    if negb (cnt_eqb r4 c4) then SUnknown else Got ops.

(** ** calculate_diff *)

(** Four int counts: tm/rules.py 52-122 as in [RulesModel.py_calculate_diff]. *)
Definition int_diff (c1 c2 c3 c4 : Z) : out (option sop) :=
  match py_calculate_diff c1 c2 c3 c4 with
  | DNone => Got None
  | DGot (Plus d) => Got (Some (SPlus d))
  | DGot (Mult m a) => Got (Some (SMult m a))
  | DUnknown => SUnknown
  | DSuspected x y => SSuspected x y
  | DZeroDiv => SFail
  end.
(** [a - b == c] of Counts, tm/rules.py 61. *)
Definition sub_is (a b c : cnt) : out bool := x <~ lift (o_sub o a b); Got (cnt_eqb x c).
(** tm/rules.py 65-72: false if the counts are known not to increase; comparisons that are not implemented are let
    pass. *)
Definition ascending (c1 c2 c3 c4 : cnt) : out bool :=
  match and_then (o_lt o c1 c2) (and_then (o_lt o c2 c3) (o_lt o c3 c4)) with
  | Ok b => Got b
  | NotImpl => Got true
  | Fail => SFail
  | Fuel => SFuel
  end.
(** tm/rules.py 51-122 (calculate_diff), for four counts. *)
Definition calculate_diff (c1 c2 c3 c4 : cnt) : out (option sop) :=
  match c1, c2, c3, c4 with
  | I z1, I z2, I z3, I z4 => int_diff z1 z2 z3 z4
  | _, _, _, _ =>
      if cnt_eqb c2 c1 && cnt_eqb c3 c1 && cnt_eqb c4 c1 then Got None
      else
        plus <~ lift (o_sub o c2 c1);
        same <~ (x <~ sub_is c3 c2 plus; if x : bool then sub_is c4 c3 plus else Got false);
        if same : bool then match plus with I d => Got (Some (SPlus d)) | _ => SFail end
        else
          up <~ ascending c1 c2 c3 c4;
          if negb up then SUnknown
          else if is_int c1 || is_int c2 || is_int c3 || is_int c4 then SFail
          else ops <~ calculate_op_seq c1 c2 c3 c4; Got (Some (SOps ops))
  end.

(** ** make_rule *)

(** tm/tape.py 20-23 (Counts). *)
Definition scounts : Type := (list cnt * list cnt)%type.

(** tm/rules.py 227-237: one side; [zip] stops at the shortest list. *)
Fixpoint rule_side (s : bool) (i : nat) (a b c d : list cnt) : out srule :=
  match a, b, c, d with
  | x :: a, y :: b, z :: c, w :: d =>
      diff <~ calculate_diff x y z w;
      r <~ rule_side s (S i) a b c d;
      Got (match diff with None => r | Some op => ((s, i), op) :: r end)
  | _, _, _, _ => Got []
  end.
(** tm/rules.py 224-247 (make_rule); [None] also for UnknownRule. *)
Definition make_srule (k1 k2 k3 k4 : scounts) : out (option srule) :=
  match
    l <~ rule_side false 0 (fst k1) (fst k2) (fst k3) (fst k4);
    r <~ rule_side true 0 (snd k1) (snd k2) (snd k3) (snd k4);
    Got (l ++ r)
  with
  | Got r =>
      if forallb (fun e => match snd e with SPlus d => 0 <=? d | _ => true end) r then SInfinite
      else Got (Some r)
  | SUnknown => Got None
  | SLimit => SLimit
  | SInfinite => SInfinite
  | SSuspected x y => SSuspected x y
  | SFail => SFail
  | SFuel => SFuel
  end.

(** ** apply_rule *)

(** tm/tape.py 120-125 (get_count). *)
Definition sget (t : scounts) (i : index) : option cnt := nth_error (if fst i then snd t else fst t) (snd i).
(** Assignment to one entry of a list, tm/tape.py 132. *)
Fixpoint put (l : list cnt) (n : nat) (v : cnt) : list cnt :=
  match l, n with
  | [], _ => []
  | _ :: l, O => v :: l
  | x :: l, S n => x :: put l n v
  end.
(** tm/tape.py 127-132 (set_count). *)
Definition sset (t : scounts) (i : index) (v : cnt) : scounts :=
  if fst i then (fst t, put (snd t) (snd i) v) else (put (fst t) (snd i) v, snd t).

(** tm/rules.py 259-278: how often one entry that decreases allows, and what remains then; [None] if not once.
    A missing position is an IndexError. *)
Definition entry_apps (t : scounts) (pos : index) (diff : Z) : out (option (cnt * Z)) :=
  match sget t pos with
  | None => SFail
  | Some count =>
      let absdiff := Z.abs diff in
      dm <~ match count with
            | I c => if c <=? absdiff then Got None else Got (Some (I (c / absdiff), c mod absdiff))
            | _ => x <~ lift (num_divmod fl o count absdiff); Got (Some x)
            end;
      match dm with
      | None => Got None
      | Some (div, rem) =>
          if 0 <? rem then Got (Some (div, rem))
          else times <~ lift (o_sub o div (I 1)); Got (Some (times, absdiff))
      end
  end.
(** tm/rules.py 255-284 (count_apps). *)
Fixpoint count_apps (r : srule) (t : scounts) (apps : option (cnt * index * Z)) : out (option (cnt * index * Z)) :=
  match r with
  | [] => Got apps
  | (pos, SPlus diff) :: r =>
      if 0 <=? diff then count_apps r t apps
      else
        e <~ entry_apps t pos diff;
        match e with
        | None => Got None
        | Some (times, min_res) =>
            match apps with
            | None => count_apps r t (Some (times, pos, min_res))
            | Some (t0, _, _) =>
                less <~ lift (o_lt o times t0);
                count_apps r t (if less : bool then Some (times, pos, min_res) else apps)
            end
        end
  | (_, _) :: r => count_apps r t apps
  end.

(** tm/rules.py 313-329 (apply_mult). *)
Definition apply_smult (count times : cnt) (mul add : Z) : out cnt :=
  if negb (is_int count) && (20 <? depth count) then SLimit
  else
    exp <~ (if cnt_eqb times (I 1) then Got (I mul) else lift (make_exp fl o mul times));
    x <~ lift (o_mul o count exp);
    if add =? 0 then Got x
    else
      d <~ lift (o_sub o exp (I mul));
      q <~ lift (o_div o d (I (mul - 1)));
      s <~ lift (o_add o (I 1) q);
      y <~ lift (o_mul o (I add) s);
      lift (o_add o x y).

(** tm/rules.py 293-308: the new value of one entry. *)
Definition entry_result (count times : cnt) (min_pos : index) (min_res : Z) (pos : index) (op : sop) : out cnt :=
  match op with
  | SMult mul add => apply_smult count times mul add
  | SPlus diff =>
      if index_eqb pos min_pos then (if diff <? 0 then Got (I min_res) else SFail)
      else x <~ lift (o_mul o (I diff) times); lift (o_add o count x)
  | SOps ops => apply_ops count times ops
  end.
(** tm/rules.py 293-310: the loop. *)
Fixpoint apply_sloop (r : srule) (t : scounts) (times : cnt) (min_pos : index) (min_res : Z) : out scounts :=
  match r with
  | [] => Got t
  | (pos, op) :: r =>
      match sget t pos with
      | None => SFail
      | Some count =>
          v <~ entry_result count times min_pos min_res pos op;
          apply_sloop r (sset t pos v) times min_pos min_res
      end
  end.
(** tm/rules.py 287-310 (apply_rule): how often, and the tape; [None] if not applied. *)
Definition apply_srule (r : srule) (t : scounts) : out (option (cnt * scounts)) :=
  apps <~ count_apps r t None;
  match apps with
  | None => Got None
  | Some (times, min_pos, min_res) =>
      t <~ apply_sloop r t times min_pos min_res; Got (Some (times, t))
  end.
End Rules.
