(** * Models of tm/rules.py and src/rules.rs on integer counts

    Counts are integers: the branches for symbolic counts ([Num] objects) are modelled in
    the symbolic part, and where an integer rule would create a symbolic count the result
    here is the error value [EvSymbolic]. *)
From Verif Require Import Base TapeModel.

(** tm/rules.py 19-27; src/rules.rs 7-15.  Operation sequences only arise from symbolic
    counts and are left out. *)
Inductive op := Plus (d : Z) | Mult (m a : Z).

(** tm/tape.py 18 ([side, pos]); src/tape.rs Index. *)
Definition index : Type := (bool * nat)%type.
(** Equality of indices, tm/rules.py 304. *)
Definition index_eqb (a b : index) : bool := Bool.eqb (fst a) (fst b) && Nat.eqb (snd a) (snd b).

(** tm/rules.py 27; the dict in insertion order (Rust: BTreeMap in key order). *)
Definition rule : Type := list (index * op).

(** tm/rules.py 251 (IndexTape.get_count), tm/tape.py 120-125. *)
Definition get_count (t : tape) (i : index) : option Z := t_get_count t (fst i) (snd i).
(** tm/rules.py 252 (IndexTape.set_count), tm/tape.py 127-132. *)
Definition set_count (t : tape) (i : index) (v : Z) : option tape := t_set_count t (fst i) (snd i) v.

(** ** calculate_diff *)

(** What calculate_diff (tm/rules.py 51-122) returns or raises. *)
Inductive diff_res :=
  | DNone | DGot (o : op)
  | DUnknown                 (* UnknownRule *)
  | DSuspected (a b : Z)     (* SuspectedRule *)
  | DZeroDiv.                (* ZeroDivisionError *)

(** tm/rules.py 48. *)
Definition possible_rule_pairs : list (Z * Z) := [(3, 2); (5, 3); (5, 2); (5, 4); (4, 3)].

(** tm/rules.py 116-122. *)
Fixpoint suspect (c1 c2 c3 c4 : Z) (ps : list (Z * Z)) : diff_res :=
  match ps with
  | [] => DUnknown
  | (add, sub) :: ps =>
      if (c2 - c1 * add / sub =? c3 - c2 * add / sub)
         && (c3 - c2 * add / sub =? c4 - c3 * add / sub)
      then DSuspected add sub
      else suspect c1 c2 c3 c4 ps
  end.

(** tm/rules.py 109-122: the part after the loop over [divmods] was left by [break]. *)
Definition py_diff_tail (c1 c2 c3 c4 div div2 div3 : Z) : diff_res :=
  let div_diff := c2 - c1 * (1 + div) in
  if (c3 - c2 * (1 + div2) =? div_diff) && (c4 - c3 * (1 + div3) =? div_diff)
  then DGot (Mult (1 + div) div_diff)
  else suspect c1 c2 c3 c4 possible_rule_pairs.

(** tm/rules.py 52-122, for four integer counts. *)
Definition py_calculate_diff (c1 c2 c3 c4 : Z) : diff_res :=
  if (c2 =? c1) && (c3 =? c1) && (c4 =? c1) then DNone
  else
    let plus := c2 - c1 in
    if (c3 - c2 =? plus) && (c4 - c3 =? plus) then DGot (Plus plus)
    else if negb ((c1 <? c2) && (c2 <? c3) && (c3 <? c4)) then DUnknown
    else if (c1 =? 0) || (c2 =? 0) || (c3 =? 0) then DZeroDiv
    else
      let div := c2 / c1 in let mod_ := c2 mod c1 in
      let div2 := c3 / c2 in let mod2 := c3 mod c2 in
      let div3 := c4 / c3 in let mod3 := c4 mod c3 in
      if negb (div2 =? div) then DUnknown
      else if negb (mod2 =? mod_) then py_diff_tail c1 c2 c3 c4 div div2 div3
      else if negb (div3 =? div) then DUnknown
      else if negb (mod3 =? mod_) then py_diff_tail c1 c2 c3 c4 div div2 div3
      else DGot (Mult div mod_).

(** ** make_rule *)

(** tm/tape.py 20-23. *)
Definition counts_t : Type := (list Z * list Z)%type.

(** [zip] of four lists, tm/rules.py 230-231. *)
Fixpoint zip4 (a b c d : list Z) : list (Z * Z * Z * Z) :=
  match a, b, c, d with
  | a :: as_, b :: bs, c :: cs, d :: ds => (a, b, c, d) :: zip4 as_ bs cs ds
  | _, _, _, _ => []
  end.

(** What make_rule (tm/rules.py 224-245) returns or raises. *)
Inductive rule_res :=
  | RRule (r : rule) | RNone
  | RInfinite | RSuspected (a b : Z) | RZeroDiv.

(** tm/rules.py 228-236: one side, entries in index order. *)
Fixpoint py_rule_side (s : bool) (i : nat) (zs : list (Z * Z * Z * Z)) : rule_res :=
  match zs with
  | [] => RRule []
  | (a, b, c, d) :: zs =>
      match py_calculate_diff a b c d with
      | DUnknown => RNone
      | DSuspected x y => RSuspected x y
      | DZeroDiv => RZeroDiv
      | DNone => py_rule_side s (S i) zs
      | DGot o =>
          match py_rule_side s (S i) zs with
          | RRule r => RRule (((s, i), o) :: r)
          | e => e
          end
      end
  end.

(** tm/rules.py 239-241. *)
Definition nonneg_plus (e : index * op) : bool :=
  match snd e with Plus d => 0 <=? d | _ => true end.

(** tm/rules.py 224-247, for four recorded count lists (the prover always passes four). *)
Definition py_make_rule (k1 k2 k3 k4 : counts_t) : rule_res :=
  match py_rule_side false 0 (zip4 (fst k1) (fst k2) (fst k3) (fst k4)) with
  | RRule r1 =>
      match py_rule_side true 0 (zip4 (snd k1) (snd k2) (snd k3) (snd k4)) with
      | RRule r2 => if forallb nonneg_plus (r1 ++ r2) then RInfinite else RRule (r1 ++ r2)
      | e => e
      end
  | e => e
  end.

(** ** apply_rule, Python *)

(** What count_apps (tm/rules.py 255-285) returns; [AIndex] is IndexError. *)
Inductive apps_res := AIndex | ANone | ASome (times : Z) (pos : index) (res : Z).

(** tm/rules.py 255-285. *)
Fixpoint py_count_apps (r : rule) (t : tape) (apps : apps_res) : apps_res :=
  match r with
  | [] => apps
  | (pos, Plus diff) :: r =>
      if 0 <=? diff then py_count_apps r t apps
      else
        match get_count t pos with
        | None => AIndex
        | Some count =>
            let absdiff := Z.abs diff in
            if count <=? absdiff then ANone
            else
              let div := count / absdiff in
              let rem := count mod absdiff in
              let '(times, min_res) := if 0 <? rem then (div, rem) else (div - 1, absdiff) in
              let apps := match apps with
                          | ASome t0 _ _ => if times <? t0 then ASome times pos min_res else apps
                          | _ => ASome times pos min_res
                          end in
              py_count_apps r t apps
        end
  | (_, Mult _ _) :: r => py_count_apps r t apps
  end.

(** Outcome of apply_rule, tm/rules.py 287-310. *)
Inductive apply_res :=
  | EvIndex                           (* IndexError *)
  | EvSymbolic                        (* a symbolic count would be created, or ZeroDivisionError *)
  | EvNone                            (* returns None, tape untouched *)
  | EvApplied (times : Z) (t : tape).

(** tm/rules.py 313-329 on integers with the power taken as an integer. *)
Definition apply_mult (count times mul add : Z) : Z :=
  let exp := if times =? 1 then mul else mul ^ times in
  if add =? 0 then count * exp
  else count * exp + add * (1 + (exp - mul) / (mul - 1)).

(** tm/rules.py 313-329: whether apply_mult gives an int.  With [times] 1 it does, unless [mul - 1] is 0 where it is
    divided by (ZeroDivisionError). *)
Definition mult_int (times mul add : Z) : bool := (times =? 1) && (negb (mul =? 1) || (add =? 0)).

(** tm/rules.py 294-309. *)
Fixpoint py_apply_loop (r : rule) (t : tape) (times : Z) (min_pos : index) (min_res : Z) : apply_res :=
  match r with
  | [] => EvApplied times t
  | (pos, o) :: r =>
      match get_count t pos with
      | None => EvIndex
      | Some count =>
          match o with
          | Mult mul add =>
              if mult_int times mul add
              then match set_count t pos (apply_mult count times mul add) with
                   | None => EvIndex
                   | Some t => py_apply_loop r t times min_pos min_res
                   end
              else EvSymbolic
          | Plus diff =>
              let result := if negb (index_eqb pos min_pos) then count + diff * times else min_res in
              match set_count t pos result with
              | None => EvIndex
              | Some t => py_apply_loop r t times min_pos min_res
              end
          end
      end
  end.

(** tm/rules.py 288-310. *)
Definition py_apply_rule (r : rule) (t : tape) : apply_res :=
  match py_count_apps r t ANone with
  | AIndex => EvIndex
  | ANone => EvNone
  | ASome times pos res => py_apply_loop r t times pos res
  end.

(** ** src/rules.rs *)

(** [as Diff] (u64 to i32, src/rules.rs 84-86). *)
Definition as_i32 (n : Z) : Z := (n + 2 ^ 31) mod 2 ^ 32 - 2 ^ 31.
(** The range of i32, src/rules.rs 7. *)
Definition in_i32 (n : Z) : bool := (- 2 ^ 31 <=? n) && (n <? 2 ^ 31).

(** Outcome of calculate_diff, src/rules.rs 24-58. *)
Inductive rs_diff_res := RsSame | RsUnknown | RsGot (o : op) | RsPanic.

(** src/rules.rs 43-51: Rust's [/] and [%] on i32: truncation; panic on zero and on overflow. *)
Definition rs_divmod (b a : Z) : option (Z * Z) :=
  if (a =? 0) || ((b =? - 2 ^ 31) && (a =? - 1)) then None
  else Some (Z.quot b a, Z.rem b a).

(** src/rules.rs 24-58.  The unchecked [d - c] is taken to panic on overflow. *)
Definition rs_calculate_diff (a b c d : Z) : rs_diff_res :=
  if (a =? b) && (b =? c) && (c =? d) then RsSame
  else if negb (in_i32 (b - a)) then RsUnknown
  else if negb (in_i32 (c - b)) then RsUnknown
  else
    let rest :=
      if (a =? 0) || (b =? 0) then RsUnknown
      else match rs_divmod b a, rs_divmod c b with
           | Some (q1, r1), Some (q2, r2) =>
               if (q1 =? q2) && (r1 =? r2)
               then match rs_divmod d c with
                    | None => RsPanic
                    | Some (q3, r3) => if (q2 =? q3) && (r2 =? r3) then RsGot (Mult q1 r1) else RsUnknown
                    end
               else RsUnknown
           | _, _ => RsPanic
           end in
    if b - a =? c - b
    then if negb (in_i32 (d - c)) then RsPanic
         else if c - b =? d - c then RsGot (Plus (b - a)) else rest
    else rest.

(** Outcome of make_rule, src/rules.rs 60-100. *)
Inductive rs_rule_res := RsRule (r : rule) | RsNoRule | RsRulePanic.

(** src/rules.rs 82-97. *)
Fixpoint rs_rule_side (s : bool) (i : nat) (zs : list (Z * Z * Z * Z)) : rs_rule_res :=
  match zs with
  | [] => RsRule []
  | (a, b, c, d) :: zs =>
      match rs_calculate_diff (as_i32 a) (as_i32 b) (as_i32 c) (as_i32 d) with
      | RsPanic => RsRulePanic
      | RsUnknown => RsNoRule
      | RsSame => rs_rule_side s (S i) zs
      | RsGot o =>
          match rs_rule_side s (S i) zs with
          | RsRule r => RsRule (((s, i), o) :: r)
          | e => e
          end
      end
  end.

(** src/rules.rs 60-100. *)
Definition rs_make_rule (k1 k2 k3 k4 : counts_t) : rs_rule_res :=
  match rs_rule_side false 0 (zip4 (fst k1) (fst k2) (fst k3) (fst k4)) with
  | RsRule r1 =>
      match rs_rule_side true 0 (zip4 (snd k1) (snd k2) (snd k3) (snd k4)) with
      | RsRule r2 => RsRule (r1 ++ r2)
      | e => e
      end
  | e => e
  end.

(** Outcome of count_apps, src/rules.rs 104-145. *)
Inductive rs_apps := RAPanic | RANone | RASome (times : Z) (pos : index) (res : Z).

(** src/rules.rs 104-145. *)
Fixpoint rs_count_apps (r : rule) (t : tape) (apps : rs_apps) : rs_apps :=
  match r with
  | [] => apps
  | (_, Mult _ _) :: _ => RAPanic
  | (pos, Plus diff) :: r =>
      if 0 <=? diff then rs_count_apps r t apps
      else
        match get_count t pos with
        | None => RAPanic
        | Some count =>
            let absdiff := Z.abs diff in
            if count <=? absdiff then RANone
            else
              let div := count / absdiff in
              let rem := count mod absdiff in
              let '(times, min_res) := if 0 <? rem then (div, rem) else (div - 1, absdiff) in
              let apps := match apps with
                          | RASome curr _ _ => if times <? curr then RASome times pos min_res else apps
                          | _ => RASome times pos min_res
                          end in
              rs_count_apps r t apps
        end
  end.

(** Largest u64: Count is u64, src/tape.rs 9, src/rules.rs 172-178. *)
Definition u64_max : Z := 2 ^ 64 - 1.

(** src/rules.rs 172-178: [None] when the product overflows; the sum is taken to panic
    on overflow, here [Some None]. *)
Definition rs_apply_plus (count diff times : Z) : option (option Z) :=
  let mult := Z.abs diff * times in
  if u64_max <? mult then None
  else if u64_max <? count + mult then Some None
  else Some (Some (count + mult)).

(** Outcome of apply_rule, src/rules.rs 147-170. *)
Inductive rs_apply_res := RsApplied (times : option Z) (t : tape) | RsApplyPanic.

(** src/rules.rs 153-169. *)
Fixpoint rs_apply_loop (r : rule) (t : tape) (times : Z) (min_pos : index) (min_res : Z) : rs_apply_res :=
  match r with
  | [] => RsApplied (Some times) t
  | (_, Mult _ _) :: _ => RsApplyPanic
  | (pos, Plus plus) :: r =>
      let set (v : Z) := match set_count t pos v with
                         | None => RsApplyPanic
                         | Some t => rs_apply_loop r t times min_pos min_res
                         end in
      if index_eqb pos min_pos
      then if plus <? 0 then set min_res else RsApplyPanic
      else match get_count t pos with
           | None => RsApplyPanic
           | Some count =>
               match rs_apply_plus count plus times with
               | None => RsApplied None t
               | Some None => RsApplyPanic
               | Some (Some v) => set v
               end
           end
  end.

(** src/rules.rs 147-170. *)
Definition rs_apply_rule (r : rule) (t : tape) : rs_apply_res :=
  match rs_count_apps r t RANone with
  | RAPanic => RsApplyPanic
  | RANone => RsApplied None t
  | RASome times pos res => rs_apply_loop r t times pos res
  end.
