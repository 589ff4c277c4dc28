(** * Model of estimating symbolic numbers, tm/num.py *)
From Verif Require Import Base NumModel NumShowModel.

(** What floating point says.  [fl_log10 n] is round(log10(n)) for n > 0 (tm/num.py 397-399, 705), [fl_power b e] is
    round(log10(b) * 10 ** log10(e)), [None] for OverflowError (tm/num.py 867), [fl_ten e] is log10(e) >= 1 (tm/num.py
    834).  Floating point is not modelled. *)
Record log_floats := LogFloats {
  fl_log10 : Z -> Z;
  fl_power : Z -> Z -> option Z;
  fl_ten : Z -> bool
}.

Section Estimate.
Variable ff : log_floats.

(** tm/num.py 166, 170 (Add), 367, 373 (Mul), 671 (Div), 834, 839 (Exp); an int has none, it is taken to be 0. *)
Fixpoint tower_est (e : cnt) : Z :=
  match e with
  | I _ => 0
  | Add (I _) r | Mul (I _) r => tower_est r
  | Add l r | Mul l r => Z.max (tower_est l) (tower_est r)
  | Div n _ => tower_est n
  | Exp _ (I x) => if fl_ten ff x then 2 else 1
  | Exp _ x => 1 + tower_est x
  end.

(** tm/num.py 186-193 (Add.digits), 393-403 (Mul), 704-705 (Div), 860-867 (Exp); [None] is OverflowError.  Simplified:
    log10 of zero, and of an exponent that is not positive, give whatever [ff] says; powers that do not come out as ints
    count as overflow. *)
Fixpoint digits (e : cnt) : option Z :=
  match e with
  | I _ => None
  | Add l r =>
    match digits r with
    | None => None
    | Some r_dig =>
      match l with
      | I _ => Some r_dig
      | _ => match digits l with Some l_dig => Some (Z.max l_dig r_dig) | None => None end
      end
    end
  | Mul l r =>
    match digits r with
    | None => None
    | Some r_dig =>
      match l with
      | I n => Some (r_dig + (if 0 <? n then fl_log10 ff n else - fl_log10 ff (- n)))
      | _ => match digits l with Some l_dig => Some (r_dig + l_dig) | None => None end
      end
    end
  | Div n d => match digits n with Some k => Some (k - fl_log10 ff d) | None => None end
  | Exp b (I x) => fl_power ff b x
  | Exp b x =>
    match digits x with
    | None => None
    | Some k => if 10 <=? k then None else match to_int x with Some y => fl_power ff b y | None => None end
    end
  end.

(** tm/num.py 45-58.  The results of [estimate]: 10 ** k or -(10 ** k), a Tet of base 10, or an exception. *)
Inductive estimated := Power10 (neg : bool) (k : Z) | Tower10 (height : Z) | Raised.

(** tm/num.py 45-58 (estimate); 1211-1212: a Tet has no negative.  [lt0] is [self < 0].  Exp.__init__ raises when the
    number of digits is not positive (tm/num.py 834). *)
Definition estimate (lt0 : res bool) (e : cnt) : estimated :=
  let tower := tower_est e in
  let tet := match lt0 with Ok false => Tower10 tower | _ => Raised end in
  if 3 <? tower then tet
  else
    match digits e with
    | None => tet
    | Some k => if 0 <? k then match lt0 with Ok neg => Power10 neg k | _ => Raised end else Raised
    end.

End Estimate.
