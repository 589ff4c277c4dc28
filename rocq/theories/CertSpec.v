(** * Certifying rules: a sufficient condition, that can be computed, for a rule to be a law

    Not code of /repo.  A run is made on tapes whose counts are sums of an int and of unknowns that may be any natural
    numbers, and whose ends may be unknown.  A move is made only if it is the same for all values of the unknowns.  If
    the run leads back to the same state and to the tape with the counts that the rule says, then the rule is a law. *)
From Verif Require Import Base TM ProgModel TapeModel RulesModel RulesSpec ProverModel.
Local Open Scope list_scope.
Local Open Scope Z_scope.

(** The int and the unknowns; an unknown is named by a position on the tape. *)
Definition ucount : Type := (Z * list index)%type.
Definition ublock : Type := (Z * ucount)%type.
(** Blocks from the head on, and whether there may be more behind them. *)
Record uspan := US { u_blocks : list ublock; u_open : bool }.
Record utape := UT { u_l : uspan; u_scan : Z; u_r : uspan }.

Definition u_add (a b : ucount) : ucount := (fst a + fst b, snd a ++ snd b).
Definition u_one : ucount := (1, []).

(** Takes one cell, or with [skip] all of a block of the scanned colour and then one cell: what is scanned next, how many cells,
    what is left. *)
Definition u_take (s : uspan) : option (Z * uspan) :=
  match u_blocks s with
  | [] => if u_open s then None else Some (0, s)
  | (c, (n, us)) :: bs =>
      if 2 <=? n then Some (c, US ((c, (n - 1, us)) :: bs) (u_open s))
      else match us with [] => if n =? 1 then Some (c, US bs (u_open s)) else None | _ => None end
  end.
Definition u_pull (s : uspan) (scan : Z) (skip : bool) : option (Z * ucount * uspan) :=
  match u_blocks s with
  | (c, n) :: bs =>
      if skip && (c =? scan)
      then match u_take (US bs (u_open s)) with Some (x, s) => Some (x, u_add u_one n, s) | None => None end
      else match u_take s with Some (x, s) => Some (x, u_one, s) | None => None end
  | [] => if u_open s then None else Some (0, u_one, s)
  end.
Definition u_push (s : uspan) (color : Z) (n : ucount) : option uspan :=
  match u_blocks s with
  | (c, m) :: bs => Some (US (if c =? color then (c, u_add m n) :: bs else (color, n) :: (c, m) :: bs) (u_open s))
  | [] => if u_open s then None else Some (US (if color =? 0 then [] else [(color, n)]) false)
  end.
Definition u_step (M : program) (state : Z) (t : utape) : option (Z * utape) :=
  match M state (u_scan t) with
  | None => None
  | Some (color, shift, next) =>
      let '(pull, push) := if shift then (u_r t, u_l t) else (u_l t, u_r t) in
      match u_pull pull (u_scan t) (state =? next) with
      | None => None
      | Some (scan, n, pull) =>
          match u_push push color n with
          | None => None
          | Some push => Some (next, if shift : bool then UT push scan pull else UT pull scan push)
          end
      end
  end.

(** What the rule adds at a position; [None] for a multiplication. *)
Definition gain (r : rule) (i : index) : option Z :=
  match rule_at r i with None => Some 0 | Some (Plus d) => Some d | Some (RulesModel.Mult _ _) => None end.

(** The least tapes that the rule is used on: a decreasing count is greater than what it loses, a block of a single cell that does
    not change stays one, any other count is at least what the signature says. *)
Definition u_count (r : rule) (i : index) (c : colcount) : ucount :=
  match gain r i with
  | None => (0, [])
  | Some d =>
      if d <? 0 then (1 - d, [i])
      else match c with
           | Just _ => if d =? 0 then (1, []) else (1, [i])
           | TapeModel.Mult _ => (2, [i])
           end
  end.
Fixpoint u_start (r : rule) (side : bool) (k : nat) (g : list colcount) : list ublock :=
  match g with [] => [] | c :: g => (cc_color c, u_count r (side, k) c) :: u_start r side (S k) g end.

(** The same unknowns, in any order. *)
Fixpoint take_out (i : index) (us : list index) : option (list index) :=
  match us with
  | [] => None
  | j :: us => if index_eqb i j then Some us else option_map (cons j) (take_out i us)
  end.
Fixpoint same_unknowns (a b : list index) : bool :=
  match a with
  | [] => match b with [] => true | _ => false end
  | i :: a => match take_out i b with Some b => same_unknowns a b | None => false end
  end.

Fixpoint gained (r : rule) (side : bool) (k : nat) (a b : list ublock) : bool :=
  match a, b with
  | [], [] => true
  | (c, (n, us)) :: a, (c', (n', us')) :: b =>
      (c =? c') && match gain r (side, k) with Some d => n' =? n + d | None => false end
      && same_unknowns us us' && gained r side (S k) a b
  | _, _ => false
  end.
Definition is_gained (r : rule) (a b : utape) : bool :=
  (u_scan a =? u_scan b)
  && gained r false 0 (u_blocks (u_l a)) (u_blocks (u_l b)) && Bool.eqb (u_open (u_l a)) (u_open (u_l b))
  && gained r true 0 (u_blocks (u_r a)) (u_blocks (u_r b)) && Bool.eqb (u_open (u_r a)) (u_open (u_r b)).

(** Within [fuel] moves the machine is back with what the rule says. *)
Fixpoint comes_back (M : program) (fuel : nat) (r : rule) (state0 : Z) (t0 : utape) (state : Z) (t : utape) : bool :=
  match fuel with
  | O => false
  | S fuel =>
      match u_step M state t with
      | None => false
      | Some (state, t) => if (state =? state0) && is_gained r t0 t then true else comes_back M fuel r state0 t0 state t
      end
  end.

Definition within (r : rule) (g : signature) : bool :=
  forallb (fun e : index * op => (snd (fst e) <? length (if fst (fst e) then sg_r g else sg_l g))%nat) r.

(** The certificate for one rule. *)
Definition certified_rule (M : program) (fuel : nat) (state : Z) (ms : minsig) (r : rule) : bool :=
  let '(g, (lex, rex)) := ms in
  let t := UT (US (u_start r false 0 (sg_l g)) (negb lex)) (sg_scan g) (US (u_start r true 0 (sg_r g)) (negb rex)) in
  within r g && comes_back M fuel r state t state t.
(** And for all rules that a prover holds. *)
Definition certified (M : program) (fuel : nat) (pv : prover) : bool :=
  forallb (fun e : slot * list (minsig * rule) => forallb (fun x => certified_rule M fuel (fst (fst e)) (fst x) (snd x)) (snd e)) (pv_rules pv).

(** At most one entry takes away. *)
Definition one_down (r : rule) : bool :=
  (length (filter (fun e : index * op => match snd e with Plus d => (d <? 0)%Z | RulesModel.Mult _ _ => false end) r) <=? 1)%nat.
Definition all_one_down (pv : prover) : bool :=
  forallb (fun e : slot * list (minsig * rule) => forallb (fun x => one_down (snd x)) (snd e)) (pv_rules pv).
(** No entry takes away. *)
Definition none_down (r : rule) : bool :=
  forallb (fun e : index * op => match snd e with Plus d => (0 <=? d)%Z | RulesModel.Mult _ _ => true end) r.
