(** * Model of idris/: Program.idr, Tape.idr, Machine.idr

    Interfaces are records of functions.  Nat is [nat] where it counts cells, moves or cycles, and [Z] where it
    is a colour or a state; [Shift] is [bool], with [true] for R; IO, which only wraps the results, is left out.
    A dependent pair [(k ** Vect k a)] is the list alone, and [(i ** (Fin (S i), Vect (S i) Color))] the number
    and the list.  [cells] and [Show], which only serve printing, and the conversions at Tape.idr 533-566,
    which nothing uses, are left out. *)
From Verif Require Import Base TM.

(** idris/Program.idr 53-61 (Instruction, Program): defined on every state and colour. *)
Definition iprogram : Type := Z -> Z -> Z * bool * Z.
(** idris/Program.idr 31-33. *)
Definition ihalt : Z := 0.

(** ** Interfaces *)

(** idris/Tape.idr 11-70 (TapeMeasure, Tape, SkipTape) and [==].  [None] from a skip: it never returns. *)
Record tape_ops (T : Type) := TapeOps {
  tp_marks : T -> nat;
  tp_blank : T -> bool;
  tp_init : T;
  tp_read : T -> Z * option bool;
  tp_step_left : T -> Z -> nat * T;
  tp_step_right : T -> Z -> nat * T;
  tp_skip_left : T -> Z -> option (nat * T);
  tp_skip_right : T -> Z -> option (nat * T);
  tp_eqb : T -> T -> bool
}.
Arguments tp_marks {T} t _.
Arguments tp_blank {T} t _.
Arguments tp_init {T} t.
Arguments tp_read {T} t _.
Arguments tp_step_left {T} t _ _.
Arguments tp_step_right {T} t _ _.
Arguments tp_skip_left {T} t _ _.
Arguments tp_skip_right {T} t _ _.
Arguments tp_eqb {T} t _ _.

(** idris/Tape.idr 38-40. *)
Definition tp_step {T} (o : tape_ops T) (dir : bool) : T -> Z -> nat * T := if dir then tp_step_right o else tp_step_left o.
(** idris/Tape.idr 62-64. *)
Definition tp_skip {T} (o : tape_ops T) (dir : bool) : T -> Z -> option (nat * T) := if dir then tp_skip_right o else tp_skip_left o.

(** idris/Tape.idr 76-87 (Spannable), without spanCells, and [==]. *)
Record spannable (A : Type) := Spannable {
  sp_pull : A -> Z * A;
  sp_push : Z -> nat -> A -> A;
  sp_none : A;
  sp_blank : A -> bool;
  sp_marks : A -> nat;
  sp_eqb : A -> A -> bool
}.
Arguments sp_pull {A} s _.
Arguments sp_push {A} s _ _ _.
Arguments sp_none {A} s.
Arguments sp_blank {A} s _.
Arguments sp_marks {A} s _.
Arguments sp_eqb {A} s _ _.

(** ** A scanned cell between two spans *)

(** idris/Tape.idr 89-90 (ScanNSpan). *)
Definition scan_n_span (A : Type) : Type := (A * Z * A)%type.

(** idris/Tape.idr 96. *)
Definition sn_marks {A} (sp : spannable A) (t : scan_n_span A) : nat :=
  let '(l, c, r) := t in (sp_marks sp l + (if (c =? 0)%Z then 0 else 1) + sp_marks sp r)%nat.
(** idris/Tape.idr 98-99. *)
Definition sn_blank {A} (sp : spannable A) (t : scan_n_span A) : bool :=
  let '(l, c, r) := t in if c =? 0 then sp_blank sp l && sp_blank sp r else false.
(** idris/Tape.idr 103-109. *)
Definition sn_read {A} (sp : spannable A) (t : scan_n_span A) : Z * option bool :=
  let '(l, c, r) := t in
  if c =? 0 then (0, if sp_blank sp l then Some false else if sp_blank sp r then Some true else None)
  else (c, None).
(** idris/Tape.idr 114-116. *)
Definition sn_step_left {A} (sp : spannable A) (t : scan_n_span A) (cx : Z) : nat * scan_n_span A :=
  let '(l, _, r) := t in let '(x, k) := sp_pull sp l in (1%nat, (k, x, sp_push sp cx 1 r)).
(** idris/Tape.idr 118-120. *)
Definition sn_step_right {A} (sp : spannable A) (t : scan_n_span A) (cx : Z) : nat * scan_n_span A :=
  let '(l, c, r) := t in let '(s, (k, x, e)) := sn_step_left sp (r, c, l) cx in (s, (e, x, k)).
(** idris/Tape.idr 163-165, 227-229, 281-283, 431-433, 483-485, 529-531: the same text each time. *)
Definition sn_skip_right {A} (skip_left : scan_n_span A -> Z -> option (nat * scan_n_span A))
    (t : scan_n_span A) (cx : Z) : option (nat * scan_n_span A) :=
  let '(l, c, r) := t in
  match skip_left (r, c, l) cx with Some (s, (k, x, e)) => Some (s, (e, x, k)) | None => None end.
(** [==] on triples, used at idris/Machine.idr 70. *)
Definition sn_eqb {A} (sp : spannable A) (t u : scan_n_span A) : bool :=
  let '(l, c, r) := t in let '(l', c', r') := u in sp_eqb sp l l' && (c =? c') && sp_eqb sp r r'.
(** idris/Tape.idr 93-120 together. *)
Definition sn_ops {A} (sp : spannable A) (skip_left : scan_n_span A -> Z -> option (nat * scan_n_span A))
    : tape_ops (scan_n_span A) :=
  TapeOps (scan_n_span A) (sn_marks sp) (sn_blank sp) (sp_none sp, 0, sp_none sp) (sn_read sp)
    (sn_step_left sp) (sn_step_right sp) skip_left (sn_skip_right skip_left) (sn_eqb sp).

(** [==] on lists, used at idris/Machine.idr 70. *)
Fixpoint leqb {A} (eqb : A -> A -> bool) (a b : list A) : bool :=
  match a, b with
  | [], [] => true
  | x :: a, y :: b => eqb x y && leqb eqb a b
  | _, _ => false
  end.

(** ** CellTape *)

(** idris/Tape.idr 135-136. *)
Definition cell_pull (s : list Z) : Z * list Z := match s with [] => (0, []) | x :: xs => (x, xs) end.
(** idris/Tape.idr 138. *)
Definition cell_push (cx : Z) (_ : nat) (xs : list Z) : list Z := cx :: xs.
(** idris/Tape.idr 140-142. *)
Fixpoint cell_blank (s : list Z) : bool :=
  match s with [] => true | x :: xs => if x =? 0 then cell_blank xs else false end.
(** idris/Tape.idr 147. *)
Definition cell_marks (s : list Z) : nat := length (filter (fun x => negb (x =? 0)) s).
(** idris/Tape.idr 133-147. *)
Definition cell_span : spannable (list Z) := Spannable _ cell_pull cell_push [] cell_blank cell_marks (leqb Z.eqb).

(** idris/Tape.idr 153-161. *)
Fixpoint cell_skip (l : list Z) (c : Z) (r : list Z) (cx : Z) : nat * scan_n_span (list Z) :=
  match l with
  | [] => sn_step_left cell_span (l, c, r) cx
  | cn :: l' =>
      if negb (cn =? c) then sn_step_left cell_span (l, c, r) cx
      else let '(steps, shifted) := cell_skip l' cn (cx :: r) cx in (S steps, shifted)
  end.
(** idris/Tape.idr 151-165. *)
Definition cell_ops : tape_ops (scan_n_span (list Z)) :=
  sn_ops cell_span (fun t cx => let '(l, c, r) := t in Some (cell_skip l c r cx)).

(** ** BlockTape *)

(** idris/Tape.idr 180-185. *)
Definition bspan : Type := list (Z * nat).
(** idris/Tape.idr 190-194. *)
Definition block_pull (s : bspan) : Z * bspan :=
  match s with
  | [] => (0, [])
  | (c, n) :: xs => (c, match n with S (S k) => (c, S k) :: xs | _ => xs end)
  end.
(** idris/Tape.idr 196-200. *)
Definition block_push (c : Z) (k : nat) (s : bspan) : bspan :=
  match s with
  | [] => [(c, k)]
  | (q, n) :: xs => if c =? q then (q, k + n)%nat :: xs else (c, k) :: (q, n) :: xs
  end.
(** idris/Tape.idr 204-206. *)
Fixpoint block_blank (s : bspan) : bool :=
  match s with [] => true | (c, _) :: xs => if c =? 0 then block_blank xs else false end.
(** idris/Tape.idr 209. *)
Definition block_marks (s : bspan) : nat :=
  fold_left (fun a b => (a + (if (fst b =? 0)%Z then 0 else snd b))%nat) s 0%nat.
(** [==] on blocks, used at idris/Machine.idr 70. *)
Definition block_eqb (a b : Z * nat) : bool := (fst a =? fst b) && Nat.eqb (snd a) (snd b).
(** idris/Tape.idr 188-209. *)
Definition block_span : spannable bspan := Spannable _ block_pull block_push [] block_blank block_marks (leqb block_eqb).

(** idris/Tape.idr 220-225. *)
Definition block_skip (t : scan_n_span bspan) (cx : Z) : nat * scan_n_span bspan :=
  let '(l, c, r) := t in
  match l with
  | [] => sn_step_left block_span t cx
  | (bc, bn) :: l' =>
      if negb (bc =? c) then sn_step_left block_span t cx
      else let '(x, k) := block_pull l' in ((1 + bn)%nat, (k, x, block_push cx (1 + bn) r))
  end.
(** idris/Tape.idr 218-229. *)
Definition block_ops : tape_ops (scan_n_span bspan) := sn_ops block_span (fun t cx => Some (block_skip t cx)).

(** ** SplitTape *)

(** idris/Tape.idr 233-234. *)
Definition sspan : Type := (list Z * list nat)%type.
(** idris/Tape.idr 240. *)
Definition split_blank (s : sspan) : bool := forallb (fun c => c =? 0) (fst s).
(** idris/Tape.idr 244-248. *)
Definition split_marks (s : sspan) : nat :=
  fold_left (fun a b => (a + (if (fst b =? 0)%Z then 0 else snd b))%nat) (combine (fst s) (snd s)) 0%nat.
(** idris/Tape.idr 250-256. *)
Definition split_pull (s : sspan) : Z * sspan :=
  match s with
  | (co :: colors, 1%nat :: counts) => (co, (colors, counts))
  | (co :: colors, S (S cn) :: counts) => (co, (co :: colors, S cn :: counts))
  | _ => (0, ([], []))
  end.
(** idris/Tape.idr 258-263. *)
Definition split_push (cx : Z) (nx : nat) (s : sspan) : sspan :=
  match s with
  | (co :: colors, cn :: counts) =>
      if cx =? co then (co :: colors, (nx + cn)%nat :: counts) else (cx :: co :: colors, nx :: cn :: counts)
  | _ => ([cx], [nx])
  end.
(** idris/Tape.idr 237-263. *)
Definition split_span : spannable sspan :=
  Spannable _ split_pull split_push ([], []) split_blank split_marks
    (fun a b => leqb Z.eqb (fst a) (fst b) && leqb Nat.eqb (snd a) (snd b)).

(** idris/Tape.idr 274-279. *)
Definition split_skip (t : scan_n_span sspan) (cx : Z) : nat * scan_n_span sspan :=
  let '(l, c, r) := t in
  match l with
  | (bc :: lcol, bn :: lcnt) =>
      if negb (bc =? c) then sn_step_left split_span t cx
      else let '(x, k) := split_pull (lcol, lcnt) in ((1 + bn)%nat, (k, x, split_push cx (1 + bn) r))
  | _ => sn_step_left split_span t cx
  end.
(** idris/Tape.idr 272-283. *)
Definition split_ops : tape_ops (scan_n_span sspan) := sn_ops split_span (fun t cx => Some (split_skip t cx)).

(** ** PtrTape *)

(** idris/Tape.idr 287-289. *)
Definition ptape : Type := (nat * list Z)%type.
(** idris/Tape.idr 292-296. *)
Definition ptr_eqb (t u : ptape) : bool := Nat.eqb (fst t) (fst u) && leqb Z.eqb (snd t) (snd u).
(** idris/Tape.idr 312-324; [strengthen] fails on the last place only. *)
Fixpoint ptr_read (pos : nat) (tape : list Z) : Z * option bool :=
  match pos, tape with
  | _, [] => (0, None)
  | O, c :: _ => if c =? 0 then (0, Some false) else (c, None)
  | S pos', c0 :: rest =>
      if c0 =? 0 then ptr_read pos' rest
      else let c := nth pos tape 0 in
           if c =? 0 then (if (S pos <? length tape)%nat then (0, None) else (0, Some true)) else (c, None)
  end.
(** [replaceAt], idris/Tape.idr 332, 342. *)
Fixpoint replace_at (pos : nat) (cx : Z) (tape : list Z) : list Z :=
  match pos, tape with
  | _, [] => []
  | O, _ :: rest => cx :: rest
  | S pos, x :: rest => x :: replace_at pos cx rest
  end.
(** idris/Tape.idr 330-338. *)
Definition ptr_step_left (t : ptape) (cx : Z) : nat * ptape :=
  let '(pos, tape) := t in
  let printed := replace_at pos cx tape in
  (1%nat, match pos with O => (O, 0 :: printed) | S p => (p, printed) end).
(** idris/Tape.idr 340-350. *)
Definition ptr_step_right (t : ptape) (cx : Z) : nat * ptape :=
  let '(pos, tape) := t in
  let printed := replace_at pos cx tape in
  (1%nat, if (S pos <? length tape)%nat then (S pos, printed) else (S pos, printed ++ [0])).
(** [nextScan /= currScan], idris/Tape.idr 364, 374. *)
Definition scan_eqb (a b : Z * option bool) : bool :=
  (fst a =? fst b)
  && match snd a, snd b with Some x, Some y => Bool.eqb x y | None, None => true | _, _ => false end.
(** idris/Tape.idr 356-366, at most [fuel] calls deep. *)
Fixpoint ptr_skip_left (fuel : nat) (t : ptape) (cx : Z) : option (nat * ptape) :=
  match fuel with
  | O => None
  | S fuel =>
      match fst t with
      | O => Some (ptr_step_left t cx)
      | S _ =>
          let stepped := snd (ptr_step_left t cx) in
          if negb (scan_eqb (ptr_read (fst stepped) (snd stepped)) (ptr_read (fst t) (snd t)))
          then Some (ptr_step_left t cx)
          else match ptr_skip_left fuel stepped cx with
               | Some (steps, skipped) => Some (S steps, skipped)
               | None => None
               end
      end
  end.
(** idris/Tape.idr 368-376, at most [fuel] calls deep. *)
Fixpoint ptr_skip_right (fuel : nat) (t : ptape) (cx : Z) : option (nat * ptape) :=
  match fuel with
  | O => None
  | S fuel =>
      let stepped := snd (ptr_step_right t cx) in
      if negb (scan_eqb (ptr_read (fst stepped) (snd stepped)) (ptr_read (fst t) (snd t)))
      then Some (ptr_step_right t cx)
      else match ptr_skip_right fuel stepped cx with
           | Some (steps, skipped) => Some (S steps, skipped)
           | None => None
           end
  end.
(** idris/Tape.idr 299-376. *)
Definition ptr_ops (fuel : nat) : tape_ops ptape :=
  TapeOps ptape (fun t => cell_marks (snd t)) (fun t => cell_blank (snd t)) (O, [0]) (fun t => ptr_read (fst t) (snd t))
    ptr_step_left ptr_step_right (ptr_skip_left fuel) (ptr_skip_right fuel) ptr_eqb.

(** ** NumTape *)

(** The decimal digits that [show] gives, last first; idris/Tape.idr 400.  Enough [fuel] is given below. *)
Fixpoint digits (fuel : nat) (n : Z) : list Z :=
  match fuel with
  | O => []
  | S fuel => if n <? 10 then [n] else (n mod 10) :: digits fuel (n / 10)
  end.
(** idris/Tape.idr 400. *)
Definition num_marks (n : Z) : nat := length (filter (fun d => negb (d =? 0)) (digits (S (Z.to_nat (Z.log2 n))) n)).
(** idris/Tape.idr 409. *)
Definition num_pull (n : Z) : Z * Z := (n mod 10, n / 10).
(** idris/Tape.idr 407. *)
Definition num_push (cx : Z) (_ : nat) (n : Z) : Z := cx + 10 * n.
(** idris/Tape.idr 397-409. *)
Definition num_span : spannable Z := Spannable _ num_pull num_push 0 (fun n => n =? 0) num_marks Z.eqb.

(** idris/Tape.idr 420-429, at most [fuel] calls deep. *)
Fixpoint num_skip (fuel : nat) (l c r cx : Z) : option (nat * scan_n_span Z) :=
  match fuel with
  | O => None
  | S fuel =>
      if l =? 0 then Some (sn_step_left num_span (l, c, r) cx)
      else let '(cn, nl) := num_pull l in
           if negb (c =? cn) then Some (sn_step_left num_span (l, c, r) cx)
           else match num_skip fuel nl cn (num_push cx 1 r) cx with
                | Some (steps, shifted) => Some (S steps, shifted)
                | None => None
                end
  end.
(** idris/Tape.idr 418-433; no more calls than the number has binary digits, and one. *)
Definition num_ops : tape_ops (scan_n_span Z) :=
  sn_ops num_span (fun t cx => let '(l, c, r) := t in num_skip (S (S (Z.to_nat (Z.log2 l)))) l c r cx).

(** ** CellVectTape *)

(** idris/Tape.idr 448-449. *)
Definition cvect_pull (s : list Z) : Z * list Z := match s with c :: cs => (c, cs) | _ => (0, s) end.
(** idris/Tape.idr 451. *)
Definition cvect_push (cx : Z) (_ : nat) (tape : list Z) : list Z := cx :: tape.
(** idris/Tape.idr 453-457. *)
Fixpoint cvect_blank (cs : list Z) : bool :=
  match cs with [] => true | x :: xs => if x =? 0 then cvect_blank xs else false end.
(** idris/Tape.idr 462. *)
Definition cvect_marks (s : list Z) : nat := length (filter (fun x => negb (x =? 0)) s).
(** idris/Tape.idr 441-462. *)
Definition cvect_span : spannable (list Z) := Spannable _ cvect_pull cvect_push [] cvect_blank cvect_marks (leqb Z.eqb).
(** idris/Tape.idr 473-481. *)
Fixpoint cvect_skip (l : list Z) (c : Z) (r : list Z) (cx : Z) : nat * scan_n_span (list Z) :=
  match l with
  | [] => sn_step_left cvect_span (l, c, r) cx
  | cn :: l' =>
      if negb (cn =? c) then sn_step_left cvect_span (l, c, r) cx
      else let '(steps, shifted) := cvect_skip l' cn (cx :: r) cx in (S steps, shifted)
  end.
(** idris/Tape.idr 471-485. *)
Definition cvect_ops : tape_ops (scan_n_span (list Z)) :=
  sn_ops cvect_span (fun t cx => let '(l, c, r) := t in Some (cvect_skip l c r cx)).

(** ** BlockVectTape *)

(** idris/Tape.idr 490-494. *)
Definition bvect_pull (s : bspan) : Z * bspan :=
  match s with
  | [] => (0, s)
  | (c, n) :: xs => (c, match n with S (S k) => (c, S k) :: xs | _ => xs end)
  end.
(** idris/Tape.idr 496-500. *)
Definition bvect_push (c : Z) (k : nat) (s : bspan) : bspan :=
  match s with
  | [] => [(c, k)]
  | (q, n) :: xs => if c =? q then (q, k + n)%nat :: xs else (c, k) :: (q, n) :: xs
  end.
(** idris/Tape.idr 502-506. *)
Fixpoint bvect_blank (s : bspan) : bool :=
  match s with [] => true | (c, _) :: xs => if c =? 0 then bvect_blank xs else false end.
(** idris/Tape.idr 511. *)
Definition bvect_marks (s : bspan) : nat :=
  fold_left (fun a b => (a + (if (fst b =? 0)%Z then 0 else snd b))%nat) s 0%nat.
(** idris/Tape.idr 441-443, 488-511. *)
Definition bvect_span : spannable bspan := Spannable _ bvect_pull bvect_push [] bvect_blank bvect_marks (leqb block_eqb).
(** idris/Tape.idr 522-527. *)
Definition bvect_skip (t : scan_n_span bspan) (cx : Z) : nat * scan_n_span bspan :=
  let '(l, c, r) := t in
  match l with
  | [] => sn_step_left bvect_span t cx
  | (bc, bn) :: l' =>
      if negb (bc =? c) then sn_step_left bvect_span t cx
      else let '(x, k) := bvect_pull l' in ((1 + bn)%nat, (k, x, bvect_push cx (1 + bn) r))
  end.
(** idris/Tape.idr 520-531. *)
Definition bvect_ops : tape_ops (scan_n_span bspan) := sn_ops bvect_span (fun t cx => Some (bvect_skip t cx)).

(** ** Machines *)

(** idris/Machine.idr 34-36. *)
Definition check_edge (sh : bool) (edge : option bool) : bool :=
  match edge with Some dir => Bool.eqb sh dir | None => false end.
(** idris/Machine.idr 19-32: next state, tape, moves, whether it repeats for ever.  [None]: a skip never returns. *)
Definition exec {T} (o : tape_ops T) (prog : iprogram) (state : Z) (tape : T) : option (Z * T * nat * bool) :=
  let '(scan, edge) := tp_read o tape in
  let '(cx, dir, next) := prog state scan in
  if (state =? next) && check_edge dir edge then Some (next, tape, 0%nat, true)
  else match (if state =? next then tp_skip o dir tape cx else Some (tp_step o dir tape cx)) with
       | Some (stepped, shifted) => Some (next, shifted, stepped, false)
       | None => None
       end.

(** idris/Machine.idr 38-39, 56-60: what a run comes to: nothing (it hangs), [Nothing] or [Just]. *)
Inductive irun (T : Type) := IHang | ILimit | IDone (steps cycles : nat) (tape : T).
Arguments IHang {T}.
Arguments ILimit {T}.
Arguments IDone {T} steps cycles tape.

(** idris/Machine.idr 40-48. *)
Fixpoint irun_loop {T} (o : tape_ops T) (cycles_left : nat) (prog : iprogram) (state : Z) (tape : T) (steps : nat) : irun T :=
  match cycles_left with
  | O => ILimit
  | S cycles_left =>
      match exec o prog state tape with
      | None => IHang
      | Some (next_state, next_tape, stepped, recurr) =>
          let next_steps := (stepped + steps)%nat in
          if (next_state =? ihalt) || tp_blank o next_tape || recurr
          then IDone next_steps cycles_left next_tape
          else irun_loop o cycles_left prog next_state next_tape next_steps
      end
  end.
(** idris/Machine.idr 50-54. *)
Definition run_on_blank {T} (o : tape_ops T) (sim_lim : nat) (prog : iprogram) : irun T :=
  match irun_loop o sim_lim prog 1 (tp_init o) 0 with
  | IDone steps cycles_left tape => IDone steps (sim_lim - cycles_left) tape
  | r => r
  end.

(** idris/Machine.idr 61-74. *)
Fixpoint run_double {T} (o : tape_ops T) (k : nat) (prog : iprogram)
    (st1 : Z) (tp1 : T) (step : nat) (st2 : Z) (tp2 : T) (slow : nat) : irun T :=
  match k with
  | O => ILimit
  | S k =>
      match exec o prog st1 tp1, (if Nat.eqb (step mod 2) 0 then Some (st2, tp2, 0%nat, false) else exec o prog st2 tp2) with
      | Some (nst1, ntp1, nstep, _), Some (nst2, ntp2, nslow, _) =>
          if (nst1 =? nst2) && tp_eqb o ntp1 ntp2 then IDone slow k tp2
          else run_double o k prog nst1 ntp1 (nstep + step) nst2 ntp2 (nslow + slow)
      | _, _ => IHang
      end
  end.
(** idris/Machine.idr 76-83. *)
Definition run_double_on_blank {T} (o : tape_ops T) (sim_lim : nat) (prog : iprogram) : irun T :=
  match run_double o sim_lim prog 1 (tp_init o) 0 1 (tp_init o) 0 with
  | IDone steps cycles tape => IDone steps (sim_lim - cycles) tape
  | r => r
  end.

(** ** The seven machines *)

(** idris/Machine.idr 85-111. *)
Inductive imachine := CellMachine | BlockMachine | SplitMachine | PtrMachine | NumMachine | CellVectMachine | BlockVectMachine.

(** idris/Test.idr 32-36, 51: what is reported of a run: moves, cycles, marks. *)
Inductive report := Hangs | HitsLimit | Reports (steps cycles marks : nat).
(** idris/Test.idr 48-51. *)
Definition report_of {T} (o : tape_ops T) (r : irun T) : report :=
  match r with IHang => Hangs | ILimit => HitsLimit | IDone s c t => Reports s c (tp_marks o t) end.

(** idris/Test.idr 32-34 with idris/Machine.idr 85-111; a skip of a PtrTape may go [fuel] calls deep. *)
Definition run_single (fuel : nat) (m : imachine) (sim_lim : nat) (prog : iprogram) : report :=
  match m with
  | CellMachine => report_of cell_ops (run_on_blank cell_ops sim_lim prog)
  | BlockMachine => report_of block_ops (run_on_blank block_ops sim_lim prog)
  | SplitMachine => report_of split_ops (run_on_blank split_ops sim_lim prog)
  | PtrMachine => report_of (ptr_ops fuel) (run_on_blank (ptr_ops fuel) sim_lim prog)
  | NumMachine => report_of num_ops (run_on_blank num_ops sim_lim prog)
  | CellVectMachine => report_of cvect_ops (run_on_blank cvect_ops sim_lim prog)
  | BlockVectMachine => report_of bvect_ops (run_on_blank bvect_ops sim_lim prog)
  end.
(** idris/Test.idr 35-36 with idris/Machine.idr 85-111. *)
Definition run_double_rec (fuel : nat) (m : imachine) (sim_lim : nat) (prog : iprogram) : report :=
  match m with
  | CellMachine => report_of cell_ops (run_double_on_blank cell_ops sim_lim prog)
  | BlockMachine => report_of block_ops (run_double_on_blank block_ops sim_lim prog)
  | SplitMachine => report_of split_ops (run_double_on_blank split_ops sim_lim prog)
  | PtrMachine => report_of (ptr_ops fuel) (run_double_on_blank (ptr_ops fuel) sim_lim prog)
  | NumMachine => report_of num_ops (run_double_on_blank num_ops sim_lim prog)
  | CellVectMachine => report_of cvect_ops (run_double_on_blank cvect_ops sim_lim prog)
  | BlockVectMachine => report_of bvect_ops (run_double_on_blank bvect_ops sim_lim prog)
  end.
