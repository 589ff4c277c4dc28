(** * Model of the enumerating tapes: EnumTape of tm/tape.py and of src/tape.rs *)
From Verif Require Import Base TM TapeModel.

(** tm/tape.py 205-206 (Enums): side ([true] = right) and number, from 1 up. *)
Definition enums : Type := (bool * nat)%type.

(** A Block object together with what [self.enums.get(id(block))] gives for it, tm/tape.py 27-30,
    228-232, 249; src/tape.rs 545-550 (EnumBlock). *)
Record eblock := EB { eb_color : Z; eb_count : Z; eb_enum : option enums }.

(** tm/tape.py 208-217, src/tape.rs 588-596. *)
Record etape := ET {
  et_l : list eblock; et_scan : Z; et_r : list eblock;
  et_loff : nat; et_roff : nat;
  et_ledge : bool; et_redge : bool
}.

(** tm/tape.py 228-232, src/tape.rs 609-632: numbering of a span. *)
Fixpoint enumerate (side : bool) (num : nat) (s : span) : list eblock :=
  match s with
  | [] => []
  | b :: s => EB (b_color b) (b_count b) (Some (side, num)) :: enumerate side (S num) s
  end.

(** tm/tape.py 67-68 (to_enum), 219-232; src/tape.rs 604-641. *)
Definition to_enum (t : tape) : etape :=
  ET (enumerate false 1 (t_lspan t)) (t_scan t) (enumerate true 1 (t_rspan t)) 0 0 false false.

(** The tape held by an EnumTape: tm/tape.py 209, src/tape.rs 589. *)
Definition erase_span (s : list eblock) : span := map (fun b => Blk (eb_color b) (eb_count b)) s.
(** The same for the two spans: tm/tape.py 209, src/tape.rs 589. *)
Definition erase (e : etape) : tape := Tape (erase_span (et_l e)) (et_scan e) (erase_span (et_r e)).

(** tm/tape.py 242-246, src/tape.rs 652-654. *)
Definition touch_edge (e : etape) (shift : bool) : etape :=
  ET (et_l e) (et_scan e) (et_r e) (et_loff e) (et_roff e)
     (if shift then et_ledge e else true) (if shift then true else et_redge e).

(** tm/tape.py 248-258, src/tape.rs 656-665. *)
Definition check_offsets (e : etape) (b : eblock) : etape :=
  match eb_enum b with
  | None => e
  | Some (side, offset) =>
      if side
      then ET (et_l e) (et_scan e) (et_r e) (et_loff e)
              (if (et_roff e <? offset)%nat then offset else et_roff e) (et_ledge e) (et_redge e)
      else ET (et_l e) (et_scan e) (et_r e)
              (if (et_loff e <? offset)%nat then offset else et_loff e) (et_roff e) (et_ledge e) (et_redge e)
  end.

(** tm/tape.py 285-303, src/tape.rs 667-696: the checks made before a step. *)
Definition check_step (e : etape) (shift : bool) (color : Z) (skip : bool) : etape :=
  let '(pull, push) := if shift then (et_r e, et_l e) else (et_l e, et_r e) in
  let e1 :=
    match pull with
    | [] => touch_edge e shift
    | near_block :: rest =>
        let e := check_offsets e near_block in
        if skip && (eb_color near_block =? et_scan e)
        then match rest with
             | [] => touch_edge e shift
             | second :: _ => check_offsets e second
             end
        else e
    end in
  match push with
  | [] => e1
  | opp :: _ => if color =? eb_color opp then check_offsets e1 opp else e1
  end.

(** tm/tape.py 164-186 on block objects: scan, rest of [pull], the object to re-use, steps. *)
Definition py_epull (pull : list eblock) (scan : Z) (skip : bool) : Z * list eblock * option eblock * Z :=
  let '(push_block, pull) :=
    match pull with
    | b :: pull' => if skip && (eb_color b =? scan) then (Some b, pull') else (None, pull)
    | [] => (None, pull)
    end in
  let stepped := match push_block with None => 1 | Some b => 1 + eb_count b end in
  match pull with
  | [] => (0, pull, push_block, stepped)
  | next_pull :: pull' =>
      if negb (eb_count next_pull =? 1)
      then (eb_color next_pull, EB (eb_color next_pull) (eb_count next_pull - 1) (eb_enum next_pull) :: pull', push_block, stepped)
      else (eb_color next_pull, pull',
            match push_block with
            | None => Some (EB (eb_color next_pull) 0 (eb_enum next_pull))
            | Some b => Some b
            end, stepped)
  end.

(** tm/tape.py 188-197 on block objects.  A new Block may get the identity of an object that has
    been freed, and so be found in [self.enums]: [fresh] is what is found. *)
Definition py_epush (fresh : option enums) (push : list eblock) (push_block : option eblock) (color stepped : Z) : list eblock :=
  let insert :=
    match push_block with
    | None => EB color 1 fresh
    | Some b => EB color (eb_count b + 1) (eb_enum b)
    end :: push in
  match push with
  | top_block :: push' =>
      if eb_color top_block =? color
      then EB (eb_color top_block) (eb_count top_block + stepped) (eb_enum top_block) :: push'
      else insert
  | [] => if negb (color =? 0) then insert else push
  end.

(** tm/tape.py 284-305 (EnumTape.step). *)
Definition py_estep (fresh : option enums) (e : etape) (shift : bool) (color : Z) (skip : bool) : etape :=
  let e := check_step e shift color skip in
  let '(pull, push) := if shift then (et_r e, et_l e) else (et_l e, et_r e) in
  let '(next_scan, pull, push_block, stepped) := py_epull pull (et_scan e) skip in
  let push := py_epush fresh push push_block color stepped in
  ET (if shift then push else pull) next_scan (if shift then pull else push)
     (et_loff e) (et_roff e) (et_ledge e) (et_redge e).

(** src/tape.rs 131-155 (Span::pull) on EnumBlocks. *)
Definition rs_epull (s : list eblock) (scan : Z) (skip : bool) : Z * list eblock * Z :=
  let '(stepped, s) :=
    match s with
    | b :: s' => if skip && (eb_color b =? scan) then (1 + eb_count b, s') else (1, s)
    | [] => (1, s)
    end in
  match s with
  | [] => (0, s, stepped)
  | next_pull :: s' =>
      if eb_count next_pull >? 1
      then (eb_color next_pull, EB (eb_color next_pull) (eb_count next_pull - 1) (eb_enum next_pull) :: s', stepped)
      else (eb_color next_pull, s', stepped)
  end.

(** src/tape.rs 157-171 (Span::push) on EnumBlocks; a new block has no index (554-559). *)
Definition rs_epush (s : list eblock) (print stepped : Z) : list eblock :=
  match s with
  | [] => if negb (print =? 0) then [EB print stepped None] else []
  | b :: s' =>
      if eb_color b =? print
      then EB (eb_color b) (eb_count b + stepped) (eb_enum b) :: s'
      else EB print stepped None :: s
  end.

(** src/tape.rs 698-707 (EnumTape::step). *)
Definition rs_estep (e : etape) (shift : bool) (color : Z) (skip : bool) : etape :=
  let e := check_step e shift color skip in
  let '(pull, push) := if shift then (et_r e, et_l e) else (et_l e, et_r e) in
  let '(next_scan, pull, stepped) := rs_epull pull (et_scan e) skip in
  let push := rs_epush push color stepped in
  ET (if shift then push else pull) next_scan (if shift then pull else push)
     (et_loff e) (et_roff e) (et_ledge e) (et_redge e).

(** tm/prover.py 70-92 (run_simulator) on an EnumTape when no rule applies: [fresh n] is what is
    found for a Block made with [n] rounds to go. *)
Fixpoint py_enum_run (M : program) (fresh : nat -> option enums) (rounds : nat) (state : Z) (e : etape) : option (Z * etape) :=
  match rounds with
  | O => Some (state, e)
  | S rounds =>
      match M state (et_scan e) with
      | None => None
      | Some (color, shift, next_state) =>
          py_enum_run M fresh rounds next_state (py_estep (fresh rounds) e shift color (state =? next_state))
      end
  end.

(** src/prover.rs 119-133 (the loop of get_min_sig) when no rule applies; [None] is the panic of
    the [unwrap] there. *)
Fixpoint rs_enum_run (M : program) (rounds : nat) (state : Z) (e : etape) : option (Z * etape) :=
  match rounds with
  | O => Some (state, e)
  | S rounds =>
      match M state (et_scan e) with
      | None => None
      | Some (color, shift, next_state) =>
          rs_enum_run M rounds next_state (rs_estep e shift color (state =? next_state))
      end
  end.
