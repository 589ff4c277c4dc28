(** * C100: the rule book and the records of the prover *)
From Verif Require Import Base TM ProgModel TapeModel RulesModel PastModel ProverModel LawCase SigSpec BookSpec BookProofs.

(** The prover after these rules have been handed to set_rule, in this order. *)
Notation C100_book es := (fold_left (fun pv e =>
  set_rule pv (e_rule e) (e_state e) (t_signature (e_seen e), (e_lend e, e_rend e))) es pv_new).

(** get_rule answers the rule of the first entry that is meant for the state and the tape, ... *)
Theorem C100_answers : forall es state t r,
  get_rule (C100_book es) state (t_scan t) (t_signature t) = Some r <-> first_meant es state t r.
Proof. exact book_answers. Qed.
Print Assumptions C100_answers.

(** ... and none exactly if no entry is. *)
Theorem C100_silent : forall es state t,
  get_rule (C100_book es) state (t_scan t) (t_signature t) = None <-> forall e, In e es -> ~ meant_for e state t.
Proof. exact book_silent. Qed.
Print Assumptions C100_silent.

(** try_rule (Python): a rule that is answered was in the book, or is now, as one entry more, for this state and tape; in
    the first case nothing changes.  Any other answer leaves the rules alone, and no rule was meant. *)
Theorem C100_try_python : forall comp es pv cycle state t pv' a,
  pv_rules pv = pv_rules (C100_book es) -> py_try_rule comp pv cycle state t = (pv', a) ->
  match a with
  | TRule r => pv_rules pv' = pv_rules (C100_book es) /\ first_meant es state t r
      \/ exists e, pv_rules pv' = pv_rules (C100_book (es ++ [e])) /\ meant_for e state t /\ e_rule e = r
           /\ forall e', In e' es -> ~ meant_for e' state t
  | _ => pv_rules pv' = pv_rules (C100_book es) /\ forall e', In e' es -> ~ meant_for e' state t
  end.
Proof. exact py_try_told. Qed.
Print Assumptions C100_try_python.

(** The same of Rust. *)
Theorem C100_try_rust : forall M es pv cycle state t pv' a,
  pv_rules pv = pv_rules (C100_book es) -> rs_try_rule M pv cycle state t = (pv', a) ->
  match a with
  | TRule r => pv_rules pv' = pv_rules (C100_book es) /\ first_meant es state t r
      \/ exists e, pv_rules pv' = pv_rules (C100_book (es ++ [e])) /\ meant_for e state t /\ e_rule e = r
           /\ forall e', In e' es -> ~ meant_for e' state t
  | _ => pv_rules pv' = pv_rules (C100_book es) /\ forall e', In e' es -> ~ meant_for e' state t
  end.
Proof. exact rs_try_told. Qed.
Print Assumptions C100_try_rust.

(** A record made for a tape is found for the tapes like it, and for no other. *)
Theorem C100_records : forall cs t t' p,
  (like_tape like_block t t' -> cfg_get (cfg_set cs (t_signature t) p) (t_signature t') = Some p)
  /\ (~ like_tape like_block t t' -> cfg_get (cfg_set cs (t_signature t) p) (t_signature t') = cfg_get cs (t_signature t')).
Proof. exact records_kept. Qed.
Print Assumptions C100_records.

(** ConfigLimit is the answer exactly if no rule is meant, no tape like this one is recorded, and more than 100000 are;
    and there is a record more after a call only if no like tape was recorded and there were at most 100000. *)
Theorem C100_limit : forall comp M pv cycle state t pv' a,
  py_try_rule comp pv cycle state t = (pv', a) \/ rs_try_rule M pv cycle state t = (pv', a) ->
  (a = TConfigLimit <-> get_rule pv state (t_scan t) (t_signature t) = None /\ cfg_get (pv_configs pv) (t_signature t) = None
     /\ 100000 < Z.of_nat (length (pv_configs pv)))
  /\ (length (pv_configs pv') = length (pv_configs pv)
      \/ length (pv_configs pv') = Datatypes.S (length (pv_configs pv)) /\ cfg_get (pv_configs pv) (t_signature t) = None
         /\ Z.of_nat (length (pv_configs pv)) <= 100000).
Proof. intros comp M pv cycle state t pv' a [H|H]; [exact (py_try_counted _ _ _ _ _ _ _ H)|exact (rs_try_counted _ _ _ _ _ _ _ H)]. Qed.
Print Assumptions C100_limit.

Definition C100_r1 : rule := [((false, 0%nat), Plus (-1)); ((true, 0%nat), Plus 1)].
Definition C100_r2 : rule := [((false, 0%nat), Plus (-2))].
(** A first rule for a left side that ends after one block, a second one for any left side. *)
Definition C100_entries : list entry :=
  [Entry 1 (Tape [Blk 1 5] 0 [Blk 2 9]) true false C100_r1; Entry 1 (Tape [Blk 1 7] 0 []) false false C100_r2].
Example C100_case :
  first_meant C100_entries 1 (Tape [Blk 1 3] 0 [Blk 2 4; Blk 1 1]) C100_r1
  /\ first_meant C100_entries 1 (Tape [Blk 1 3; Blk 2 1] 0 [Blk 2 4]) C100_r2
  /\ (forall e, In e C100_entries -> ~ meant_for e 2 (Tape [Blk 1 3] 0 []))
  /\ get_rule (C100_book C100_entries) 1 0 (t_signature (Tape [Blk 1 1] 0 [Blk 2 4])) = None.
Proof.
  split; [apply book_answers; reflexivity|]. split; [apply book_answers; reflexivity|]. split; [apply book_silent; reflexivity|]. reflexivity.
Qed.


(** The prover of a whole run: the rules at its end are those of a book with one entry, made by try_rule on the way. *)
Example C100_try_case : option_map pv_rules (rs_run_prover_end (machine_of (shuttle 12)) 1000)
  = Some (pv_rules (C100_book [Entry 14 (Tape [Blk 1 9; Blk 2 5] 0 []) false true shuttle_rule])).
Proof. vm_compute. reflexivity. Qed.
