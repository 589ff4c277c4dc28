(** * Texts of tapes (C90) *)
From Coq Require Import String.
From Verif Require Import Base TapeModel TermRecModel NumModel ParseModel NumShowModel TapeShowModel TapeShowSpec TapeShowProofs.
Local Open Scope Z_scope.
Local Open Scope string_scope.

(** C90.  The text of a tape tells the tape, in Rust for all counts ... *)
Theorem C90_rust_text_tells : forall t u, rs_tape_text t = rs_tape_text u -> t = u.
Proof. exact rs_text_tells. Qed.
Print Assumptions C90_rust_text_tells.
(** ... also with the position of the head ... *)
Theorem C90_head_text_tells : forall h k, rs_head_text h = rs_head_text k -> h = k.
Proof. exact head_text_tells. Qed.
Print Assumptions C90_head_text_tells.
(** ... and in Python for counts below 10^12, from where on only the order of magnitude is printed. *)
Theorem C90_text_tells : forall order t u, full_counts t -> full_counts u -> py_tape_text order t = py_tape_text order u -> t = u.
Proof. exact py_text_tells. Qed.
Print Assumptions C90_text_tells.
(** For those both print the same. *)
Theorem C90_texts_agree : forall order t, full_counts t -> py_tape_text order t = rs_tape_text t.
Proof. exact texts_agree. Qed.
Print Assumptions C90_texts_agree.

(** The tape of test/test_tape.py and src/tape.rs, test_rule_2 and test_apply_2. *)
Example C90_case : let t := Tape [Blk 4 2] 4 [Blk 5 60; Blk 2 1; Blk 4 1; Blk 5 7; Blk 1 1] in
  full_counts t /\ py_tape_text (fun n => n) t = quoted "4^2 [4] 5^60 2 4 5^7 1" /\ rs_tape_text t = quoted "4^2 [4] 5^60 2 4 5^7 1".
Proof. cbv zeta. split; [repeat constructor|]. split; vm_compute; reflexivity. Qed.
Example C90_head_case : rs_head_text (HT (-3) (Tape [] 0 [Blk 1 4])) = quoted "(-3) [0] 1^4".
Proof. vm_compute. reflexivity. Qed.
