(** * C98: signatures, counts and places of tapes *)
From Verif Require Import Base TapeModel SigSpec SigProofs.

(** Two tapes have the same signature exactly if they have the same scanned colour, as many blocks on each side, of the
    same colours, and single cells at the same places. *)
Theorem C98_signature : forall t t', t_signature t = t_signature t' <-> like_tape like_block t t'.
Proof. exact signature_iff. Qed.
Print Assumptions C98_signature.

(** sig_compatible: a tape fits the signature of another exactly if it has the colours of that one around the head. *)
Theorem C98_compatible : forall t t', t_sig_compatible t (t_signature t') = true <-> covers t t'.
Proof. exact compatible_iff. Qed.
Print Assumptions C98_compatible.

(** A shortened signature is the one of the shortened tape. *)
Theorem C98_shortened : forall n m t,
  t_signature (cut_off n m t) = Sig (t_scan t) (firstn n (sg_l (t_signature t))) (firstn m (sg_r (t_signature t))).
Proof. exact cut_signature. Qed.
Print Assumptions C98_shortened.

(** Signature and counts together tell the tape. *)
Theorem C98_told : forall t t', t_signature t = t_signature t' -> t_counts t = t_counts t' -> t = t'.
Proof. exact tape_told. Qed.
Print Assumptions C98_told.

(** set_count fails exactly where there is no block; otherwise it changes that count, no other one, and no colour. *)
Theorem C98_set_count : forall t side pos v,
  (t_set_count t side pos v = None <-> block_at t side pos = None)
  /\ forall t', t_set_count t side pos v = Some t' -> like_tape like_color t' t
     /\ forall side' pos', t_get_count t' side' pos'
          = if Bool.eqb side' side && Nat.eqb pos' pos then Some v else option_map b_count (block_at t side' pos').
Proof. exact set_count_ok. Qed.
Print Assumptions C98_set_count.

(** Tapes of the same colours read the same colour after the same instruction, in Python and in Rust, and answer alike
    whether they are blank, how many blocks they have and whether the head is at the edge. *)
Theorem C98_reads : forall t t' shift color skip, like_tape like_color t t' ->
  t_scan (fst (py_step t shift color skip)) = t_scan (fst (py_step t' shift color skip))
  /\ t_scan (fst (rs_step t shift color skip)) = t_scan (fst (rs_step t' shift color skip))
  /\ t_at_edge t shift = t_at_edge t' shift /\ t_blank t = t_blank t' /\ t_span_lens t = t_span_lens t'.
Proof. exact py_next_scan. Qed.
Print Assumptions C98_reads.

Definition C98_tape (a b c : Z) : tape := Tape [Blk 1 a; Blk 2 b] 0 [Blk 1 c].
Example C98_case : like_tape like_block (C98_tape 5 1 7) (C98_tape 9 1 2) /\ ~ like_tape like_block (C98_tape 5 1 7) (C98_tape 5 2 7)
  /\ like_tape like_color (C98_tape 5 1 7) (C98_tape 5 2 7)
  /\ t_sig_compatible (C98_tape 5 1 7) (t_signature (cut_off 1 1 (C98_tape 9 3 2))) = true
  /\ t_sig_compatible (cut_off 1 1 (C98_tape 5 1 7)) (t_signature (C98_tape 9 3 2)) = false
  /\ t_set_count (C98_tape 5 1 7) false 1 8 = Some (C98_tape 5 8 7) /\ t_set_count (C98_tape 5 1 7) true 1 8 = None
  /\ t_signature (C98_tape 5 1 7) = Sig 0 [Mult 1; Just 2] [Mult 1].
Proof.
  split; [split; [reflexivity|split; repeat constructor; cbn; lia]|].
  split; [intros (_ & A & _); inversion A as [|? ? ? ? _ B]; inversion B as [|? ? ? ? (_ & C) _]; cbn in C; lia|].
  split; [split; [reflexivity|split; repeat constructor]|]. repeat split.
Qed.
