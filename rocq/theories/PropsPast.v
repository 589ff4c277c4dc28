(** * Properties of PastConfigs (C16) *)
From Verif Require Import Base PastModel PastSpec PastProofs.

(** C16: after any history of calls, next_deltas does not panic, and what it answers continues
    the last five cycles recorded for that state. *)
Theorem C16_next_deltas_extrapolates : forall s0 c0 cs s c,
  match snd (pcs_next_deltas (pcs_calls (pcs_new s0 c0) cs) s c) with
  | PPanic => False
  | PNone => True
  | PSome d1 d2 d3 => 0 <= d1 /\ 0 <= d2 /\ 0 <= d3
      /\ exists pre w x y z, events s0 c0 s (rev (cs ++ [CNext s c])) = pre ++ [w; x; y; z; c]
           /\ extrapolates w x y z c d1 d2 d3
  end.
Proof. exact past_configs_lemma. Qed.
Print Assumptions C16_next_deltas_extrapolates.

Theorem C16_records_bounded : forall s0 c0 cs s l,
  pcs_get (pcs_calls (pcs_new s0 c0) cs) s = Some l -> (1 <= length l <= 4)%nat.
Proof. exact past_configs_bounded. Qed.
Print Assumptions C16_records_bounded.

Example C16_case : snd (pcs_next_deltas (pcs_calls (pcs_new 3 4)
    [CNext 3 10; CNext 1 11; CNext 3 22; CNext 3 46]) 3 94) = PSome 96 192 384.
Proof. reflexivity. Qed.

(** Four calls for a state can be enough for an answer: the first one is recorded twice. *)
Theorem C16_five_distinct_calls_refuted : exists s0 c0 cs s c d1 d2 d3,
  s0 <> s /\ length (filter (fun k => match k with CNext s' _ => s' =? s | _ => false end) (cs ++ [CNext s c])) = 4%nat
  /\ snd (pcs_next_deltas (pcs_calls (pcs_new s0 c0) cs) s c) = PSome d1 d2 d3.
Proof.
  exists 0, 1, [CNext 2 10; CNext 2 11; CNext 2 13], 2, 16. do 3 eexists.
  split; [lia|]. split; [reflexivity|]. reflexivity.
Qed.
Print Assumptions C16_five_distinct_calls_refuted.
