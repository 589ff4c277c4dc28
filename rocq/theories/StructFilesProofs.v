(** * Proofs about the files of machines/structured, by the checker and by running the machines *)
From Verif Require Import Base TM TMFacts ProgModel ParseModel CSpec LinModel LinSpec StructModel StructSpec StructProofs StructRunProofs StructFastProofs.
From Verif Require MachineProofs.

Ltac here := repeat (first [left; match goal with |- ?a = ?a => exact eq_refl end | right]).

Definition colors_in (s : text) : Z := Z.of_nat (length (hd [] (rows s))).
Definition checks (e : entry) (lax : bool) : bool :=
  let M := machine_of (e_text e) in
  let n := colors_in (e_text e) in
  check (e_file e) M (e_spins e) lax n (places (e_file e) M n).
Definition reads (F : cfile) (M : program) (spins : list Z) (lax : bool) (n : Z) (L : list place) : bool :=
  check F M spins lax n L && forallb (fun x => blind F qfuel (p_todo x)) L.
Lemma reads_right F M spins lax n L : reads F M spins lax n L = true -> overrun_undefined F M spins.
Proof. intros E. apply andb_true_iff in E. destruct E as (C & R). exact (check_overruns _ _ _ lax _ _ C R). Qed.
Definition reads_first (e : entry) : bool :=
  let M := machine_of (e_text e) in
  let n := colors_in (e_text e) in
  reads (e_file e) M (e_spins e) true n (places (e_file e) M n).

Lemma structured_checks : forallb (fun e => checks e false) structured = true.
Proof. vm_compute. reflexivity. Qed.
Lemma checks_3932964 : checks entry_3932964 true = true.
Proof. vm_compute. reflexivity. Qed.
Lemma reads_firsts : forallb reads_first [entry_2315619; entry_2333909; entry_3932964; entry_32779477] = true.
Proof. vm_compute. reflexivity. Qed.

Lemma structured_simulates e : In e structured -> simulates (e_file e) (machine_of (e_text e)) (e_spins e) agrees.
Proof.
  intros I. pose proof structured_checks as C. rewrite forallb_forall in C. specialize (C e I).
  exact (check_right _ _ _ false _ _ C).
Qed.
Lemma structured_only e : In e structured -> only_there (e_file e) (machine_of (e_text e)) (e_spins e) agrees.
Proof.
  intros I. pose proof structured_checks as C. rewrite forallb_forall in C. specialize (C e I).
  exact (check_converse _ _ _ false _ _ C).
Qed.
Lemma simulates_3932964 :
  simulates file_3932964 (machine_of (e_text entry_3932964)) [] agrees_up_to_color
  /\ only_there file_3932964 (machine_of (e_text entry_3932964)) [] agrees_up_to_color.
Proof.
  split; [exact (check_right _ _ _ true _ _ checks_3932964)|exact (check_converse _ _ _ true _ _ checks_3932964)].
Qed.

Lemma overruns_four e : In e [entry_2315619; entry_2333909; entry_3932964; entry_32779477] ->
  overrun_undefined (e_file e) (machine_of (e_text e)) (e_spins e).
Proof.
  intros I. pose proof reads_firsts as R. rewrite forallb_forall in R. specialize (R e I).
  exact (reads_right _ _ _ true _ _ R).
Qed.

(** ** Where they stop *)

Lemma passes e q k : In e structured -> (0 < e_limit e) -> z_check (e_file e) (e_text e) (e_spins e) (Z.to_pos (e_limit e)) q k = true ->
  exists fuel m, c_main (e_file e) fuel = Checks m /\ m_steps m = e_limit e /\ m_marks m = k.
Proof.
  intros I L Z. destruct (z_check_right _ _ _ _ _ _ Z) as (c & FS & _ & MK & IN).
  destruct (structured_simulates e I) as (S & _). destruct (S _ _ FS IN) as (fuel & m & C & (A & B & _)).
  exists fuel, m. split; [exact C|]. split; [rewrite A; lia|]. exact (MachineProofs.marks_unique _ _ _ B MK).
Qed.

Lemma passes_fast e blks q k : In e structured -> e_spins e = [] ->
  r_check (e_file e) (e_text e) blks (e_limit e) q k = true ->
  exists fuel m, c_main (e_file e) fuel = Checks m /\ m_steps m = e_limit e /\ m_marks m = k.
Proof.
  intros I SP Z. destruct (r_check_right _ _ _ _ _ _ Z) as (L & c & FS & _ & MK & IN).
  destruct (structured_simulates e I) as (S & _). rewrite SP in S. destruct (S _ _ FS IN) as (fuel & m & C & (A & B & _)).
  exists fuel, m. split; [exact C|]. split; [rewrite A; apply Z2Nat.id; exact L|]. exact (MachineProofs.marks_unique _ _ _ B MK).
Qed.

Definition passing : list (entry * Z) :=
  [(entry_21, 5); (entry_34, 0); (entry_1434, 35); (entry_2819, 69); (entry_9340, 0); (entry_31315, 0); (entry_66345, 0);
   (entry_15721562, 4097); (entry_47176870, 4098)].

Lemma passing_pass e k : In (e, k) passing ->
  exists fuel m, c_main (e_file e) fuel = Checks m /\ m_steps m = e_limit e /\ m_marks m = k.
Proof.
  intros I. repeat (destruct I as [I|I]; [injection I as <- <-|]); [..|destruct I].
  - apply (passes entry_21 (-1)); [here|reflexivity|vm_compute; reflexivity].
  - apply (passes entry_34 2); [here|reflexivity|vm_compute; reflexivity].
  - apply (passes entry_1434 2); [here|reflexivity|vm_compute; reflexivity].
  - apply (passes entry_2819 3); [here|reflexivity|vm_compute; reflexivity].
  - apply (passes entry_9340 5); [here|reflexivity|vm_compute; reflexivity].
  - apply (passes entry_31315 3); [here|reflexivity|vm_compute; reflexivity].
  - apply (passes entry_66345 3); [here|reflexivity|vm_compute; reflexivity].
  - apply (passes_fast entry_15721562 26528 (-1)); [here|reflexivity|]. vm_cast_no_check (@eq_refl bool true).
  - apply (passes_fast entry_47176870 67346 (-1)); [here|reflexivity|]. vm_cast_no_check (@eq_refl bool true).
Qed.

Lemma undefined e n : In e [entry_2315619; entry_2333909; entry_3932964; entry_32779477] ->
  z_leaves (e_file e) (e_text e) (e_spins e) n = true -> exists fuel, c_main (e_file e) fuel = Undefined.
Proof.
  intros I Z. destruct (z_leaves_right _ _ _ _ Z) as (c & E & NS & IN & OUT).
  exact (overruns_four e I _ _ E NS IN OUT).
Qed.

Lemma undefined_fast e blks n : In e [entry_2315619; entry_2333909; entry_3932964; entry_32779477] -> e_spins e = [] ->
  r_leaves (e_file e) (e_text e) blks n = true -> exists fuel, c_main (e_file e) fuel = Undefined.
Proof.
  intros I SP Z. destruct (r_leaves_right _ _ _ _ Z) as (c & E & NS & IN & OUT). pose proof (overruns_four e I) as O. rewrite SP in O.
  exact (O _ _ E NS IN OUT).
Qed.

Lemma undefined_four e : In e [entry_2315619; entry_2333909; entry_3932964; entry_32779477] ->
  exists fuel, c_main (e_file e) fuel = Undefined.
Proof.
  intros [<-|[<-|[<-|[<-|[]]]]].
  - apply (undefined entry_2315619 845971); [here|]. vm_cast_no_check (@eq_refl bool true).
  - apply (undefined entry_2333909 607822); [here|]. vm_cast_no_check (@eq_refl bool true).
  - apply (undefined_fast entry_3932964 6265 884062); [here|reflexivity|]. vm_cast_no_check (@eq_refl bool true).
  - apply (undefined_fast entry_32779477 25017 30528744); [here|reflexivity|]. vm_cast_no_check (@eq_refl bool true).
Qed.

(** ** The three that return, and PROGRAM of 9340.c *)

Lemma returns F fuel m : In F [file_455790469742; file_455790469746; file_7021292621] -> c_main F fuel <> Checks m.
Proof. intros [<-|[<-|[<-|[]]]]; destruct fuel as [|[|fuel]]; discriminate. Qed.

Lemma program_9340_spins n : exists c, steps (machine_of program_9340) n init = Some c /\ c_state c = 0 /\ c_pos c = - Z.of_nat n
  /\ (forall p, p <= c_pos c -> c_tape c p = 0) /\ ((1 <= n)%nat -> c_tape c 0 = 2).
Proof.
  induction n as [|n (c & E & S & P & B & T)].
  - exists init. split; [reflexivity|]. split; [reflexivity|]. split; [reflexivity|]. split; [reflexivity|]. intros; lia.
  - exists (Cfg 0 (c_pos c - 1) (write (c_tape c) (c_pos c) 2)). rewrite steps_S_r, E. unfold step. rewrite S, (B (c_pos c)) by lia.
    split; [reflexivity|]. cbn [c_state c_pos c_tape]. split; [reflexivity|]. split; [lia|]. unfold write. split.
    + intros p L. replace (p =? c_pos c) with false by lia. apply B. lia.
    + intros _. destruct (Z.eqb_spec 0 (c_pos c)) as [Q|Q]; [reflexivity|]. apply T. destruct n; [|lia]. elim Q. rewrite P. reflexivity.
Qed.
Lemma program_9340_never n c : steps (machine_of program_9340) n init = Some c -> ~ stops (machine_of program_9340) [] n c.
Proof.
  intros E. destruct (program_9340_spins n) as (d & E' & S & P & B & T). rewrite E in E'. injection E' as <-.
  intros [Q|[(Q & Q')|(Q & _)]]; [congruence| |destruct Q]. specialize (T Q). rewrite (Q' 0) in T. discriminate T.
Qed.
Lemma program_9340_refuted :
  (exists fuel m, c_main file_9340 fuel = Checks m /\ m_steps m = 9340)
  /\ forall n c, steps (machine_of program_9340) n init = Some c -> ~ stops (machine_of program_9340) [] n c.
Proof.
  split; [|exact program_9340_never].
  destruct (passing_pass entry_9340 0) as (fuel & m & C & S & _); [unfold passing; here|]. exists fuel, m. split; [exact C|exact S].
Qed.

(** ** The machine listed for 21.c *)

Definition pos_checked (o : outcome) : option Z := match o with Checks m => Some (m_pos m) | _ => None end.
Lemma listed_21_refuted : ~ simulates file_21 (machine_of listed_21) [] agrees.
Proof.
  intros (S & _).
  assert (Z : z_check file_21 listed_21 [] 21 (-1) 5 = true) by (vm_compute; reflexivity).
  destruct (z_check_right _ _ _ _ _ _ Z) as (c & FS & _ & _ & IN).
  destruct (S _ _ FS IN) as (fuel & m & C & _ & _ & P & _).
  assert (PC : option_map c_pos (steps (machine_of listed_21) (Pos.to_nat 21) init) = Some 1) by (vm_compute; reflexivity).
  destruct FS as (E & _). rewrite E in PC. injection PC as PC. rewrite PC in P.
  assert (PM : pos_checked (c_main file_21 200) = Some 9) by (vm_compute; reflexivity).
  destruct (c_main file_21 200) as [|m'| |] eqn:C'; try discriminate PM. injection PM as PM.
  rewrite (checks_unique _ _ _ _ _ C' C) in PM. rewrite P in PM. discriminate PM.
Qed.
