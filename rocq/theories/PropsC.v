(** * Properties of the C programs written by make_c (C62) *)
From Verif Require Import Base TM ProgModel ParseModel NormModel NormSpec CModel CSpec CProofs.
Local Open Scope string_scope.

(** C62: what is written compiles, and running it is running the machine until the tape is blank again, a
    state outside the table is entered or there is no instruction. *)
Theorem C62_c_program_runs_the_machine : forall prog g k,
  parse prog = Some g -> c_fits g k -> quotable prog ->
  exists t p, make_c prog = Some t /\ c_read t = Some p
    /\ (forall fuel f, c_main p fuel = Some f -> c_stops (table_machine g) (Z.of_nat (length g)) f)
    /\ (forall f, c_stops (table_machine g) (Z.of_nat (length g)) f -> exists fuel f',
          c_main p fuel = Some f' /\ (forall q, cs_tape f' q = cs_tape f q) /\ cs_pos f' = cs_pos f
          /\ cs_steps f' = cs_steps f /\ cs_marks f' = cs_marks f).
Proof. exact make_c_runs. Qed.
Print Assumptions C62_c_program_runs_the_machine.

(** The steps and marks of [make_c prog], run to the end. *)
Definition c_result (prog : text) (fuel : nat) : option (Z * Z) :=
  match make_c prog with
  | Some t => match c_read t with
              | Some p => option_map (fun f => (cs_steps f, cs_marks f)) (c_main p fuel)
              | None => None
              end
  | None => None
  end.

(** Two colours, three states: the tape is blank again after 34 steps. *)
Definition blanker : text := str "1RB 1LB  1LA 1LC  1RC 0LC".

Example C62_case : (exists g, parse blanker = Some g /\ c_fits g 2) /\ quotable blanker
  /\ c_result blanker 100 = Some (34, 0).
Proof.
  split; [|split].
  - eexists. split; [vm_compute; reflexivity|].
    split; [cbn; lia|]. split; [lia|]. repeat (constructor; [split; [reflexivity|repeat (constructor; [cbn; lia|]); constructor]|]).
    constructor.
  - unfold quotable. vm_compute. repeat (constructor; [repeat split; discriminate|]). constructor.
  - vm_compute. reflexivity.
Qed.

(** Three colours, two states, ending on an instruction that is not there. *)
Definition three_colors : text := str "1RB 2LB 1R_  2LA 2RB 1LB".

Example C62_case_switch : (exists g, parse three_colors = Some g /\ c_fits g 3) /\ quotable three_colors
  /\ c_result three_colors 100 = Some (38, 9).
Proof.
  split; [|split].
  - eexists. split; [vm_compute; reflexivity|].
    split; [cbn; lia|]. split; [lia|]. repeat (constructor; [split; [reflexivity|repeat (constructor; [cbn; try lia; auto|]); constructor]|]).
    constructor.
  - unfold quotable. vm_compute. repeat (constructor; [repeat split; discriminate|]). constructor.
  - vm_compute. reflexivity.
Qed.

(** With eight states the label of the eighth is the label of the end: nothing that compiles. *)
Definition eight_states : text :=
  str "1RB 1LA  1RC 1LA  1RD 1LA  1RE 1LA  1RF 1LA  1RG 1LA  1RH 1LA  1RA 1LA".

Theorem C62_eight_states_refuted : exists prog g t,
  parse prog = Some g /\ length g = 8%nat /\ quotable prog
  /\ Forall (fun row : list (option instr) => length row = 2%nat
       /\ Forall (fun i : option instr => match i with
            | Some (pr, _, tr) => 0 <= pr < 2 /\ 0 <= tr < 8
            | None => False
            end) row) g
  /\ make_c prog = Some t /\ c_read t = None.
Proof.
  exists eight_states. eexists. eexists. split; [vm_compute; reflexivity|]. split; [reflexivity|].
  split. { unfold quotable. vm_compute. repeat (constructor; [repeat split; discriminate|]). constructor. }
  split. { repeat (constructor; [split; [reflexivity|repeat (constructor; [cbn; lia|]); constructor]|]). constructor. }
  split; [vm_compute; reflexivity|]. vm_compute. reflexivity.
Qed.
Print Assumptions C62_eight_states_refuted.

(** In a table of two columns any colour but 1 is written as an ERASE: printing a 2 leaves a blank. *)
Theorem C62_binary_colors_refuted : exists prog g t p fuel f,
  parse prog = Some g /\ quotable prog /\ make_c prog = Some t /\ c_read t = Some p
  /\ c_main p fuel = Some f /\ ~ c_stops (table_machine g) (Z.of_nat (length g)) f.
Proof.
  exists (str "2RB 1LA  ... 1RA"). eexists. eexists. eexists. exists 2%nat. eexists.
  split; [vm_compute; reflexivity|].
  split. { unfold quotable. vm_compute. repeat (constructor; [repeat split; discriminate|]). constructor. }
  split; [vm_compute; reflexivity|]. split; [vm_compute; reflexivity|].
  split; [cbv -[write blank_tape]; reflexivity|].
  intros (n & c & E & NB & MA & X). destruct n as [|[|n]].
  - injection E as <-. destruct X as [(N & _)|[(N & _)|(_ & _ & N & _)]]; [lia|lia|discriminate].
  - cbn in E. injection E as <-. destruct X as [(_ & N & _)|[(_ & _ & N & _)|(_ & _ & _ & _ & _ & N)]].
    + specialize (N 0). discriminate.
    + cbn in N. lia.
    + cbn in N. lia.
  - cbn in E. discriminate.
Qed.
Print Assumptions C62_binary_colors_refuted.
