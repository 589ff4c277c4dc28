(** * Properties of the command line tools (C94-C97) *)
From Verif Require Import Base TM ProgModel ParseModel ParseSpec NormModel NormSpec CModel DotModel InstrSeqModel ExpandModel ExpandSpec.
From Verif Require Import ReasonModel ReasonSpec SegModel ApiModel ApiSpec ApiProofs ScriptSpec ScriptModel ScriptProofs PropsReason.
Local Open Scope string_scope.
Local Open Scope Z_scope.
Local Open Scope list_scope.

(** C94.  normalize.py prints, line by line, the normal form of each table and the expansion of each compact text; with
    --tree the tree normal form. *)
Theorem C94_normalize : forall ss outs,
  Forall2 (fun s o => (table_text2 s /\ normalize s = Some o) \/ ((exists g, compact_text g s) /\ expand s = Some o)) ss outs ->
  normalize_py false (file_of ss) = (file_of outs, true).
Proof. exact norm_file. Qed.
Print Assumptions C94_normalize.
Theorem C94_tree : forall ss outs, Forall2 (fun s o => table_text s /\ tree_norm s = Some o) ss outs ->
  normalize_py true (file_of ss) = (file_of outs, true).
Proof. exact tree_file. Qed.
Print Assumptions C94_tree.

(** c_prog.py prints the C program of each table (C62 says what that does). *)
Theorem C94_c_prog : forall ss outs, Forall2 (fun s o => table_text s /\ make_c s = Some o) ss outs ->
  c_prog_py (file_of ss) = (file_of outs, true).
Proof. exact c_file. Qed.
Print Assumptions C94_c_prog.

(** instr_seq.py prints for each line the dictionary of its sequence (C47 says what that is). *)
Theorem C94_instr_seq : forall lim ss ls, Forall2 (fun s l => table_text s /\ instr_seq lim s = Some l
    /\ Forall (fun e => 0 <= snd (fst e) /\ 0 <= fst (snd e) < 26 /\ 0 <= snd (snd e) < 10) l) ss ls ->
  exists outs, instr_seq_py lim (file_of ss) = (concat outs, true) /\ Forall2 (fun out sl => says_sequence out (fst sl) (snd sl)) outs (combine ss ls).
Proof. exact seq_file. Qed.
Print Assumptions C94_instr_seq.

(** just_so.py with one of the backward reasoners prints some of the lines, unchanged, and nothing else. *)
Theorem C94_just_so_answers : forall which cycles rfuel fuel ss, which <> RSegment -> Forall table_text ss ->
  exists outs, just_so_py which cycles rfuel fuel (file_of ss) = Some outs /\ Forall2 (fun s o => o = s ++ [10] \/ o = []) ss outs.
Proof. exact just_answers. Qed.
Print Assumptions C94_just_so_answers.

(** No program is lost of which the thing looked for is true, under the conditions of C32-C35; RNone is no option given. *)
Theorem C94_just_so_keeps_partial : forall cycles rfuel fuel ss outs s M, Forall table_text ss -> In s ss -> writes s M ->
  (just_so_py RHalt cycles rfuel fuel (file_of ss) = Some outs -> restartable M -> named M -> ~ never_halts M -> In (s ++ [10]) outs)
  /\ (just_so_py RBlank cycles rfuel fuel (file_of ss) = Some outs -> restartable M -> ~ never_erases M -> In (s ++ [10]) outs)
  /\ (just_so_py RSpinout cycles rfuel fuel (file_of ss) = Some outs -> restartable M -> ~ never_spins_out M -> In (s ++ [10]) outs)
  /\ (just_so_py RNone cycles rfuel fuel (file_of ss) = Some outs -> restartable M -> ~ never_spins_out M -> In (s ++ [10]) outs)
  /\ (just_so_py RSegment cycles rfuel fuel (file_of ss) = Some outs -> named M -> ~ never_halts M -> In (s ++ [10]) outs).
Proof. exact just_keeps. Qed.
Print Assumptions C94_just_so_keeps_partial.

(** Without them one is: "1RB 0LB  ... 1LC  1RB 1RB" halts after one step. *)
Theorem C94_just_so_refuted : exists s M outs, table_text s /\ writes s M /\ halts M
  /\ just_so_py RHalt None 1 1 (file_of [s]) = Some outs /\ ~ In (s ++ [10]) outs.
Proof.
  exists (py_show_comp ReasonKinds.halt_bug (Some (3, 2))), (machine_of ReasonKinds.halt_bug), [[]].
  assert (W : writes (py_show_comp ReasonKinds.halt_bug (Some (3, 2))) (machine_of ReasonKinds.halt_bug)).
  { apply shown_of; [repeat constructor; cbn; intuition congruence|intros s c pr sh tr E; in_range E|lia|lia]. }
  split; [|split; [exact W|split; [apply ReasonKinds.cant_halt_wrong|split; [vm_compute; reflexivity|intros [X|[]]; discriminate]]]].
  exists (ParseProofs.table_of ReasonKinds.halt_bug 3 2). apply ParseProofs.show_text; try lia.
  intros s c pr sh tr E. apply (GraphProofs.comp_get_in _ (s, c)) in E; [in_range E|repeat constructor; cbn; intuition congruence].
Qed.
Print Assumptions C94_just_so_refuted.

Example C94_instr_seq_case : exists l, instr_seq 1000 (text_of "1RB 1LB  1LA ...") = Some l /\ length l = 3%nat
    /\ Forall (fun e => 0 <= snd (fst e) /\ 0 <= fst (snd e) < 26 /\ 0 <= snd (snd e) < 10) l.
Proof. eexists. split; [vm_compute; reflexivity|]. split; [reflexivity|]. repeat constructor; cbn; lia. Qed.

Definition C94_file : text := file_of [text_of "1RB 0LA  0RC 1RC  1LA ..."; text_of "1RB 1LB  1LA ..."].
Example C94_case :
  normalize_py false (file_of [text_of "1RC ...  ... ...  1LA 0RC"; text_of "1RB1RZ_---0LA"])
    = (file_of [text_of "1RB ...  1LA 0RB"; text_of "1RB ...  ... 0LA"], true)
  /\ just_so_py RHalt None 1 1 C94_file = Some [[]; text_of "1RB 1LB  1LA ..." ++ [10]]
  /\ fst (instr_seq_py 1000 (file_of [text_of "1RB 1LB  1LA ..."]))
     = file_of [text_of "    ""1RB 1LB  1LA ..."": {"; text_of "        ""1RB ...  ... ..."": ( 1, 'B0'),";
                text_of "        ""1RB ...  1LA ..."": ( 2, 'A1'),"; text_of "        ""1RB 1LB  1LA ..."": ( 5, 'B1'),"; text_of "    },"].
Proof. vm_compute. repeat split. Qed.

(** C95.  branch_last: the texts of all ways to fill the one open slot, each once. *)
Theorem C95_branch_last : forall g s cols b o, prog_text g s -> rectangular g cols -> (1 <= cols <= 10)%nat -> (length g <= 26)%nat ->
  b = [] \/ b = [10] -> 0 <= fst o < Z.of_nat (length g) -> 0 <= snd o < Z.of_nat cols ->
  (forall st co, 0 <= st < Z.of_nat (length g) -> 0 <= co < Z.of_nat cols -> table_get g (st, co) = None <-> (st, co) = o) ->
  exists l is, branch_last (s ++ b) = Some l /\ lists_instrs (Z.of_nat (length g)) (Z.of_nat cols) is
    /\ Forall2 (fun i t => writes t (filled (fun st co => table_get g (st, co)) o i)) is l.
Proof. exact branch_ok. Qed.
Print Assumptions C95_branch_last.

Definition C95_table : list (list (option instr)) := [[Some (1, true, 1); Some (1, false, 1)]; [Some (1, false, 0); None]].
Example C95_case : prog_text C95_table (text_of "1RB 1LB  1LA ...") /\ rectangular C95_table 2
  /\ (forall st co, 0 <= st < 2 -> 0 <= co < 2 -> table_get C95_table (st, co) = None <-> (st, co) = (1, 1))
  /\ branch_last (text_of "1RB 1LB  1LA ..." ++ [10])
  = Some (map (fun i => text_of "1RB 1LB  1LA " ++ text_of i) ["0RA"; "0RB"; "0LA"; "0LB"; "1RA"; "1RB"; "1LA"; "1LB"]).
Proof.
  split; [|split; [repeat constructor|split; [|vm_compute; reflexivity]]].
  - apply (prog_cons [Some (1, true, 1); Some (1, false, 1)] (text_of "1RB 1LB") [[Some (1, false, 0); None]] (text_of "1LA ...")).
    + apply (row_cons _ (text_of "1RB") _ (text_of "1LB")); [cbn; repeat split; lia|]. apply row_one. cbn. repeat split; lia.
    + apply prog_one. apply (row_cons _ (text_of "1LA") _ (text_of "...")); [cbn; repeat split; lia|]. apply row_one. reflexivity.
  - intros st co A B. assert (X : st = 0 \/ st = 1) by lia. assert (Y : co = 0 \/ co = 1) by lia.
    destruct X as [->| ->], Y as [->| ->]; vm_compute; intuition congruence.
Qed.

(** C96.  dump_graphs.py: a line without line feed is drawn to the file named after it... *)
Theorem C96_last_line_partial : forall path s d, word path -> path <> [] -> table_text s -> make_dot s = Some d ->
  exists name, spaces_underscored s name
  /\ dump_graphs_py path s = Some [(d, [text_of "dot"; path; text_of "-T"; text_of "png"; text_of "-o"; name ++ text_of ".png"])].
Proof. exact dump_last. Qed.
Print Assumptions C96_last_line_partial.

(** ... but of every line that ends with one the name is cut there, and ".png" becomes a second file to read. *)
Theorem C96_every_line : forall path ss l, word path -> path <> [] -> Forall table_text ss -> dump_graphs_py path (file_of ss) = Some l ->
  Forall2 (fun s e => make_dot (s ++ [10]) = Some (fst e) /\ exists name, spaces_underscored s name
    /\ snd e = [text_of "dot"; path; text_of "-T"; text_of "png"; text_of "-o"; name; text_of ".png"]) ss l.
Proof. exact dump_lines. Qed.
Print Assumptions C96_every_line.

Example C96_case : exists d, make_dot (text_of "1RB 1LB  1LA ...") = Some d
  /\ dump_graphs_py (text_of "/tmp/x") (text_of "1RB 1LB  1LA ...")
     = Some [(d, map text_of ["dot"; "/tmp/x"; "-T"; "png"; "-o"; "1RB_1LB__1LA_....png"])].
Proof. eexists. split; [vm_compute; reflexivity|vm_compute; reflexivity]. Qed.

Theorem C96_dump_graphs_refuted : exists path s d args, table_text s /\ dump_graphs_py path (file_of [s]) = Some [(d, args)]
  /\ ~ In (text_of "1RB_1LB__1LA_....png") args /\ In (text_of ".png") args /\ s = text_of "1RB 1LB  1LA ...".
Proof.
  exists (text_of "/tmp/x"), (text_of "1RB 1LB  1LA ..."). do 2 eexists. split; [|split; [vm_compute; reflexivity|]].
  - exists C95_table. apply C95_case.
  - split; [|split; [|reflexivity]].
    + intros H. repeat (destruct H as [H|H]; [discriminate|]). destruct H.
    + vm_compute. tauto.
Qed.
Print Assumptions C96_dump_graphs_refuted.

(** C97.  The number given with --cycles (if not 0) is the depth of the backward reasoners... *)
Theorem C97_cycles_partial : forall n rfuel fuel s, table_text s -> n <> 0%nat ->
  (exists o, py_cant_halt s n = Some o /\ (just_so_py RHalt (Some n) rfuel fuel (file_of [s]) = Some [[]] <-> exists r, o = OSome r))
  /\ (exists o, py_cant_blank s n = Some o /\ (just_so_py RBlank (Some n) rfuel fuel (file_of [s]) = Some [[]] <-> exists r, o = OSome r))
  /\ (exists o, py_cant_spin_out s n = Some o /\ (just_so_py RSpinout (Some n) rfuel fuel (file_of [s]) = Some [[]] <-> exists r, o = OSome r)).
Proof. exact cycles_used. Qed.
Print Assumptions C97_cycles_partial.

(** ... but with --segment it is ignored: a program is dropped that three segments do not settle. *)
Theorem C97_segment_refuted : (forall n m rfuel fuel input, just_so_py RSegment n rfuel fuel input = just_so_py RSegment m rfuel fuel input)
  /\ py_segments (text_of "1RB 0LA  0RC 1RC  1LA ...") 3 100 200 = Some SegNone
  /\ just_so_py RSegment (Some 3%nat) 100 200 (text_of "1RB 0LA  0RC 1RC  1LA ...") = Some [[]].
Proof. split; [reflexivity|]. vm_compute. repeat split. Qed.
Print Assumptions C97_segment_refuted.
Example C97_case : just_so_py RHalt (Some 5%nat) 1 1 (file_of [text_of "1RB 0LA  0RC 1RC  1LA ..."]) = Some [text_of "1RB 0LA  0RC 1RC  1LA ..." ++ [10]]
  /\ just_so_py RHalt (Some 20%nat) 1 1 (file_of [text_of "1RB 0LA  0RC 1RC  1LA ..."]) = Some [[]].
Proof. vm_compute. repeat split. Qed.
