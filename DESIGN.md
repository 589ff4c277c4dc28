# Design

Subject: nickdrozd/busy-beaver-stuff as found in /repo (Python in `tm/`, `tools/`; Rust in `src/`).

## 1. Approach

* `TM.v` is the independent specification: a textbook Turing machine on an unbounded
  tape `Z -> Z`, with `step`, `steps n`, `halts_at`, `never_halts`.  No model file is
  used in it.
* Each `*Model` file mirrors one source file, function by function, as total
  computable Gallina; every definition carries a comment with file and lines.  Python
  exceptions and Rust panics are values of a result type; loops without an obvious
  bound take fuel and return a distinguished error when it runs out.
* `*Proofs` files hold lemmas.  `Props*.v` files hold only the final statements,
  each closed by `exact`, each followed by `Print Assumptions`, and each accompanied by
  an `Example` exhibiting a concrete case that meets the hypotheses.
* Numbers are `Z` everywhere (Python ints are unbounded; Rust u64/i64 overflow is
  outside the model unless a statement says otherwise).
* If a property is false of the faithful model, a `_refuted` theorem gives the concrete
  counterexample and the strongest guarded form that holds is proved next to it.

## 2. Plan per property

| id | modelled | how |
|----|----------|-----|
| C01 | `Tape.step` of tm/tape.py and src/tape.rs on block lists | refinement to `TM.steps` by list induction |
| C02 | same + `blank`, `at_edge`, `==` | invariant preserved by step; canonical forms are unique |
| C03 | `marks` | structural induction against a count of non-zero cells |
| C04 | both step functions | direct equality under positive counts |
| C05 | tape with object identities and an adversarial allocator | invariant: identities of live tapes are pairwise distinct |
| C06-C09 | `run_quick_machine` | loop invariant: model state represents `TM.steps n init` |
| C10 | `quick_term_or_rec`, `HeadTape`, `aligns_with` | translated-cycler argument |
| C11, C12 | `apply_rule`, `count_apps` in both languages | arithmetic; Rust `apply_plus` ignores the sign |
| C13 | `apply_mult` | induction on `times` |
| C14, C15 | `calculate_diff`, `calculate_op_seq`, `make_rule` | case analysis on the code's tests |
| C16 | `PastConfig` | invariant + algebra |
| C17, C22 | converter and caches with explicit history | invariant over call histories |
| C18-C21 | macro simulators | window simulation, pigeonhole for `sim_lim` |
| C23, C24 | parser and printer on character lists | list induction |
| C25-C28 | Normalizer, tree_norm | bisimulation by renaming / mirroring; concrete counterexamples where false |
| C29-C31 | Graph, Rust graph | worklist invariant with nondeterministic pop |
| C32-C34 | reason.rs | backward-reachability invariant |
| C35 | segment.rs | abstraction invariant (hardest; may stay partial) |
| C36-C43 | num.py | denotation into Q; induction on fuel |
| C44, C45 | machine.py, prover.py, rules.py | invariant; concrete counterexample for C45; growth theorems for both machines when the rules held are laws (RsGrowProofs.v for Rust) |
| C46 | EnumTape | locality simulation |
| C47 | instr_seq.py | run invariant |
| C48 | tree.rs | induction over the tree |
| C49 | blocks.rs | index bounds |
| C50 | reason.rs | no panic by invariant on the back-stepping tape; monotonicity of depth |
| C51 | segment.rs | termination measure on the finite set of segment configurations |
| C52 | num.py `__divmod__` | from C37 and C38 |
| C53 | blocks.rs | false; concrete program |
| C54 | tree.rs | a program in normal order follows one path of the tree |
| C55-C57 | machine.py, machine.rs, prover.rs | false; families of programs that fool the three-sample check, found by hand; conditional proof when the rules held are laws (`LawSpec`): an application is iterated, recorded signatures cover the tape they were made from; for Rust the sum of the counts is bounded by the number of moves, which excludes overflow below 2^64 moves; a computable certificate (`CertSpec`, not code of /repo: a run on tapes whose counts are an int plus unknowns) is proved to imply that a rule is a law |
| C58-C60 | make_macro, Machine over macro programs | C21 applied layer by layer; counterexamples for backsymbol blanks and counted parameters |
| C61 | quick_term_or_rec | sweeps of a repeating run fall into step with the period, so some doubling snapshot is compared one period later |
| C62 | tools/c.py | the C text is read back line by line with a small reader of its own, then each labelled statement is matched with one machine step |
| C63, C64 | `calculate_diff`, `calculate_op_seq`, `make_rule`, `count_apps`, `apply_rule`, `apply_ops` on symbolic counts | values in the rationals as for C36, induction on descent, ascent and the operation list; refutations by evaluation |
| C66 | `normalize` as a normal form (at most three colours) | the first mention of a new state is in the row of an older one, so each swap puts one more state in place; with three colours the first cell decides them; two isomorphic normal forms are equal by induction on states; refutations by evaluation |
| C65, C67 | the predicates of `Graph`, `reduced` under renamings | reading order of the table; a stable pass changes nothing and a pass that keeps the size is stable; refutations by evaluation on two small graphs |
| C68 | `make_dot` read back as DOT | a reader of DOT (words, strings, signs, statements) run over the text written, line by line |
| C69-C72 | idris/ tapes and machines | one specification of a tape for all seven types; runs and agreement proved once for anything that meets it; refutations by evaluation and induction on the limit |
| C73 | idris/ reader | parser combinators run over the text of a table |
| C74 | C simulators | machine.h as a transition system on the global variables with a bounded array; visited interval as invariant |
| C75 | objects of tm/num.py | store with four tables; invariant: table entries are exactly the objects of that shape; induction over histories |
| C76 | printing of tm/num.py | reader for Python's expression grammar in the spec; token by token |
| C77 | estimates of tm/num.py | sizes as inequalities between rationals, floating point as parameter |
| C78 | structured C programs | statements with continuations as transition system; a checker that runs a program from move to move against the machine's table, proved right once and computed for each file |
| C79 | filter of the tree tests | each answer of the or-chain by the theorem about that decider; runs over macros with their caches as state; refutations by evaluation |
| C80 | Machine runs with symbolic counts | each operation on tapes of expressions has the value of the integer operation (C01, C42, C64); marked tapes carry over the invariant behind recorded signatures (C55); refutation by evaluation; the example's rules are proved to be laws by induction on the blocks |
| C81 | StrictLinRecMachine | history invariant: positions kept bound the cells visited since each kept tape; a recurrence is a period of the sequence of (state, colour) pairs, so periods combine to their gcd and the first repetition found has the least one; sweeps end where that sequence changes |
| C82 | checks on samples | positions kept are visited, so what recurs agrees on them; with all steps sampled they bound what was visited; refutations by evaluation |
| C83 | run_loose_linrec_machine | alignment both ways; passes of the loop as in C81; a reference taken late enough sees its own period out |
| C84 | all runs with a limit | induction on the limit |
| C85 | Machine runs whose counts stay integers | the integer run embedded in the symbolic one, operation by operation; marks of enumerated tapes forgotten where the integer model has none |
| C86 | compact notation | induction on the rows of the table |
| C87 | what a Machine object says of its runs; getters of MachineResult | case analysis of the ends of the loop; counts of rule applications and suspected rules do not matter to the rest; C84 |
| C88 | the line a Machine prints | cutting the line at its bars; digits determine the number; C23 |
| C89 | towers of powers (`Tet`) | growth of towers; squares below the next tower |
| C90 | texts of tapes | cutting the text at its spaces; as C88 |
| C91 | left and right interchangeable | exact simulation of the mirrored run by MirrorProofs; for Machine (MirrorMach) also that the order of the entries of a rule does not matter when one count goes down; evaluated witnesses against segments and run_prover; certified runs of run_prover on both do not contradict each other (MirrorCert); an answer of the segment decider settles both (SegMirror); what opt_block measures is the same, its choice is not (BlockMirror); an evaluated witness against Machine with blocks, and no contradiction between machines over macros (MacroMirror) |
| C92 | names of states and colours | exact simulation of the renamed run, prover and all, by RenameProofs; opt_block likewise by RenameBlocks, macros by RenameMacro, Machine over them by RenameMachine and RenameBack; the backward reasoners by RenameReason and OrderProofs (in no round have two blank configurations the same state, since both would run forward alike, so the order of the table does not matter); evaluated witnesses against quick_term_or_rec and cant_halt |
| C93 | answers about a text | what is read is the machine written there (ParseProofs, with white space around it), and equal machines have equal runs; the theorems on compiled programs carried over; Machine and run_prover by C92 with the names kept; Machine over macros by C58 (ApiMacro) |
| C94 | scripts, line by line | a line feed at the end of a table does not change how it is read; C93 for just_so.py |
| C95 | completions | reading, the slots left over, writing back |
| C96 | dump_graphs.py | how the command is cut; evaluated witness |
| C97 | options of just_so.py | as C94; evaluated witness |
| C98 | signatures, counts and places of tapes | spec compares blocks one by one (`SigSpec`); induction on spans |
| C99 | agreement of all tools on one text | from C93, uniqueness of halting; evaluated witness |
| C100 | the rule book and the records of the prover | stored entries described by cut-off tapes; induction over the calls; edge invariant of C55 |
| C101 | watching a run | invariant of C55 for each line of the loop; splitting the text of a line at its bars |
| C102 | macro instructions written out | entries are never lost or changed, so the table replays the run; C21 for what it stands for; C23 for reading it back |
| C103 | list printed by idris/Run | induction over the input; each line by C70 and C73; decimals read back; evaluated witnesses against one line for each and against reading on |
| C104 | what a passing idris/Test establishes | the output of each part is part of the whole; C70, C72, C73; an evaluated run with a wrong number listed |
| C105 | the text of a macro program identifies it | the texts cut at brackets and dashes; the table read back (C23); make_macro as a stack of logics, each extensional; evaluated witness for explicit params |

Where each file of the model comes from:

| model file | source |
|------------|--------|
| `ProgModel`, `ParseModel` | src/instrs.rs (maps, reading, showing), tools/__init__.py |
| `ExpandModel` | tools/normalize.py, `expand` |
| `MachObjModel` | tm/machine.py 24-137 (attributes, `__str__`, simple_termination) and what run assigns, src/machine.rs 33-162 (getters) |
| `TapeModel` | tm/tape.py 27-205, src/tape.rs 1-384: Block, Span, Tape |
| `HeapModel` | tm/tape.py 27-205 again, with Block objects as mutable objects |
| `TapeShowModel` | tm/tape.py 32-39, 70-74; src/tape.rs, `Display` of Block, Tape, HeadTape, EnumTape |
| `WatchModel` | tm/machine.py 111-125 (show_tape) and run with `watch_tape` |
| `DumpModel` | dump_macros.py 21-23 (what is printed of a macro program, given as the run has left it) |
| `IdrisMainModel` | idris/Run.idr 17-39, idris/Test.idr 14-98 (limits and the list of programs as parameters; arguments not read) |
| `MacroShowModel` | tm/macro.py 151-158 (`__str__`), tm/machine.py 76-82 (prog_str) over macro programs |
| `MacroLineModel` | tm/machine.py 84-109 (`__str__`) over macro programs |
| `EnumModel` | tm/tape.py 208-305, src/tape.rs 542-718: EnumTape |
| `QuickModel` | src/machine.rs run_quick_machine |
| `TermRecModel` | src/machine.rs quick_term_or_rec, src/tape.rs HeadTape and Alignment |
| `RulesModel` | tm/rules.py and src/rules.rs on integer counts |
| `PastModel` | src/prover.rs PastConfig(s), used by both provers |
| `ProverModel` | tm/prover.py, src/prover.rs, tm/machine.py `run`, src/machine.rs run_prover, run_for_infrul |
| `MacroModel` | tm/macro.py, and the parts of src/macros.rs that differ |
| `MakeMacroModel` | tm/macro.py make_macro, tm/machine.py Machine over macro programs |
| `ApiModel` | src/lib.rs, the functions that take the text of a program |
| `ScriptModel` | normalize.py, c_prog.py, instr_seq.py, just_so.py, dump_graphs.py; branch_last of test/test_turing.py |
| `NormModel` | tools/normalize.py, tools/tree_norm.py |
| `GraphModel` | tools/graph.py, src/graph.rs |
| `ReasonModel` | src/reason.rs |
| `SegModel` | src/segment.rs |
| `BlocksModel` | src/blocks.rs |
| `InstrSeqModel` | tools/instr_seq.py |
| `TreeModel` | src/tree.rs |
| `CModel` | tools/c.py, character by character; `CSpec` reads the C text and gives it the meaning of machines/structured/machine.h, with an endless tape and unbounded STEPS and MARKS |
| `DotModel` | tools/dot.py, character by character; `DotSpec` reads the text as DOT: words and strings, attributes of the graph, edges with one attribute |
| `SymModel` | tm/rules.py 31, 51-363 on counts that are symbolic expressions of `NumModel`; a tape is its two lists of counts. All exceptions nothing handles are one error value `SFail` |
| `SymMachModel` | tm/machine.py 36-57, 139-234, tm/prover.py 18-169, tm/tape.py 28-303 (the methods that Machine.run uses), tm/rules.py 255-310, on tapes whose counts are expressions; exceptions that nothing handles are `YErr`, nesting past the bound is `YDeep` |
| `IdrisModel` | idris/Tape.idr, idris/Machine.idr, idris/Program.idr; a call that may not return has fuel |
| `IdrisParseModel` | idris/Parse.idr and the casts of idris/Program.idr |
| `LinModel` | machines/machine.h with 2-2.c, 2-3.c, 2-4.c, 3-2.c, 4-2.c, 5-2.c: input characters to output characters; 32-bit unsigned counters; leaving the array or the table of labels is an error value; PROG_NUM does not wrap |
| `NumModel` | tm/num.py 29-1360 and the tables of 1361-2245, without Tet; `Exp.__pow__` (1180-1181) is in `NumPowModel` |
| `NumHeapModel` | tm/num.py 20-33, 66-67, 142-162, 335-363, 647-666, 814-839, 1183-1222: Nums as objects in a store with the tables ADDS, MULS, DIVS, EXPS; Tet included |
| `NumShowModel` | tm/num.py `__repr__`, `__int__` of the four classes, `leaves`, `show_number`; log10 of a truncated int is a parameter |
| `NumEstModel` | tm/num.py 45-58 (`estimate`), `digits`, `tower_est`; rounded logarithms are parameters |
| `TetModel` | tm/num.py 1184-1266 (Tet), and comparing powers with towers |
| `StructModel` | machines/structured/machine.h and `main` of the sixteen machines/structured/*.c: small-step semantics of the statements they use; reading or writing outside the array is an error value; 32-bit positions; STEPS and MARKS do not overflow |
| `RsMacroModel` | src/macros.rs `MacroProg` with its two caches, as src/machine.rs 170-215 uses it; colours and states beyond u64 do not wrap |
| `FilterModel` | src/tree.rs 253-298 (`incomplete`, `check_inf`, `skip_all`): test code, but it decides what counts as a holdout |
| `RecurModel` | test/lin_rec.py (HeadTape, PtrTape, History, StrictLinRecMachine, LinRecSampler, run_loose_linrec_machine) and test/test_turing.py 664-726: test code, but the tables of recurrences rest on it |

### Tests of fidelity

`ConformNum`, `ConformTables`, `ConformSym`, `ConformTape` evaluate the models on expectations recorded in the repository
(test/test_num.py, tables of test/prog_data.py, test/test_tape.py, unit tests of src/tape.rs).  They are tests of the reading of the source, no theorem rests on
them.

### Wrong programs

`seeded/LOG.jsonl` lists the edits of the models the theorems were tested against.  How to read it:

* An edit was built with the lemmas whose proofs no longer go through left unproved.  `theorems_failed`
  are the theorems that then rest on an unproved lemma.
* So a theorem listed there lost its proof.  That it is false of the edited program was not proved.  A proof script
  can also break for a reason that has nothing to do with the claim.
* `examples_failed` are evaluated cases next to the theorems.  These come out differently under the edit, which is
  evidence of another kind; many entries have none.
* An entry without failed theorems is an edit that survived: its note says whether the claim was tightened or why it is
  not false of the edited program.  For edits that survived at first and were tried again, `theorems_failed` is that of the last try.
* Entries whose note says "undecided" are edits whose build did not finish or could not be repaired.  They count for nothing.

## 3. Trusted base

* Coq 8.16.1's kernel, including its conversion test and `vm_compute`.
* The definitions that the statements in `Props*.v` use: the textbook machine in `TM.v`,
  the `*Spec` files, and the models.
* The reading of the source recorded in the comments of the models.
* No axiom: see section 4.

### What the models leave out

* Rust integer overflow of u64/usize/i32, except where a model says it is included
  (rule application, `make_rule`, `show_state`, tree generation).
* Memory limits, recursion limits, threads (tree generation: any interleaving of tasks),
  PyO3 conversions, printing for humans (`Display` of the deciders' tapes).
* Counts in tapes, rules, provers and machines are integers.  Where Python would create
  a symbolic count the model returns an error value of its own, and the theorems say
  nothing about what follows it.  Symbolic arithmetic is modelled by itself in
  `NumModel`, rules over symbolic counts in `SymModel`, machine runs over them in `SymMachModel`.
* `Tet` of tm/num.py with operands other than ints, powers and towers; floating point (`log`, `sqrt`, `log10`), which is a
  parameter with the needed accuracy as a hypothesis.  `NumModel` compares expressions by
  structure; that this is what comparing objects comes to is C75, over `NumHeapModel`.
* Iteration order of Python sets: a parameter, quantified over.
* Dictionaries are association lists; the order of entries is the order of iteration.
* The scripts branch.py, measure.py and run.py, the run in dump_macros.py (its output is in `DumpModel`), how Run.idr and Test.idr read their arguments, perf/, test/ but for what
  `FilterModel`, `RecurModel` and `ScriptModel` cover.

## 4. Assumptions of each theorem

`Print Assumptions` stands under every theorem of every `Props*.v` file (and is printed by
`make`).  The answer is the same for all of them: **Closed under the global context**.  No
axiom of the standard library is used, and the development declares none.  (The check lists
seven axioms of `Coq.ssr.ssrunder`: a file of the standard library that is loaded with the
tactics, on which no theorem depends.)
