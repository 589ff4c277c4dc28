{"id": "C01", "title": "One tape step is exactly `stepped` cell-by-cell machine moves", "statement": "Calling Tape.step(shift, color, skip) on a run-length tape returns a number n >= 1 and leaves the tape in the state that n single-cell Turing-machine moves would leave an ordinary unbounded tape in: every cell holds the same colour and the head is on the corresponding cell. With skip=False n is 1; with skip=True n is exactly the number of moves the machine makes while it keeps reading the same colour in the same state (one more than the length of the run of the scanned colour ahead of the head).", "quantifier": "every well-formed run-length tape (any number of blocks, any colours, any positive counts), every direction, every printed colour, both skip modes", "why_tests_cant": "tapes are unbounded in blocks and counts; tests exercise a finite set of step histories from blank", "anchors": ["tm/tape.py: Tape.step, Tape.__init__", "src/tape.rs: Tape::step, Span::pull, Span::push"]}
{"id": "C02", "title": "The tape representation stays canonical, so blank / at_edge / equality mean what they say", "statement": "Along every history of steps from a blank tape, neighbouring blocks have different colours, every block has a positive count, and the outermost block on each side is not blank. Hence `tape.blank` is true exactly when every cell of the tape is 0, `tape.at_edge(side)` is true exactly when the scanned cell and every cell on that side are 0, and two tapes compare equal exactly when their contents relative to the head are equal cell for cell.", "quantifier": "every history of step calls of any length from the blank tape with any arguments; every pair of tapes so reached", "why_tests_cant": "an invariant over unboundedly long histories; one bad merge may only show up arbitrarily later", "anchors": ["tm/tape.py: Tape.step, Tape.blank, Tape.at_edge", "src/tape.rs: Tape::step, Tape::blank, Tape::at_edge"]}
{"id": "C03", "title": "tape.marks is the number of non-blank cells", "statement": "For every well-formed tape, `marks` (Python len / Rust Tape.marks) equals the number of positions of the unbounded tape that hold a non-zero colour.", "quantifier": "every well-formed run-length tape", "why_tests_cant": "unbounded tapes", "anchors": ["tm/tape.py: Tape.marks", "src/tape.rs: Tape::marks, Span::marks"]}
{"id": "C04", "title": "The Python and the Rust tape are the same tape", "statement": "Starting from the same tape, the Python Tape.step and the Rust Tape::step return the same step count and leave identical block lists, for every direction, colour and skip flag; hence both simulators see the same sequence of tapes for the same program.", "quantifier": "every tape with positive counts, every step argument; every history of steps", "why_tests_cant": "two independently written algorithms (block reuse and in-place mutation versus pull/push) can only be compared on finitely many inputs by tests", "anchors": ["tm/tape.py: Tape.step", "src/tape.rs: Tape::step, Span::pull, Span::push"]}
{"id": "C05", "title": "Block objects are never shared between tapes or spans", "statement": "In every history of creating, stepping, cloning, setting counts of and dropping Python tapes, no Block object occurs twice in the spans of the live tapes, and every tape has at every time exactly the contents it would have if tapes were immutable values: the in-place updates performed by step on one tape (including re-using a popped block object) never change another tape or the other side of the same tape, and clone yields a tape whose later evolution does not affect the original.", "quantifier": "every interleaving of Tape(), step, clone, set_count and dropping on any number of tapes, every choice of object identities by the allocator (including re-use of freed identities)", "why_tests_cant": "aliasing depends on the history and on the allocator", "anchors": ["tm/tape.py: Tape.step, Tape.clone, EnumTape.__init__"]}
{"id": "C06", "title": "A quick run that reports `undfnd` really halts there, at that step", "statement": "If run_quick_machine(prog, lim) ends with undfnd = (steps, (state, color)), then the plain Turing machine started on the blank tape in state A makes exactly `steps` moves and then is in `state` scanning `color`, for which the program has no instruction; the reported marks equal the number of non-blank cells at that point.", "quantifier": "every program (any number of states and colours), every limit", "why_tests_cant": "infinitely many programs and limits", "anchors": ["src/machine.rs: run_quick_machine, MachineResult", "src/tape.rs: Tape::step"]}
{"id": "C07", "title": "A quick run that reports `spnout` never halts", "statement": "If run_quick_machine ends with spnout, then the plain machine started on blank tape never reaches an undefined slot: from the reported step on it stays in one state and moves in one direction over blank cells forever.", "quantifier": "every program, every limit", "why_tests_cant": "a statement about infinite executions", "anchors": ["src/machine.rs: run_quick_machine", "src/tape.rs: Tape::at_edge"]}
{"id": "C08", "title": "A quick run that reports `infrul` never halts, and the `blanks` map is truthful", "statement": "Every entry state -> step of the reported `blanks` map is a moment at which the plain machine is in that state on an entirely blank tape after exactly that many moves; and if the run ends with infrul the plain machine never halts (it revisits a configuration, up to translation).", "quantifier": "every program, every limit", "why_tests_cant": "infinite executions; all programs", "anchors": ["src/machine.rs: run_quick_machine"]}
{"id": "C09", "title": "A quick run is complete up to its limit", "statement": "If the plain machine halts within fewer than `lim` moves, then run_quick_machine(prog, lim) reports undfnd with exactly that step count and slot; it can never end with xlimit, spnout or infrul on such a program.", "quantifier": "every program, every limit, every halting time below the limit", "why_tests_cant": "infinitely many programs", "anchors": ["src/machine.rs: run_quick_machine"]}
{"id": "C10", "title": "quick_term_or_rec only says yes about machines that never halt", "statement": "If quick_term_or_rec(prog, lim, drop_halt=False) returns True for a program whose first instruction is 1RB, then the plain machine started on blank tape never halts (it either spins out or is a translated cycler).", "quantifier": "every program with A0 = 1RB, every limit", "why_tests_cant": "a statement about infinite executions of all programs; the recurrence check compares only slices of two tapes", "anchors": ["src/machine.rs: quick_term_or_rec", "src/tape.rs: HeadTape, Alignment::aligns_with, Alignment::get_slice, HeadTape::init_stepped"]}
{"id": "C11", "title": "Rule application equals iterating the rule", "statement": "When applying an additive rule to a tape, the number of applications returned is the largest number for which every decreasing count stays at least 1, every addressed count ends exactly where that many one-at-a-time applications would bring it, other counts are untouched, and no count ever drops below 1. If some decreasing count cannot be decreased even once, nothing is changed and no application is reported.", "quantifier": "every additive rule, every assignment of positive integer counts", "why_tests_cant": "all rules and unbounded counts", "anchors": ["tm/rules.py: apply_rule, count_apps, apply_plus", "src/rules.rs: ApplyRule::apply_rule, ApplyRule::count_apps, apply_plus"]}
{"id": "C12", "title": "The Rust and Python rule applications agree", "statement": "For the same additive rule and the same integer counts, the Rust ApplyRule::apply_rule and the Python apply_rule report the same number of applications and leave the same counts.", "quantifier": "every additive rule, every assignment of positive integer counts", "why_tests_cant": "all rules and unbounded counts", "anchors": ["src/rules.rs: ApplyRule::apply_rule, apply_plus", "tm/rules.py: apply_rule"]}
{"id": "C13", "title": "Multiplicative rule application has the right closed form", "statement": "apply_mult(count, times, mul, add) equals the result of replacing count by mul*count + add, `times` times in a row.", "quantifier": "every integer count and add, every times >= 1, every mul >= 2", "why_tests_cant": "unbounded integers; a closed form with an exact division inside", "anchors": ["tm/rules.py: apply_mult"]}
{"id": "C14", "title": "A recorded difference explains all the observed counts", "statement": "If calculate_diff(c1, c2, c3, c4) (with rest arguments) on positive integer counts returns an additive difference d, then each count is the previous plus d; if it returns a pair (mul, add) then mul >= 2 and each count is mul times the previous plus add; if it returns an operation sequence, running that sequence takes each count to the next one.", "quantifier": "every list of positive integer counts", "why_tests_cant": "unbounded integers", "anchors": ["tm/rules.py: calculate_diff, calculate_op_seq, apply_ops"]}
{"id": "C15", "title": "make_rule signals an infinite rule exactly when nothing decreases", "statement": "make_rule raises InfiniteRule if and only if every position's counts are explained by a recognised operation and no count goes down from the first record to the second; otherwise a returned rule contains at least one strictly decreasing additive entry, addresses exactly the positions whose count changed, and applying it once to the first recorded counts gives the second and to the second gives the third.", "quantifier": "every four equally shaped lists of positive integer counts", "why_tests_cant": "unbounded shapes and integers", "anchors": ["tm/rules.py: make_rule", "src/rules.rs: make_rule"]}
{"id": "C16", "title": "next_deltas extrapolates the recorded cycles", "statement": "If PastConfigs.next_deltas returns (d1, d2, d3), they are non-negative and continue the last five cycles recorded for that state: for some multiplier 1..4 each of these cycles and of the three predicted ones is the multiplier times the previous plus a term growing by a constant. The call never panics, at most four cycles are kept per state between calls, and records of other states do not matter.", "quantifier": "every history of recorded configurations", "why_tests_cant": "all histories", "anchors": ["src/prover.rs: PastConfig::next_deltas, PastConfig::check, PastConfigs::next_deltas"]}
{"id": "C17", "title": "Macro tape colours and cell tuples correspond one to one", "statement": "For a converter with base_colors = b and cells = k: color_to_tape(tape_to_color(t)) == t for every tuple t of k colours below b, and two different such tuples never get the same macro colour, macro colour 0 is the blank tuple, and macro colours are below b**k — at every point of every history of conversions through the shared converter.", "quantifier": "every b, k, every tuple, every history of calls", "why_tests_cant": "unbounded bases, widths and cache histories", "anchors": ["tm/macro.py: TapeColorConverter, make_converter"]}
{"id": "C18", "title": "A block macro instruction is the base machine's behaviour on the block", "statement": "For a block macro over a program whose colours are all below the declared number of colours: whenever the macro program gives an instruction for (macro state, macro colour), then the base machine started in the corresponding state at the corresponding edge of a window of `cells` cells holding the decoded colours runs inside the window and leaves it on the reported side in the reported state, with the window then holding the decoding of the reported colour.", "quantifier": "every base program, block size, macro state and macro colour", "why_tests_cant": "all programs and block sizes", "anchors": ["tm/macro.py: BlockLogic, MacroProg.calculate_instr, MacroProg.run_simulator"]}
{"id": "C19", "title": "MacroInfLoop is raised only for genuine infinite loops (block macros)", "statement": "If computing a block-macro instruction raises MacroInfLoop, then the base machine started in that situation never leaves the window and never halts.", "quantifier": "every base program, block size, macro state and macro colour", "why_tests_cant": "a claim about infinite executions, justified only by a counting argument", "anchors": ["tm/macro.py: BlockLogic.sim_lim, MacroProg.run_simulator"]}
{"id": "C20", "title": "A backsymbol macro instruction is the base machine's behaviour", "statement": "For a backsymbol macro: whenever the macro program gives an instruction for (macro state, macro colour), the base machine started in the corresponding situation (scanned cell plus the remembered neighbouring cells) leaves that window on the reported side in the reported state with the corresponding contents; MacroInfLoop is raised only if the base machine never leaves it.", "quantifier": "every base program, number of remembered cells, macro state and macro colour", "why_tests_cant": "all programs; a counting argument for infinite loops", "anchors": ["tm/macro.py: BacksymbolLogic, MacroProg.calculate_instr, MacroProg.run_simulator"]}
{"id": "C21", "title": "Macro simulation is faithful end to end", "statement": "Running the macro machine for any number of macro steps from blank corresponds to running the base machine from blank: after every macro step the decoded macro tape is the base tape at some later moment, and if the macro machine stops because an instruction is undefined the base machine halts.", "quantifier": "every base program, block size, number of backsymbols and number of steps, with a declared number of states and colours that covers the program", "why_tests_cant": "all programs and run lengths", "anchors": ["tm/macro.py: MacroProg, BlockLogic", "tm/machine.py: Machine.run"]}
{"id": "C22", "title": "Macro instruction lookup does not depend on the history of lookups", "statement": "MacroProg.__getitem__ returns the same instruction (or fails the same way) for a slot whatever lookups were made before, i.e. the instruction cache and the colour converter cache are transparent.", "quantifier": "every history of lookups, every slot", "why_tests_cant": "all histories", "anchors": ["tm/macro.py: MacroProg.__getitem__, MacroProg.calculate_instr, TapeColorConverter"]}
{"id": "C23", "title": "Parsing what was shown gives the program back", "statement": "tcompile(show_comp(comp, params)) == comp for every compiled program whose states are below 26, colours below 10 and slots within params; and likewise with params inferred.", "quantifier": "every compiled program in that range, all params", "why_tests_cant": "all programs", "anchors": ["src/instrs.rs: Parse for CompProg, CompProg::show, show_instr, read_instr"]}
{"id": "C24", "title": "Showing what was parsed gives the text back", "statement": "show_comp(tcompile(s), params of s) == s for every well-formed program text s (any rectangular shape, '...' for undefined), and read_slot/show_slot, read_instr/show_instr are mutually inverse on well-formed text. White space before and after a program text makes no difference to what is read.", "quantifier": "every well-formed program text", "why_tests_cant": "all programs", "anchors": ["src/instrs.rs: Parse for CompProg, CompProg::show, show_slot, read_slot, show_instr, read_instr", "tm/parse.py", "tm/show.py"]}
{"id": "C25", "title": "Swapping two states or two colours in the Normalizer is a renaming", "statement": "After Normalizer.swap_states(a, b) with a, b not the start state, or swap_colors(a, b) with a, b not blank, the program performs the same run from blank as before with the two names exchanged: same number of moves, same head positions, same halting behaviour; and swapping twice restores the program.", "quantifier": "every program, every two names, every run length", "why_tests_cant": "all programs and runs", "anchors": ["tools/normalize.py: Normalizer.swap_states, Normalizer.swap_colors"]}
{"id": "C26", "title": "Direction normalisation is a mirror image", "statement": "Normalizer.normalize_directions either leaves the program alone (if its first instruction moves right) or replaces it by its mirror image, whose run from blank is the mirror image of the original run.", "quantifier": "every program with a defined first instruction, every run length", "why_tests_cant": "all programs and runs", "anchors": ["tools/normalize.py: Normalizer.normalize_directions"]}
{"id": "C27", "title": "normalize preserves what the machine does", "statement": "normalize(prog) halts from the blank tape if and only if prog does (and leaves the same number of marks).", "quantifier": "every program text", "why_tests_cant": "all programs", "anchors": ["tools/normalize.py: normalize, Normalizer.normalize, Normalizer.cinch, Normalizer.cut_unused_states, Normalizer.cut_unused_colors"]}
{"id": "C28", "title": "tree_norm returns an isomorphic program in tree normal form", "statement": "tree_norm(prog) is prog with its non-start states and non-blank colours renamed, and in the run of the result from blank the states and colours are first visited in increasing order.", "quantifier": "every program", "why_tests_cant": "all programs", "anchors": ["tools/tree_norm.py: tree_norm"]}
{"id": "C29", "title": "is_connected decides whether the last state can get back to the start", "statement": "Graph.is_connected is True exactly when the start state can be reached from the highest state through transitions to other states and every state has such an exit; the answer does not depend on the order in which Python pops elements from the work set, and Rust is_connected gives the same answer.", "quantifier": "every program, every pop order of the set", "why_tests_cant": "all programs and all scheduling choices of set.pop", "anchors": ["tools/graph.py: Graph.is_connected, Graph.exit_points", "src/graph.rs: is_connected, get_exitpoints"]}
{"id": "C30", "title": "Entry points and exit points are inverse relations", "statement": "In the transition graph, s is an entry point of t if and only if t is an exit point of s, and both mean that some instruction of state s goes to state t.", "quantifier": "every program", "why_tests_cant": "all programs", "anchors": ["tools/graph.py: Graph.entry_points, Graph.exit_points, Graph.arrows"]}
{"id": "C31", "title": "Graph reduction terminates without error on closed graphs", "statement": "reduce_graph never raises, ends within its iteration bound, and every connection in the reduced graph points to a remaining state.", "quantifier": "every program whose transitions stay within its states", "why_tests_cant": "all graphs", "anchors": ["tools/graph.py: Graph.reduced, Graph.reduce_graph, inline_single_exit, inline_single_entry, purge_dead_ends"]}
{"id": "C32", "title": "cant_halt only says yes about machines that never halt", "statement": "If cant_halt(prog, depth) returns a number, the plain machine started on the blank tape never reaches an undefined slot.", "quantifier": "every program, every depth", "why_tests_cant": "infinite executions of all programs", "anchors": ["src/reason.rs: cant_halt, cant_reach, get_valid_steps, step_configs, Backstepper, get_entrypoints, halt_configs"]}
{"id": "C33", "title": "cant_blank only says yes about machines that never erase their tape", "statement": "If cant_blank(prog, depth) returns a number, the plain machine started on the blank tape never returns to an entirely blank tape after having marked it.", "quantifier": "every program, every depth", "why_tests_cant": "infinite executions of all programs", "anchors": ["src/reason.rs: cant_blank, cant_reach, erase_configs, Backstepper"]}
{"id": "C34", "title": "cant_spin_out only says yes about machines that never spin out", "statement": "If cant_spin_out(prog, depth) returns a number, the plain machine started on the blank tape never reaches a configuration in which it stays in one state moving in one direction over an unbounded blank area.", "quantifier": "every program, every depth", "why_tests_cant": "infinite executions of all programs", "anchors": ["src/reason.rs: cant_spin_out, cant_reach, zero_reflexive_configs, Backstepper"]}
{"id": "C35", "title": "segment_cant_halt only says yes about machines that never halt", "statement": "If segment_cant_halt(prog, segs) returns a number, the plain machine started on the blank tape never halts.", "quantifier": "every program, every number of segments", "why_tests_cant": "infinite executions of all programs", "anchors": ["src/segment.rs: segment_cant_halt, all_segments_reached, Configs, Config::run_to_edge, Tape", "src/lib.rs: py_segment_cant_halt"]}
{"id": "C36", "title": "Symbolic addition, subtraction, negation and multiplication are exact", "statement": "For symbolic numbers a, b (sums, products, powers, exact quotients), whenever a + b, a - b, -a, a * b returns a value, that value denotes exactly the sum, difference, negation, product of what a and b denote.", "quantifier": "every pair of symbolic expressions of any depth", "why_tests_cant": "unbounded expression trees and mutually recursive rewriting", "anchors": ["tm/num.py: Add, Mul, Div, Exp, make_add, make_mul, make_div, make_exp, add_exponents"]}
{"id": "C37", "title": "Symbolic division is exact", "statement": "For a symbolic number a and a positive integer d (or, when a is a power, a power d of the same base) that divides it, whenever a // d returns a value it denotes exactly a/d.", "quantifier": "every symbolic expression, every divisor", "why_tests_cant": "unbounded expression trees", "anchors": ["tm/num.py: Add.__floordiv__, Mul.__floordiv__, Div.__floordiv__, Exp.__floordiv__, gcd"]}
{"id": "C38", "title": "Symbolic remainders are exact", "statement": "For a symbolic number a and a positive integer m, whenever a % m returns a value it is the remainder of the number a denotes by m, in the range 0..m-1.", "quantifier": "every symbolic expression, every modulus", "why_tests_cant": "unbounded expressions and exponents", "anchors": ["tm/num.py: Add.__mod__, Mul.__mod__, Div.__mod__, Exp.__mod__, find_period, exp_mod_special_cases"]}
{"id": "C39", "title": "The special-case tables for 2**n are right", "statement": "For each tabulated modulus m (54, 162, 486, 1458, ...), exp_mod_special_cases returns 2**n mod m for every exponent n it accepts.", "quantifier": "every exponent of any size, every tabulated modulus", "why_tests_cant": "unbounded exponents", "anchors": ["tm/num.py: exp_mod_special_cases"]}
{"id": "C40", "title": "make_exp preserves the value", "statement": "make_exp(base, exp) denotes base ** exp for every base and exponent it accepts, whatever normalisation of the base it performs.", "quantifier": "every base, every exponent", "why_tests_cant": "unbounded integers", "anchors": ["tm/num.py: make_exp, Exp"]}
{"id": "C41", "title": "Symbolic comparison is truthful", "statement": "If a < b returns True for symbolic numbers then a denotes a smaller number than b; if it returns False it does not. The same holds of a > b, a <= b and a >= b.", "quantifier": "every pair of symbolic expressions", "why_tests_cant": "unbounded expression trees", "anchors": ["tm/num.py: Add.__lt__, Mul.__lt__, Div.__lt__, Exp.__lt__"]}
{"id": "C42", "title": "gcd returns a common divisor", "statement": "gcd(l, r) for a positive integer l and symbolic r divides both l and the number r denotes.", "quantifier": "every integer, every symbolic expression", "why_tests_cant": "unbounded expressions", "anchors": ["tm/num.py: gcd"]}
{"id": "C43", "title": "find_period returns a period", "statement": "If find_period(base, mod) returns p > 0, then base**p is 1 modulo mod and no smaller positive power is.", "quantifier": "every base and modulus", "why_tests_cant": "unbounded integers", "anchors": ["tm/num.py: find_period"]}
{"id": "C44", "title": "A Machine run that never applied a rule is an exact simulation", "statement": "If Machine(prog).run(lim) finishes with rulapp == 0 and undfnd = (step, slot), the plain machine on blank tape makes exactly `step` moves and then lacks an instruction for `slot`; if it finishes with rulapp == 0 and spnout, the plain machine never halts.", "quantifier": "every program, every limit, whatever the prover recorded or tried", "why_tests_cant": "all programs", "anchors": ["tm/machine.py: Machine.run", "tm/prover.py: Prover.try_rule"]}
{"id": "C45", "title": "A Machine run that reports infrul never halts", "statement": "If Machine(prog).run(lim) finishes with infrul, the plain machine on blank tape never halts.", "quantifier": "every program, every limit", "why_tests_cant": "infinite executions of all programs", "anchors": ["tm/machine.py: Machine.run", "tm/prover.py: Prover.try_rule", "tm/rules.py: make_rule"]}
{"id": "C46", "title": "Offsets reported by an EnumTape bound what the run depended on", "statement": "After any number of rounds of stepping an EnumTape by a program, the cells beyond the blocks counted by the reported left and right offsets (on a side whose edge flag is not set) have been neither read nor written: from any tape that agrees with the original on the cells within the offsets, the program makes the same moves, its head takes the same path, and the cells beyond stay as they are. The offsets never exceed the number of blocks, so slicing a signature by them cannot fail.", "quantifier": "every tape, every program, every number of rounds, every re-use of freed object identities by the Python allocator; rounds in which a prover rule is applied are not covered", "why_tests_cant": "all histories", "anchors": ["tm/tape.py: EnumTape", "tm/prover.py: Prover.get_min_sig", "src/tape.rs: EnumTape", "src/prover.rs: get_min_sig"]}
{"id": "C47", "title": "instr_seq entries are real", "statement": "For a program that starts with 1RB, each entry (partial program, step, slot) of instr_seq(prog) is such that the partial program is a sub-program of prog whose plain run from blank makes exactly step moves and then needs exactly the missing slot, prog itself being at the same place after step moves; successive entries extend each other by that slot's instruction; and the sequence ends only at a slot that prog lacks too, after states*colors - 1 entries, or when the next partial program does not stop within the cycle limit.", "quantifier": "every rectangular program text whose first instruction is 1RB, every cycle limit", "why_tests_cant": "all programs", "anchors": ["tools/instr_seq.py: instr_seq, run_for_undefined"]}
{"id": "C48", "title": "Tree generation never emits the same program twice and stays in range", "statement": "tree_progs / build_tree produces programs whose first instruction is 1RB, whose instructions use only states and colours in range, no program twice, independently of the parallel schedule.", "quantifier": "every number of states and colours, every schedule, every simulation limit", "why_tests_cant": "unboundedly many parameters and schedules", "anchors": ["src/tree.rs: tree_progs, build_tree, branch, leaf, make_instrs"]}
{"id": "C49", "title": "opt_block returns a usable block size", "statement": "opt_block(prog, steps) returns a block size of at least 1 and does not panic.", "quantifier": "every program, every step count", "why_tests_cant": "all programs", "anchors": ["src/blocks.rs: opt_block, measure_blocks, unroll_tape, compr_eff"]}
{"id": "C50", "title": "The backward reasoner never panics and depth is only a limit", "statement": "cant_halt, cant_blank and cant_spin_out never panic on a missing entry point, for any program and depth. If one returns a number r at some depth, then r is 0 or below that depth, and every larger depth gives the same r.", "quantifier": "every program, every pair of depths", "why_tests_cant": "the indexed lookup in the entry points is safe only because of how pruning ends; a panic would need a particular graph", "anchors": ["src/reason.rs: cant_reach, get_valid_steps, get_entrypoints"]}
{"id": "C51", "title": "segment_cant_halt always answers", "statement": "For every program whose states and colours lie below the given parameters, and every number of segments from 2 up, segment_cant_halt terminates without panicking: it returns either nothing or a number.", "quantifier": "every program, parameters bounding its states and colours, every number of segments >= 2", "why_tests_cant": "termination and absence of panics over all programs and an unbounded search", "anchors": ["src/segment.rs: segment_cant_halt, all_segments_reached, Config::run_to_edge"]}
{"id": "C52", "title": "Symbolic divmod is exact", "statement": "divmod(a, m) for a symbolic number a and a positive integer m returns a quotient q and a remainder r with a = q*m + r and 0 <= r < m.", "quantifier": "every symbolic expression, every modulus", "why_tests_cant": "unbounded expressions; quotient and remainder come from unrelated code", "anchors": ["tm/num.py: Num.__divmod__"]}
{"id": "C53", "title": "opt_block analyses a tape with the most blocks", "statement": "The tape on which opt_block measures compression is, among the tapes of the first steps simulated cycles, one with the largest number of blocks.", "quantifier": "every program, every step count", "why_tests_cant": "all programs; the choice is invisible in the result", "anchors": ["src/blocks.rs: BlockMeasure.step, measure_blocks, unroll_tape, opt_block"]}
{"id": "C54", "title": "Tree generation misses no program in normal order", "statement": "For every program that starts with 1RB, introduces its states and colours in order along its run, and does not halt before using every slot but the halting one (not at all when halt is not set), tree_progs returns a sub-program of it that is complete, or runs for the whole limit, or provably does not halt, or clears the tape; the only exceptions are sub-programs that never enter the last state or never print the last colour.", "quantifier": "every number of states and colours from 2 up, every limit, every program, every schedule", "why_tests_cant": "a missed program leaves no trace; all programs of all sizes", "anchors": ["src/tree.rs: build_tree, branch, leaf, run_for_undefined"]}
{"id": "C55", "title": "Outcome reported after rules were applied is the real one", "statement": "If Machine(prog).run(lim), or Rust's run_prover, reports undfnd after applying proved rules, then the plain machine on blank tape halts in the slot reported, with the number of marks reported.", "quantifier": "every program, every limit", "why_tests_cant": "infinitely many programs; the rule is checked on three samples only", "anchors": ["tm/machine.py: Machine.run", "tm/prover.py: Prover.try_rule", "src/machine.rs: run_prover"]}
{"id": "C56", "title": "The Python and the Rust prover machine report the same result", "statement": "If Machine(prog).run(lim) and run_prover(prog, lim) both report undfnd, they report the same slot and the same number of marks.", "quantifier": "every program, every limit", "why_tests_cant": "all programs", "anchors": ["tm/machine.py: Machine.run", "src/machine.rs: run_prover", "src/rules.rs: apply_plus"]}
{"id": "C57", "title": "run_prover's step count is the number of moves made", "statement": "If run_prover reports undfnd = (step, slot), the plain machine makes exactly step moves before it lacks an instruction for slot.", "quantifier": "every program, every limit", "why_tests_cant": "all programs", "anchors": ["src/machine.rs: run_prover"]}
{"id": "C58", "title": "A Machine over any macro that applied no rule tells the truth about the program", "statement": "For any program run through the Python Machine with block, backsymbol, stacked or automatically chosen macros: if the result shows no rule application, then an undefined-instruction result names the very slot of the original program at which that program halts (not earlier than the reported number of steps), a spinout result means that the original program never halts, and the reported number of steps never exceeds the number of steps of the original program.", "quantifier": "every program, block size, number of backsymbols, optional parameters that fit the program, and limit", "why_tests_cant": "all programs, macro sizes and run lengths; the claim relates two machines over whole runs", "anchors": ["tm/machine.py: Machine.run, Machine.__init__", "tm/macro.py: make_macro, MacroProg, prog_params"]}
{"id": "C59", "title": "Blank entries of a Machine over a macro are moments of a blank tape", "statement": "Whenever a Machine over a macro program that applied no rule lists a state in its blanks, the original program's tape is entirely blank at some moment not earlier than the listed step.", "quantifier": "every program, macro and limit", "why_tests_cant": "all programs and run lengths", "anchors": ["tm/machine.py: Machine.run", "tm/macro.py: BlockLogic, BacksymbolLogic"]}
{"id": "C60", "title": "Macros are faithful without declared parameters", "statement": "When no params are given, the number of states and colours that make_macro counts is large enough for the program, so that the macro machine halts exactly when the program does.", "quantifier": "every program", "why_tests_cant": "all programs; depends on which slots of the program are undefined", "anchors": ["tm/macro.py: prog_params, make_macro", "tm/macro.py: TapeColorConverter"]}
{"id": "C61", "title": "quick_term_or_rec finds exactly the programs that come to repeat themselves", "statement": "For a program whose first instruction is 1RB, quick_term_or_rec(prog, lim) answers yes for some limit if and only if the program's run from the blank tape eventually repeats itself, in place or displaced in one direction (spinning out included); once the limit is large enough every limit gives yes, a larger limit never loses a yes, and with halting programs dropped (drop_halt, as in tree generation) yes is given at large enough limits exactly to the repeating and the halting programs.", "quantifier": "all programs with first instruction 1RB, all limits", "why_tests_cant": "Tests call it on listed cyclers and non-cyclers at one limit each; that no cycler of any period or preperiod can slip between the snapshots, whatever the sweep lengths, is a statement about all runs.", "anchors": ["src/machine.rs:384-446", "src/tape.rs:391-540", "src/tree.rs:294", "src/tree.rs:474", "tm/machine.py:11"]}
{"id": "C62", "title": "make_c writes a C program that makes exactly the machine's moves", "statement": "For a program text of at most seven states and ten columns, whose printed colours all have columns, make_c returns a C text that compiles against machines/structured/machine.h; on an endless tape, running it reaches the end exactly when the machine, started on the blank tape, blanks its tape again, enters a halting state or meets an undefined instruction, and then tape, head position, STEPS and MARKS are those of the machine at that point (an undefined instruction counting as one more step that prints 1 and moves right).", "quantifier": "all program texts within those sizes, all run lengths", "why_tests_cant": "Tests compare the text with five stored files and never run it; that if, while and switch forms with omitted writes and gotos make the same moves as the table is a claim about every table and every run.", "anchors": ["tools/c.py:13-195", "machines/structured/machine.h:1-58", "c_prog.py:1-14"]}
{"id": "C63", "title": "Rules learned from symbolic counts describe the counts they were learned from and act on values", "statement": "When make_rule learns from four recorded counts at a position that are symbolic expressions (towers of powers), what it learns (no change, a sum, or a sequence of operations + * // ** and logarithm) takes each recorded count's value to the next one's; applying a learned sequence to a count gives the value those operations give, so that two ways of writing the same number give the same result; and learning ends in a rule, no rule, or one of the documented rule exceptions.", "quantifier": "all quadruples of symbolic counts, all learned sequences, all counts they are applied to, all numbers of applications", "why_tests_cant": "Tests check the final marks of a few machines; whether a sequence read off two expressions means the same on every other expression is a claim about all expressions and all ways of writing them.", "anchors": ["tm/rules.py:51-122", "tm/rules.py:125-221", "tm/rules.py:224-247", "tm/rules.py:332-363", "tm/num.py:1280-1292"]}
{"id": "C64", "title": "apply_rule on symbolic counts applies the rule as often as every decreasing count allows", "statement": "apply_rule on a tape whose counts are symbolic expressions returns the largest number of applications for which all counts stay at least 1, and leaves at each position exactly the value of that many applications of that position's sum or product; it returns None only if no count decreases or some decreasing count cannot drop even once; other positions stay as they were.", "quantifier": "all rules, all tapes with symbolic counts", "why_tests_cant": "The counts are too large to compute (towers of powers), so no test can compare with step by step application; only identities of expressions can show it.", "anchors": ["tm/rules.py:255-284", "tm/rules.py:287-310", "tm/rules.py:313-329", "tm/num.py:288-332", "tm/num.py:1135-1139"]}
{"id": "C65", "title": "The graph predicates mean what their names say", "statement": "Graph(prog).is_normal is true exactly if, reading the program text from left to right, every state other than A is mentioned and each is first mentioned after all earlier letters; is_irreflexive exactly if no instruction stays in its state; is_zero_reflexive exactly if some state goes to itself on blank; exits_dispersed / entries_dispersed / is_dispersed exactly if every state goes to / is entered from / both, as many different states as the program has colours; and is_simple is true of every program with at most two states.", "quantifier": "all programs whose instructions go to their own states (at most 190 states for is_normal, since state letters repeat beyond that), and all orders in which sets are iterated", "why_tests_cant": "The predicates partition the whole space of programs; tests can only try the listed programs, and positions, repeated targets and undefined instructions interact.", "anchors": ["tools/graph.py:29-34", "tools/graph.py:46-48", "tools/graph.py:50-72", "tools/graph.py:74-86", "tools/graph.py:122-166"]}
{"id": "C67", "title": "The kernel of the transition graph does not depend on the names of the states", "statement": "Renaming the states of a program (keeping A) changes neither whether Graph(prog).is_simple nor the number of states in Graph(prog).reduced; in particular the reduced graph never has more states than the program, and it keeps all of them exactly if every state can go to two others and no state is entered from exactly one other, its arrows then being those between different states.", "quantifier": "all programs whose instructions go to their own states, all renamings of states keeping A, all orders in which sets are iterated", "why_tests_cant": "Reduction inlines states one at a time in the order of the dict, so independence of the order is a claim about all graphs and all permutations.", "anchors": ["tools/graph.py:164-189", "tools/graph.py:192-258"]}
{"id": "C66", "title": "normalize gives every machine one canonical text", "statement": "normalize turns a program into a normal form: states and colours are first mentioned in increasing order when the table is read row by row, the first instruction goes right, and normalizing again changes nothing; and two programs get the same text exactly when they are the same machine up to the names of states and colours (A and blank kept) and mirroring.", "quantifier": "all rectangular program texts with every state reachable and nothing to cut or cinch, all renamings of them", "why_tests_cant": "Tests normalize a few stored programs; that every renaming of every machine lands on the same text, and that different machines never do, is a claim about all pairs of programs.", "anchors": ["tools/normalize.py:41-230", "test/test_program.py:10-15", "test/test_turing.py:115-125"]}
{"id": "C68", "title": "make_dot draws the machine", "statement": "The text returned by make_dot is a DOT graph that, read by DOT's own rules, has exactly one arrow for every instruction of the program, from its state to the state it goes to, in the colour of its column, and no other arrows; different columns have different colours; the program is the graph's label exactly if it has fewer than 50 characters.", "quantifier": "all program texts without quotes and backslashes whose states and targets are named by letters (or _) and whose instructions stand in the first eight columns", "why_tests_cant": "Tests compare the output for a few programs, or just see that it does not raise; they do not read it back as DOT.", "anchors": ["tools/dot.py: make_dot", "tools/graph.py: Graph.__init__", "tools/__init__.py: parse"]}
{"id": "C69", "title": "The Idris tapes are tapes", "statement": "Each of the seven tape types of the Idris simulators, whatever is done with it, behaves as one unbounded tape: it starts blank, shows the cell under the head, calls a side the blank edge only if it is blank, moves the head by one cell and writes the colour when stepped, moves over as many cells as it says, all of the scanned colour, when skipped, and answers correctly whether it is blank and how many marks it holds. Except for the pointer tape, each blank edge is noticed and a skip goes over all cells of the colour.", "quantifier": "all tapes that come up, all colours (decimal digits for the tape of numbers), both directions", "why_tests_cant": "The tests run a fixed list of machines; cells beyond those they reach, and the agreement between representations on all contents, remain open.", "anchors": ["idris/Tape.idr: CellTape, BlockTape, SplitTape, PtrTape, NumTape, CellVectTape, BlockVectTape"]}
{"id": "C70", "title": "A report of an Idris machine is true", "statement": "If a run of any of the seven machines reports so many steps and marks, then the textbook machine of the program, after exactly that many steps from the blank tape, has that many marks and has just halted, or its tape is blank for the first time since the start, or it spins out from there and never halts; if the limit is reported, it makes at least that many steps without halting and without a blank tape.", "quantifier": "all programs (digits printed, for the number machine), all limits, all seven machines; in text form all programs of up to twelve states and ten colours", "why_tests_cant": "The tests know the results of some dozens of machines; truth of the report for any other program is not settled by them.", "anchors": ["idris/Machine.idr: exec, run, runOnBlankTape", "idris/Tape.idr", "idris/Parse.idr: parse"]}
{"id": "C71", "title": "The Idris machines agree", "statement": "For the same program and limit all machines give the same report: the same steps, cycles and marks.", "quantifier": "all programs and limits, any two of the machines", "why_tests_cant": "Agreement on the listed programs says nothing of others: the pointer machine disagrees on programs not in the list, and hangs on one of them.", "anchors": ["idris/Machine.idr: CellMachine, BlockMachine, SplitMachine, PtrMachine, NumMachine, CellVectMachine, BlockVectMachine", "idris/Test.idr: runProgGroup"]}
{"id": "C72", "title": "Recurrence found by the Idris machines", "statement": "If the recurrence run reports, the machine recurs: it spins out, or comes again to a configuration up to a shift, and so never halts; a machine that recurs is reported if the limit is large enough; and the machines agree.", "quantifier": "all programs and limits, all machines", "why_tests_cant": "Recurrence is about infinite runs; the tests check the numbers for a few machines known to recur.", "anchors": ["idris/Machine.idr: runDouble, runDoubleOnBlank"]}
{"id": "C73", "title": "The Idris reader reads programs right", "statement": "A program text in the usual form is read as the machine its table shows: each cell gives its colour, direction and state, the underscore halts, dots halt; other states and colours halt; only decimal digits are ever printed; a text is accepted exactly if it consists of so many rows of so many cells of three characters, with white space between.", "quantifier": "all program texts of n rows and k columns", "why_tests_cant": "Tests read a fixed list of programs of few states; the reader takes any letter but knows only twelve.", "anchors": ["idris/Parse.idr: parse", "idris/Program.idr: CastState"]}
{"id": "C74", "title": "The C simulators print, for every program of their input, the machine's own steps and marks", "statement": "Given lines of program texts as the Makefile feeds them, each simulator of machines/ (2-2, 2-3, 2-4, 3-2, 4-2, 5-2) prints, in order, one line with the number, the text, the steps and the marks of each program that, within fewer steps than its limit, halts, blanks its tape or spins out at the edge of the tape; it prints nothing for the others; a line does not depend on the programs that ran before; no cell outside the array is read or written; and it ends with \"done\". The steps are the moves the machine makes until then.", "quantifier": "every list of tables of the simulator's size, every limit below 2^31", "why_tests_cant": "The .test files hold 80 programs and their output is compared with nothing; that the array is wide enough, is clean again after every run and that the counters are the machine's is a claim about every program and every order.", "anchors": ["machines/machine.h:1-109", "machines/2-2.c:1-55", "machines/2-3.c:1-69", "machines/2-4.c:1-80", "machines/3-2.c:1-64", "machines/4-2.c:1-70", "machines/5-2.c:1-80", "machines/Makefile:11-13"]}
{"id": "C75", "title": "Equality of symbolic numbers is equality of expressions", "statement": "Whatever numbers were built before and in whatever order, two symbolic numbers made of ints, sums, products, quotients and powers compare equal with == exactly when they are the same expression; a number keeps its expression for good; asking again for an expression that has an object gives that very object and makes nothing new.", "quantifier": "all histories of requests for sums, products, quotients and powers (failed ones and tetrations among them), all pairs of numbers alive at the end", "why_tests_cant": "== is identity and rests on four global tables filled by everything the process has computed so far; tests see a few histories and compare numbers they built themselves.", "anchors": ["tm/num.py:23-26", "tm/num.py:66-67", "tm/num.py:142-152", "tm/num.py:335-345", "tm/num.py:647-654", "tm/num.py:797-820", "tm/num.py:1183-1230"]}
{"id": "C76", "title": "The text of a symbolic number is worth the number", "statement": "The text printed for a symbolic number, worked out as Python arithmetic, gives the same integer as int() of the number, and different expressions have different texts.", "quantifier": "all expressions of sums, products, quotients and powers", "why_tests_cant": "Texts are built recursively with parentheses, a special form for -1 and two truncation rules; a test compares a few fixed texts and cannot tell that no two numbers share one.", "anchors": ["tm/num.py:172-184", "tm/num.py:375-391", "tm/num.py:673-683", "tm/num.py:841-858", "tm/num.py:2243-2258"]}
{"id": "C77", "title": "An estimate has the size of the number", "statement": "When estimate() of a symbolic number answers plus or minus 10 ** k, the absolute value of the number is about 10 ** k: off by at most half a power of ten for each rounding on the way.", "quantifier": "all symbolic numbers that stand for integers, whatever floating point answers within its rounding", "why_tests_cant": "Estimates are made for numbers far too great to write out, from rounded logarithms of their parts; tests compare them with texts recorded from the same code.", "anchors": ["tm/num.py:45-58", "tm/num.py:186-193", "tm/num.py:393-403", "tm/num.py:704-705", "tm/num.py:831-839", "tm/num.py:860-867", "measure.py:12"]}
{"id": "C78", "title": "A structured program does what its Turing machine does", "statement": "Each handwritten C program in machines/structured comes to its final check exactly where the Turing machine that it is for (its PROGRAM, or else the machine listed with as many steps in idris/BB.idr) first halts, has a blank tape, or spins out where that is checked for; STEPS then is the number of moves made, MARKS the number of marks, and tape and head are the machine's, so that the assertion holds if and only if the machine stops after as many moves as the file's name says. It never reads or writes outside its array.", "quantifier": "every run of each of the sixteen programs, for any number of moves", "why_tests_cant": "The programs are loops and jumps arranged by hand; running one shows that one number came out, not that every move on the way was the machine's, and not that all memory read was in the array: reading outside it may go unnoticed.", "anchors": ["machines/structured/machine.h:5-59", "machines/structured/21.c:5-37", "machines/structured/2819.c:7-71", "machines/structured/2315619.c:3-66", "machines/structured/2333909.c:3-68", "machines/structured/3932964.c:3-63", "machines/structured/32779477.c:1-56", "machines/structured/9340.c:1-69", "machines/structured/455790469742.c:9", "machines/structured/Makefile:10-12", "idris/BB.idr:24-68"]}
{"id": "C79", "title": "The tree search drops only programs that are settled", "statement": "The tree tests of src/tree.rs count as holdouts the programs that the filter skip_all keeps, so what it drops must not matter: if skip_all(prog, params, halt) answers true for a program whose table is complete (all slots filled, or all but one when a halt is looked for; every state entered; every colour printed) and whose last state can get back to the first, then the program either halts or spins out within its first 300 stretches (a stretch being one move, or a whole sweep over equal cells in the same state) or never does what is looked for: never halts (halt = true), never spins out (halt = false). Conversely what skip_all keeps is complete, connected, and does not end within 300 stretches.", "quantifier": "all programs with at least two states and colours that start with 1RB; both values of halt; both directions", "why_tests_cant": "The tree tests compare two numbers, how many programs were visited and how many were kept; a program dropped by mistake only makes the second number smaller, and nothing in the tests says which programs the number should count.", "anchors": ["src/tree.rs", "src/macros.rs", "src/machine.rs", "src/prover.rs"]}
{"id": "C80", "title": "A run with symbolic counts reports what really happens", "statement": "Once the counts on the tape of Machine(prog).run(lim) have become expressions such as (-2 + (2 ** 62)), the run still describes the real machine: undfnd means that the machine on blank tape halts in the slot reported, spnout that it spins out, xlimit that it is still running; the steps reported, if any, are the moves made; every state listed in blanks was entered on blank tape; and the tape and the number of marks, as expressions, are worth the blocks and the marks of the real tape.", "quantifier": "every program, every limit, counts of any size, any nesting of expressions", "why_tests_cant": "The runs in question stand for numbers of moves that cannot be made; the tests compare the text of the expression with one recorded earlier, which shows only that it has not changed.", "anchors": ["tm/machine.py: Machine.run", "tm/tape.py: Tape, TagTape", "tm/rules.py: apply_rule", "tm/prover.py: Prover.try_rule", "tm/num.py"]}
{"id": "C81", "title": "The strict recurrence checker reports exactly the recurrences", "statement": "StrictLinRecMachine(prog).run(sim_lim, check_rec) sets linrec to (start, period) only if the machine on blank tape repeats itself from step start on every period steps, in place or drifting, and period is the least such number; every machine that comes to repeat itself gets an answer once the limit is large enough; spnout is set exactly for those that spin out; qsihlt is set exactly for those that leave some state for good; undfnd is the step and slot at which it halts; blanks holds the first step of each state at which the tape was blank.", "quantifier": "every program, every limit, every check_rec", "why_tests_cant": "The tests run it on a table of programs whose recurrences were found by the same code; they cannot show that a period is the least one, that the machine goes on like this for ever, or that no recurrence is missed.", "anchors": ["test/lin_rec.py: StrictLinRecMachine.run", "test/lin_rec.py: History.verify_lin_rec", "test/lin_rec.py: PtrTape.aligns_with_optional_offsets", "test/test_turing.py: assert_quasihalt"]}
{"id": "C82", "title": "Checking a recurrence on samples", "statement": "A recurrence claimed for a program, start and period and checked on the tapes sampled by LinRecSampler is real: if history.verify_lin_rec(start, start + period) answers (start, period) with the same state at both, the machine repeats itself from then on, and if it answers None it does not; so a program that passes the check of the tests never halts, and a true entry of the table passes it.", "quantifier": "every program, every start and period, every set of samples", "why_tests_cant": "Each test checks one entry of a table; whether the seven samples suffice to tell a recurrence from a coincidence is a question about all programs.", "anchors": ["test/lin_rec.py: LinRecSampler.run", "test/lin_rec.py: History.verify_lin_rec", "test/test_turing.py: verify_lin_rec, assert_lin_rec, deny_lin_rec"]}
{"id": "C83", "title": "The loose recurrence checker agrees with the decider it is compared with", "statement": "For a program whose first instruction is 1RB, run_loose_linrec_machine reports undfnd only at the step and slot at which the machine halts, spnout only if it spins out from there, infrul only if it repeats itself for ever, xlimit only if it is still running; blanks holds the first step of each state at which the tape was blank; every machine that comes to repeat itself is reported as infrul or spnout once the limit is large enough, and so exactly the programs to which quick_term_or_rec says yes.", "quantifier": "every program that starts with 1RB, every limit", "why_tests_cant": "The tests run both on the same table of recurring programs; they cannot show that neither misses a recurrence nor that the two never disagree.", "anchors": ["test/lin_rec.py: run_loose_linrec_machine", "test/lin_rec.py: HeadTape.aligns_with", "src/machine.rs: quick_term_or_rec"]}
{"id": "C84", "title": "A larger limit never takes an answer back", "statement": "If a run, a decider or a checker gives an answer other than 'limit reached' with some limit, then it gives the very same answer with every larger limit: run_quick_machine, quick_term_or_rec, Machine.run (with integer and with symbolic counts; tape, counts and learned rules included), run_prover and run_for_infrul (plain and over macros with their caches), segment_cant_halt, the strict and the loose recurrence checker, both runs of the seven Idris machines. With more turns instr_seq only adds entries. (For cant_halt, cant_blank and cant_spin_out this is part of C50.)", "quantifier": "all programs (or lookup functions), all pairs of limits", "why_tests_cant": "Tests run each program with one limit; that no other limit would give another answer is a statement about all limits.", "anchors": ["src/machine.rs:170-446", "src/segment.rs:29-51", "tm/machine.py:139-234", "tools/instr_seq.py:15-62", "test/lin_rec.py:412-624", "idris/Machine.idr:38-83"]}
{"id": "C85", "title": "While its counts stay integers, a Machine run does not depend on the symbolic arithmetic", "statement": "Machine(prog).run() computes block lengths with ints until a rule with a multiplication produces a symbolic expression. As long as that does not happen (and no exception leaves run), everything the run reports - how it ended, steps, cycles, number of rule applications, blank tapes, suspected rules, the final tape, its marks, and the rules learned - is what the same run computed with integers alone reports. In particular it does not depend on floating-point roots or logarithms or on the depth limits of tm/num.py.", "quantifier": "every program (plain or macro), every limit, every behaviour of the floating-point functions", "why_tests_cant": "Tests compare results for listed programs; they cannot show that the arithmetic classes are never involved in the run of an arbitrary program with integer counts.", "anchors": ["tm/machine.py:139", "tm/prover.py:107", "tm/rules.py:52", "tm/rules.py:255", "tm/rules.py:287", "tm/tape.py:155", "tm/num.py:1"]}
{"id": "C86", "title": "Expanding compact notation keeps the program", "statement": "expand(s) for a program s in compact notation (cells of three characters, rows separated by '_', '---' or an instruction with the letter Z or a dash for an undefined instruction; possibly with the end of the line) gives a text in the project's own notation with the same rows and cells, and tcompile reads it as that very program.", "quantifier": "every table of any shape with colours 0-9 and states A-Y, every way to write undefined cells, every surrounding tabs and line ends", "why_tests_cant": "The test has three examples; it cannot show that slicing and splitting keep every cell of tables of other shapes.", "anchors": ["tools/normalize.py:16", "src/instrs.rs:46", "normalize.py:15"]}
{"id": "C87", "title": "A machine object names exactly one outcome", "statement": "After Machine(prog).run(n) exactly one of undfnd, spnout, xlimit, infrul, cfglim and limrul is set, and simple_termination is the number of steps exactly when that is undfnd or spnout; the getters of the Rust MachineResult agree with each other in the same way and never panic. Running the same object again leaves it as a new object would be after that run.", "quantifier": "every plain program, every limit, every list of further runs", "why_tests_cant": "The tests look at one or two attributes of a few runs and never run an object twice.", "anchors": ["tm/machine.py:33", "tm/machine.py:127", "tm/machine.py:139", "src/machine.rs:96", "src/machine.rs:110"]}
{"id": "C88", "title": "The printed line tells the run", "statement": "If two machines print the same line, they ran the same program and have the same cycles, marks, number of configurations, rule applications and outcome (with its steps and slot), where marks and rule applications are integers below 10^12.", "quantifier": "every pair of plain programs with one-digit colours and at most 26 states, every pair of runs", "why_tests_cant": "A test compares one line with an expected text; that no two different runs share a line is about all pairs.", "anchors": ["tm/machine.py:84", "tm/machine.py:76", "tm/num.py:2247", "src/instrs.rs:62"]}
{"id": "C89", "title": "Towers compare and combine by their size", "statement": "A tower b ↑↑ h (what estimate() answers for numbers too great for a power of ten) compares with ints, powers and towers as their values do, so that estimates can be ordered; n ** (b ↑↑ h) is exact, a tower minus itself is 0, and adding a smaller number or multiplying with one stays below the next tower.", "quantifier": "all bases from 2, heights and exponents from 1, all ints", "why_tests_cant": "Values of towers cannot be computed; the tests compare a handful of towers with each other.", "anchors": ["tm/num.py:1184", "tm/num.py:1230", "tm/num.py:1224", "tm/num.py:1250", "tm/num.py:45"]}
{"id": "C90", "title": "The text of a tape tells the tape", "statement": "Two tapes whose text is the same have the same scanned colour and the same blocks on both sides (and the same head position where it is printed); Python and Rust print the same text. In Python, counts are below 10^12.", "quantifier": "all tapes, with any colours and counts", "why_tests_cant": "That no two tapes share a text is about all pairs of tapes; tests compare single tapes with single texts.", "anchors": ["tm/tape.py:32", "tm/tape.py:70", "src/tape.rs:28", "src/tape.rs:225", "src/tape.rs:396"]}
{"id": "C91", "title": "Left and right are interchangeable", "statement": "Turning every move of a program around (each L for R and R for L) changes none of the reports on it: run_quick_machine gives the same result, steps, cycles, marks, blanks and last slot, cant_halt, cant_blank and cant_spin_out give the same answers at every depth, segment_cant_halt answers with the same number of segments, run_prover gives the same result, and Machine the same outcome, steps, cycles, number of rule applications and blanks, with the tape turned around. opt_block chooses the same block size for both. The same holds of Machine over macros.", "quantifier": "all programs, all limits and depths", "why_tests_cant": "The tests list each program in one orientation only (the first move is to the right); nothing compares a program with its mirror image, and agreement has to hold for every tape that a run can meet.", "anchors": ["src/machine.rs:318-380", "src/reason.rs:23-308", "src/reason.rs:449-507", "src/tape.rs:454-540", "src/segment.rs:29-51", "src/machine.rs:219-312", "src/rules.rs:147-178", "src/blocks.rs:91-110", "tm/macro.py:271-316"]}
{"id": "C92", "title": "The names of states and colours do not matter", "statement": "Renaming the states and the colours of a program, keeping the start state and the blank and giving no name twice, changes none of the reports on it but for the names in them: Machine (with every rule it finds and applies), run_quick_machine, run_prover and run_for_infrul end in the same way after the same steps, cycles and applications of rules, with the same tape, blanks and slot under the new names. quick_term_or_rec, cant_halt, cant_blank and cant_spin_out give the same answers, though the new names bring the instructions into another order. opt_block chooses the same block size. A macro over the renamed program answers and runs as the one over the program, its states and colours renamed part by part.", "quantifier": "all programs and macro lookups, all injective renamings, all limits", "why_tests_cant": "The tests hold one naming of each program (the normal form); agreement depends on every signature, rule and past configuration that comes up in a run.", "anchors": ["tm/machine.py:139-234", "tm/prover.py:20-169", "tm/tape.py:1-305", "src/machine.rs:170-380", "src/machine.rs:384-446", "src/prover.rs:28-338", "src/reason.rs:23-308", "src/blocks.rs:1-110", "tm/macro.py:135-377"]}
{"id": "C93", "title": "Answers about a text are answers about the machine written there", "statement": "Every function of the library that takes the text of a program (tcompile, run_quick_machine, run_prover, Machine with and without macro options, cant_halt, cant_blank, cant_spin_out, segment_cant_halt, is_connected, quick_term_or_rec, opt_block), given a table of instructions with or without white space around it, answers without failing to read it, and what it answers is true of the machine written there: halting slots, steps and marks, spin-outs, blank tapes, the impossibility claims, connectedness, recurrence. Showing what was read gives back the text without the white space, and what is shown of a program is a text of that program.", "quantifier": "all texts of tables, all white space around them, all limits and depths", "why_tests_cant": "The tests call these functions on texts and compare with listed answers; that no text is misread on the way to a decider and that the answer holds of the machine cannot be seen from listed answers.", "anchors": ["src/lib.rs:49-115", "src/instrs.rs:39-75", "src/machine.rs:219-380", "tm/machine.py:59-75"]}
{"id": "C94", "title": "The command line tools treat every line as its program", "statement": "Given a file of programs, one per line, normalize.py prints line by line the normal form of each table and the expansion of each compact text (with --tree the tree normal form), c_prog.py the C program of each, instr_seq.py the sequence of each, as if the line feed were not there. just_so.py prints some of the lines, unchanged and nothing else, and does not drop a program that can do what was asked for (halt, blank the tape, spin out).", "quantifier": "all files of programs, all depths", "why_tests_cant": "The scripts have no tests; they pass lines on with their line feeds, and whether each function takes that well depends on how it reads.", "anchors": ["normalize.py:7-21", "c_prog.py:6-10", "instr_seq.py:6-22", "just_so.py:14-50", "tools/__init__.py:18-25"]}
{"id": "C95", "title": "branch_last lists every completion of a program once", "statement": "For a program with exactly one open slot, with or without a line feed after it, branch_last returns, for every instruction over the states and colours of the table and once each, the text of the program with that instruction in the open slot.", "quantifier": "all tables of at most 26 states and 10 colours with one open slot", "why_tests_cant": "The tests use it on a few programs and look only at how many of the branches behave in some way.", "anchors": ["test/test_turing.py:201-223", "tools/__init__.py:14-25", "branch.py:8-14"]}
{"id": "C96", "title": "dump_graphs.py draws each program to a file named after it", "statement": "For each line of the input dump_graphs.py writes the drawing of the program to the temporary file and calls dot so that the picture is written to the file named after the program, with underscores for spaces and .png at the end.", "quantifier": "all files of programs", "why_tests_cant": "The script has no tests, and what dot is called with depends on how shlex cuts the command.", "anchors": ["dump_graphs.py:8-16", "tools/dot.py:16-30"]}
{"id": "C97", "title": "The options of just_so.py are obeyed", "statement": "The number given with --cycles is the limit of whichever decider was chosen.", "quantifier": "all files of programs, all options", "why_tests_cant": "The script has no tests; the answer seldom depends on the limit.", "anchors": ["just_so.py:14-50"]}
{"id": "C98", "title": "A signature tells the colours around the head, and counts change nothing else", "statement": "Two tapes have the same signature exactly if they scan the same colour and have the same colours of blocks on each side, with single cells at the same places; a tape is compatible with a signature exactly if it has at least as many blocks on each side and the colours of the signature, nearest first; signature and counts together tell the tape. set_count fails exactly where there is no block and otherwise changes that count, no other one and no colour. Tapes of the same colours read the same colour after the same instruction, in Python and in Rust, and answer alike whether they are blank, at an edge, and how many blocks they have.", "quantifier": "all tapes, all signatures of tapes, all places and counts, all instructions", "why_tests_cant": "The prover compares tapes only by their signatures; tests compare a few tapes, and a signature that forgets a block or a colour shows up as a false rule only on long runs.", "anchors": ["tm/tape.py:76-155", "src/tape.rs:97-125", "src/tape.rs:177-207", "src/tape.rs:243-326", "src/tape.rs:369-383"]}
{"id": "C99", "title": "The tools never contradict each other about a program", "statement": "If some run (run_quick_machine, Machine, run_prover, the latter two as long as no rule was applied), with whatever limit, says that a program halts, then every run that says so gives the same step, slot and number of marks, no run says that it spins out or never halts, and neither cant_halt nor segment_cant_halt nor quick_term_or_rec says that it cannot halt; cant_spin_out does not deny a spin-out, and cant_blank does not deny a blank tape, that a run has reported.", "quantifier": "all texts of programs, all limits, depths and numbers of segments", "why_tests_cant": "Each tool is tested on its own list of programs; no test compares the answers of all tools on all programs.", "anchors": ["src/machine.rs:221-382", "src/machine.rs:384-446", "tm/machine.py:139-234", "src/reason.rs:23-106", "src/segment.rs:29-60"]}
{"id": "C100", "title": "The prover's rule book answers the first rule stored for a tape of this shape, keeps what it learns, and bounds its records", "statement": "Whatever rules have been handed to a Prover with set_rule, get_rule answers for a state and a tape the rule of the first entry stored for that state whose part of the tape the tape begins like: the same scanned colour, and on each side blocks of the same colours with single cells at the same places, with nothing beyond them where the entry says the tape ends there. It answers None exactly if there is no such entry. When try_rule answers a rule, the rule was stored for this tape already, or it has just been stored as one new entry that is meant for this very state and tape; any other answer leaves the stored rules alone. The records of past cycles are kept apart by signature: a record is found for the tapes of the same shape and for no other. ConfigLimit is raised exactly if no rule is known, no tape of this shape is recorded, and more than 100000 shapes are; no call adds a record beyond that. This holds of Python and of Rust.", "quantifier": "for all sequences of set_rule calls, all lookups of instructions, all states, cycles and tapes of any length and counts", "why_tests_cant": "The number of stored rules, of tape shapes and of flag combinations is unbounded; a wrong comparison shows only when two rules of one slot differ at the far end of a tape.", "anchors": ["tm/prover.py:39-68", "tm/prover.py:94-169", "src/prover.rs:43-86", "src/prover.rs:112-235", "tm/tape.py:205-305"]}
{"id": "C101", "title": "Watching a run changes nothing and every line shown is true", "statement": "Machine(prog).run(sim_lim, watch_tape=True) leaves the same results as run(sim_lim), and prints one line for each cycle, numbered from 0 on, and one more after the end if the run ended at an undefined slot or the tape was blank on the way. If the run applied no rule, or every rule that the prover holds at the end is a law of the machine, then each line tells what the machine is really like after some number of moves: the state, the scanned colour and the tape, and where a number of moves is printed (always if no rule was applied) it is that number; the lines of the cycles are each later than the one before. The last line shows the tape and the number of moves that the run ended with, unless it ended at the limit without ever being blank (then the tape of the end is not shown at all); after an undefined slot the same configuration is shown twice, under two cycle numbers. Two lines with counts below 10^12 that print as the same text agree in cycle, number of moves, state and tape.", "quantifier": "all programs (not macros), all limits, all runs on int counts; all lines", "why_tests_cant": "The unit tests never watch a run, and whether each of unboundedly many lines is a configuration that the machine goes through, in order of time, also after leaps by rules, is a statement about all programs and runs.", "anchors": ["tm/machine.py:111-125", "tm/machine.py:139-234", "tm/tape.py:32-39", "tm/tape.py:70-74", "run.py:18-24"]}
{"id": "C102", "title": "The instructions a macro has met, written out, are a program for its run", "statement": "For every program and every block or backsymbol macro over it, show_comp(macro.instrs) taken after a run (as dump_macros.py does) is the text of a program that, started on a blank tape, makes the same moves as the macro machine did, whose configurations stand for configurations of the base machine, and that stops where the macro machine stopped; and dump_macros.py prints that program in normal form.", "quantifier": "for every program, macro size and kind, number of macro steps and history of further lookups", "why_tests_cant": "The memo depends on every slot met during a run; tests compare a handful of dumps, none with colours of two digits, endless loops inside a block or a memo that the normalizer rejects.", "anchors": ["dump_macros.py:11-23", "tm/macro.py:135-186", "src/instrs.rs:62-84"]}
{"id": "C103", "title": "The Idris runner lists every program with its number and the right number of moves", "statement": "The program idris/Run reads programs, one on each line, until an empty line or the end of the input, and prints for each one line with its number in the input, its text and the number of moves after which the machine started on the blank tape halts, leaves a blank tape or spins out; at the end it prints done. A program that does none of this within the limit, or a line that is not a program, does not disturb what is printed of the others.", "quantifier": "All numbers of states and colours, all limits, all lists of input lines", "why_tests_cant": "A test feeds a few lines of one kind; which programs reach the limit and where an unreadable line stands vary without bound, and the number printed is right only if it is the machine's true number of moves.", "anchors": ["idris/Run.idr:19-39", "idris/Machine.idr:36-54", "idris/Parse.idr:100-134"]}
{"id": "C104", "title": "The Idris test passes only if the listed numbers are right", "statement": "If the program idris/Test ends without failure, then each listed program that it runs can be read, and for each the listed number of moves and of marks is right: the machine halts, leaves a blank tape or spins out after so many moves with so many marks, or, for those listed as recurring, it recurs.", "quantifier": "All lists of groups of programs with their numbers, all limits, with and without the slow tests", "why_tests_cant": "This is about what a passing test establishes, for any list of programs, also one with wrong numbers; running the test on the list at hand says nothing about that.", "anchors": ["idris/Test.idr:14-98", "idris/BB.idr:3-15", "idris/Machine.idr:36-83"]}
{"id": "C105", "title": "The text shown for a macro program identifies it", "statement": "Two Machine objects made without explicit params whose programs are shown by the same text (prog_str: the table, then the number of cells and the kind of each macro) have the same program: for every state and colour they answer with the same instruction, the same missing slot or the same report of a loop. So a name in a listing or a log stands for one macro program, in whatever order its slots were listed and whether the blocks were given or chosen by opt_macro. Two such machines that print the same line also agree on the marks and on the outcome.", "quantifier": "All programs with colours below 10 and 26 states at most, all blocks, backsym and opt_macro, all slots", "why_tests_cant": "The claim compares all pairs of programs and macros; a test compares a few texts with what is expected, and two macros that share a text would have to be met by chance.", "anchors": ["tm/macro.py:151-158", "tm/macro.py:23-48", "tm/machine.py:76-82", "tm/macro.py:121-132"]}
