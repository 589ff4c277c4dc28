{
 "claims": [
  {
   "property": "C01",
   "status": "proved",
   "theorems": [
    "C01_py_step_refines_machine",
    "C01_rs_step_refines_machine",
    "C01_skip_length"
   ],
   "note": "Integer counts; symbolic counts are outside the tape model."
  },
  {
   "property": "C02",
   "status": "proved",
   "theorems": [
    "C02_history_canonical"
   ],
   "note": "Histories of the Python step; C04 transfers it to Rust."
  },
  {
   "property": "C03",
   "status": "proved",
   "theorems": [
    "C03_marks"
   ],
   "note": ""
  },
  {
   "property": "C04",
   "status": "proved",
   "theorems": [
    "C04_python_rust_same_step",
    "C04_python_rust_same_histories"
   ],
   "note": ""
  },
  {
   "property": "C05",
   "status": "proved",
   "theorems": [
    "C05_no_sharing",
    "C05_progress"
   ],
   "note": "Block objects with identity and in-place updates against tapes as values."
  },
  {
   "property": "C06",
   "status": "proved",
   "theorems": [
    "C06_undfnd_exact"
   ],
   "note": "u64 overflow of the step counter is not modelled."
  },
  {
   "property": "C07",
   "status": "proved",
   "theorems": [
    "C07_spnout_never_halts"
   ],
   "note": ""
  },
  {
   "property": "C08",
   "status": "proved",
   "theorems": [
    "C08_blanks_truthful",
    "C08_infrul_never_halts"
   ],
   "note": ""
  },
  {
   "property": "C09",
   "status": "proved",
   "theorems": [
    "C09_complete_below_limit"
   ],
   "note": ""
  },
  {
   "property": "C10",
   "status": "proved",
   "theorems": [
    "C10_yes_means_never_halts",
    "C10_other_first_instr_refuted"
   ],
   "note": "drop_halt = false; the second theorem shows the condition A0 = 1RB is needed."
  },
  {
   "property": "C100",
   "status": "proved",
   "theorems": [
    "C100_answers",
    "C100_silent",
    "C100_try_python",
    "C100_try_rust",
    "C100_records",
    "C100_limit"
   ],
   "note": "Concrete cases C100_case and C100_try_case (a whole run of the prover). The book is described by the tapes cut off that its signatures stem from. Counts are integers; the symbolic prover is not covered by this entry."
  },
  {
   "property": "C101",
   "status": "proved",
   "theorems": [
    "C101_watching_changes_nothing",
    "C101_lines_true",
    "C101_lines_count",
    "C101_lines_numbered",
    "C101_last_line",
    "C101_text_tells",
    "C101_limit_not_shown_refuted"
   ],
   "note": "Model of show_tape and of run with watch_tape (WatchModel.v). The refuted theorem is the finding that at the limit the tape of the end is shown nowhere. Symbolic counts and macros are not covered."
  },
  {
   "property": "C102",
   "status": "partial",
   "theorems": [
    "C102_shown_replays_partial",
    "C102_two_digits_refuted",
    "C102_loop_refuted",
    "C102_dump_raises_refuted"
   ],
   "note": "False in general: with more than ten macro colours the text is misread without complaint (12LD is read as 1LL); where the macro machine stopped because it loops inside a block, the program written out halts although the machine never does; and normalize, which dump_macros.py applies, raises on some of these tables (and changes others, C27). Proved for every program and macro whose stored colours are below 10 and states below 26: the text is read as a program that replays the macro run move by move, stands for base configurations, and stops where it stopped, also when further slots were looked up."
  },
  {
   "property": "C103",
   "status": "partial",
   "theorems": [
    "C103_listing_partial",
    "C103_empty_line",
    "C103_one_line_refuted",
    "C103_unread_refuted"
   ],
   "note": "Proved: given programs in the usual form, what is printed is the listing of the specification (number, text and the true number of moves; only the number for programs that reach the limit), and an empty line ends the input. False in general: a program that reaches the limit leaves its number on the line of the next one, so the second of two programs is listed as number 12 (C103_one_line_refuted); after a line that is not a program the runner stops without running the rest and without printing done (C103_unread_refuted). The limit, 100000000 in the code, is a parameter; reading of the arguments is not modelled."
  },
  {
   "property": "C104",
   "status": "partial",
   "theorems": [
    "C104_single_partial",
    "C104_double_partial",
    "C104_readable",
    "C104_wrong_passes_refuted"
   ],
   "note": "Proved when, besides, no line with Whoops! is printed: then the listed numbers of moves and marks are right of the textbook machine of the table. False as stated: when the numbers differ the test prints a line and goes on, and ends without failure (C104_wrong_passes_refuted); only programs that cannot be read or reach the limit make it fail. For recurring programs a machine that stops is not excluded (C72). The list of idris/BB.idr and the limit are parameters; numbers of cycles are compared but not specified."
  },
  {
   "property": "C105",
   "status": "proved",
   "theorems": [
    "C105_same_text_same_program",
    "C105_same_text_same_parts",
    "C105_params_refuted",
    "C105_line"
   ],
   "note": "Explicit params are not part of the text, and macros that differ in them differ in their answers (C105_params_refuted); the claim is about machines made without. The same holds of the whole line that print(machine) shows (C105_line)."
  },
  {
   "property": "C11",
   "status": "proved",
   "theorems": [
    "C11_apply_rule_iterates",
    "C11_rust_none_untouched_refuted"
   ],
   "note": "Python apply_rule on integer counts, including one application of a multiplicative entry. Rust: see C12; the second theorem shows that Rust may return None after changing the tape (overflow)."
  },
  {
   "property": "C12",
   "status": "partial",
   "theorems": [
    "C12_agree_one_decreasing",
    "C12_two_decreasing_refuted"
   ],
   "note": "The full statement is false: with two decreasing counts Rust adds the absolute difference. Agreement proved when at most one count decreases and nothing exceeds u64."
  },
  {
   "property": "C13",
   "status": "proved",
   "theorems": [
    "C13_apply_mult_closed_form"
   ],
   "note": "Integer values; the power is taken as an integer (symbolic powers: C36, C37, C40)."
  },
  {
   "property": "C14",
   "status": "partial",
   "theorems": [
    "C14_same",
    "C14_plus",
    "C14_mult_partial",
    "C14_no_zero_division",
    "C14_fourth_count_refuted",
    "C14_rust",
    "C14_rust_large_refuted",
    "C14_rust_unknown"
   ],
   "note": "The full statement is false: a returned pair may fail to explain the fourth count (3, 7, 19, 36 gives (3, -2)). Proved for additive differences and, for pairs, for the first three counts and for the fourth when the quotients agree. Rust: proved below 2^31, refuted above. Symbolic counts are the subject of C63."
  },
  {
   "property": "C15",
   "status": "proved",
   "theorems": [
    "C15_infinite_iff_nothing_decreases",
    "C15_rule_contents",
    "C15_rust"
   ],
   "note": "Integer counts; Rust for counts below 2^31 (make_rule does not panic, gives one entry per changed count, and no rule only where some count is not explained)."
  },
  {
   "property": "C16",
   "status": "proved",
   "theorems": [
    "C16_next_deltas_extrapolates",
    "C16_records_bounded",
    "C16_five_distinct_calls_refuted"
   ],
   "note": "i32 overflow not modelled. The third theorem records that the first call for a new state counts twice."
  },
  {
   "property": "C17",
   "status": "proved",
   "theorems": [
    "C17_converter_bijection",
    "C17_prog_params_radix_refuted"
   ],
   "note": "All histories of conversions of k-tuples of colours below b. The refuted theorem shows the radix that prog_params computes can be too small (programs printing colours with no slot), then tuples collide."
  },
  {
   "property": "C18",
   "status": "proved",
   "theorems": [
    "C18_block_instruction"
   ],
   "note": "Any base lookup (plain program or another macro), any history of the shared caches."
  },
  {
   "property": "C19",
   "status": "proved",
   "theorems": [
    "C19_block_error",
    "C19_block_infloop"
   ],
   "note": "sim_lim = states*cells*colors^cells shown sufficient by pigeonhole; KeyError case included."
  },
  {
   "property": "C20",
   "status": "partial",
   "theorems": [
    "C20_back_instruction",
    "C20_back_error",
    "C20_back_infloop",
    "C20_one_colour_infloop_refuted",
    "C20_rust_split_refuted"
   ],
   "note": "Instructions proved in full; MacroInfLoop claim proved for at least two colours (the limit suffices by a Moore-partition argument) and refuted for one colour. The Rust output split differs from the Python one (refuted)."
  },
  {
   "property": "C21",
   "status": "proved",
   "theorems": [
    "C21_macro_run",
    "C21_macro_halts_iff"
   ],
   "note": "Block and backsymbol macros over plain programs with honest parameters; backsymbol with at least two colours. C21_counted_params_refuted shows that the parameters are needed."
  },
  {
   "property": "C22",
   "status": "partial",
   "theorems": [
    "C22_history_independent",
    "C22_same_or_assertion",
    "C22_unseen_refuted"
   ],
   "note": "Proved for slots whose state and colour were produced by earlier lookups; literal statement refuted: an unseen colour raises AssertionError until the converter has produced it."
  },
  {
   "property": "C23",
   "status": "proved",
   "theorems": [
    "C23_parse_show",
    "C23_parse_show_inferred",
    "C23_two_digit_colour_refuted",
    "C23_state_68_refuted"
   ],
   "note": "Equality of compiled programs as maps. Refuted theorems show what happens outside the stated range."
  },
  {
   "property": "C24",
   "status": "proved",
   "theorems": [
    "C24_show_parse",
    "C24_parse_any_shape",
    "C24_slot_roundtrip",
    "C24_slot_text_roundtrip",
    "C24_instr_roundtrip",
    "C24_instr_text_roundtrip",
    "C24_white_space_around"
   ],
   "note": "Well-formed text is given by an inductive grammar independent of the reader."
  },
  {
   "property": "C25",
   "status": "proved",
   "theorems": [
    "C25_swap_states_run",
    "C25_swap_states_twice",
    "C25_swap_colors_run",
    "C25_swap_colors_twice"
   ],
   "note": "Dict-of-dicts tables; the run statement holds for every table on which the swap succeeds, the involution for tables with rows 0..S-1 and columns 0..C-1."
  },
  {
   "property": "C26",
   "status": "proved",
   "theorems": [
    "C26_directions",
    "C26_directions_defined"
   ],
   "note": ""
  },
  {
   "property": "C27",
   "status": "partial",
   "theorems": [
    "C27_normalize_refuted",
    "C27_normalize_cut_refuted",
    "C27_normalize_partial"
   ],
   "note": "False in general: cinch exchanges the start state with another state even if the first never leaves itself (a program that spins for ever becomes one that halts), and reachable all-undefined rows are deleted. Proved where nothing is cut or cinched (first instruction prints a mark, every row and column used, every state entered)."
  },
  {
   "property": "C28",
   "status": "partial",
   "theorems": [
    "C28_tree_norm_partial",
    "C28_order_refuted",
    "C28_in_order_kept"
   ],
   "note": "Proved: the result is the program renamed; a program already in order is kept. False: the result need not be in order."
  },
  {
   "property": "C29",
   "status": "proved",
   "theorems": [
    "C29_is_connected",
    "C29_is_connected_rust"
   ],
   "note": "For programs whose transitions stay within the table (otherwise both raise/panic)."
  },
  {
   "property": "C30",
   "status": "proved",
   "theorems": [
    "C30_entry_exit"
   ],
   "note": ""
  },
  {
   "property": "C31",
   "status": "proved",
   "theorems": [
    "C31_reduced",
    "C31_reduce_graph"
   ],
   "note": "Also that the reduced graph is irreducible: no reflexive arrow, at least two exits everywhere, no single entry."
  },
  {
   "property": "C32",
   "status": "partial",
   "theorems": [
    "C32_cant_halt_refuted",
    "C32_unlisted_refuted",
    "C32_cant_halt_partial"
   ],
   "note": "Soundness proved for programs whose start state lies in a set of states closed under having a predecessor, so that pruning of entry points removes nothing needed; without it the claim is false. Also needs every entered state and printed colour to be listed: halting slots outside the listed ones are not looked for."
  },
  {
   "property": "C33",
   "status": "partial",
   "theorems": [
    "C33_cant_blank_refuted",
    "C33_cant_blank_partial"
   ],
   "note": "Soundness proved for programs whose start state lies in a set of states closed under having a predecessor, so that pruning of entry points removes nothing needed; without it the claim is false."
  },
  {
   "property": "C34",
   "status": "partial",
   "theorems": [
    "C34_cant_spin_out_refuted",
    "C34_cant_spin_out_partial"
   ],
   "note": "Soundness proved for programs whose start state lies in a set of states closed under having a predecessor, so that pruning of entry points removes nothing needed; without it the claim is false."
  },
  {
   "property": "C35",
   "status": "partial",
   "theorems": [
    "C35_segment_cant_halt_refuted",
    "C35_py_segment_cant_halt_partial",
    "C35_segment_cant_halt_params"
   ],
   "note": "False as stated: parameters are read off the listed slots, so a colour that is printed but has no listed instruction is not counted as a halting slot; segment_cant_halt says 2 of a 4-state program that halts after 4 steps. Proved for programs whose states and colours are listed, and for explicit parameters that bound them."
  },
  {
   "property": "C36",
   "status": "partial",
   "theorems": [
    "C36_addition_refuted",
    "C36_exact_without_quotients_partial",
    "C36_exact_over_one_prime_partial"
   ],
   "note": "False in general: adding two quotients with divisors 6 and 8 floors 8*6/gcd wrongly and returns 6 for 4+3. Proved for all expressions without quotients, and for expressions whose divisors are powers of one prime dividing no base. Floating point roots and logarithms are hypotheses (exact_roots)."
  },
  {
   "property": "C37",
   "status": "partial",
   "theorems": [
    "C37_division_refuted",
    "C37_division_exact_partial",
    "C37_power_by_int_partial",
    "C37_powers_partial"
   ],
   "note": "False in general: ((-6+2^2)*(3*2^3))//12 gives -8 instead of -4. Proved when dividing by a power of a prime that divides no base, other divisors being powers of that prime; when dividing a power by any positive integer; and when dividing a power by a power of the same base."
  },
  {
   "property": "C38",
   "status": "partial",
   "theorems": [
    "C38_remainder_refuted",
    "C38_remainder_exact_partial"
   ],
   "note": "False for 2^n mod 30 with 4 | n (15 for 16) and for 3^n mod 4. Proved for every other expression of integer parts with bases and exponents at least 2 whose evaluation avoids those two."
  },
  {
   "property": "C39",
   "status": "proved",
   "theorems": [
    "C39_tables_right"
   ],
   "note": "All 18 tables, every exponent at least 1."
  },
  {
   "property": "C40",
   "status": "partial",
   "theorems": [
    "C40_make_exp_refuted",
    "C40_make_exp_exact_partial",
    "C40_power_of_power_partial"
   ],
   "note": "False with logarithms as rounded in double precision (84088900 ** 3). Proved wherever roots and logarithms are right, exponents without quotients; also for a power raised to a power (C40_power_of_power_partial)."
  },
  {
   "property": "C41",
   "status": "partial",
   "theorems": [
    "C41_comparison_refuted",
    "C41_towers_partial",
    "C41_small_ints_partial",
    "C41_products_partial",
    "C41_towers_other_partial",
    "C41_sums_partial"
   ],
   "note": "False: 2^5 < 3 + 2^5 is False. Proved for towers over one base whose powers exceed the ints in them; for comparisons of any nested number with an int that is less than every expression in it (the comparisons that decide whether and how often a rule applies); and for multiples of powers of one base that does not divide the factors. Missing: comparisons of two sums or products in general, where further wrong answers are possible. Of towers also > and <= (and >=) are proved truthful. And < of ints, towers and towers with a small int added, other than a tower with itself plus an int (C41_sums_partial)."
  },
  {
   "property": "C42",
   "status": "partial",
   "theorems": [
    "C42_gcd_refuted",
    "C42_divides_int",
    "C42_divides_both_partial"
   ],
   "note": "False: gcd(6, 9+2^5) = 2, gcd(16, 2^3) = 16. It always divides the int; divides both when the int is a prime power coprime to the bases."
  },
  {
   "property": "C43",
   "status": "proved",
   "theorems": [
    "C43_find_period"
   ],
   "note": "For every base and modulus and whatever the floating point test answers."
  },
  {
   "property": "C44",
   "status": "proved",
   "theorems": [
    "C44_undfnd_exact",
    "C44_spnout_never_halts",
    "C44_steps_made",
    "C44_rust_undfnd_exact",
    "C44_rust_spnout_never_halts",
    "C44_rust_steps_made"
   ],
   "note": "Plain programs, integer counts, any limit, any behaviour of the prover; Rust below 2^33 moves."
  },
  {
   "property": "C45",
   "status": "partial",
   "theorems": [
    "C45_infrul_refuted",
    "C45_rust_infrul_refuted",
    "C45_blank_start_partial",
    "C45_lawful_growth_partial",
    "C45_rust_lawful_growth_partial",
    "C45_run_for_infrul_partial",
    "C45_certified_growth_partial",
    "C45_certified_never_halts_partial"
   ],
   "note": "False: an 11-state program that halts after 99 moves is reported infrul (Python Machine, Rust run_prover and run_for_infrul). Proved: infrul because the start configuration recurs is right; and, when every rule held by the prover is a law of the machine, an infrul of the Python Machine means that the machine never halts or was really seen to grow three times, and never halts if that growth is a law. The same for Rust run_prover if in each rule at most one count goes down, unless the machine makes 2^31 moves; and what run_for_infrul says yes to, run_prover calls infrul. That a rule is a law can be checked by computation (CertSpec.v): with certified rules the same holds (C45_certified_growth_partial), and a certified rule in which nothing decreases, on a tape that is reached, means never halting."
  },
  {
   "property": "C46",
   "status": "proved",
   "theorems": [
    "C46_py_offsets_bound_run",
    "C46_rs_offsets_bound_run",
    "C46_rs_offsets_in_range",
    "C46_py_offsets_in_range"
   ],
   "note": "Python and Rust EnumTape with blocks carrying their enumeration; rounds without rule application."
  },
  {
   "property": "C47",
   "status": "proved",
   "theorems": [
    "C47_instr_seq_entries",
    "C47_other_start_refuted"
   ],
   "note": "The cycle limit (100_000_000 in the code) is a parameter. For a program that does not start with 1RB the entries describe a different program (C47_other_start_refuted)."
  },
  {
   "property": "C48",
   "status": "proved",
   "theorems": [
    "C48_tree_programs",
    "C48_tree_progs_nodup"
   ],
   "note": "For at least 2 states and 2 colours. Parallel schedules are all shuffles of the tasks' lists; None models u64 underflow. NoDup of the texts for at most 26 states and 10 colours."
  },
  {
   "property": "C49",
   "status": "proved",
   "theorems": [
    "C49_opt_block_total",
    "C49_opt_block_best"
   ],
   "note": "None models every panic (missing key, slice out of range, usize underflow). A returned size other than 1 is also shown to be the smallest one saving most on a real tape of the machine."
  },
  {
   "property": "C50",
   "status": "proved",
   "theorems": [
    "C50_no_panic",
    "C50_depth"
   ],
   "note": "Model without integer overflow and memory limits."
  },
  {
   "property": "C51",
   "status": "proved",
   "theorems": [
    "C51_segment_answers"
   ],
   "note": "Fuel bounds exist for every program; no panic once the parameters fit."
  },
  {
   "property": "C52",
   "status": "partial",
   "theorems": [
    "C52_divmod_refuted",
    "C52_divmod_partial"
   ],
   "note": "False in general: divmod((-6+2^2)*(3*2^3), 12) is (-8, 0), though the number is -48. Proved under the hypotheses of C37 and C38: modulus a power of a prime that divides no base."
  },
  {
   "property": "C53",
   "status": "partial",
   "theorems": [
    "C53_measured_tape_refuted",
    "C53_measured_cycle_partial"
   ],
   "note": "False: steps is incremented before the blocks are counted, so the tape unrolled is the one a cycle after the maximum, and the last tape is never counted (refuted). What holds is proved: the step found is exactly one more than the first cycle with the most blocks among those simulated, or 0 if no tape has a block."
  },
  {
   "property": "C54",
   "status": "proved",
   "theorems": [
    "C54_tree_complete"
   ],
   "note": "For at least 2 states and 2 colours; in_order and uses_all are stated on the plain run of the program."
  },
  {
   "property": "C55",
   "status": "partial",
   "theorems": [
    "C55_undfnd_after_rules_refuted",
    "C55_rust_undfnd_after_rules_refuted",
    "C55_lawful_rules_partial",
    "C55_rust_lawful_rules_partial",
    "C55_certificate_sound_partial",
    "C55_certified_run_partial",
    "C55_rust_certified_run_partial"
   ],
   "note": "False: a rule checked on three samples leaps over the real halting point. True when no rule was applied (C44), and when every rule that the prover holds at the end is a law of the machine wherever its recorded signature lets it be used: for the Python Machine (C55_lawful_rules_partial), and for run_prover if at most one count goes down in each rule and the machine does not outlast 2^64 moves (C55_rust_lawful_rules_partial). Being a law can be certified by a computation on tapes with unknown counts, which is proved right (C55_certificate_sound_partial); with certified rules the run is right (C55_certified_run_partial, C55_rust_certified_run_partial; example: the 3-state 3-color program of test/prog_data.py that halts after more than 10^17 moves)."
  },
  {
   "property": "C56",
   "status": "partial",
   "theorems": [
    "C56_python_rust_marks_refuted",
    "C56_agree_without_rules_partial",
    "C56_lawful_agree_partial",
    "C56_certified_agree_partial"
   ],
   "note": "False: on rules with two decreasing counts Rust adds where it should subtract, and reports 37 marks instead of 25. Proved: agreement when neither machine applied a rule, and when the rules both hold are laws of the machine with at most one count going down (machines that outlast 2^64 moves excepted). The condition can be computed: C56_certified_agree_partial."
  },
  {
   "property": "C57",
   "status": "partial",
   "theorems": [
    "C57_run_prover_steps_refuted",
    "C57_lower_bound_partial",
    "C44_rust_undfnd_exact",
    "C57_certified_lower_bound_partial"
   ],
   "note": "False once a rule was applied: run_prover goes on counting without the moves the rule stands for. True when rulapp is 0 (C44). With lawful rules the count reported is a lower bound, short by at least one move per application (C57_lower_bound_partial). The condition can be computed: C57_certified_lower_bound_partial."
  },
  {
   "property": "C58",
   "status": "proved",
   "theorems": [
    "C58_undfnd_halts_there",
    "C58_spnout_never_halts",
    "C58_steps_at_most"
   ],
   "note": "For parameters that fit the program. Beside them C58_base_spins_out_refuted: a spinout of the macro machine need not be a spinout of the program itself, only a run without end. When the parameters counted by make_macro do not fit the program see C21_counted_params_refuted."
  },
  {
   "property": "C59",
   "status": "partial",
   "theorems": [
    "C59_blanks_in_blocks",
    "C59_backsymbol_refuted"
   ],
   "note": "True of block macros; false of backsymbol macros, where the remembered cells are not part of the macro tape."
  },
  {
   "property": "C60",
   "status": "partial",
   "theorems": [
    "C60_counted_params_fit",
    "C21_counted_params_refuted"
   ],
   "note": "True when every state and colour that occurs has an instruction. False otherwise: \"1RB 2RA ...  1LB 0RA ...\" never halts, but in blocks of 3 the macro machine reports an undefined instruction."
  },
  {
   "property": "C61",
   "status": "proved",
   "theorems": [
    "C61_finds_exactly_the_cyclers",
    "C61_found_at_every_large_limit",
    "C61_drop_halt_settles",
    "C61_larger_limit_keeps_yes"
   ],
   "note": "Completeness as well as soundness of the recurrence check, on the executable model of the loop with its doubling snapshots, for all programs whose first instruction is 1RB (the Rust starts from the state after it)."
  },
  {
   "property": "C62",
   "status": "proved",
   "theorems": [
    "C62_c_program_runs_the_machine",
    "C62_eight_states_refuted",
    "C62_binary_colors_refuted"
   ],
   "note": "Proved for what make_c writes, character by character, under a reader and semantics of the C subset. Outside the stated sizes it fails: with eight states label H is defined twice (C62_eight_states_refuted), and in two-column tables colours above 1 are written as ERASE (C62_binary_colors_refuted)."
  },
  {
   "property": "C63",
   "status": "partial",
   "theorems": [
    "C63_depends_on_form_refuted",
    "C63_exception_refuted",
    "C63_fits_samples_partial",
    "C63_sequence_fits_first",
    "C63_application_partial",
    "C63_rule_contents"
   ],
   "note": "The full statement is false: the logarithm step does not look at the base, so 27^10 and 3^30 are treated differently by the same sequence; and learning from 3^(7^4), 3^(1+7^4), ... raises NotImplementedError out of the machine because 7^4 < 1 + 7^4 is returned as False. Proved: what is learned fits the samples (over one prime), application is exact unless one of three named steps is met, the rule has exactly the changing positions. Missing: exactness for bases and divisors that share a prime, where C36 and C37 fail."
  },
  {
   "property": "C64",
   "status": "partial",
   "theorems": [
    "C64_negative_count_refuted",
    "C64_exact_partial",
    "C64_positive_partial",
    "C64_refused"
   ],
   "note": "The full statement is false: with two decreasing symbolic counts the wrong comparison of C41 picks the larger number of applications, and a count of -2 is left. Proved: exact for sums and products with sums over one prime, and with one decreasing entry no count drops below 1. Missing: operation sequences within rules (only C63 covers them), and products by numbers not of the form 1 + p^j, where C37 fails."
  },
  {
   "property": "C65",
   "status": "proved",
   "theorems": [
    "C65_is_normal",
    "C65_is_irreflexive",
    "C65_is_zero_reflexive",
    "C65_is_dispersed",
    "C65_entries_dispersed",
    "C65_exits_dispersed",
    "C65_two_states_simple"
   ],
   "note": "For all closed tables; is_zero_reflexive needs rows that are not empty (IndexError otherwise)."
  },
  {
   "property": "C66",
   "status": "partial",
   "theorems": [
    "C66_normal_form_partial",
    "C66_canonical_partial",
    "C66_normal_kept",
    "C66_idempotent_refuted",
    "C66_in_order_refuted"
   ],
   "note": "Proved for tables of at most three colours whose states are all reachable and in which nothing is cut or cinched; the statement is false with more colours: with five normalize is not idempotent, with four its result can have states out of order. With any number of colours a normal form is left alone."
  },
  {
   "property": "C67",
   "status": "partial",
   "theorems": [
    "C67_kernel_refuted",
    "C67_simple_refuted",
    "C67_whole_kernel_partial"
   ],
   "note": "False as stated: a six-state graph, every state reachable, is reduced to 4 states under one naming and to 3 under another; a seven-state graph (with unreachable states) is simple only under one of two namings. Proved: the size never grows and when all states are kept."
  },
  {
   "property": "C68",
   "status": "proved",
   "theorems": [
    "C68_make_dot",
    "C68_nine_columns_refuted",
    "C68_27_states_refuted"
   ],
   "note": "Proved for every program in the quantifier. Both bounds are needed: an instruction in a ninth column raises IndexError, and an arrow to a 27th state is not DOT."
  },
  {
   "property": "C69",
   "status": "proved",
   "theorems": [
    "C69_cell_tape",
    "C69_block_tape",
    "C69_split_tape",
    "C69_num_tape",
    "C69_cell_vect_tape",
    "C69_block_vect_tape",
    "C69_ptr_tape"
   ],
   "note": "One theorem per tape. Hanging of the pointer tape's skip is C71."
  },
  {
   "property": "C70",
   "status": "proved",
   "theorems": [
    "C70_report",
    "C70_text"
   ],
   "note": "Hanging (pointer machine only) is no report."
  },
  {
   "property": "C71",
   "status": "partial",
   "theorems": [
    "C71_agree_partial",
    "C71_ptr_hangs_refuted",
    "C71_ptr_steps_refuted"
   ],
   "note": "False in general: the pointer machine hangs on 0RA and notices a spin-out over erased cells late. Proved for the other six, which never hang."
  },
  {
   "property": "C72",
   "status": "partial",
   "theorems": [
    "C72_double_partial",
    "C72_recurs_never_halts",
    "C72_halting_refuted",
    "C72_missed_refuted",
    "C72_disagree_refuted"
   ],
   "note": "False in general: a halting machine is reported (state 0 is looked up as A), a spin-out after an even number of moves is never reported, number and cell machines disagree. Proved: a report means that the machine recurs or stops."
  },
  {
   "property": "C73",
   "status": "partial",
   "theorems": [
    "C73_read_partial",
    "C73_digits",
    "C73_accepts",
    "C73_thirteen_states_refuted"
   ],
   "note": "False in general: letters beyond L are silently read as halting. Proved for up to twelve letters."
  },
  {
   "property": "C74",
   "status": "partial",
   "theorems": [
    "C74_report_partial",
    "C74_truth",
    "C74_steps_2_4",
    "C74_overrun",
    "C74_overrun_refuted",
    "C74_spin_steps_refuted",
    "C74_last_line_refuted",
    "C74_foreign_state_refuted"
   ],
   "note": "Exact for programs whose head does not go right on every one of its first XLIMIT moves; for those WIPE_AND_SCORE writes one cell past the array (C74_overrun, and there is such a program for every simulator). False in general also: a spin-out is counted one step too many except in 2-4.c, a last line without newline is dropped, a transition to a letter without label ends the whole run (or jumps outside the dispatch table)."
  },
  {
   "property": "C75",
   "status": "proved",
   "theorems": [
    "C75_equal",
    "C75_kept",
    "C75_reuse",
    "C75_add",
    "C75_mul",
    "C75_div",
    "C75_exp",
    "C75_given",
    "C75_value_refuted",
    "C75_tetration_refuted"
   ],
   "note": "Equality is proved to be equality of expressions for numbers without tetrations. Beyond the claim: it is not equality of values (a sum and the same sum the other way round are unequal, C75_value_refuted), and powers over equal tetrations are unequal (C75_tetration_refuted), for Tet has a structural == with a hash by identity."
  },
  {
   "property": "C76",
   "status": "partial",
   "theorems": [
    "C76_value_partial",
    "C76_injective_partial",
    "C76_negative_base_refuted",
    "C76_truncated_refuted"
   ],
   "note": "False in general: a negative base is shown without parentheses, so (-2) ** 4 reads as -16 (C76_negative_base_refuted), and first operands and exponents of 10 ** 12 or more, or with more than 120 leaves, are cut short (C76_truncated_refuted). Proved for numbers shown in full, with bases that are not negative (value) or any bases (no two texts the same), for a reader of Python's expression grammar."
  },
  {
   "property": "C77",
   "status": "partial",
   "theorems": [
    "C77_estimate_partial",
    "C77_negative_refuted",
    "C77_addend_refuted",
    "C77_overflow_refuted",
    "C77_raises_refuted"
   ],
   "note": "False in general: a negative multiplier takes digits away instead of adding them (C77_negative_refuted), an int in a sum is left out however great (C77_addend_refuted), an exponent too great for floating point gives 10 ** 10 (C77_overflow_refuted), and estimates of very small and of great negative numbers raise (C77_raises_refuted). Proved for positive multipliers and -1, sums of one sign without a dominant int and even divisions, over any logarithms rounded as stated. Towers of more than three exponents, which are answered by their height, are not covered."
  },
  {
   "property": "C78",
   "status": "partial",
   "theorems": [
    "C78_simulates_partial",
    "C78_only_partial",
    "C78_color_partial",
    "C78_once",
    "C78_passes",
    "C78_overrun",
    "C78_array_refuted",
    "C78_unchecked_refuted",
    "C78_program_refuted",
    "C78_listed_refuted"
   ],
   "note": "Proved for every program, any number of moves, as long as the machine has instructions and its head stays in the array (for 3932964.c up to the colours of marks, since its last move does not print; for the three that return at once, of what stands after return). The machines are those of PROGRAM; where there is none, those idris/BB.idr lists with that number of steps; except that for 9340.c five states are put before PROGRAM, and for 21.c the last move is read off the program itself. What becomes of each of the sixteen is decided: nine pass their check (C78_passes); the heads of 2315619, 2333909, 3932964 and 32779477 leave their arrays (of 48, 4065, 2080 and 20000 cells), which is undefined in C (C78_array_refuted); three return without a check (C78_unchecked_refuted). Also false: 21.c makes its last move to the left, the listed machine to the right (C78_listed_refuted); PROGRAM in 9340.c is not what runs (C78_program_refuted)."
  },
  {
   "property": "C79",
   "status": "partial",
   "theorems": [
    "C79_dropped_halts_refuted",
    "C79_dropped_spins_refuted",
    "C79_dropped_settled_partial",
    "C79_kept_is_open",
    "C79_back_cell_refuted",
    "C79_caches_dont_matter",
    "C79_plain_lookups"
   ],
   "note": "False in general, with witnesses: \"1RB 2LA 0RB 1LB  1LA 3RA 1RA ...\" is dropped though it halts after 591 moves, and \"1RB 1LC  1LC 0RD  1LA 0LB  1LD 0RA\" though it spins out after 1164. Both come from check_inf: BacksymbolLogic::reconstruct_outputs (src/macros.rs 295-297) cuts the window at cells - 1 when the head leaves to the left, which with the one back cell that check_inf asks for cuts at 0 and forgets a cell; cut as in tm/macro.py the same runs prove nothing (C79_back_cell_refuted). Answers that do not rest on the runs with rules are proved right (C79_dropped_settled_partial), and so is everything that is kept (C79_kept_is_open). Missing: soundness of the runs with rules, which fails for plain programs as well (C45)."
  },
  {
   "property": "C80",
   "status": "partial",
   "theorems": [
    "C80_undfnd_refuted",
    "C80_lawful_partial"
   ],
   "note": "False in general for the reason of C55 (a rule checked on samples leaps over the halting point). True for every run, with any nesting of expressions and any limit, when each rule the prover holds at the end is a law of the machine and over a prime, and no tape on the way is misleading: no expression worth 1, and each expression that a rule takes something off has integer parts, is worth more than what is taken off, and avoids the wrong remainders of C42. Rules with operation sequences (SOps) are outside. The example is a machine with 63 states whose marks become -2 + 2^62; all hypotheses are proved for it."
  },
  {
   "property": "C81",
   "status": "partial",
   "theorems": [
    "C81_reported_recurrence",
    "C81_every_recurrence_found",
    "C81_start_up_to_a_sweep",
    "C81_first_start_refuted",
    "C81_spnout",
    "C81_qsihlt_partial",
    "C81_late_check_qsihlt_refuted",
    "C81_ends",
    "C81_halting_reported",
    "C81_blanks",
    "C81_recurrence_in_the_trace"
   ],
   "note": "Everything holds for every program but one point: with check_rec > 0 a quasihalting machine may get qsihlt = False (C81_late_check_qsihlt_refuted); with check_rec <= 0 qsihlt is exact (C81_qsihlt_partial). The start reported is a start of a recurrence, and within one sweep of the first one."
  },
  {
   "property": "C82",
   "status": "partial",
   "theorems": [
    "C82_recurrence_confirmed",
    "C82_denial_right",
    "C82_confirmation_partial",
    "C82_tests_pass_halting_refuted",
    "C82_tests_fail_recurrence_refuted"
   ],
   "note": "False in general: positions are known only at the samples, so the cells compared may be too few. A halting program passes the whole check of the tests, and a true recurrence with least period and first start fails it. Proved: denials are right for any samples; confirmations are right if every step between was sampled."
  },
  {
   "property": "C83",
   "status": "proved",
   "theorems": [
    "C83_reports",
    "C83_finds_exactly_the_cyclers",
    "C83_report_settles",
    "C83_agrees_with_quick_term_or_rec",
    "C83_halting_reported",
    "C83_blanks",
    "C83_other_first_instr_refuted"
   ],
   "note": "For programs that do not start with 1RB the report is wrong (C83_other_first_instr_refuted): the first step is taken to be 1RB without looking."
  },
  {
   "property": "C84",
   "status": "proved",
   "theorems": [
    "C84_quick",
    "C84_term_or_rec",
    "C84_run_prover",
    "C84_run_for_infrul",
    "C84_run_for_infrul_macro",
    "C84_machine",
    "C84_symbolic_machine",
    "C84_segments",
    "C84_strict",
    "C84_loose",
    "C84_idris",
    "C84_idris_double",
    "C84_instr_seq"
   ],
   "note": "Proved for every listed run by induction on the limit; the fuel that bounds the model's unbounded loops (segments, pointer tape) is kept fixed."
  },
  {
   "property": "C85",
   "status": "proved",
   "theorems": [
    "C85_int_runs"
   ],
   "note": "The integer run (py_machine_run) stops with MErr as soon as a count would become symbolic or an exception leaves run; the hypothesis excludes just these runs."
  },
  {
   "property": "C86",
   "status": "proved",
   "theorems": [
    "C86_expand"
   ],
   "note": "The letter Z is what the compact notation has for the halting state, so it names no state. C86_tests checks the three pairs of test/prog_data.py."
  },
  {
   "property": "C87",
   "status": "partial",
   "theorems": [
    "C87_one_outcome",
    "C87_rust_one_outcome",
    "C87_rerun_refuted",
    "C87_reruns_partial"
   ],
   "note": "The clause about running the same object again is false: xlimit and susrul of an earlier run stay and rulapp adds up (C87_rerun_refuted). C87_reruns_partial proves it for all other attributes: outcome attributes are those of the largest limit, tape, cycles, steps, blanks and prover those of the last run. Plain programs (no macro)."
  },
  {
   "property": "C88",
   "status": "proved",
   "theorems": [
    "C88_line_tells"
   ],
   "note": "Plain programs. The text of limrul is assumed to contain no bar."
  },
  {
   "property": "C89",
   "status": "partial",
   "theorems": [
    "C89_order_partial",
    "C89_order_refuted",
    "C89_estimates_refuted",
    "C89_height",
    "C89_minus",
    "C89_minus_refuted",
    "C89_power_partial",
    "C89_power_refuted"
   ],
   "note": "False in general: every int is taken to be below every tower and every power with an int exponent below every tower of height 3 (so the estimate of 2 ** (10 ** 300) is less than that of 2 ** (2 ** 34)); subtracting anything but itself leaves the tower; 4 ** (2 ↑↑ 2) becomes 2 ** (2 ↑↑ 2). Proved: comparisons where ints and powers are below the towers they meet, sums and products up to the next tower, powers of bases that are no squares and not 8."
  },
  {
   "property": "C90",
   "status": "proved",
   "theorems": [
    "C90_rust_text_tells",
    "C90_head_text_tells",
    "C90_text_tells",
    "C90_texts_agree"
   ],
   "note": "Counts are ints; symbolic counts are the subject of C76."
  },
  {
   "property": "C91",
   "status": "partial",
   "theorems": [
    "C91_same_run",
    "C91_quick",
    "C91_cant_halt",
    "C91_cant_blank",
    "C91_cant_spin_out",
    "C91_machine",
    "C91_segments_refuted",
    "C91_run_prover_refuted",
    "C91_certified_prover_partial",
    "C91_segments_partial",
    "C91_measured",
    "C91_opt_block_refuted",
    "C91_blocks_refuted",
    "C91_macros_partial"
   ],
   "note": "Proved for run_quick_machine and the three backward reasoners. False of segment_cant_halt: \"1RB 0RA  1LA 1LC  0LB ...\" takes 3 segments, its mirror image 2. False of run_prover: for \"1RB 0RE  0RC 0RB  0RD 0RE  1LD 0LA  0RB 1RE\" the 740 rounds leave 18 marks, for its mirror image 10622385497342972069; a count too large for a u64 makes apply_rule give up when the left side has already been changed (C11). The model ignores that the u64 counter of steps has overflowed by then (it wraps in a release build). Machine: proved when each rule held at the end takes from at most one count and no run breaks off with an exception (C91_machine); with two decreasing counts the recorded offsets depend on the order left to right, and whether that can show is open (no difference among 1151 listed programs). Runs of run_prover on M and on its mirror image whose rules are certified by computation agree on the slot and the marks of an undefined instruction and on spinning out, unless the machine makes 2^64 moves (C91_certified_prover_partial); that the certificates carry over by themselves is not proved. An answer of segment_cant_halt about a program or its mirror image settles both, if the states and colours are listed (C91_segments_partial). False of opt_block: for \"1RB 0LA  0LC 0RA  1RA 1LB\" after 20 cycles the block size is 2, for its mirror image 1, as the tape is cut into blocks from the left (C91_opt_block_refuted); the cycle measured and the tape looked at, in reverse, are the same (C91_measured). False of Machine with blocks, whose head starts at the left end of its block for both (C91_blocks_refuted: 51 steps against 55); as long as no rule is applied, machines over macros of both do not contradict each other (C91_macros_partial)."
  },
  {
   "property": "C92",
   "status": "partial",
   "theorems": [
    "C92_same_run",
    "C92_quick",
    "C92_term_or_rec",
    "C92_term_or_rec_refuted",
    "C92_machine",
    "C92_plain_machine",
    "C92_run_prover",
    "C92_run_for_infrul",
    "C92_cant_blank",
    "C92_cant_spin_out",
    "C92_cant_halt",
    "C92_cant_halt_refuted",
    "C92_order",
    "C92_opt_block",
    "C92_macro_lookup",
    "C92_macro_run",
    "C92_block_machine",
    "C92_prog_params",
    "C92_macro_machine"
   ],
   "note": "Proved for Machine, run_quick_machine, run_prover, run_for_infrul, cant_blank and cant_spin_out. False of quick_term_or_rec, which takes the first instruction to be 1RB (C92_term_or_rec_refuted; it says of a halting program that it does not halt, as in C10): proved for renamings that keep B and 1. False of cant_halt when a name is left out, which then counts as a colour that could be read (C92_cant_halt_refuted): proved for renamings within the table. Macros over a renamed program give the renamed answers and make the renamed run (C92_macro_lookup, C92_macro_run); Machine over macros of every kind, rules and all, by C92_macro_machine (the colours printed have to be among those counted and declared). opt_block chooses the same size under every naming."
  },
  {
   "property": "C93",
   "status": "partial",
   "theorems": [
    "C93_tcompile",
    "C93_show",
    "C93_shown",
    "C93_quick",
    "C93_reason_answers",
    "C93_cant_halt_partial",
    "C93_cant_blank_partial",
    "C93_cant_spin_out_partial",
    "C93_segments_partial",
    "C93_connected",
    "C93_term_or_rec",
    "C93_opt_block",
    "C93_machine",
    "C93_machine_true",
    "C93_run_prover",
    "C93_run_prover_true",
    "C93_claims_refuted",
    "C93_certified_true_partial",
    "C93_macro_machine",
    "C93_macro_machine_true"
   ],
   "note": "Proved except that the four impossibility claims need the conditions of C32-C35 on the machine (C93_claims_refuted gives texts where they are false), Machine and run_prover tell the truth as long as no rule was applied (C44; beyond that see C45, C53, C56), and quick_term_or_rec is for programs that begin with 1RB. C93_certified_true_partial: also with rules, if they pass the certificate of C55. Machine with macro options answers on every such text, and truly as long as no rule was applied and the parameters are honest (C93_macro_machine, C93_macro_machine_true)."
  },
  {
   "property": "C94",
   "status": "partial",
   "theorems": [
    "C94_normalize",
    "C94_tree",
    "C94_c_prog",
    "C94_instr_seq",
    "C94_just_so_answers",
    "C94_just_so_keeps_partial",
    "C94_just_so_refuted"
   ],
   "note": "Proved but for just_so.py, which drops programs that its deciders are wrong about: C94_just_so_refuted gives a halting one; under the conditions of C32-C35 none is lost. The line endings are taken to be translated already; the processes of the pool are taken to be forked and may print in any order. For dump_macros.py see C102; measure.py, run.py and branch.py are not modelled (they print what Machine reports)."
  },
  {
   "property": "C95",
   "status": "proved",
   "theorems": [
    "C95_branch_last"
   ],
   "note": "Each text writes the completed machine; the params inferred by show_comp may show an undefined row or column more when the table has a single row or column."
  },
  {
   "property": "C96",
   "status": "partial",
   "theorems": [
    "C96_last_line_partial",
    "C96_every_line",
    "C96_dump_graphs_refuted"
   ],
   "note": "False for every line that ends with a line feed: the name is cut there, the picture goes to a file without .png, and .png is given to dot as a second file to read (C96_every_line). True of a last line without line feed."
  },
  {
   "property": "C97",
   "status": "partial",
   "theorems": [
    "C97_cycles_partial",
    "C97_segment_refuted"
   ],
   "note": "False with --segment, where the number is overwritten by 20. True of the other deciders for numbers other than 0 (0 stands for the default)."
  },
  {
   "property": "C98",
   "status": "proved",
   "theorems": [
    "C98_signature",
    "C98_compatible",
    "C98_shortened",
    "C98_told",
    "C98_set_count",
    "C98_reads"
   ],
   "note": "Counts are integers; the symbolic tape has the same shape."
  },
  {
   "property": "C99",
   "status": "partial",
   "theorems": [
    "C99_runs_agree",
    "C99_deciders_agree_partial",
    "C99_contradiction_refuted",
    "C99_certified_runs_agree_partial"
   ],
   "note": "Runs agree without conditions. Deciders agree with runs if the program begins with 1RB, its start state can be entered again and it is named (C32-C35); without the second condition cant_halt contradicts a run on '1RB 0LB  ... 1LC  1RB 1RB' (refuted). Machine runs with rules agree with everything, too, if their rules pass the certificate of C55 (C99_certified_runs_agree_partial). Missing: runs with other rules (C55-C57)."
  }
 ]
}
