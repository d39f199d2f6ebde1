{
 "claims": [
  {
   "property": "C01",
   "status": "proved",
   "theorems": [
    "C01_button_identity"
   ],
   "note": "For all finite creation histories."
  },
  {
   "property": "C02",
   "status": "partial",
   "theorems": [
    "C02_pickling_partial",
    "C02_pickling_refuted"
   ],
   "note": "Holds when one registry history extends the other; refuted in general, because only the numeric id is pickled."
  },
  {
   "property": "C03",
   "status": "proved",
   "theorems": [
    "C03_keyboard_roundtrip",
    "C03_written",
    "C03_unknown_kind",
    "C03_accepted"
   ],
   "note": "Round trip for every keyboard; unknown kinds raise; C03_accepted gives fields, defaults and permitted entries of every accepted button description."
  },
  {
   "property": "C04",
   "status": "partial",
   "theorems": [
    "C04_serialize_effect_partial",
    "C04_serialize_effect_refuted",
    "C04_deserialize_argument"
   ],
   "note": "Refuted: serialize() turns the windows scancode of the live button into a list. Proved: exactly what it changes, and that deserialize leaves its argument alone."
  },
  {
   "property": "C05",
   "status": "proved",
   "theorems": [
    "C05_getitem",
    "C05_len",
    "C05_getRow",
    "C05_getRow_error"
   ],
   "note": "find/keys/len/getRow for every keyboard."
  },
  {
   "property": "C06",
   "status": "proved",
   "theorems": [
    "C06_lookup",
    "C06_lookup_complete",
    "C06_lookup_error"
   ],
   "note": "Soundness, completeness and the error case."
  },
  {
   "property": "C07",
   "status": "proved",
   "theorems": [
    "C07_combinations",
    "C07_ways_meaning",
    "C07_getText_inverse",
    "C07_needs_disjoint",
    "C07_shipped"
   ],
   "note": "Combinations are exactly the ways; inverse under the stated disjointness, which is shown necessary and met by every shipped layout."
  },
  {
   "property": "C08",
   "status": "proved",
   "theorems": [
    "C08_modifierToLayer",
    "C08_modifierToLayer_error",
    "C08_isModifier",
    "C08_getButtonText"
   ],
   "note": "modifierToLayer, isModifier, getButtonText."
  },
  {
   "property": "C09",
   "status": "proved",
   "theorems": [
    "C09_specialize",
    "C09_specialize_error"
   ],
   "note": "Success and error case."
  },
  {
   "property": "C10",
   "status": "proved",
   "theorems": [
    "C10_roundtrip",
    "C10_len"
   ],
   "note": "For every iteration order of frozensets."
  },
  {
   "property": "C11",
   "status": "proved",
   "theorems": [
    "C11_coverage",
    "C11_null_layout"
   ],
   "note": "For every reader state and history; layouts without texts yield nothing."
  },
  {
   "property": "C12",
   "status": "proved",
   "theorems": [
    "C12_greedy",
    "C12_unique",
    "C12_shipped",
    "C12_needs_fingers"
   ],
   "note": "The segmentation is unique, hence independent of buffering. Fingers are necessary (C12_needs_fingers)."
  },
  {
   "property": "C13",
   "status": "proved",
   "theorems": [
    "C13_combinations"
   ],
   "note": "Via C07."
  },
  {
   "property": "C14",
   "status": "proved",
   "theorems": [
    "C14_choice",
    "C14_typed",
    "C14_remembered"
   ],
   "note": "Lexicographic order on (buttons, imbalance, imbalance with previous), first on ties."
  },
  {
   "property": "C15",
   "status": "partial",
   "theorems": [
    "C15_alternate_partial",
    "C15_any_history_partial",
    "C15_shift",
    "C15_no_history",
    "C15_prefer_left_refuted"
   ],
   "note": "Alternation and shift claims proved; the sentence about preferring the left hand without history is refuted (the first listed alternative is taken)."
  },
  {
   "property": "C16",
   "status": "partial",
   "theorems": [
    "C16_coverage",
    "C16_greedy_partial",
    "C16_greedy_refuted"
   ],
   "note": "Coverage for every file-like reader; greedy for full reads, refuted for short reads."
  },
  {
   "property": "C17",
   "status": "proved",
   "theorems": [
    "C17_counts",
    "C17_rejects",
    "C17_typed"
   ],
   "note": "Includes all four statistics objects on the events of typing any text with any shipped layout (C17_typed)."
  },
  {
   "property": "C18",
   "status": "proved",
   "theorems": [
    "C18_hand_runs",
    "C18_runs"
   ],
   "note": "Maximal runs via run length encoding, which is characterised uniquely."
  },
  {
   "property": "C19",
   "status": "partial",
   "theorems": [
    "C19_finger_runs_partial",
    "C19_finger_runs_refuted"
   ],
   "note": "Actual behaviour proved (run credited to the finger that ended it); the intended statement is refuted."
  },
  {
   "property": "C20",
   "status": "proved",
   "theorems": [
    "C20_triads",
    "C20_windows"
   ],
   "note": "Sliding windows per stretch; windows characterised by index."
  },
  {
   "property": "C21",
   "status": "proved",
   "theorems": [
    "C21_words",
    "C21_split",
    "C21_marks"
   ],
   "note": "Character classification is a parameter; C21_marks for the categories used by the code."
  },
  {
   "property": "C22",
   "status": "proved",
   "theorems": [
    "C22_update",
    "C22_combine",
    "C22_order",
    "C22_grouping",
    "C22_continue",
    "C22_reachable",
    "C22_heap_counter",
    "C22_heap_nested"
   ],
   "note": "Pointwise addition for all counters but finger run lengths (see C24); order and grouping; C22_continue for events after a merge; the typed update refines the heap version."
  },
  {
   "property": "C23",
   "status": "partial",
   "theorems": [
    "C23_argument",
    "C23_later",
    "C23_argument_refuted"
   ],
   "note": "Proved when nested dictionaries exist in the target (as in the statistics classes); refuted otherwise."
  },
  {
   "property": "C24",
   "status": "partial",
   "theorems": [
    "C24_kept_partial",
    "C24_parts",
    "C24_fingers_dropped",
    "C24_kept_refuted"
   ],
   "note": "All counters but finger run lengths are kept; finger run lengths are always dropped (refuted)."
  },
  {
   "property": "C25",
   "status": "proved",
   "theorems": [
    "C25_each_line_once",
    "C25_needs_jobs",
    "C25_statistics"
   ],
   "note": "Transition system with all interleavings; statistics part for shipped layouts and arbitrary filters. -j 0 loses everything (C25_needs_jobs)."
  },
  {
   "property": "C26",
   "status": "proved",
   "theorems": [
    "C26_bounded",
    "C26_no_deadlock",
    "C26_assert_never",
    "C26_status_leftover"
   ],
   "note": "Explicit step bound plus: a run that cannot continue has finished."
  },
  {
   "property": "C27",
   "status": "partial",
   "theorems": [
    "C27_no_silent_loss",
    "C27_right_exception",
    "C27_reported_partial",
    "C27_deadlock_shape",
    "C27_reported_refuted",
    "C27_only_filters"
   ],
   "note": "Never silently lost; reported if fewer failing lines than workers or fewer than 3*jobs lines; otherwise a deadlock is reachable for every number of jobs."
  },
  {
   "property": "C28",
   "status": "proved",
   "theorems": [
    "C28_weighted_mean",
    "C28_order",
    "C28_remove_restores",
    "C28_bounds",
    "C28_needs_exact"
   ],
   "note": "Exact rational arithmetic, all histories over any number of objects and copies; a binary64 history that does not restore the value is C28_needs_exact."
  },
  {
   "property": "C29",
   "status": "proved",
   "theorems": [
    "C29_cache_transparent",
    "C29_lookup",
    "C29_isolated",
    "C29_copy"
   ],
   "note": "For every number format: simulation of the program with shared caches by one without any cache."
  },
  {
   "property": "C30",
   "status": "proved",
   "theorems": [
    "C30_hand",
    "C30_row",
    "C30_finger",
    "C30_total",
    "C30_mirror",
    "C30_checked"
   ],
   "note": "Codes characterised one by one by inductive definitions; checked against the 46 cases of the project tests; C30_checked for the test made on construction."
  },
  {
   "property": "C31",
   "status": "proved",
   "theorems": [
    "C31_formula",
    "C31_defined",
    "C31_iteration_order",
    "C31_nonneg",
    "C31_failure",
    "C31_failure_many"
   ],
   "note": "Formula over exact rationals for every model, any iteration order of the combinations; non-negativity for both shipped models."
  },
  {
   "property": "C32",
   "status": "partial",
   "theorems": [
    "C32_scorable_partial",
    "C32_scorable_refuted"
   ],
   "note": "Proved for every text without U+0008, both models, every number format; refuted with U+0008 (backspace on three shipped layouts)."
  },
  {
   "property": "C33",
   "status": "proved",
   "theorems": [
    "C33_swap",
    "C33_mutation",
    "C33_randomize",
    "C33_run",
    "C33_walk",
    "C33_initial",
    "C33_user_mutations",
    "C33_user_keys"
   ],
   "note": "Every number format with a strict order (rationals, binary64), every sequence of random numbers; accepted, undone, last and best states."
  },
  {
   "property": "C34",
   "status": "proved",
   "theorems": [
    "C34_mutation",
    "C34_randomize",
    "C34_run",
    "C34_nothing_enters",
    "C34_expanded",
    "C34_needs_start"
   ],
   "note": "Same generality; nothing else enters a pinned layer; the proviso is necessary (C34_needs_start)."
  },
  {
   "property": "C35",
   "status": "proved",
   "theorems": [
    "C35_reset",
    "C35_costs_unique",
    "C35_incremental",
    "C35_checks_pass",
    "C35_needs_mutable"
   ],
   "note": "Exact rationals, all sequences of mutations, all set iteration orders; on shipped data the plausibility checks of the tool never fail."
  },
  {
   "property": "C36",
   "status": "proved",
   "theorems": [
    "C36_best_accepted",
    "C36_runs",
    "C36_deterministic",
    "C36_never_positive",
    "C36_strict"
   ],
   "note": "Objects on a heap versus an idealised annealer on values, for any mutate; both rationals and binary64."
  },
  {
   "property": "C37",
   "status": "proved",
   "theorems": [
    "C37_loop_ends",
    "C37_fair",
    "C37_stuck",
    "C37_all_pinned",
    "C37_all_but_one_pinned",
    "C37_empty"
   ],
   "note": "Loop ends iff a swappable pair is drawn; for fair random numbers iff one exists; never otherwise, e.g. all but one key pinned."
  },
  {
   "property": "C38",
   "status": "proved",
   "theorems": [
    "C38_written",
    "C38_sent_one_to_one",
    "C38_same_texts",
    "C38_pins"
   ],
   "note": "End to end from the tool output read back as a layout."
  },
  {
   "property": "C39",
   "status": "partial",
   "theorems": [
    "C39_reported_energy_refuted",
    "C39_reported_energy_partial"
   ],
   "note": "Refuted by a six step run that prints the unchanged layout with the energy of another one; the number is an upper bound of the effort of the layout printed."
  },
  {
   "property": "C40",
   "status": "proved",
   "theorems": [
    "C40_parsePin",
    "C40_parsePin_total",
    "C40_parseMutation",
    "C40_parseMutation_error",
    "C40_documented_syntax_rejected"
   ],
   "note": "int() is a parameter. The syntax of the docstring is rejected (C40_documented_syntax_rejected)."
  },
  {
   "property": "C41",
   "status": "proved",
   "theorems": [
    "C41_charwise",
    "C41_context",
    "C41_normal",
    "C41_table"
   ],
   "note": "Every map for the character-wise part; C41_table says what the shipped map does to every character; idempotence."
  },
  {
   "property": "C42",
   "status": "partial",
   "theorems": [
    "C42_crlf_refuted",
    "C42_crlf_partial",
    "C42_lines"
   ],
   "note": "Refuted by CR CR LF, which is exactly when a CR LF remains (C42_crlf_partial, for the whole preparation). C42_lines: each CR LF is replaced, nothing else changes."
  },
  {
   "property": "C43",
   "status": "proved",
   "theorems": [
    "C43_items",
    "C43_concat",
    "C43_error",
    "C43_compose",
    "C43_paths",
    "C43_strict"
   ],
   "note": "Generators as yielded list plus exception; the first failing item ends everything and earlier results are kept."
  },
  {
   "property": "C44",
   "status": "proved",
   "theorems": [
    "C44_members",
    "C44_magic",
    "C44_truncated",
    "C44_terminates"
   ],
   "note": "A file is its remaining bytes and read() is full. Also truncated archives (a short last member without error) and termination on any input."
  },
  {
   "property": "C45",
   "status": "proved",
   "theorems": [
    "C45_reads",
    "C45_consecutive",
    "C45_truncated_prefix",
    "C45_truncated_hangs",
    "C45_negative"
   ],
   "note": "For every decompressor satisfying decodes_to; an instance is proved (run length decoder). read(-1) does not read to the end (C45_negative)."
  },
  {
   "property": "C46",
   "status": "partial",
   "theorems": [
    "C46_exact",
    "C46_select_partial",
    "C46_sublist",
    "C46_select_refuted",
    "C46_needs_flat",
    "C46_selected_script",
    "C46_selectors",
    "C46_shipped"
   ],
   "note": "Exact behaviour for all documents with flat scripts (C46_exact); the intended statement without nesting; refuted with nesting. Flat scripts are necessary (C46_needs_flat) and guaranteed by HTML parsing."
  },
  {
   "property": "C47",
   "status": "proved",
   "theorems": [
    "C47_serialize",
    "C47_filterHtml",
    "C47_errors",
    "C47_all_or_nothing"
   ],
   "note": "Including the whole filterHtml after parsing and the two exceptions."
  },
  {
   "property": "C48",
   "status": "partial",
   "theorems": [
    "C48_subtitles",
    "C48_tei2_partial",
    "C48_tei2_complete",
    "C48_tei2_refuted"
   ],
   "note": "Positions in the tree with document order. Text and bodies and paragraphs not nested for exactly-once; refuted for nested paragraphs; never a missing sentence (C48_tei2_complete)."
  },
  {
   "property": "C49",
   "status": "proved",
   "theorems": [
    "C49_approx",
    "C49_determined",
    "C49_range",
    "C49_huge"
   ],
   "note": "Decimal arithmetic with 28 digits: numbers with coefficient below 10^27; larger ones raise InvalidOperation (C49_huge). C49_determined: the specification fixes the result."
  },
  {
   "property": "C50",
   "status": "proved",
   "theorems": [
    "C50_numspace",
    "C50_arabnum",
    "C50_injective"
   ],
   "note": "Character by character for every string; injective on ASCII."
  },
  {
   "property": "C51",
   "status": "proved",
   "theorems": [
    "C51_total",
    "C51_positions",
    "C51_apart",
    "C51_within",
    "C51_neighbours"
   ],
   "note": "Exact rationals instead of floats. Refused exactly for duplicate buttons."
  },
  {
   "property": "C52",
   "status": "proved",
   "theorems": [
    "C52_keys",
    "C52_last",
    "C52_firsts"
   ],
   "note": "All lists and keys."
  },
  {
   "property": "C53",
   "status": "proved",
   "theorems": [
    "C53_caps",
    "C53_within",
    "C53_shadow",
    "C53_used",
    "C53_labels",
    "C53_label",
    "C53_offset",
    "C53_quadrants",
    "C53_arrow",
    "C53_total",
    "C53_shipped",
    "C53_shadows",
    "C53_shipped_shadow"
   ],
   "note": "svgwrite elements as records of their geometry; exact rationals. C53_total is an equivalence, C53_shipped covers all layouts of the repository."
  },
  {
   "property": "C54",
   "status": "partial",
   "theorems": [
    "C54_nonempty",
    "C54_plain",
    "C54_idempotent",
    "C54_unchanged",
    "C54_initials",
    "C54_renderable_refuted"
   ],
   "note": "unicodedata as parameters. Refuted for the wording of the docstring (two zero width spaces stay as they are)."
  },
  {
   "property": "C55",
   "status": "proved",
   "theorems": [
    "C55_rows",
    "C55_shares",
    "C55_succeeds"
   ],
   "note": "Exact quotients instead of floats; bokeh output as the data source only. unicodedata.category is a parameter."
  },
  {
   "property": "C56",
   "status": "proved",
   "theorems": [
    "C56_printed",
    "C56_cutoff",
    "C56_limit",
    "C56_succeeds"
   ],
   "note": "Exact rationals; one Carpalx object per text triad (cache free by C29). displayText is a parameter, see C54."
  },
  {
   "property": "C57",
   "status": "proved",
   "theorems": [
    "C57_points",
    "C57_size",
    "C57_size_tight",
    "C57_curve",
    "C57_data",
    "C57_effort_curve"
   ],
   "note": "numpy arrays as lists; division by a zero sum (nan) yields no curve and is characterised. C57_size_tight: 400 points are attained, although 200 bins are asked for."
  },
  {
   "property": "C58",
   "status": "proved",
   "theorems": [
    "C58_hands",
    "C58_asymmetry",
    "C58_hamza",
    "C58_hamza_shares",
    "C58_succeeds",
    "C58_hamza_needs_nodup"
   ],
   "note": "Exact quotients. Layers listing a modifier twice double the counts (C58_hamza_needs_nodup)."
  },
  {
   "property": "C59",
   "status": "proved",
   "theorems": [
    "C59_heatmap",
    "C59_fails",
    "C59_heat",
    "C59_heat_fails"
   ],
   "note": "YAML output as a record. The assertion in the loop tests the wrong dictionary; C59_fails says what it rejects."
  },
  {
   "property": "C60",
   "status": "proved",
   "theorems": [
    "C60_f_value",
    "C60_nearest",
    "C60_monotone",
    "C60_nonneg",
    "C60_dictionary",
    "C60_succeeds",
    "C60_no_tie"
   ],
   "note": "The float logarithm is replaced by its exact meaning (squared inequalities); C60_no_tie shows that rounding has no ties."
  },
  {
   "property": "C61",
   "status": "proved",
   "theorems": [
    "C61_counts",
    "C61_merged"
   ],
   "note": "For all handled events; merged statistics via combine."
  },
  {
   "property": "C62",
   "status": "proved",
   "theorems": [
    "C62_import"
   ],
   "note": "int(_, 16) and NFD are parameters; files are given by a grammar (KlcSpec.v) independent of the parser."
  },
  {
   "property": "C63",
   "status": "proved",
   "theorems": [
    "C63_succeeds",
    "C63_errors",
    "C63_shape"
   ],
   "note": "The OverflowError of chr for huge numbers is counted as ValueError."
  },
  {
   "property": "C64",
   "status": "partial",
   "theorems": [
    "C64_comments_partial",
    "C64_comments_refuted"
   ],
   "note": "Proved for remarks with //, refuted for ; alone (the second strip only runs after the first succeeded)."
  },
  {
   "property": "C65",
   "status": "partial",
   "theorems": [
    "C65_specialize_partial",
    "C65_never_fits",
    "C65_specialize_refuted"
   ],
   "note": "Proved for every keyboard with all buttons of the tables; refuted for ibmpc105, where C65_never_fits shows that every import fails."
  },
  {
   "property": "C66",
   "status": "partial",
   "theorems": [
    "C66_same_key_partial",
    "C66_same_key_refuted",
    "C66_missing_refuted",
    "C66_lost_refuted"
   ],
   "note": "47 of 49 entries proved; the two others refuted, with a file that loses a text."
  },
  {
   "property": "C67",
   "status": "partial",
   "theorems": [
    "C67_plain",
    "C67_prefixed_partial",
    "C67_unterminated",
    "C67_prefixed_refuted"
   ],
   "note": "C67_plain and C67_prefixed_partial for all maps. Missing terminator: C67_unterminated holds for every unmapped code, C67_prefixed_refuted is the instance of the renderer."
  },
  {
   "property": "C68",
   "status": "proved",
   "theorems": [
    "C68_names",
    "C68_selects"
   ],
   "note": "C68_selects is for arbitrary lists of held keys, left and right variants alike."
  },
  {
   "property": "C69",
   "status": "proved",
   "theorems": [
    "C69_typed",
    "C69_numpad",
    "C69_silent",
    "C69_in_bounds",
    "C69_numpad_last",
    "C69_fails",
    "C69_typed_needs_bmp"
   ],
   "note": "C source as tables (WinkbdModel.v), Windows lookup as specification (WinkbdSpec.v). C69_typed_needs_bmp: characters beyond 16 bits are cut."
  },
  {
   "property": "C70",
   "status": "proved",
   "theorems": [
    "C70_types",
    "C70_total",
    "C70_others",
    "C70_shipped"
   ],
   "note": "C70_total is an equivalence. Shipped layout and keyboard by computation."
  },
  {
   "property": "C71",
   "status": "proved",
   "theorems": [
    "C71_defined",
    "C71_tables",
    "C71_types"
   ],
   "note": "Closedness of names, not C syntax."
  },
  {
   "property": "C72",
   "status": "proved",
   "theorems": [
    "C72_plain",
    "C72_held",
    "C72_modifiers",
    "C72_columns",
    "C72_once",
    "C72_once_needs_taken",
    "C72_shipped"
   ],
   "note": "X11 as specification (ExportSpec.v: later lines win, Shift, group and level three select columns 1, 2, 4). A modifier sharing its code with another key needs the conditions (C72_once_needs_taken)."
  },
  {
   "property": "C73",
   "status": "partial",
   "theorems": [
    "C73_success",
    "C73_shipped",
    "C73_shipped_refuted"
   ],
   "note": "C73_success is an equivalence for all layouts; C73_shipped says which shipped layouts work."
  },
  {
   "property": "C74",
   "status": "proved",
   "theorems": [
    "C74_rules",
    "C74_warned",
    "C74_success",
    "C74_shipped"
   ],
   "note": "Set iteration order is a parameter. C74_shipped by computation over the layouts, for every order."
  },
  {
   "property": "C75",
   "status": "partial",
   "theorems": [
    "C75_rows",
    "C75_success",
    "C75_width_refuted",
    "C75_bottom_refuted"
   ],
   "note": "NFC is a parameter; float formatting of 100/n as exact rounding to even, valid below 4000 keys."
  },
  {
   "property": "C76",
   "status": "partial",
   "theorems": [
    "C76_types",
    "C76_success",
    "C76_layers_refuted",
    "C76_shipped_refuted",
    "C76_xml_refuted"
   ],
   "note": "XML elements as records. The intended statements that fail are proved false with layouts of the repository."
  },
  {
   "property": "C77",
   "status": "partial",
   "theorems": [
    "C77_lines",
    "C77_success",
    "C77_columns",
    "C77_columns_refuted"
   ],
   "note": "NFC is a parameter. C77_columns says when lines have one character per key."
  },
  {
   "property": "C78",
   "status": "proved",
   "theorems": [
    "C78_lookup",
    "C78_errors",
    "C78_iter_cwd",
    "C78_iter",
    "C78_iter_stops",
    "C78_agree",
    "C78_iter_needs_names"
   ],
   "note": "Directories as association lists; deserialisation is a parameter and may raise the exceptions that are passed over."
  },
  {
   "property": "C79",
   "status": "proved",
   "theorems": [
    "C79_top",
    "C79_unique",
    "C79_optimize"
   ],
   "note": "C79_unique: the specification determines the result. Exact arithmetic for the energy."
  },
  {
   "property": "C80",
   "status": "proved",
   "theorems": [
    "C80_start"
   ],
   "note": "Hypotheses on the layout (modifiers of different layers disjoint, layers have modifiers) as for C38 and C39; the shipped layouts meet them."
  },
  {
   "property": "C81",
   "status": "proved",
   "theorems": [
    "C81_lazy",
    "C81_ends",
    "C81_total",
    "C81_first",
    "C81_list"
   ],
   "note": "Iterators as state machines with exceptions."
  },
  {
   "property": "C82",
   "status": "proved",
   "theorems": [
    "C82_digits",
    "C82_readable",
    "C82_fraction",
    "C82_error",
    "C82_exact",
    "C82_invalid",
    "C82_small_share"
   ],
   "note": "Fraction.limit_denominator of the standard library is modelled; the specification is over rational numbers (QArith)."
  },
  {
   "property": "C83",
   "status": "proved",
   "theorems": [
    "C83_succeeds",
    "C83_fingers",
    "C83_table",
    "C83_layouts",
    "C83_possible",
    "C83_typed",
    "C83_phonetic",
    "C83_totals",
    "C83_corpus",
    "C83_page",
    "C83_shown"
   ],
   "note": "Jinja is modelled for the macro fingerhandstats and the lines using layoutstats; undefined values raise UndefinedError. C83_possible: for every layout there is a text whose table can be made."
  },
  {
   "property": "C84",
   "status": "proved",
   "theorems": [
    "C84_letters",
    "C84_used",
    "C84_clash",
    "C84_different",
    "C84_lower",
    "C84_typable"
   ],
   "note": "str.lower is a parameter in C84_letters, and lower case of A to Z for the shipped table (no other cased characters occur there). C84_typable lists the exceptions."
  },
  {
   "property": "C85",
   "status": "proved",
   "theorems": [
    "C85_concatenated",
    "C85_cut",
    "C85_works",
    "C85_fails",
    "C85_lines",
    "C85_click",
    "C85_all",
    "C85_report",
    "C85_report_plot",
    "C85_report_full",
    "C85_range"
   ],
   "note": "pickle is a parameter (reads_back says what is used of it). A file cut off within an object is not noticed when pickle raises EOFError: C85_cut. Set3 of bokeh is modelled; the script run in the browser is modelled as a function on what is visible."
  },
  {
   "property": "C86",
   "status": "proved",
   "theorems": [
    "C86_characters"
   ],
   "note": "iterchar is not used by the program but is tested by its authors."
  },
  {
   "property": "C87",
   "status": "proved",
   "theorems": [
    "C87_printed",
    "C87_works",
    "C87_unscored",
    "C87_percent",
    "C87_rank",
    "C87_ranks",
    "C87_shipped",
    "C87_shipped_counts",
    "C87_needs_no_backspace",
    "C87_needs_layout"
   ],
   "note": "Lines are modelled as numbers and names before formatting (their text is C107); percentages and effort as exact rationals. C87_needs_no_backspace and C87_needs_layout show the conditions are needed."
  },
  {
   "property": "C88",
   "status": "proved",
   "theorems": [
    "C88_read",
    "C88_read_only",
    "C88_written",
    "C88_pages",
    "C88_typed",
    "C88_cut",
    "C88_null",
    "C88_lines",
    "C88_list"
   ],
   "note": "expat is modelled by the stream of its events, bzip2 and UTF-8 are not modelled. C88_read_only is about texts without lone surrogates."
  },
  {
   "property": "C89",
   "status": "proved",
   "theorems": [
    "C89_yielded",
    "C89_fits",
    "C89_reads_first",
    "C89_answer",
    "C89_needs_reading_first",
    "C89_needs_reading"
   ],
   "note": "Processes and pipes are modelled by small steps; the buffer of the parent process, signals and a missing program are not. C89_needs_reading_first and C89_needs_reading show the condition is needed."
  },
  {
   "property": "C90",
   "status": "proved",
   "theorems": [
    "C90_retyped",
    "C90_plain",
    "C90_never_harder",
    "C90_never_harder_plain",
    "C90_stays",
    "C90_shipped",
    "C90_needs_one_way"
   ],
   "note": "Exact arithmetic. The fingers of all keys of the keyboard must be known; the shipped keyboard and finger map meet this. C90_needs_one_way shows the condition on combinations is needed."
  },
  {
   "property": "C91",
   "status": "proved",
   "theorems": [
    "C91_shown",
    "C91_nothing",
    "C91_without",
    "C91_typed"
   ],
   "note": "Opacities are exact rationals. YAML is assumed to read back the dictionary written."
  },
  {
   "property": "C92",
   "status": "proved",
   "theorems": [
    "C92_screen",
    "C92_print",
    "C92_fingers",
    "C92_no_dead_rule",
    "C92_print_heat"
   ],
   "note": "CSS: descendant selectors, specificity, order, inheritance of fill, stroke and font; presentation attributes like stroke-width and the font files are not modelled."
  },
  {
   "property": "C93",
   "status": "proved",
   "theorems": [
    "C93_equal",
    "C93_generic",
    "C93_equivalence",
    "C93_lookups",
    "C93_typed",
    "C93_events",
    "C93_needs_one_button",
    "C93_roundtrip",
    "C93_specialize",
    "C93_shipped"
   ],
   "note": "Values of a layer other than strings are one value of the model, so two different ones count as equal here. C93_needs_one_button shows the condition of C93_events is needed."
  },
  {
   "property": "C94",
   "status": "proved",
   "theorems": [
    "C94_once",
    "C94_build",
    "C94_ends",
    "C94_pool",
    "C94_typed",
    "C94_combined",
    "C94_own_layout",
    "C94_again",
    "C94_needs_known",
    "C94_needs_found",
    "C94_again_needs_hidden",
    "C94_again_needs_osmconvert"
   ],
   "note": "Needs distinct, known corpora that are not empty and the files of lulua/data/winkbd of the repository; C94_needs_known and C94_needs_found show why, C94_again_needs_hidden and C94_again_needs_osmconvert why the conditions of C94_again are needed. Commands are arbitrary functions of the files they read."
  },
  {
   "property": "C95",
   "status": "partial",
   "theorems": [
    "C95_page",
    "C95_heat",
    "C95_statistics",
    "C95_archive",
    "C95_driver",
    "C95_machine",
    "C95_archive_refuted"
   ],
   "note": "The references of the page are copied from the HTML. Refuted: the archive has README.txt, not INSTALL.txt."
  },
  {
   "property": "C96",
   "status": "proved",
   "theorems": [
    "C96_options",
    "C96_analyze",
    "C96_corpusstats",
    "C96_render",
    "C96_functions",
    "C96_write",
    "C96_extract",
    "C96_import",
    "C96_build",
    "C96_build_needs_corpora",
    "C96_settings",
    "C96_settings_all"
   ],
   "note": "argparse of Python 3.11 is modelled from its source (Lib/argparse.py) as far as these parsers use it. Strings are ASCII; functions given as type only accept or refuse. C96_build_needs_corpora shows the condition of C96_build is needed. C96_settings lists every option with its values and default, C96_settings_all says there are no others."
  },
  {
   "property": "C97",
   "status": "partial",
   "theorems": [
    "C97_ends",
    "C97_values",
    "C97_render",
    "C97_write",
    "C97_optimize",
    "C97_help",
    "C97_help_refuted",
    "C97_func_refuted",
    "C97_func_import_refuted",
    "C97_write_needs_dashes",
    "C97_order"
   ],
   "note": "Refuted: a missing command of lulua-analyze and lulua-import, the help of triadfreq. C97_write_needs_dashes shows the condition of C97_write is needed."
  },
  {
   "property": "C98",
   "status": "proved",
   "theorems": [
    "C98_reads",
    "C98_fails",
    "C98_file",
    "C98_types",
    "C98_shipped",
    "C98_reads_needs_columns",
    "C98_reads_needs_names"
   ],
   "note": "The reader understands less C than a compiler (no octal numbers, character constants, expressions); what it does not understand it refuses. fLocaleFlags, which is an expression, and dwType are not read. Numbers are not checked to fit their fields. C98_reads_needs_columns and C98_reads_needs_names show the conditions are needed."
  },
  {
   "property": "C99",
   "status": "proved",
   "theorems": [
    "C99_xmodmap",
    "C99_plain",
    "C99_held",
    "C99_xmodmap_fails",
    "C99_shipped_typable",
    "C99_needs_name",
    "C99_needs_typable",
    "C99_keyman",
    "C99_shipped",
    "C99_needs_written",
    "C99_needs_quote"
   ],
   "note": "Readers know only the part of both languages the files use; anything else is refused. Mnemonic names of keysyms other than those written are left out. Conditions on names and texts are shown to be needed (C99_needs_...)."
  },
  {
   "property": "C100",
   "status": "partial",
   "theorems": [
    "C100_placed",
    "C100_windows",
    "C100_xorg",
    "C100_xorg_refuted",
    "C100_macos",
    "C100_macos_refuted",
    "C100_shipped",
    "C100_keyman",
    "C100_driver",
    "C100_keyman_partial",
    "C100_keyman_refuted"
   ],
   "note": "The standard codes (USB HID usages, scancodes of set 1, Linux input events, virtual keys of macOS, names in Keyman) are part of the specification, from the usual tables. C100_keyman_partial and C100_keyman_refuted compare with virtual keys of the US layout, which the driver uses."
  },
  {
   "property": "C101",
   "status": "partial",
   "theorems": [
    "C101_roundtrip",
    "C101_unreadable",
    "C101_needs_names",
    "C101_keylayout",
    "C101_keylayout_fails",
    "C101_keylayout_refuted",
    "C101_ask",
    "C101_ask_success",
    "C101_ask_needs_chars"
   ],
   "note": "The reader knows neither text between elements nor internal subsets of document types, and only names of ASCII characters; it refuses what it does not know. Encoding to UTF-8 is left out. Modifiers are compared as texts (anyShift caps? and so on), as in C76."
  },
  {
   "property": "C102",
   "status": "proved",
   "theorems": [
    "C102_base64",
    "C102_size",
    "C102_faces",
    "C102_used",
    "C102_needed",
    "C102_missing",
    "C102_cdata"
   ],
   "note": "Font files are bytes given by a function that may fail; the style sheet is text, already decoded. The reader of CSS refuses backslashes and nested blocks inside of the rules; the rest of the sheet is not read here (C92 has its rules). svgwrite is not modelled."
  },
  {
   "property": "C103",
   "status": "proved",
   "theorems": [
    "C103_prints",
    "C103_reads",
    "C103_statistics",
    "C103_reads_needs_plain",
    "C103_reads_needs_bound"
   ],
   "note": "The reader follows makedict (CombinedInputOutput.java) from memory; it refuses shortcuts, bigrams and anything else the program does not write. Encoding of the output is left out, the time is a parameter. C103_reads_needs_plain and C103_reads_needs_bound show the conditions are needed."
  },
  {
   "property": "C104",
   "status": "proved",
   "theorems": [
    "C104_tables",
    "C104_shipped",
    "C104_needs_clean"
   ],
   "note": "White space between elements and the heads of the tables are left out; lower case is a parameter (ASCII for the shipped corpora). The conversion of a Decimal with one decimal place to float by the format %5.1f is taken as exact. Statistics are not negative. C104_needs_clean shows that the condition on names is needed."
  },
  {
   "property": "C105",
   "status": "proved",
   "theorems": [
    "C105_reads",
    "C105_sums",
    "C105_sums_tight"
   ],
   "note": "Quotients and the conversion of floats to decimal numbers are taken as exact; white space between elements is left out. Whether the boxes can be made is C83. C105_sums_tight gives the record of statistics directly."
  },
  {
   "property": "C106",
   "status": "partial",
   "theorems": [
    "C106_main_only",
    "C106_all_hangs",
    "C106_all_ends_refuted",
    "C106_complete_refuted"
   ],
   "note": "C106_main_only is complete for signals to the main process while it reads; later signals end the program with an exception and are not modelled, neither are signals inside Queue.put. C106_all_ends_refuted: after control-C the program hangs (C106_all_hangs: always). C106_complete_refuted: an interrupted run returns 0 without having read all lines."
  },
  {
   "property": "C107",
   "status": "proved",
   "theorems": [
    "C107_lines",
    "C107_printed",
    "C107_shipped",
    "C107_labels",
    "C107_columns",
    "C107_columns_tight",
    "C107_words_ragged",
    "C107_lines_needs_tight"
   ],
   "note": "Texts of objects (repr of buttons, combinations and characters, str of hands and triads) and of the last float are parameters, required not to end with a blank; C107_labels shows those of the program do not, whatever is inside of their parentheses and quotes; quotients and the conversion of floats to decimal numbers are taken as exact. Which lines are printed is C87. C107_lines_needs_tight shows the condition is needed, C107_columns_tight that the bounds are."
  },
  {
   "property": "C108",
   "status": "partial",
   "theorems": [
    "C108_equal",
    "C108_equivalence",
    "C108_combine",
    "C108_grouping",
    "C108_fingers_refuted",
    "C108_future_refuted",
    "C108_update"
   ],
   "note": "Proved for everything __eq__ compares. Refuted: RunlenStats.__eq__ ignores fingerRunlenDist (C108_fingers_refuted), and unfinished triads, words and runs are not compared (C108_future_refuted). Comparing with objects of other classes is left out."
  }
 ]
}