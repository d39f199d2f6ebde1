"""Notes for MANIFEST.json."""
NOTES={
'C01':'For all finite creation histories.',
'C02':'Holds when one registry history extends the other; refuted in general, because only the numeric id is pickled.',
'C03':'Round trip for every keyboard; unknown kinds raise; C03_accepted gives fields, defaults and permitted entries of every accepted button description.',
'C04':'Refuted: serialize() turns the windows scancode of the live button into a list. Proved: exactly what it changes, and that deserialize leaves its argument alone.',
'C05':'find/keys/len/getRow for every keyboard.',
'C06':'Soundness, completeness and the error case.',
'C07':'Combinations are exactly the ways; inverse under the stated disjointness, which is shown necessary and met by every shipped layout.',
'C08':'modifierToLayer, isModifier, getButtonText.',
'C09':'Success and error case.',
'C10':'For every iteration order of frozensets.',
'C11':'For every reader state and history; layouts without texts yield nothing.',
'C12':'The segmentation is unique, hence independent of buffering. Fingers are necessary (C12_needs_fingers).',
'C13':'Via C07.',
'C14':'Lexicographic order on (buttons, imbalance, imbalance with previous), first on ties.',
'C15':'Alternation and shift claims proved; the sentence about preferring the left hand without history is refuted (the first listed alternative is taken).',
'C16':'Coverage for every file-like reader; greedy for full reads, refuted for short reads.',
'C17':'Includes all four statistics objects on the events of typing any text with any shipped layout (C17_typed).',
'C18':'Maximal runs via run length encoding, which is characterised uniquely.',
'C19':'Actual behaviour proved (run credited to the finger that ended it); the intended statement is refuted.',
'C20':'Sliding windows per stretch; windows characterised by index.',
'C21':'Character classification is a parameter; C21_marks for the categories used by the code.',
'C22':'Pointwise addition for all counters but finger run lengths (see C24); order and grouping; C22_continue for events after a merge; the typed update refines the heap version.',
'C23':'Proved when nested dictionaries exist in the target (as in the statistics classes); refuted otherwise.',
'C24':'All counters but finger run lengths are kept; finger run lengths are always dropped (refuted).',
'C25':'Transition system with all interleavings; statistics part for shipped layouts and arbitrary filters. -j 0 loses everything (C25_needs_jobs).',
'C26':'Explicit step bound plus: a run that cannot continue has finished.',
'C27':'Never silently lost; reported if fewer failing lines than workers or fewer than 3*jobs lines; otherwise a deadlock is reachable for every number of jobs.',
'C28':'Exact rational arithmetic, all histories over any number of objects and copies; a binary64 history that does not restore the value is C28_needs_exact.',
'C29':'For every number format: simulation of the program with shared caches by one without any cache.',
'C30':'Codes characterised one by one by inductive definitions; checked against the 46 cases of the project tests; C30_checked for the test made on construction.',
'C31':'Formula over exact rationals for every model, any iteration order of the combinations; non-negativity for both shipped models.',
'C32':'Proved for every text without U+0008, both models, every number format; refuted with U+0008 (backspace on three shipped layouts).',
'C33':'Every number format with a strict order (rationals, binary64), every sequence of random numbers; accepted, undone, last and best states.',
'C34':'Same generality; nothing else enters a pinned layer; the proviso is necessary (C34_needs_start).',
'C35':'Exact rationals, all sequences of mutations, all set iteration orders; on shipped data the plausibility checks of the tool never fail.',
'C36':'Objects on a heap versus an idealised annealer on values, for any mutate; both rationals and binary64.',
'C37':'Loop ends iff a swappable pair is drawn; for fair random numbers iff one exists; never otherwise, e.g. all but one key pinned.',
'C38':'End to end from the tool output read back as a layout.',
'C39':'Refuted by a six step run that prints the unchanged layout with the energy of another one; the number is an upper bound of the effort of the layout printed.',
'C40':'int() is a parameter. The syntax of the docstring is rejected (C40_documented_syntax_rejected).',
'C41':'Every map for the character-wise part; C41_table says what the shipped map does to every character; idempotence.',
'C42':'Refuted by CR CR LF, which is exactly when a CR LF remains (C42_crlf_partial, for the whole preparation). C42_lines: each CR LF is replaced, nothing else changes.',
'C43':'Generators as yielded list plus exception; the first failing item ends everything and earlier results are kept.',
'C44':'A file is its remaining bytes and read() is full. Also truncated archives (a short last member without error) and termination on any input.',
'C45':'For every decompressor satisfying decodes_to; an instance is proved (run length decoder). read(-1) does not read to the end (C45_negative).',
'C46':'Exact behaviour for all documents with flat scripts (C46_exact); the intended statement without nesting; refuted with nesting. Flat scripts are necessary (C46_needs_flat) and guaranteed by HTML parsing.',
'C47':'Including the whole filterHtml after parsing and the two exceptions.',
'C48':'Positions in the tree with document order. Text and bodies and paragraphs not nested for exactly-once; refuted for nested paragraphs; never a missing sentence (C48_tei2_complete).',
'C49':'Decimal arithmetic with 28 digits: numbers with coefficient below 10^27; larger ones raise InvalidOperation (C49_huge). C49_determined: the specification fixes the result.',
'C50':'Character by character for every string; injective on ASCII.',
'C51':'Exact rationals instead of floats. Refused exactly for duplicate buttons.',
'C52':'All lists and keys.',
'C53':'svgwrite elements as records of their geometry; exact rationals. C53_total is an equivalence, C53_shipped covers all layouts of the repository.',
'C54':'unicodedata as parameters. Refuted for the wording of the docstring (two zero width spaces stay as they are).',
'C55':'Exact quotients instead of floats; bokeh output as the data source only. unicodedata.category is a parameter.',
'C56':'Exact rationals; one Carpalx object per text triad (cache free by C29). displayText is a parameter, see C54.',
'C57':'numpy arrays as lists; division by a zero sum (nan) yields no curve and is characterised. C57_size_tight: 400 points are attained, although 200 bins are asked for.',
'C58':'Exact quotients. Layers listing a modifier twice double the counts (C58_hamza_needs_nodup).',
'C59':'YAML output as a record. The assertion in the loop tests the wrong dictionary; C59_fails says what it rejects.',
'C60':'The float logarithm is replaced by its exact meaning (squared inequalities); C60_no_tie shows that rounding has no ties.',
'C61':'For all handled events; merged statistics via combine.',
'C62':'int(_, 16) and NFD are parameters; files are given by a grammar (KlcSpec.v) independent of the parser.',
'C63':'The OverflowError of chr for huge numbers is counted as ValueError.',
'C64':'Proved for remarks with //, refuted for ; alone (the second strip only runs after the first succeeded).',
'C65':'Proved for every keyboard with all buttons of the tables; refuted for ibmpc105, where C65_never_fits shows that every import fails.',
'C66':'47 of 49 entries proved; the two others refuted, with a file that loses a text.',
'C67':'C67_plain and C67_prefixed_partial for all maps. Missing terminator: C67_unterminated holds for every unmapped code, C67_prefixed_refuted is the instance of the renderer.',
'C68':'C68_selects is for arbitrary lists of held keys, left and right variants alike.',
'C69':'C source as tables (WinkbdModel.v), Windows lookup as specification (WinkbdSpec.v). C69_typed_needs_bmp: characters beyond 16 bits are cut.',
'C70':'C70_total is an equivalence. Shipped layout and keyboard by computation.',
'C71':'Closedness of names, not C syntax.',
'C72':'X11 as specification (ExportSpec.v: later lines win, Shift, group and level three select columns 1, 2, 4). A modifier sharing its code with another key needs the conditions (C72_once_needs_taken).',
'C73':'C73_success is an equivalence for all layouts; C73_shipped says which shipped layouts work.',
'C74':'Set iteration order is a parameter. C74_shipped by computation over the layouts, for every order.',
'C75':'NFC is a parameter; float formatting of 100/n as exact rounding to even, valid below 4000 keys.',
'C76':'XML elements as records. The intended statements that fail are proved false with layouts of the repository.',
'C77':'NFC is a parameter. C77_columns says when lines have one character per key.',
'C78':'Directories as association lists; deserialisation is a parameter and may raise the exceptions that are passed over.',
'C79':'C79_unique: the specification determines the result. Exact arithmetic for the energy.',
'C80':'Hypotheses on the layout (modifiers of different layers disjoint, layers have modifiers) as for C38 and C39; the shipped layouts meet them.',
'C81':'Iterators as state machines with exceptions.',
'C82':'Fraction.limit_denominator of the standard library is modelled; the specification is over rational numbers (QArith).',
'C83':'Jinja is modelled for the macro fingerhandstats and the lines using layoutstats; undefined values raise UndefinedError. C83_possible: for every layout there is a text whose table can be made.',
'C84':'str.lower is a parameter in C84_letters, and lower case of A to Z for the shipped table (no other cased characters occur there). C84_typable lists the exceptions.',
'C85':'pickle is a parameter (reads_back says what is used of it). A file cut off within an object is not noticed when pickle raises EOFError: C85_cut. Set3 of bokeh is modelled; the script run in the browser is modelled as a function on what is visible.',
'C86':'iterchar is not used by the program but is tested by its authors.',
'C87':'Lines are modelled as numbers and names before formatting (their text is C107); percentages and effort as exact rationals. C87_needs_no_backspace and C87_needs_layout show the conditions are needed.',
'C88':'expat is modelled by the stream of its events, bzip2 and UTF-8 are not modelled. C88_read_only is about texts without lone surrogates.',
'C89':'Processes and pipes are modelled by small steps; the buffer of the parent process, signals and a missing program are not. C89_needs_reading_first and C89_needs_reading show the condition is needed.',
'C90':'Exact arithmetic. The fingers of all keys of the keyboard must be known; the shipped keyboard and finger map meet this. C90_needs_one_way shows the condition on combinations is needed.',
'C91':'Opacities are exact rationals. YAML is assumed to read back the dictionary written.',
'C92':'CSS: descendant selectors, specificity, order, inheritance of fill, stroke and font; presentation attributes like stroke-width and the font files are not modelled.',
'C93':'Values of a layer other than strings are one value of the model, so two different ones count as equal here. C93_needs_one_button shows the condition of C93_events is needed.',
'C94':'Needs distinct, known corpora that are not empty and the files of lulua/data/winkbd of the repository; C94_needs_known and C94_needs_found show why, C94_again_needs_hidden and C94_again_needs_osmconvert why the conditions of C94_again are needed. Commands are arbitrary functions of the files they read.',
'C95':'The references of the page are copied from the HTML. Refuted: the archive has README.txt, not INSTALL.txt.',
'C96':'argparse of Python 3.11 is modelled from its source (Lib/argparse.py) as far as these parsers use it. Strings are ASCII; functions given as type only accept or refuse. C96_build_needs_corpora shows the condition of C96_build is needed. C96_settings lists every option with its values and default, C96_settings_all says there are no others.',
'C97':'Refuted: a missing command of lulua-analyze and lulua-import, the help of triadfreq. C97_write_needs_dashes shows the condition of C97_write is needed.',
'C102':'Font files are bytes given by a function that may fail; the style sheet is text, already decoded. The reader of CSS refuses backslashes and nested blocks inside of the rules; the rest of the sheet is not read here (C92 has its rules). svgwrite is not modelled.',
'C108':'Proved for everything __eq__ compares. Refuted: RunlenStats.__eq__ ignores fingerRunlenDist (C108_fingers_refuted), and unfinished triads, words and runs are not compared (C108_future_refuted). Comparing with objects of other classes is left out.',
'C107':'Texts of objects (repr of buttons, combinations and characters, str of hands and triads) and of the last float are parameters, required not to end with a blank; C107_labels shows those of the program do not, whatever is inside of their parentheses and quotes; quotients and the conversion of floats to decimal numbers are taken as exact. Which lines are printed is C87. C107_lines_needs_tight shows the condition is needed, C107_columns_tight that the bounds are.',
'C106':'C106_main_only is complete for signals to the main process while it reads; later signals end the program with an exception and are not modelled, neither are signals inside Queue.put. C106_all_ends_refuted: after control-C the program hangs (C106_all_hangs: always). C106_complete_refuted: an interrupted run returns 0 without having read all lines.',
'C105':'Quotients and the conversion of floats to decimal numbers are taken as exact; white space between elements is left out. Whether the boxes can be made is C83. C105_sums_tight gives the record of statistics directly.',
'C104':'White space between elements and the heads of the tables are left out; lower case is a parameter (ASCII for the shipped corpora). The conversion of a Decimal with one decimal place to float by the format %5.1f is taken as exact. Statistics are not negative. C104_needs_clean shows that the condition on names is needed.',
'C103':'The reader follows makedict (CombinedInputOutput.java) from memory; it refuses shortcuts, bigrams and anything else the program does not write. Encoding of the output is left out, the time is a parameter. C103_reads_needs_plain and C103_reads_needs_bound show the conditions are needed.',
'C101':'The reader knows neither text between elements nor internal subsets of document types, and only names of ASCII characters; it refuses what it does not know. Encoding to UTF-8 is left out. Modifiers are compared as texts (anyShift caps? and so on), as in C76.',
'C100':'The standard codes (USB HID usages, scancodes of set 1, Linux input events, virtual keys of macOS, names in Keyman) are part of the specification, from the usual tables. C100_keyman_partial and C100_keyman_refuted compare with virtual keys of the US layout, which the driver uses.',
'C99':'Readers know only the part of both languages the files use; anything else is refused. Mnemonic names of keysyms other than those written are left out. Conditions on names and texts are shown to be needed (C99_needs_...).',
'C98':'The reader understands less C than a compiler (no octal numbers, character constants, expressions); what it does not understand it refuses. fLocaleFlags, which is an expression, and dwType are not read. Numbers are not checked to fit their fields. C98_reads_needs_columns and C98_reads_needs_names show the conditions are needed.',
}
