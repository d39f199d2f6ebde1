{"id": "C01", "title": "Button identity is name identity", "statement": "Two Button objects compare equal exactly when they were created with the same name, and .name always gives back the name passed to the constructor, no matter which and how many buttons were created before, between or after.", "quantifier": "every finite sequence of Button constructions and every pair of buttons in it", "why_tests_cant": "The id registry is process-global mutable state; tests see one short creation history.", "anchors": ["lulua/keyboard.py: Button.__init__, __eq__, name"]}
{"id": "C02", "title": "Buttons survive pickling between processes", "statement": "A button pickled by one lulua process and unpickled by another one has the same name as before. (True when one registry history extends the other; the general claim fails because only the numeric id is pickled.)", "quantifier": "every pair of button creation histories (writer process, reader process) and every button", "why_tests_cant": "Depends on the two processes' histories; tests run in a single process.", "anchors": ["lulua/keyboard.py: Button.__slots__, _idToName", "lulua/stats.py: unpickleAll", "lulua/text.py: write"]}
{"id": "C03", "title": "Keyboard (de)serialization round trip", "statement": "Deserializing what PhysicalKeyboard.serialize() produced gives back a keyboard with the same name, description, rows, and per button the same kind, name, width, marking, span and scancodes; unknown kinds are rejected.", "quantifier": "every keyboard (any number of rows, buttons, kinds, scancode tables)", "why_tests_cant": "The existing test checks one shipped file.", "anchors": ["lulua/keyboard.py: Button.serialize, Button.deserialize, PhysicalKeyboard.serialize/deserialize"]}
{"id": "C04", "title": "serialize() does not change the keyboard", "statement": "Calling serialize() on a keyboard leaves every button usable as before, i.e. its scancode table is unchanged. (Refuted: the windows scancode tuple of the live button turns into a list, so later use as dict key fails.)", "quantifier": "every keyboard and every later use of its buttons", "why_tests_cant": "Aliasing effect that only shows in later operations on the same object.", "anchors": ["lulua/keyboard.py: Button.serialize", "lulua/render.py: renderWinKbd"]}
{"id": "C05", "title": "Keyboard lookups", "statement": "find(name)/keyboard[name] returns the first button with that name and raises KeyError exactly if there is none; keys() enumerates all buttons row by row, left half before right half; len() is their number; getRow(btn) is the index of the (last) row containing the button and raises KeyError exactly for foreign buttons.", "quantifier": "every keyboard and every name/button", "why_tests_cant": "Universally quantified over keyboards.", "anchors": ["lulua/keyboard.py: PhysicalKeyboard.__getitem__, keys, __len__, getRow"]}
{"id": "C06", "title": "Layout lookup returns the longest match", "statement": "layout(buf) returns the longest text assigned to any button in any layer that is a prefix of buf, together with its combinations, and raises KeyError exactly when no assigned text is a prefix of buf.", "quantifier": "every layout and every string", "why_tests_cant": "Infinite set of layouts and buffers.", "anchors": ["lulua/layout.py: KeyboardLayout.__init__, __call__"]}
{"id": "C07", "title": "Lookup and getText are inverse", "statement": "The combinations returned for a text are exactly the (modifier of layer, button) pairs whose layer assigns that text to that button, and when no modifier is shared by two layers, getText of every returned combination is the text.", "quantifier": "every layout, every text, every button combination", "why_tests_cant": "Existing test only samples shipped layouts.", "anchors": ["lulua/layout.py: KeyboardLayout.__init__, __call__, getText"]}
{"id": "C08", "title": "Modifier lookup", "statement": "isModifier(m) holds exactly if some layer lists m; modifierToLayer(m) then returns the last such layer and its index, otherwise raises KeyError; getButtonText(b) yields one entry per layer, None where b is unassigned.", "quantifier": "every layout, every set of buttons", "why_tests_cant": "Universally quantified.", "anchors": ["lulua/layout.py: KeyboardLayout.modifierToLayer, isModifier, getButtonText"]}
{"id": "C09", "title": "specialize() keeps the layout", "statement": "Specializing a generic layout to a keyboard keeps number and order of layers, each layer's modifiers and each button's text; it raises KeyError exactly if the layout mentions a button name the keyboard does not have.", "quantifier": "every generic layout and every keyboard", "why_tests_cant": "Universally quantified.", "anchors": ["lulua/layout.py: GenericLayout.specialize"]}
{"id": "C10", "title": "Layout (de)serialization round trip", "statement": "GenericLayout.deserialize(layout.serialize()) equals the layout; len(layout) is the number of pairs buttons() yields.", "quantifier": "every generic layout, every iteration order of the modifier sets", "why_tests_cant": "frozenset iteration order is unspecified.", "anchors": ["lulua/layout.py: GenericLayout.serialize, deserialize, __len__, buttons"]}
{"id": "C11", "title": "Typing loses no text", "statement": "Concatenating, in order, the matches and the skipped characters that Writer.type yields gives back exactly the input text, and type always terminates. Holds for every layout with at least one non-empty text; for a layout without texts (e.g. the shipped null layout) no events are produced at all.", "quantifier": "every layout with non-empty texts and at least one modifier per layer, every text, every previous writer state", "why_tests_cant": "Infinitely many texts; buffer boundary conditions.", "anchors": ["lulua/writer.py: Writer.type"]}
{"id": "C12", "title": "Typing is greedy longest match, independent of buffering", "statement": "Every match is the longest text of the layout that is a prefix of the remaining input (not just of the internal buffer), and a character is skipped only if no text of the layout is a prefix of the remaining input.", "quantifier": "every layout whose buttons all have an assigned finger (all shipped layouts), every text, every previous writer state", "why_tests_cant": "Buffer-boundary bugs depend on text position and length.", "anchors": ["lulua/writer.py: Writer.type", "lulua/layout.py: KeyboardLayout.bufferLen"]}
{"id": "C13", "title": "Yielded combinations type the match", "statement": "Every combination yielded by Writer.type is one of the combinations the layout offers for the match, so that layout.getText(combination) equals the match.", "quantifier": "every layout without shared modifiers whose buttons all have an assigned finger, every text", "why_tests_cant": "Universally quantified over texts and histories.", "anchors": ["lulua/writer.py: Writer.type, chooseCombination"]}
{"id": "C14", "title": "Combination choice is lexicographic", "statement": "chooseCombination returns a combination with the fewest buttons; among those one with the best left/right balance; among those the one best balanced with respect to the previous combination; and the first listed one in case of ties.", "quantifier": "every non-empty list of combinations of buttons on the finger map, every previous combination", "why_tests_cant": "Packing of the three criteria in one integer is only correct in range; tests use 2-3 combinations.", "anchors": ["lulua/writer.py: Writer.chooseCombination, defaultFingermap"]}
{"id": "C15", "title": "Hand alternation", "statement": "Given two one-button alternatives on different hands (e.g. the two space keys), the writer picks the hand not used by the previous single-button press, or, if the previous press used a modifier, the hand opposite to the modifier; given two one-modifier alternatives it picks the modifier on the other hand than the key. Without previous press the left hand is preferred. (The last sentence is refuted: without history the first listed alternative is taken.)", "quantifier": "every pair of alternatives, every previous combination", "why_tests_cant": "Quantified over all buttons and histories.", "anchors": ["lulua/writer.py: Writer.chooseCombination"]}
{"id": "C16", "title": "Typing from a file object with short reads", "statement": "If read(n) may return fewer characters than asked for before end of file, the text is still covered completely and in order; the greedy longest match guarantee however only holds for files that return full reads (refuted otherwise).", "quantifier": "every layout, every text, every schedule of read sizes", "why_tests_cant": "Depends on the schedule of partial reads.", "anchors": ["lulua/writer.py: Writer.type"]}
{"id": "C17", "title": "Simple statistics count exactly", "statement": "After processing any sequence of events, buttons[b] is the number of combination events pressing b (as modifier or button), combinations[c] the number of events equal to c, unknown[x] the number of skipped x, nothing else is recorded, and the sum of combinations and unknown is the number of events.", "quantifier": "every finite sequence of events", "why_tests_cant": "Unbounded histories.", "anchors": ["lulua/stats.py: SimpleStats.process"]}
{"id": "C18", "title": "Hand run length statistics", "statement": "perHandRunlenDist[h][n] is the number of maximal runs of n consecutive presses with hand h that were ended by a press of the other hand; runs cut off by a skipped character or by the end of the text are not counted.", "quantifier": "every finite sequence of events", "why_tests_cant": "Unbounded histories with resets.", "anchors": ["lulua/stats.py: RunlenStats.process"]}
{"id": "C19", "title": "Finger run length statistics", "statement": "fingerRunlenDist[f][n] is the number of completed runs of n consecutive presses with finger f. (Refuted: the run is credited to the finger that ended it; the actual behaviour is proved instead.)", "quantifier": "every finite sequence of events", "why_tests_cant": "Unbounded histories.", "anchors": ["lulua/stats.py: RunlenStats.process"]}
{"id": "C20", "title": "Triad statistics are sliding windows", "statement": "triads[k] is the number of positions at which k occurs as three consecutive presses, after removing space, return and tab presses, within stretches not interrupted by a skipped character; the total number of triads of a stretch of n such presses is max(0, n-2).", "quantifier": "every finite sequence of events", "why_tests_cant": "Unbounded histories with resets.", "anchors": ["lulua/stats.py: TriadStats.process"]}
{"id": "C21", "title": "Word statistics", "statement": "words[w] is the number of maximal runs of letters/non-spacing marks spelling w in the typed text that are followed by a typed delimiter with no skipped character in between; a word at the end of the text or before a skipped character is not counted.", "quantifier": "every layout, every finite sequence of typable events, every character classification", "why_tests_cant": "Unbounded histories; multi-character keys.", "anchors": ["lulua/stats.py: WordStats.process"]}
{"id": "C22", "title": "Merging statistics is pointwise addition", "statement": "a.update(b) makes every counter of a the sum of both and leaves b alone; hence merging any number of statistics in any order and any grouping gives the same counters.", "quantifier": "every finite collection of statistics, every merge order and grouping", "why_tests_cant": "All permutations and groupings.", "anchors": ["lulua/stats.py: updateDictOp, Stats.update, combine"]}
{"id": "C23", "title": "Merging statistics never modifies its argument", "statement": "updateDictOp(a, b) leaves b unmodified, also by later updates of a. (Refuted for nested dictionaries whose outer key is missing in a: the inner dictionary becomes shared. Holds if all outer keys are present, as for the statistics classes.)", "quantifier": "every pair of (nested) dictionaries and every later update", "why_tests_cant": "Aliasing shows up only in later operations.", "anchors": ["lulua/stats.py: updateDictOp"]}
{"id": "C24", "title": "Merging keeps all recorded statistics", "statement": "Every counter a statistics object recorded is part of the merged result. (Refuted: finger run lengths are dropped by RunlenStats.update; proved for all other counters.)", "quantifier": "every sequence of events split in any number of parts", "why_tests_cant": "Universally quantified.", "anchors": ["lulua/stats.py: RunlenStats.update"]}
{"id": "C25", "title": "Parallel corpus processing is schedule independent", "statement": "When lulua-write finishes normally, each input line has been processed by exactly one worker exactly once, and merging the statistics it wrote gives for every counter (finger run lengths excepted, see C24) the sum over all lines of that line's statistics, independent of the number of jobs (at least one) and of the interleaving of the processes.", "quantifier": "every number of jobs >= 1, every input, every interleaving of main process, workers and status process", "why_tests_cant": "Exponentially many interleavings.", "anchors": ["lulua/text.py: write, writeWorker, statusWorker", "lulua/stats.py: combine"]}
{"id": "C26", "title": "Parallel corpus processing terminates", "statement": "If no worker raises an exception, lulua-write never deadlocks: every execution is finite and ends with all workers and the status process finished, one result received per worker and empty input and result queues (only progress messages may be left over).", "quantifier": "every number of jobs >= 1, every input, every interleaving", "why_tests_cant": "Deadlock freedom is a property of all interleavings.", "anchors": ["lulua/text.py: write, writeWorker, statusWorker"]}
{"id": "C27", "title": "Worker failures are reported", "statement": "If a worker raises an exception, lulua-write terminates and reports it. (Partial: it never terminates normally after a failure, but it can deadlock with the input queue full and all workers dead - refuted.)", "quantifier": "every number of jobs, every failing set of lines, every interleaving", "why_tests_cant": "Crash timing.", "anchors": ["lulua/text.py: write, writeWorker"]}
{"id": "C28", "title": "Effort is the weighted mean of triad efforts", "statement": "After any sequence of addTriad/removeTriad calls effort is the sum of n*triadEffort over the net added triads divided by the net count (0 if that is zero); it does not depend on the order, removing what was added restores the value, and it lies between the smallest and largest triad effort for non-negative weights. (Exact arithmetic; a binary64 counterexample to exact restoration is given.)", "quantifier": "every finite history of add/remove/reset calls, every model", "why_tests_cant": "Unbounded histories.", "anchors": ["lulua/carpalx.py: Carpalx.addTriad, removeTriad, addTriads, reset, effort"]}
{"id": "C29", "title": "Effort caching and copying are unobservable", "statement": "The memo table never changes any result: in every history of calls on an instance and its copies each triad effort equals the value computed from scratch, and operations on a copy do not affect the original's effort and vice versa.", "quantifier": "every finite history of operations on any number of instances sharing a cache, every number format", "why_tests_cant": "Sharing of the cache between copies.", "anchors": ["lulua/carpalx.py: Carpalx._triadEffort, copy"]}
{"id": "C30", "title": "Stroke path classification is total and correct", "statement": "For every three buttons known to keyboard and finger map the stroke path is defined (the internal assertions never fire) with hand in 0..2 and row/finger in 0..7, each value being given exactly in the situation documented for it, and it is invariant under mirroring left and right hand.", "quantifier": "every triple of rows (any integers), hands, fingers and buttons", "why_tests_cant": "Tests check ~50 triples.", "anchors": ["lulua/carpalx.py: Carpalx._strokePathHand, _strokePathRow, _strokePathFinger, _strokePath"]}
{"id": "C31", "title": "Triad effort formula", "statement": "The effort of a triad is kb*b + kp*p + ks*s with b, p computed from per-button sums plus the simultaneous press penalty, and s the smallest stroke effort over all ways of choosing one button per combination; it is non-negative for the shipped models; failing lookups leave effort, N and cache unchanged.", "quantifier": "every triad of button combinations, both shipped models", "why_tests_cant": "Universally quantified.", "anchors": ["lulua/carpalx.py: Carpalx._penalty, _baseEffort, _triadEffort, madd, models"]}
{"id": "C32", "title": "Recorded triads can be scored", "statement": "Every triad TriadStats records for a shipped layout can be scored by the shipped effort models. (Refuted: backspace is typable with ar-lulua, is not ignored, and has no baseline effort. Proved for layouts/texts not using it.)", "quantifier": "every shipped layout, every text", "why_tests_cant": "Needs all texts.", "anchors": ["lulua/stats.py: TriadStats", "lulua/carpalx.py: models", "lulua/data/layouts"]}
{"id": "C33", "title": "Optimizer keeps a one-to-one button map", "statement": "After any number of mutations, accepted or undone, the button map is a permutation of the original one: same keys, every target used exactly once.", "quantifier": "every initial map, every sequence of random choices and accept/reject decisions", "why_tests_cant": "Random runs.", "anchors": ["lulua/optimize.py: LayoutOptimizer.mutate, Annealer.run"]}
{"id": "C34", "title": "Pins are respected", "statement": "A pinned (layer, button) keeps its target during the whole optimization, and buttons of a pinned layer keep targets on that layer, provided they start there.", "quantifier": "every pin set, every sequence of random choices", "why_tests_cant": "Random runs.", "anchors": ["lulua/optimize.py: LayoutOptimizer._acceptMutation, mutate"]}
{"id": "C35", "title": "Incremental energy equals recomputation", "statement": "After every mutation the incrementally maintained effort equals the effort computed from scratch for the current button map, and the energy differences add up. (Exact arithmetic.)", "quantifier": "every triad list, every layout, every sequence of mutations", "why_tests_cant": "Random runs; the code only asserts this once at the end with a tolerance.", "anchors": ["lulua/optimize.py: LayoutOptimizer.mutate, _resetEnergy, stateToTriad"]}
{"id": "C36", "title": "Annealer returns the best accepted state", "statement": "run() returns a state that was actually reached, whose energy relative to the start is the returned number, which is minimal among the start and all accepted states and never positive; rejected mutations are undone completely.", "quantifier": "every mutate function, every acceptance schedule, every number of steps", "why_tests_cant": "Random runs.", "anchors": ["lulua/optimize.py: Annealer.run"]}
{"id": "C37", "title": "mutate() terminates", "statement": "mutate() returns for some random choices whenever an acceptable swap exists, and never returns (for any random choices) if none exists, e.g. if everything is pinned.", "quantifier": "every pin set and button map, every infinite sequence of random choices", "why_tests_cant": "Non-termination is not testable.", "anchors": ["lulua/optimize.py: LayoutOptimizer.mutate, _acceptMutation"]}
{"id": "C38", "title": "Optimized layout types the same texts", "statement": "The layout written by lulua-optimize assigns each text of the input layout that is reachable on the keyboard to exactly the button the optimized map sends its old button to; no text is lost, duplicated or overwritten; modifiers are unchanged.", "quantifier": "every layout, keyboard and final one-to-one button map", "why_tests_cant": "Random runs.", "anchors": ["lulua/optimize.py: optimize"]}
{"id": "C39", "title": "Reported energy belongs to the reported layout", "statement": "The energy printed by lulua-optimize is the effort of the layout it prints. (Refuted: it is the effort of the last state, not of the best one.)", "quantifier": "every optimization run", "why_tests_cant": "Random runs.", "anchors": ["lulua/optimize.py: optimize"]}
{"id": "C40", "title": "Pin and mutation arguments", "statement": "parsePin parses a ;-separated list of layer[,button] into exactly these pins, and parseMutation parses layer,button:layer,button; other shapes raise ValueError. (The documented syntax layer;button is refuted.)", "quantifier": "every argument string", "why_tests_cant": "Universally quantified over strings.", "anchors": ["lulua/optimize.py: parsePin, parseMutation"]}
{"id": "C41", "title": "Character normalization", "statement": "mapChars replaces each mapped character by its image and keeps all others, independent of context; applying the shipped map twice is the same as once and no mapped character remains.", "quantifier": "every text", "why_tests_cant": "Universally quantified.", "anchors": ["lulua/text.py: mapChars, charMap"]}
{"id": "C42", "title": "Line ending normalization", "statement": "After normalization the text has no CR LF sequence. (Refuted for CR CR LF; exact condition proved.)", "quantifier": "every text", "why_tests_cant": "Universally quantified.", "anchors": ["lulua/text.py: writeWorker"]}
{"id": "C43", "title": "Filter chains compose", "statement": "apply(fs, items) is, for each item in order, the concatenation of the results of the remaining chain on what the first filter yields; chains compose by concatenation and items are independent of each other.", "quantifier": "every list of filters, every list of items", "why_tests_cant": "Universally quantified.", "anchors": ["lulua/text.py: apply"]}
{"id": "C44", "title": "Tar reading returns the members", "statement": "For every well-formed ustar archive filterTar yields the contents of exactly the non-empty members, in order; blocks after the end marker are ignored; a block without the expected magic raises AssertionError.", "quantifier": "every list of members of any size", "why_tests_cant": "Block alignment cases.", "anchors": ["lulua/text.py: filterTar"]}
{"id": "C45", "title": "Brotli reading is a faithful byte stream", "statement": "For every sequence of read(n)/read() calls on a complete stream the results are consecutive pieces of the decompressed data, each as long as requested unless the data ends, independent of chunk size; on a truncated stream an unsatisfiable read never returns.", "quantifier": "every decompressor behaviour, chunk size and sequence of reads", "why_tests_cant": "Interleaving of chunk and read boundaries.", "anchors": ["lulua/text.py: BrotliFile.read"]}
{"id": "C46", "title": "HTML selection", "statement": "Select yields exactly the tokens of the subtrees whose root the predicate selects, without script and style elements. (Partial: proved for documents where selected elements are not nested; nested selection is refuted.)", "quantifier": "every document tree and predicate", "why_tests_cant": "Nesting depth unbounded.", "anchors": ["lulua/text.py: Select"]}
{"id": "C47", "title": "HTML serialization", "statement": "HTMLSerializer yields the character data in order, one blank for each white space token and a blank line after each p and div.", "quantifier": "every token stream", "why_tests_cant": "Unbounded.", "anchors": ["lulua/text.py: HTMLSerializer"]}
{"id": "C48", "title": "XML corpus extraction", "statement": "filterTEI2 yields the text of each sentence exactly once in document order with an empty line after each paragraph; filterOpenSubtitles one stripped line per sentence. (Partial: duplicates appear for nested paragraphs - refuted.)", "quantifier": "every document tree", "why_tests_cant": "Nesting depth unbounded.", "anchors": ["lulua/text.py: getText, filterTEI2, filterOpenSubtitles"]}
{"id": "C49", "title": "Approximate numbers", "statement": "approx(i) returns the number divided by the largest fitting power of 1000 (up to billion) rounded half-even to one decimal, below 1000 except for billions, with the matching unit, and is within half a tenth of a unit of the input.", "quantifier": "every non-negative number, both languages", "why_tests_cant": "Rounding at unit boundaries.", "anchors": ["lulua/report.py: approx"]}
{"id": "C50", "title": "Number formatting", "statement": "arabnum and numspace work character by character, preserve length, leave other characters alone, and arabnum loses no information for ASCII input.", "quantifier": "every string", "why_tests_cant": "Universally quantified.", "anchors": ["lulua/report.py: arabnum, numspace"]}
{"id": "C51", "title": "Rendered keys do not overlap", "statement": "In the drawing no two keys overlap, neighbouring keys of a row are separated by the margin, halves by the additional gap, and all keys lie within the reported width and height.", "quantifier": "every keyboard with distinct buttons and positive widths, every settings", "why_tests_cant": "Universally quantified.", "anchors": ["lulua/render.py: Renderer._calcDimensions"]}
{"id": "C52", "title": "unique() keeps one representative per key", "statement": "unique(l, key) returns for each key value exactly one element, the last one having it, ordered by first occurrence of the key.", "quantifier": "every list and key function", "why_tests_cant": "Universally quantified.", "anchors": ["lulua/render.py: unique"]}
{"id": "C53", "title": "Drawing keys", "statement": "The drawing contains one cap per key in keyboard order at its place; a key is shown as unused iff it is no modifier and no layer has a text for it, otherwise its shadow carries its hand and finger; labels are exactly the texts of the first four layers; marker, highlight circle and label anchors stay on the cap; shadows touch no other key. A key can be drawn iff its texts are strings, it has a finger if it is used, and a modifier leads to layer 2 to 4. Every shipped layout can be drawn.", "quantifier": "every keyboard, layout, fingermap, heatmap and settings", "why_tests_cant": "Universally quantified geometry and layouts.", "anchors": ["lulua/render.py: Renderer.render, _drawCap, _drawCapShadow, _drawMarker, _drawHighlight, _drawLabel"]}
{"id": "C54", "title": "Displayed text", "statement": "displayText never returns an empty string, a lone combining, blank, or named format character, shows everything else unchanged and is idempotent. (The claim of its docstring that the result is always renderable is false for sequences and U+00A0 - refuted.)", "quantifier": "every text, every character database in which the replacement characters are ordinary", "why_tests_cant": "Universally quantified over strings.", "anchors": ["lulua/util.py: displayText"]}
{"id": "C55", "title": "Letter frequencies", "statement": "letterfreq lists every distinct typed text that starts with a letter (category Lo) once, by increasing count, where the count is the sum over all combinations typing it; relative values are shares of the sum of all letters, cumulated values are the sum of this and all following rows; shares add up to 1 and the first cumulated share is 1. It succeeds iff some letter was typed and every combination types a non-empty string.", "quantifier": "every layout, every dictionary of combination counts, every character database", "why_tests_cant": "Universally quantified over recorded statistics.", "anchors": ["lulua/plot.py: letterfreq"]}
{"id": "C56", "title": "Most important triads", "statement": "triadfreq merges triads that type the same texts, selects the most frequent ones until their weight reaches the cutoff (no selected one is superfluous, no omitted one is more frequent), prints each with its weight and mean effort, ordered by weight, effort or the combined measure in the direction asked for, and a limit keeps the first lines.", "quantifier": "every layout, model, statistics, cutoff, sorter, limit", "why_tests_cant": "Universally quantified over recorded statistics.", "anchors": ["lulua/plot.py: triadfreq, sortByWeight, sortByEffort, sortByCombined"]}
{"id": "C57", "title": "Cumulated effort curve", "statement": "triadEffortData computes points (share of weight, share of effort) of initial parts of the text triads sorted by decreasing weight, selected greedily with a distance of a 200th of the weight; both coordinates never decrease and stay between 0 and 1, the last point is (1,1), and there are at most 400 points (a bound that is attained).", "quantifier": "every layout, model with non-negative efforts, statistics with positive counts", "why_tests_cant": "Universally quantified over recorded statistics; invariant of a loop.", "anchors": ["lulua/plot.py: triadEffortData"]}
{"id": "C58", "title": "Layout statistics", "statement": "layoutstats reports presses per hand and finger that add up to all presses, an asymmetry (left-right)/all between -1 and 1 which is extreme iff one hand is unused, the share of letters with hamza among all combinations and of alef with hamza among all alef, both between 0 and 1; it succeeds iff every pressed button has a finger, the divisors are not zero and the layout knows a prefix of every letter.", "quantifier": "every fingermap, layout with disjoint modifiers, statistics", "why_tests_cant": "Universally quantified over recorded statistics.", "anchors": ["lulua/stats.py: layoutstats"]}
{"id": "C59", "title": "Key heatmap", "statement": "keyHeatmap reports the presses of every button, by increasing number, and their sum; the renderer scales them by the maximum to values in (0,1] with maximum 1, failing iff there are no buttons or none was pressed; keyHeatmap itself fails iff a button is called total or buttons.", "quantifier": "every dictionary of button counts", "why_tests_cant": "Universally quantified over recorded statistics.", "anchors": ["lulua/stats.py: keyHeatmap", "lulua/render.py: render"]}
{"id": "C60", "title": "LatinIME frequencies", "statement": "The value f of a word is the integer nearest to 255 + log_1.15(count/total), which is never ambiguous; it is at most 255, not negative for corpora of up to 3*10^15 words, and not larger for rarer words, so the dictionary, which lists every word once, is sorted by f.", "quantifier": "every dictionary of positive word counts", "why_tests_cant": "Universally quantified; arithmetic over all counts.", "anchors": ["lulua/stats.py: latinImeDict"]}
{"id": "C61", "title": "Corpus size", "statement": "corpusStats reports as characters the number of combinations pressed and as words the number of words ended by a non-letter, and both add up when statistics are merged.", "quantifier": "every sequence of events, every collection of statistics", "why_tests_cant": "Universally quantified over executions.", "anchors": ["lulua/stats.py: corpusStats, combine"]}
{"id": "C62", "title": "KLC rows land on their buttons", "statement": "fromKlc puts a text on a button of a layer iff the last row of the layout section that has a text for that key and column says so; rows outside the section have no effect.", "quantifier": "every file of the grammar (words separated by blanks, remarks), every number parser and normalisation", "why_tests_cant": "Universally quantified over files.", "anchors": ["lulua/layout.py: GenericLayout.fromKlc"]}
{"id": "C63", "title": "KLC import errors", "statement": "fromKlc succeeds iff every row has readable columns, a known key and no text beyond the sixth column; the first bad row decides between ValueError, AssertionError and IndexError; the result always is six dictionaries from buttons to decomposed single characters.", "quantifier": "every file", "why_tests_cant": "Universally quantified over files.", "anchors": ["lulua/layout.py: GenericLayout.fromKlc"]}
{"id": "C64", "title": "KLC remarks have no effect", "statement": "Appending a remark to a line of a KLC file does not change the import. (False for remarks that start with a semicolon and contain no double slash - refuted.)", "quantifier": "every file, every line without remark, every remark", "why_tests_cant": "Universally quantified over files.", "anchors": ["lulua/layout.py: GenericLayout.fromKlc"]}
{"id": "C65", "title": "Imported layouts can be used", "statement": "The imported layout can be specialised to a keyboard having all buttons it may refer to, with exactly the imported texts and the layer switches of the importer. (The keyboard in the repository has no Er_altgr, so no imported layout can be used with it - refuted.)", "quantifier": "every file, every keyboard", "why_tests_cant": "Universally quantified over files and keyboards.", "anchors": ["lulua/layout.py: GenericLayout.fromKlc, importKlc, GenericLayout.specialize"]}
{"id": "C66", "title": "Importer and driver agree on keys", "statement": "The importer puts a virtual key on the button whose Windows scancode the driver generator maps to that virtual key, so distinct keys land on distinct buttons. (False for OEM_3, which lands on the key of 1, and OEM_5, which lands on a button that does not exist - refuted.)", "quantifier": "every entry of the importer table", "why_tests_cant": "Relates two tables in different modules.", "anchors": ["lulua/layout.py: GenericLayout.fromKlc", "lulua/winkbd.py: qwertyScancodeToVk"]}
{"id": "C67", "title": "Scancode tables of the driver", "statement": "The array for plain scancodes has 128 entries whose values are the OR of the mapped members, 0xFF if there is none; the tables for prefixed codes are strictly sorted and contain exactly the mapped codes, so lookups of mapped codes succeed. (The tables are not terminated: looking for any other code reads past the end - refuted.)", "quantifier": "every scancode map with members of the enumerations", "why_tests_cant": "Universally quantified over maps; memory safety of generated code.", "anchors": ["lulua/winkbd.py: scancodeToVkTables, enumToCDefine, enumOr"]}
{"id": "C68", "title": "Key names and modifiers of the driver", "statement": "Lookup of a key name finds exactly the named keys and never leaves the table; whatever keys are held, a layer is selected iff the modifiers held are those meant for it.", "quantifier": "every scancode, every set of held keys", "why_tests_cant": "Universally quantified over held keys.", "anchors": ["lulua/winkbd.py: scancodeToName, vkToBits, charModifiers"]}
{"id": "C69", "title": "Character tables of the driver", "statement": "Windows finds for every key the characters of its row, for number pad keys their digit unless the layout has rows for them, nothing for other keys, and never leaves a table; translation from a character of the layout to a key never yields the number pad; generation fails iff some text is not a single character.", "quantifier": "every character map with distinct keys; characters are cut to 16 bits", "why_tests_cant": "Universally quantified over character maps.", "anchors": ["lulua/winkbd.py: vkToWchar"]}
{"id": "C70", "title": "The driver types the layout", "statement": "Pressing a button of the keyboard while a layer is selected yields the text of the button in this layer (line feed as carriage return). The driver can be generated iff every button with text has a virtual key and only single characters. On the standard keyboard the shipped layout ar-lulua types every text of every layer, and every modifier of a layer selects it.", "quantifier": "every keyboard and layout whose used buttons have different virtual keys, characters below 2^16", "why_tests_cant": "Universally quantified over keyboards and layouts; composition of several tables.", "anchors": ["lulua/render.py: renderWinKbd", "lulua/winkbd.py: makeDriverSources"]}
{"id": "C71", "title": "The driver source is closed", "statement": "Every macro used in the generated tables is defined with exactly one value, every table has a distinct name, is listed, has rows of the declared number of columns and ends with zeros; the types used are declared for layouts of up to eight layers.", "quantifier": "every scancode and character map", "why_tests_cant": "Universally quantified over inputs of a code generator.", "anchors": ["lulua/winkbd.py: enumToCDefine, vkToWchar, makeDriverSources"]}
{"id": "C72", "title": "xmodmap types the layout", "statement": "With the generated key map every key that is no modifier has eight columns in the order of the X11 levels; pressed alone it writes its text of the first layer, and while the modifier of a layer is held its text of that layer. No key code is assigned twice if the modifiers are the keys taken for their codes. All texts of ar-lulua can be typed with every modifier of their layers.", "quantifier": "every keyboard with distinct names, every layout, modifiers with their own key code", "why_tests_cant": "Universally quantified over keyboards and layouts; relates several tables.", "anchors": ["lulua/render.py: renderXmodmap, unique"]}
{"id": "C73", "title": "Layouts xmodmap can be generated for", "statement": "Generation succeeds iff every text written is a single character and every modifier is a single key of one of the first four layers. (Not every shipped layout can be exported: all but ar-lulua and null raise TypeError - refuted.)", "quantifier": "every keyboard and layout", "why_tests_cant": "Universally quantified over layouts; exact error condition.", "anchors": ["lulua/render.py: renderXmodmap"]}
{"id": "C74", "title": "Keyman rules", "statement": "There is exactly one rule for every key with text and every modifier of its layer, in order, written with the codes of these keys and the code points of the text; complaints are raised for exactly the modifiers with keys Keyman cannot use; it fails iff a text is no string. Rules of shipped layouts never disagree.", "quantifier": "every keyboard and layout, every iteration order of sets", "why_tests_cant": "Universally quantified over layouts and iteration orders.", "anchors": ["lulua/render.py: renderKeyman"]}
{"id": "C75", "title": "Rows of the Anysoft keyboard", "statement": "Every row but the last with letter keys that are no modifiers becomes a row with these keys in order, showing the composed text of the first layer and offering the others; widths are 100/n percent up to half a hundredth. Rendering fails iff such a key has something other than text or there is no layer. (Six keys are wider than the screen; the bottom row has no return, space and backspace - both refuted.)", "quantifier": "every keyboard and layout, every normalisation", "why_tests_cant": "Universally quantified over keyboards and layouts.", "anchors": ["lulua/render.py: renderAsk"]}
{"id": "C76", "title": "macOS key maps", "statement": "The modifiers of the i-th key map (i below 4) select exactly the texts of the i-th layer; generation succeeds iff all keys with text have a code and all texts are strings. (Layers after the fourth are unreachable, most shipped layouts use a key without code, and the file for ar-lulua contains a character forbidden in XML - refuted.)", "quantifier": "every keyboard and layout", "why_tests_cant": "Universally quantified over keyboards and layouts.", "anchors": ["lulua/render.py: renderKeylayout"]}
{"id": "C77", "title": "Klavaro files", "statement": "The file consists of one line per row with letter keys for the first layer, then one per row for the second, each with the composed texts of the keys in order and a space for keys without text. It fails iff there are fewer than two layers or a cell without text. (The lines of shipped layouts do not have one character per key - refuted.)", "quantifier": "every keyboard and layout without line feeds on letter keys, every normalisation", "why_tests_cant": "Universally quantified over keyboards and layouts.", "anchors": ["lulua/render.py: renderKlavaro"]}
{"id": "C78", "title": "Loading by name and iterating agree", "statement": "A name denotes the usable file among the working directory, the resource with extension and the resource without, in this order; missing and unreadable files are passed over, other errors are raised, KeyError if nothing is left. Iteration ignores the working directory and yields the visible YAML resources in order, each being what its name without extension denotes.", "quantifier": "every content of both directories, every deserialiser; no resource with the name of another plus extension for iteration", "why_tests_cant": "Universally quantified over directories.", "anchors": ["lulua/util.py: YamlLoader"]}
{"id": "C79", "title": "The most frequent triads are used", "statement": "With a positive limit n the optimizer uses n triads (or all if there are fewer) such that no other triad is more frequent, most frequent first, equally frequent ones in the order of the statistics; without limit all. These conditions determine the list, and the energy printed is computed for it.", "quantifier": "all statistics and limits; energy: every successful run on exact rationals", "why_tests_cant": "Universally quantified over statistics.", "anchors": ["lulua/optimize.py: optimize"]}
{"id": "C80", "title": "Where the optimizer starts", "statement": "Annealing starts from the keyboard with the mutations of the user applied, with --randomize after exactly twice as many exchanges of two keys as there are movable keys, otherwise unchanged; the layout written is never worse than this start.", "quantifier": "every successful run: all layouts, arguments, statistics and random numbers", "why_tests_cant": "Universally quantified over runs of the whole program.", "anchors": ["lulua/optimize.py: optimize"]}
{"id": "C81", "title": "limit draws no more than needed", "statement": "limit (it, n) yields what the iterator yields, item by item and only when asked; it ends after n items without drawing another one, or where the iterator ends, passing on its exception. It always ends. first yields the first item or raises StopIteration.", "quantifier": "all iterators, also endless and failing ones, all n (negative too)", "why_tests_cant": "Universally quantified over iterators as state machines.", "anchors": ["lulua/util.py: limit, first"]}
{"id": "C82", "title": "Fractions in the report", "statement": "fraction shows numerator and denominator, in decimal without superfluous zeros, of a fraction in lowest terms with a denominator of at most maxdenom, such that no other one is nearer and those as near have no smaller denominator; the error is at most 1/(2 maxdenom). A number with such a denominator is shown exactly, ValueError iff maxdenom < 1. Shares below 1/20 are shown as zero with the default of 10.", "quantifier": "all rational numbers (floats are) and all limits", "why_tests_cant": "Universally quantified over numbers and limits.", "anchors": ["lulua/report.py: fraction"]}
{"id": "C83", "title": "The report page", "statement": "The page is made iff every non-empty metadata document has statistics and each of its twelve tables, those of the shipped layouts, can be made. A table can be made iff all ten fingers were used; it lists hands from left to right and fingers from little finger to little finger, widths of the fingers of a hand add up to 100 %, shares to that of the hand, those of the hands to 100 %. Totals are those of the merged statistics. For ar-phonetic a text typed without AltGr is not enough.", "quantifier": "all statistics, texts, metadata files; shares as exact rationals", "why_tests_cant": "Universally quantified over statistics, and over the texts typed on shipped layouts.", "anchors": ["lulua/report.py: render", "lulua/data/report/index.html", "lulua/stats.py: layoutstats, corpusStats"]}
{"id": "C84", "title": "Letter variables of the report", "statement": "For every table of names that differ in lower case, contain a capital and do not end in an underscore, each letter gets four variables (name with the letter as element in Arabic, the same in lower case, and the bare name in both), none is overwritten, and nothing else is. The table of the report is such; every name the page uses is defined by it, other variables of the page and of jinja2 are not touched, different letters differ in name and characters, lower case changes only the name. On every compared layout each letter can be typed, except three on ar-alramly and one on ar-khorshid.", "quantifier": "all tables of names, all functions for lower case, all previous globals; the table, page and layouts of the repository", "why_tests_cant": "Universally quantified over tables; a missing variable is silently shown as nothing by jinja2.", "anchors": ["lulua/report.py: render (letterNames)", "lulua/data/report/index.html"]}
{"id": "C85", "title": "The plot of effort curves", "statement": "Concatenated files of pickled objects are read as all their objects in order. The plot is drawn iff there are three to twelve layouts with different names, KeyError or AssertionError otherwise; each layout has one line of its own points, in order and in a colour of its own. A click shows exactly the lines of the button whatever was visible before; \"All\" returns to the start. In the report all buttons name existing layouts and no further layout would fit; \"All\" shows curves entirely, the other buttons cut them off.", "quantifier": "all serialisation formats with self-delimiting objects; all lists of curves, all sequences of clicks", "why_tests_cant": "Universally quantified over formats and data; also says that the number of layouts of the report is the maximum.", "anchors": ["lulua/plot.py: triadEffortPlot", "lulua/stats.py: unpickleAll", "gen.sh"]}
{"id": "C86", "title": "Characters of a file", "statement": "iterchar yields the characters of the file in order however reading splits it, then ends as the file ends, passing on its exception.", "quantifier": "all files as state machines, all batch sizes", "why_tests_cant": "Universally quantified over files.", "anchors": ["lulua/text.py: iterchar"]}
{"id": "C87", "title": "Pretty-printed statistics", "statement": "For counts that are positive the output consists of the totals, buttons, combinations, unknown characters, triads and words from rare to frequent (equals in their order) with percentages that add up to 100, run lengths of each hand by length and of both together, and the mean effort. Combinations have the ranks n to 1, r-1 being at least as frequent as the one of rank r. It succeeds iff the layout has all combinations, their texts can be shown and all triads be scored; if only scoring fails, all but the last line is printed. Text typed on a shipped layout without backspace can always be printed with this layout.", "quantifier": "all statistics with positive counts, all layouts, all functions showing texts; every text typed on a shipped layout", "why_tests_cant": "Universally quantified over statistics and texts.", "anchors": ["lulua/stats.py: pretty"]}
{"id": "C88", "title": "Mediawiki dumps", "statement": "For each element named text of a dump, in the order of their end tags, one line is written: the concatenated text inside of the element (including the text of nested elements, without comments) as string of JSON. Splitting the output into lines and reading them with the filter json yields exactly these texts, whatever characters they have. If the dump is cut off, all pages whose end tag was read are written. The reader accepts a string iff it is spelled as RFC 8259 says (escapes, hexadecimal digits, surrogate pairs) between quotes and white space. The line null stops a worker with TypeError. Lines of the input end with CR, LF or both.", "quantifier": "all documents, all texts, every place a dump can be cut off at, all spellings of strings", "why_tests_cant": "Universally quantified over trees and texts.", "anchors": ["lulua/text.py: extractMediawiki", "lulua/text.py: filterJson"]}
{"id": "C89", "title": "Converting wikitext with another program", "statement": "If the converter reads all of its input before it writes anything and then exits, the filter always finishes: no process waits for the other forever, there is no infinite run and whatever the order of steps and sizes of the pipes, exactly the decoded output is yielded, nothing if the exit code is not 0. For every converter, what is yielded is an output it can produce for this text. A text that fits into a pipe never blocks. A text that does not fit blocks both processes forever if the converter writes while reading. If it exits without reading, BrokenPipeError or nothing are both possible.", "quantifier": "all converters (programs that read, write and exit), all texts, all sizes of pipes, all interleavings", "why_tests_cant": "Quantifies over schedules of two processes and all texts.", "anchors": ["lulua/text.py: filterMediawikiMarkdown"]}
{"id": "C90", "title": "Typing the text again with the optimized layout", "statement": "The energy the optimizer computes for a button map is the effort of typing the text again with the rearranged layout, provided this layout leaves the writer no choice: each text that is typed has one combination only, or just ones the triads ignore (space keys). Then the layout written is never harder to type the text with than the layout read (no limit, mutations or shuffling). Layouts with one modifier per layer and one key per text always meet the condition. If all layers are pinned, only the old layout has to meet it; for the layouts, keyboard and model of the repository nothing else is assumed. It is needed: with two shift keys the optimizer, always taking the first one, can report half the energy for a layout that is much harder to type with.", "quantifier": "all layouts, texts, button maps, models with exact numbers, random numbers and set orders", "why_tests_cant": "Relates the optimizer run to a second run of the writer, for all texts.", "anchors": ["lulua/optimize.py: LayoutOptimizerModel.mapButton", "lulua/optimize.py: optimize", "lulua/writer.py: Writer.type", "lulua/stats.py: TriadStats.process"]}
{"id": "C91", "title": "Heat map of typed text in the picture", "statement": "For every text typed on a shipped layout the statistics, the heat map made from them and the picture drawn with it agree: every key of the keyboard is drawn once; it has a circle iff it was pressed (also as modifier), with an opacity proportional to its presses, 1 for the key pressed most often. The same for any statistics of keys of the keyboard. If no character of the text can be typed, drawing raises ValueError; without heat map there are no circles.", "quantifier": "all texts, all shipped layouts, all statistics with positive counts, all functions showing texts", "why_tests_cant": "Universally quantified over texts and statistics; composes four programs.", "anchors": ["lulua/render.py: renderSvg", "lulua/stats.py: keyHeatmap", "lulua/render.py: Renderer.render"]}
{"id": "C92", "title": "Styles of the picture", "statement": "With the style sheets of the repository applied as CSS says (selectors, specificity, order, inheritance), every picture looks as follows, for any list of keys drawn: first all shadows, then caps with markers, circles, texts; a shadow has the colour of its finger, and two have the same colour iff the finger is the same; caps without text are translucent; texts have a size and weight by layer, arrows and names of control characters their own; text is drawn on its shadow. No selector of the style sheets is without use. The style sheet for printing gives the circle of the most used key the colour of the text on it.", "quantifier": "all lists of keys drawn, both style sheets", "why_tests_cant": "Universally quantified over pictures; wrong class names have no effect a test would notice.", "anchors": ["lulua/render.py: Renderer.render", "lulua/render.py: Renderer._drawLabel", "lulua/data/render-svg.css", "lulua/data/render-svg-print.css"]}
{"id": "C93", "title": "Equality of layouts", "statement": "Two layouts compare equal iff they have as many layers, with the same modifiers in the same order and the same text on every button; neither their names nor the order of buttons matter. This is an equivalence. Equal layouts have the same modifiers, layer numbers, texts of buttons and combinations and length of buffer, a lookup finds the same text with the same combinations up to order, and every typed text is divided the same way. Exactly the same combinations are pressed if no layer has a text on two buttons; otherwise, e.g. with two space keys, they may differ. A layout read back is equal to the one written, equal layouts fit the same keyboards and are equal on them. No two layouts of the repository are equal.", "quantifier": "all pairs of layouts, texts, readers, previous combinations, set orders and keyboards", "why_tests_cant": "Universally quantified over pairs of layouts and over texts typed with both.", "anchors": ["lulua/layout.py: KeyboardLayout.__eq__", "lulua/layout.py: GenericLayout.__eq__", "lulua/layout.py: GenericLayout.specialize"]}
{"id": "C94", "title": "Building the report: parallel and repeated builds", "statement": "In the build file written by gen.sh no file has two statements. Commands read nothing that another command writes without waiting for it, so however ninja runs them in parallel, with commands writing their outputs at any time, a complete build has the same files, the only ones consistent with the sources; a build neither gets stuck nor goes on forever, and lulua-write never runs twice at once. Statistics are only read with the layout they have been typed with, those of a layout count every corpus once, and nothing made with one layout is read with another one except by the plot comparing layouts. Building again runs only what depends on changes and arrives at the same files as building everything, unless layouts, style sheets or fonts of pictures, wikiextractor or osmconvert changed, which is not noticed. Every directory of the corpus must be a known one and not be empty.", "quantifier": "all contents of sources, commands, interleavings, corpora and files found; all changes between two builds", "why_tests_cant": "The outcome of one build on one machine says nothing about other interleavings; builds take days.", "anchors": ["gen.sh", "lulua/data/winkbd/build.ninja", "makezip.sh"]}
{"id": "C95", "title": "Building the report: completeness of the page", "statement": "Everything the page and its style sheet refer to is built next to it: pictures, plots, fonts, drivers. Heat maps show statistics of their own layout. The page has statistics of every layout and every corpus, made before it. The archive for Windows has exactly both drivers and three files for their installation, all sources of the drivers are dependencies of theirs, and what is linked is made for one machine, 64 bits in System32 and 32 in SysWOW64. The page tells users to read INSTALL.txt, which the archive does not have.", "quantifier": "all corpora, files found and contents of sources", "why_tests_cant": "There is no test of the build.", "anchors": ["gen.sh", "lulua/data/report/index.html", "lulua/data/report/style.css", "lulua/data/winkbd/build.ninja"]}
{"id": "C96", "title": "Command lines: usual ones mean what they say", "statement": "Options can be given in any order, as two words or joined by =, and the last one counts; mutations of lulua-optimize are collected. lulua-analyze and lulua-render take options of theirs before the command and those of the command after it, lulua-render the output file at the end, lulua-write options anywhere but between filters. Every value arrives unchanged, everything not given has its default, the function of the command given is called, and exactly values that are not allowed (unreadable files, unknown filters, models, sort orders) are refused. All command lines of the rules in gen.sh are accepted and tell the programs to make what the file is named for, with the layout and the formats of the corpus it is named for, provided there is a corpus.", "quantifier": "all command lines of these forms, all strings, all functions deciding which values can be converted; all corpora and files found", "why_tests_cant": "Nobody tests command lines; a wrong one in gen.sh is noticed after hours, or not at all if it only picks the wrong layout.", "anchors": ["lulua/stats.py:409-446", "lulua/render.py:594-631", "lulua/report.py:63-68", "lulua/layout.py:352-361", "lulua/optimize.py:269-282", "lulua/text.py:393-403", "lulua/text.py:467-470", "gen.sh:37-130"]}
{"id": "C97", "title": "Command lines: any others", "statement": "Parsing any command line ends. If one is accepted, every option has its default or a value given by some argument that is allowed for it, and the function called is that of a command given. lulua-render always has a command and an output file; lulua-write a layout and at least one known filter unless there are two \"--\"; lulua-optimize a known model. Help is shown for all programs and commands. Refuted: lulua-analyze without command and lulua-import without format are accepted and then fail on args.func; the help of lulua-analyze triadfreq fails with a format error because of its percent sign.", "quantifier": "all lists of strings, all functions deciding which values can be converted", "why_tests_cant": "The number of ways to write arguments (prefixes of options, joined short options, --) is infinite.", "anchors": ["lulua/stats.py:409-446", "lulua/render.py:594-631", "lulua/layout.py:352-361", "lulua/optimize.py:269-282", "lulua/text.py:393-403"]}
{"id": "C98", "title": "The C source of the Windows driver means its tables", "statement": "A reader for the part of C used (comments, tokens, macros, structures, initializers, the function Windows calls), which knows the structures of kbd.h, reads from the source written exactly the tables of the driver, whatever texts, comments, flags and scancodes are in it, if every scancode has a key and every key one to eight characters; otherwise there is a syntax error or a missing type. The source is written iff there are tables, with the same exception otherwise. Together with the claims about the tables: a driver compiled from the file of renderWinKbd types what the layout says.", "quantifier": "all maps of scancodes, all lists of characters, all layouts of up to eight layers, all keyboards, all orders of sets, all definitions of printable characters", "why_tests_cant": "Tests cannot compile the driver (a Windows cross compiler is needed) and use one layout; texts like a star and a slash could close comments.", "anchors": ["lulua/winkbd.py: enumToCDefine", "lulua/winkbd.py: makeDriverSources", "lulua/winkbd.py: vkToWchar", "lulua/render.py: renderWinKbd", "lulua/data/winkbd/build.ninja"]}
{"id": "C99", "title": "The files for xmodmap and Keyman mean the layout", "statement": "A reader of xmodmap's commands (comments, keycode, clear, add, names of keysyms) reads the file written by renderXmodmap as: free Lock, Mod2, Mod3 and Mod5, then definitions of keys, then Mod3 and Mod5 again; with it every key types what the layout says, alone and together with a modifier key, if all characters have a keysym. After an exception the file left takes the modifiers and defines no key. A reader of Keyman's language reads from renderKeyman's file the four stores with the name of the layout and exactly one rule for every text of every layer and modifier, in order, with the codes of the keys and the text; an exception cuts it off before the first cell that is no text. Names of layouts must not have line breaks, for Keyman also no quotes and backslashes.", "quantifier": "all layouts, keyboards, names, times, orders of sets", "why_tests_cant": "Neither xmodmap nor Keyman's compiler runs in tests, and exporters write text by hand without escaping.", "anchors": ["lulua/render.py: renderXmodmap", "lulua/render.py: renderKeyman"]}
{"id": "C100", "title": "Codes of keys mean the places of the keys", "statement": "The keyboard file has a code for every key for Windows, X11, macOS and Keyman. Given the places of keys on a keyboard with 105 keys and the standard codes of these places, all scancodes for Windows are right, all codes for X11 but one, all for macOS but two (four are missing), and for Keyman all are the virtual keys of the German layout. No shipped layout has text on a key with a wrong code. Refuted: X11 takes the right logo key for the right control key, macOS the left shift key for caps lock; Keyman is given other virtual keys than the driver for Windows for ten keys, Y and Z among them.", "quantifier": "all keys of the keyboard, all shipped layouts", "why_tests_cant": "Tests never compare the numbers with anything, and nobody has a keyboard in the test suite.", "anchors": ["lulua/data/keyboards/ibmpc105.yaml", "lulua/winkbd.py: qwertyScancodeToVk"]}
{"id": "C101", "title": "The XML files for macOS and Anysoft keyboard mean the layout", "statement": "A reader of XML 1.0 (declaration, document type, elements, attributes with entities and normalization of white space) reads back every tree ElementTree writes, whatever the values of its attributes, if and only if all their characters are characters of XML. So from the file of renderKeylayout macOS's rules (layout, modifierMap, keyMapSelect, keyMapSet) select for every code and each of the four modifiers exactly the texts of the layer; without code for a key there is no file, with a cell that is no text only the declaration is left, which is no document. From the file of renderAsk the rows of letter keys are read: codes, label, popup characters, hint, width and edge flags, with all prefixes declared. Refuted: the file of the shipped layout ar-lulua cannot be read, since it has a character XML forbids.", "quantifier": "all trees with names of ASCII characters, all layouts, keyboards, names and normal forms", "why_tests_cant": "Tests do not load the files with macOS or Android; layouts contain quotes, <, &, line breaks and control characters in rare places.", "anchors": ["lulua/render.py: renderKeylayout", "lulua/render.py: renderAsk"]}
{"id": "C102", "title": "Fonts are part of the pictures, unchanged, and those the texts need", "statement": "The base 64 encoding of any bytes decodes to them (RFC 4648, padding and unused bits included) and has the length it should. Whatever the two font files and the style sheet are, a reader of CSS finds in the style of a picture exactly two @font-face rules, with family, weight, format and (as data URL) the contents of the files, before those of the style sheet, which is left unchanged. Every text of every picture, with both style sheets, is in the family and weight of one of these rules or in the generic family; both rules are needed. If and only if one of the files cannot be read, there is no picture. The rules contain no character which could end the block in the XML file.", "quantifier": "all bytes, files, style sheets and pictures", "why_tests_cant": "There are no tests of render; a wrong weight or a broken data URL is not an error, browsers just use another font.", "anchors": ["lulua/render.py: renderSvg", "lulua/data/render-svg.css"]}
{"id": "C103", "title": "The word list for Android is read as the words counted", "statement": "latinImeDict prints the header and one line for every word, or stops with the error of the first word without frequency. If no word has a comma or line break, all counts are positive and their sum is at most 3 * 10^15, makedict reads from this text the attributes of the dictionary and exactly the words with their frequencies (0 to 255), the most frequent one first. This holds for the words of all statistics, from any run over any text with any layout or combined from such, since words consist of letters and marks only.", "quantifier": "all statistics, layouts, sequences of events and combinations", "why_tests_cant": "There are no tests of latinime; the format has no escapes, so a single word with a comma breaks the whole file.", "anchors": ["lulua/stats.py: latinImeDict", "lulua/stats.py: WordStats"]}
{"id": "C104", "title": "The tables of corpora on the report page are read as the corpora", "statement": "If names and kinds contain neither < nor & and addresses no quotes, and there are less than 10^27 words and characters, a reader of HTML finds in both tables one row for each corpus and one for the totals: address, name and kind in the language of the table, the exact number of things with digits in groups of three, words and characters rounded to tenths of the right unit, with the digits and signs of the language. Rows are ordered by English name in lower case, corpora with the same name as given, and both tables have the same order. The eight corpora of the project meet the conditions; their order is given. Names are not escaped: with & the table reads differently or not at all.", "quantifier": "all lists of corpora, both languages, any lower case function", "why_tests_cant": "There are no tests of the template; a wrong separator or a corpus left out of the sum looks plausible.", "anchors": ["lulua/data/report/index.html", "lulua/report.py: approx", "lulua/report.py: numspace", "lulua/report.py: arabnum", "lulua/report.py: render"]}
{"id": "C105", "title": "The boxes for hands and fingers on the report page show the shares of presses", "statement": "Whatever the statistics are, if the boxes can be made, a reader of the HTML finds the left hand, the asymmetry and the right hand, with the fingers from little to thumb and from thumb to little. Widths are shares of the parent in thousandths of a percent, the texts are shares of all presses in hundredths, the asymmetry is in thousandths, all rounded half to even and possibly negative. The widths of both hands add up to exactly 100 percent and so do their shares; fingers fill their hand up to two thousandths of a percent (attained) and their shares add up to that of the hand up to three hundredths.", "quantifier": "all statistics, finger maps and layouts", "why_tests_cant": "There are no tests of the template; boxes with wrong widths or in wrong order look plausible.", "anchors": ["lulua/data/report/index.html", "lulua/report.py: render"]}
{"id": "C106", "title": "lulua-write can be interrupted", "statement": "If the main process alone is interrupted (SIGINT) while it reads its input, the program still ends, the assertion holds, and if it succeeds the results are exactly those of the lines given to workers, a prefix of the input up to at most one line lost; without failing lines it always succeeds. If all processes are interrupted (control-C in a terminal) and no line has failed, the program never ends, for any number of jobs and any schedule: workers do not catch KeyboardInterrupt and die without a reply, for which the main process waits. Refuted: the program ends after control-C; success means that all lines were processed.", "quantifier": "all inputs, numbers of jobs, schedules and moments of the interrupt while reading", "why_tests_cant": "Tests cannot send signals at every moment of a schedule of several processes, and there is none for write.", "anchors": ["lulua/text.py: write", "lulua/text.py: writeWorker", "lulua/text.py: statusWorker"]}
{"id": "C107", "title": "Pretty-printed statistics can be read by columns", "statement": "If no count is negative and no label ends with a blank, a reader of columns from the right finds in every line lulua-analyze pretty prints the number it was made of: totals, counts, lengths of runs and ranks exactly, percentages rounded half to even to the tenth (buttons, runs), thousandth (combinations) or hundred-thousandth (words), and labels unchanged, blanks inside of them included. This holds for statistics of any text typed on a shipped layout if blanks are not letters, even if the last line is missing because of a triad without score. Counts below 10^10 and percentages are in columns, larger ones are not, nor are words: their percentages have no common width.", "quantifier": "all statistics, labels and layouts", "why_tests_cant": "There are no tests of pretty; columns that run into each other show only with large counts.", "anchors": ["lulua/stats.py: pretty"]}
{"id": "C108", "title": "Statistics are equal if they counted the same", "statement": "For any statistics made by collecting any events and combining in any way, == is true iff all counters (buttons, combinations, unknown characters, run lengths of hands, triads, words) have the same values, whatever the order they were added to the dictionaries; it is an equivalence, combining the same statistics in any order and with any grouping gives equal ones, and adding the same to equal ones, on either side, does too. It should hold for the run lengths of fingers as well, and equal statistics should stay equal after the same press.", "quantifier": "all statistics that can be made, all orders and groupings", "why_tests_cant": "The tests compare one pair of SimpleStats; a counter left out of __eq__ makes every comparison pass.", "anchors": ["lulua/stats.py: RunlenStats.__eq__", "lulua/stats.py: SimpleStats.__eq__", "lulua/stats.py: TriadStats.__eq__", "lulua/stats.py: WordStats.__eq__", "lulua/stats.py: combine"]}
