# Formal model of lulua: design

The subject is PromyLOPh/lulua in `/repo` (Python), read as text.  The model is
in `rocq/theories` (logical prefix `Verif`), Coq 8.16.1, standard library only.

## Conventions

* One group of files per Python module: `XModel.v` (the code, function by
  function, each definition citing file and lines), `XSpec.v` (small independent
  vocabulary in which properties are stated), `XProofs.v` (lemmas), `PropsX.v`
  (the theorems named in `MANIFEST.json`, each next to a non-trivial example
  that meets its hypotheses, and `Print Assumptions`).
* Exceptions are values: `res A := Ok a | Raise e` (`Base.v`).  Generators are
  modelled by the list of what they yield plus the final exception, if any.
* Loops without structural measure take fuel and return an explicit
  `OutOfFuel` error; termination is a theorem, not an assumption.
* A Python `dict` is an insertion ordered association list (`Base.v: dict`);
  counters are integers.
* A Python `str` is a list of code points (`list N`), names are Coq strings.
* Buttons outside `KeyboardModel.v` are identified with their name.  This is
  justified by C01 (two buttons are equal iff their names are equal).
* `frozenset` of buttons is a canonical (strictly sorted) list.  Python does not
  specify the iteration order of frozensets; the properties do not depend on it
  or quantify over it.
* Floating point: effort arithmetic is parametric in a record of number
  operations.  Theorems about sums are proved for exact rationals; theorems not
  depending on arithmetic laws (cache transparency) for every number type;
  failure of the exact laws in binary64 is shown with Coq's `SpecFloat`.
* Third party code is modelled by contract: `pygtrie.CharTrie` (map from text
  with longest prefix lookup), `unicodedata` (arbitrary functions),
  `brotli.Decompressor` (arbitrary chunk behaviour), `html5lib` tokens and
  `defusedxml` trees (given as data), `multiprocessing.Queue` (bounded FIFO with
  an `empty()` that may be stale), `random` and the acceptance test of the
  annealer (arbitrary oracles).

## Per property

| id | modelled | how |
|----|----------|-----|
| C01 | `Button` registry (name->id, id->name, next id) | invariant by induction over creation history |
| C02 | registry of two processes, pickle = id only | lemma for prefix-related histories, counterexample otherwise |
| C03 | (de)serialize as functions on a data type of YAML values | structural induction; mapping equality up to order |
| C04 | store of mutable scancode tables | refutation by witness, plus what is preserved |
| C05 | `PhysicalKeyboard` lookups | induction on rows |
| C06-C08 | `KeyboardLayout` constructor and lookups | invariants of the constructor loops |
| C09, C10 | `GenericLayout` | induction on layers |
| C11-C13, C16 | `Writer.type` with an arbitrary reader | loop invariant relating buffer and rest of the file |
| C14, C15 | `chooseCombination` | bit packing lemma, minimum lemma |
| C17-C21 | statistics classes as state machines | invariants over all event lists |
| C22-C24 | `updateDictOp`, `update`, `combine`; heap model for aliasing | algebra on finite maps; witness |
| C25-C27 | transition system of main, workers, status process, queues | inductive invariants, termination measure; deadlock witness |
| C28-C32 | `Carpalx` | algebra over Q; invariants on the cache; case analysis |
| C33-C40 | `LayoutOptimizer`, `Annealer`, `optimize`, argument parsers | invariants over all oracles |
| C41-C43 | `mapChars`, newline handling, `apply` | induction |
| C44 | `filterTar` over bytes | induction on members with alignment invariant |
| C45 | `BrotliFile.read` | invariant for arbitrary decompressor |
| C46-C48 | token and tree filters | induction on trees |
| C49, C50 | `approx`, `arabnum`, `numspace` | arithmetic over Q, induction |
| C51, C52 | `_calcDimensions`, `unique` | induction, linear arithmetic |
| C53 | `Renderer.render` and its helpers | inversion, linear arithmetic |
| C54 | `displayText` | case analysis over every character database |
| C55-C57 | `letterfreq`, `triadfreq`, `triadEffortData` | fold invariants on dictionaries, stable sorting, greedy selection |
| C58-C61 | `layoutstats`, `keyHeatmap`, `latinImeDict`, `corpusStats` | sums over finite maps, exact logarithm bounds |
| C62-C65 | `fromKlc`, `importKlc` | grammar as inductive predicate, fold invariant over lines |
| C66-C71 | `winkbd.py`, `renderWinKbd` | tables searched as Windows does; sorting and grouping lemmas; finite checks for the shipped data |
| C72, C73 | `renderXmodmap` | dictionary invariants over columns and modifiers; X11 semantics as specification |
| C74 | `renderKeyman` | fold invariant, for every set iteration order |
| C75-C77 | `renderAsk`, `renderKeylayout`, `renderKlavaro` | correspondence of rows and keys by Forall2, equivalences for errors |
| C78 | `YamlLoader` | case analysis, induction over the listing |
| C79 | `used_triads`, `optimize` | insertion sort: sorted, stable, unique |
| C80 | `randomize`, `optimize` | induction over the steps, then the whole program |
| C81 | `limit`, `first` over iterators (`UtilModel.v`) | induction over draws |
| C82 | the filter `fraction` of the report, `Fraction.limit_denominator` | continued fractions, best approximation over QArith |
| C83, C84 | templates of the report (`fingerhandstats`, letter variables) | evaluation with undefined values; finite checks for shipped data |
| C85 | `triadEffortPlot`, `unpickleAll` | induction over objects of a file; all sequences of clicks |
| C86 | `iterchar` | induction over reads of a file |
| C87 | `pretty` | stable sorting, sums of percentages, inversion of errors |
| C88 | `extractMediawiki`, `filterJson` | induction over trees; JSON strings as inductive predicate |
| C89 | `filterMediawikiMarkdown` | small steps of two processes, invariants, well-founded measure |
| C90 | `typed_triads` (writer and triad statistics), `optimize` | typed events of both layouts correspond one by one; sums over counted triads |
| C91 | `renderSvg`, `keyHeatmap`, the statistics of typing | composition of C17, C53 and C59 |
| C92 | `Renderer.render` as tree of elements, both style sheets | CSS as specification, closed form of every picture |
| C93 | `KeyboardLayout.__eq__`, `GenericLayout.__eq__` | equality of finite maps; congruence of lookups and typing |
| C94, C95 | `gen.sh`, the inner `build.ninja`, ninja as small steps | unique consistent files by rank, invariant over all interleavings, measure |
| C96, C97 | argparse (Python 3.11) as used by the programs, their parsers, commands of `gen.sh` | parsing of items one by one; invariant over arbitrary arguments, measure |
| C98 | text of the C source (`CsrcModel.v`), a reader for C (`CsrcSpec.v`) | the reader line by line, trees of braces, lookup of names |
| C99 | text of the files (`FilesModel.v`), readers for xmodmap and Keyman (`FilesSpec.v`) | lines and words read back, invariant over the symbols written, composition with C72 |
| C100 | codes in `DataKeyboard.v`, standard tables of codes as specification | finite tables by computation |
| C101 | serialization of trees and both files (`XmlModel.v`), reader for XML, rules of macOS and attributes of Anysoft keyboard (`XmlSpec.v`) | structural induction over trees: read back iff all characters are allowed; composition with C75 and C76 |
| C102 | base 64, @font-face rules and style (`FontModel.v`), decoder by bits, data URLs, reader of rules respecting quotes (`FontSpec.v`) | induction over groups of three bytes, bit identities checked exhaustively for single bytes; composition with C92 |
| C103 | output of `latinImeDict` (`WordlistModel.v`), reader for lists of words (`WordlistSpec.v`) | lines read one by one; invariant of `WordStats` under events and combination; C60 |
| C104 | tables of corpora in index.html (`TableModel.v`), reader of rows, cells and numbers in two languages (`TableSpec.v`) | groups of digits by induction in steps of three; rows and cells one by one; C49; sorting as in C55 |
| C105 | macro `fingerhandstats` as text (`WidgetModel.v`), reader of boxes, rounding as distance (`WidgetSpec.v`) | numbers read back, composition with C58 and C83; two halves with the same parity for the exact sum |
| C106 | SIGINT in the pipeline (`IntrModel.v`) | an interrupted run is simulated by one with shorter input, then C25 to C27; invariant of waiting states |
| C107 | lines of `pretty` as text (`PrettyTextModel.v`), reader of columns from the right (`PrettyTextSpec.v`) | fields of reversed text; numbers read back as in C105 with any number of digits; composition with C87 |
| C108 | `__eq__` of the four classes of statistics (`StatEqModel.v`) | equality of finite maps; invariant of everything reachable (both hands present), then C22 |

## Trusted base

* The Coq 8.16.1 kernel, including `vm_compute`.  `vcheck` also runs `coqchk`.
* Axioms: none.  `Print Assumptions` says "Closed under the global context" for
  every theorem named in `MANIFEST.json`; the `Props*.v` files print it at their
  end.  `coqchk` additionally lists `Coq.ssr.ssrunder.*`, which is part of the
  standard library files being loaded and used by no theorem.
* The reading of the Python code: the comments with file and line numbers next
  to the definitions of the `*Model.v` files are the only link to `/repo`.  The
  code is not executed anywhere.
* `tools/gen_data.py`, which turns the tables in `/repo` (the keyboard
  ibmpc105, 13 layouts, the finger map, the models of carpalx, the tables of
  winkbd.py) into `Data*.v`.  Theorems named `..._shipped` depend on it, the
  others do not.

## What is modelled

| file in /repo/lulua | model | not modelled |
|---|---|---|
| carpalx.py | all: `CarpalxModel.v`, `DataModels.v` | `__slots__`, logging |
| keyboard.py | all: `KeyboardModel.v`, `DataKeyboard.v` | `__repr__`, `defaultKeyboards` at import time |
| layout.py | 33-234, 352-363: `LayoutModel.v`; 158-159, 196-197: `LayoutEq.v`; 235-350: `KlcModel.v` | YAML printing |
| optimize.py | all but the rest: `OptModel.v`, `OptMain.v`, `OptArgs.v` | progress bars, KeyboardInterrupt, YAML printing |
| plot.py | 48-222: `PlotModel.v`; 224-292: `CurveModel.v` | bokeh calls (the model ends at the data handed to bokeh), styles |
| render.py | 37-259: `RenderModel.v`; 60-119, 200-252, 261-273: `SvgModel.v`; 302-468, 514-585: `ExportModel.v`; 302-401 as text: `FilesModel.v`; 403-468, 514-556 as text: `XmlModel.v`; 470-512: `WinkbdModel.v`; 275-297: `FontModel.v` | 298-300 (writing by svgwrite) |
| report.py | 32-61: `ReportModel.v`; 78-109: `LetterModel.v`; 111-135 and the parts of index.html working on statistics: `PageModel.v`; index.html:158-184, 192-218: `TableModel.v`; 404-426 as text: `WidgetModel.v` | the rest of the HTML template |
| stats.py | 34-252: `StatsModel.v`, `HeapModel.v`; 233-238: `CurveModel.v`; `__eq__`: `StatEqModel.v`; 254-301: `PrettyModel.v`, as text `PrettyTextModel.v`; 303-406: `PlotModel.v`; 371-394 as text: `WordlistModel.v` | `repr` of objects |
| text.py | 43-49: `CurveModel.v`; 51-251: `FilterModel.v`, `FilterHtml.v`, `FilterXml.v`, `FilterBrotli.v`; 292-328: `TextModel.v`; 332-463: `PipeModel.v`, `IntrModel.v`; 208-209, 464-478: `WikiModel.v`; 253-269: `PandocModel.v` | progress bar |
| util.py | 27-36: `UtilModel.v`; 38-72: `LoaderModel.v`; 74-98: `RenderModel.v` | |
| winkbd.py | all: tables in `WinkbdModel.v`, `DataWinkbd.v`; text of the C source in `CsrcModel.v`, `DataCsrc.v` | — |
| argument parsers of all programs | `ArgModel.v`; conversions of values: `OptArgs.v` | texts of messages |
| gen.sh, data/winkbd/build.ninja | all statements, what commands read: `BuildModel.v`; command lines of the programs: `ArgGen.v` | what commands do (see the other rows), compiler flags |
| writer.py | all: `WriterModel.v`, `DataFingermap.v` | |

## Simplifications

* Iteration order of a frozenset is an arbitrary order given as parameter
  (`ord`, `miter`), or the statement does not depend on it.
* Optimizer: the random numbers are a stream, the acceptance test is an
  arbitrary function of the step.  Energies are exact rationals where laws of
  arithmetic matter.  Carpalx objects are the ones without cache; C29 shows that
  the cache cannot be observed.  The state of an object after an exception is
  not modelled.  Negative layer numbers given by the user are unknown layers
  (KeyError).
* Filters: a file is the list of bytes not read yet, `read (n)` returns as much
  as asked for unless the file ends.  html5lib is a stream of tokens, minidom a
  tree, brotli an arbitrary decompressor.
* Pipeline: KeyboardInterrupt only while the main process reads (C106), no
  processes killed from outside, no filters that never return.  The order in which elements of different processes arrive
  in a queue is arbitrary, `Queue.empty` may be stale.
* Report: Decimal with 28 digits, half even; InvalidOperation is `None`.
  Fractions are pairs of integers, with a copy of the algorithm of
  `Fraction.limit_denominator`.  Conversion of numbers to floats and of floats to
  decimal numbers is exact.
* Renderer: exact rationals for coordinates, records for svgwrite objects.  The
  style sheets are copied as lists of rules; CSS knows descendant selectors only.
* Plots and tools working on statistics: quotients and the logarithm are exact;
  the result is the data handed to bokeh or printed.
* KLC import: `int (_, 16)` and Unicode normalization are arbitrary functions,
  OverflowError of `chr` is counted as ValueError.
* Windows driver: claims C66 to C71 are about tables, C98 says the C source means
  these tables.  `str.isprintable` and the order of sets in comments are
  parameters.
* Exporters: claims C72 to C77 are about tables; C99 (xmodmap, Keyman) and C101
  (macOS, Anysoft keyboard) are about the text of the files, C77 (Klavaro) has no
  separate text.  Cells that are not
  strings are one value `COther`, handled like a number other than 0; the width
  percentages of the Android keyboard are rounded half to even.
* Mediawiki: expat is a stream of events, json.dump and json.loads are copied for
  strings; other documents of JSON are an arbitrary function.
* Converter of wikitext: an arbitrary program that reads, writes single bytes and
  exits; both pipes have the same capacity.
* Build: names have no blanks or characters special to the shell or ninja.
  Commands are functions of the files they read, succeed and write their outputs
  only; the package itself and installed programs do not change.
* Command lines: strings are ASCII (the test for negative numbers knows no other
  digits, blanks are the character 32).  argparse is modelled as far as these
  parsers use it: single values, `+`, subparsers, flags, appended values, choices,
  prefixes of long options, joined short options, `--`.  The functions given as
  `type` accept or refuse a string; other exceptions are not modelled.  The
  defaults of `--jobs` and `--style` are symbols.  `tools/argtest.py` compares the
  model with the `argparse` of the installed Python on random command lines for
  copies of these parsers; there was no difference in 6000 of them.
* YAML loader: directories are lists of names and contents, without
  subdirectories.

## Unit tests of the project

`UnitTests.v` has the unit tests of the project (`test_layout`, `test_optimize`,
`test_report`, `test_stats`, `test_text`, `test_util`, `test_writer`) as examples
on the model.  They are no theorems, but a check that the model does what the
authors of the code expect.

## Seeded bugs

`seeded/LOG.jsonl` has one line per wrong program tried: the model is copied to a
directory outside of this repository, one definition is changed the way a
programmer might get it wrong, everything is rebuilt and the theorems that no
longer go through are recorded.  A theorem fails if its own proof fails, or the
proof of a lemma it needs.  Survivors are answered by a stronger or additional
theorem (column `tightened`) or, if the edit does not change the behaviour, by
a note saying so.
