# Formal model of segeval in Rocq (Coq 8.16.1)

The model is in `rocq/theories`. It is a shallow embedding: every Python
function becomes a total Gallina function, exceptions are values
(`res A := Ok a | Err e`), loops are folds, mutable objects are returned as new
values. Every definition that models code cites the file and lines it models.

`properties.jsonl` lists the properties (C01, C02, ...). `MANIFEST.json` maps
them to theorems. Theorem names start with the id of the property.

## Files

| layer | files |
|---|---|
| Python values | `Py.v` (exceptions, `int`/`Decimal`/`float`, `is` on ints, slices, indexing), `Round.v` (half-even rounding to p digits, 28-digit `Decimal`, 53-bit `float`, `round()`, `sqrt`), `Dict.v` (dicts with string keys in insertion order) |
| `segeval/format.py` | `Format.v` |
| `segeval/similarity/distance/*` | `Bed.v` |
| `segeval/similarity/{__init__,weight,boundary,segmentation}.py` | `Similarity.v` |
| `segeval/ml/__init__.py`, confusion matrix of `segeval/similarity/__init__.py` | `ML.v` (values), `MatrixHeap.v` (matrices as objects with rows and class sets that callers can keep, change or share), `MatrixQuery.v` (the metrics on such objects) |
| `segeval/window/*` | `Window.v`; Python 2's `round` in `Python2.v` |
| `segeval/data/{__init__,jsonutils,tsv}.py` | `Data.v` (values), `Heap.v` (the same datasets as objects that can share inner dicts), `Text.v` (tables from the characters of a file), `JsonText.v` (JSON from and to characters), `Files.v` (paths, files and folders), `Lookup.v` (reading an absent item) |
| `segeval/util/__init__.py`, `segeval/compute.py`, `segeval/util/math.py` | `Dispatch.v` (`mean` is in `ML.v`); with keyword arguments `Keywords.v` |
| `segeval/agreement/*` | `Agreement.v` |
| `segeval/__init__.py` | `Exports.v` (tables, module bodies, CPython's import of them) |
| specifications | `Spec.v`, `SpecSim.v`, `SpecML.v`, `SpecWindow.v`, `SpecDispatch.v`, `SpecAgreement.v`, `SpecData.v`, `SpecMath.v`, `SpecExports.v`, `SpecChange.v`, `SpecSwap.v`, `SpecText.v`, `SpecJson.v`, `SpecMetric.v`, `SpecMatrix.v`, `SpecGreedy.v`, `SpecError.v`, `SpecValue.v`, `SpecAccuracy.v`, `SpecFiles.v`, `SpecNested.v`, `SpecKeywords.v`, `SpecFaults.v`, `SpecAgreed.v`, `SpecQuery.v`, `SpecReload.v`, `SpecLayout.v`, `SpecCoverage.v`, `SpecSub.v`, `SpecSilent.v`, `SpecCompared.v` |
| lemmas | `*Proofs.v`, `Bed{Subs,Main,Theory,Min,Extra,Embed,Context,Reverse,Swap,Metric,Greedy,Error}.v`, `Sim{Stats,Round,Theory,Main,Sym,Context,Accuracy}.v`, `Window{Main,Sym,Size,Reverse,Metric}.v`, `ML{Sums,Main,Fmeasure,Matrix,Cases,Final,Swap,Boundary}.v`, `MatrixMain.v`, `SwapMetrics.v`, `DispatchMain.v`, `Agreement{Main,Final,Exact,Perm,Bias,Public,Cases,Value,Repeat,Accuracy,Limit}.v`, `JsonRound.v`, `DataPublic.v`, `RoundSpec.v`, `ExportsRun.v`, `Csv{Main,Limit}.v`, `Folder{Names,Clash}.v`, `Files{Write,Folder,Main}.v`, `Nested.v`, `Nested{Window,Mass}.v`, `Keywords{Proofs,Main,Agree}.v`, `DocFaults.v`, `Agreed.v`, `AgreedWindow.v`, `Spans.v`, `MatrixSim.v`, `Reload.v`, `Join.v`, `Correct.v`, `Concat.v`, `Merging.v`, `JoinML.v`, `MatrixDelete.v`, `Python2.v`, `Lookup.v`, `Layout.v`, `Coverage.v`, `Pooled.v`, `PooledMean.v`, `Subsets.v`, `AboveB.v`, `TwoParts.v`, `BelowActual.v`, `Along.v`, `BiasBound.v`, `Complements.v`, `Joined.v`, `BothOrders.v`, `Json{Lex,Parse,Print,File}.v` |
| properties | `Props*.v`: theorems closed by `exact`, each with `Print Assumptions`, and examples that meet their hypotheses |
| tests of the model | `RepoTests.v`: the values asserted by the repository's own tests, recomputed by the model |

## Modelling decisions

* **Numbers.** `num := NInt Z | NDec Q | NFlt Q`. Operations take an arithmetic
  context `A : arith` (`rd` rounds Decimal results, `rf` float results).
  Mixing Decimal and float in `+,-,*,/` is `TypeError`, as in Python. `exactA`
  rounds nothing. `pyA` is 28-digit half-even decimals and 53-bit half-even
  floats. Most theorems hold for every `sane` context (monotone, exact on
  integers in range). Both contexts are `sane`. Exponent limits
  (overflow/underflow), NaN, infinities and signed zero are not modelled.
  `Decimal.sqrt` is an integer square root with enough digits before rounding.
  `C59_sqrt` states what is proved about it.
* **Sets** are std++ `gset`. The iteration order of the set of candidate types
  in the transposition loop is an oracle (`env`), because it could influence the
  result. It is a function of the set: two equal sets are iterated alike within
  one run. Other orders only permute output lists and are fixed. The order of a
  confusion matrix's classes is an oracle as well (`lord`).
* **Identity** (`is`). For ints produced by arithmetic, `is` is equality inside
  CPython's small-int cache (-5..256) and false outside. Every user supplied
  position label carries an allocation id. For boundary types identity is an
  oracle constrained only by what CPython guarantees.
* **Dicts** are association lists in insertion order (CPython >= 3.7).
* **Weights** are arbitrary functions from edits to a number or an exception.
* **Confusion matrix.** The matrix is threaded through every query, because
  reading it adds rows (`defaultdict`). In `ML.v` the growth made by a query that
  raises is dropped; `MatrixQuery.v` keeps it.
* **Dispatch.** An argument is a segmentation, a plain dict or a `Dataset`
  (`arg`). The call log in `Dispatch.v` is a ghost: it records which
  comparisons were made. A `Dataset` mixed with a segmentation is taken to raise
  `TypeError`. `Keywords.v` adds the keyword dict: its defaults, the deletions made
  on the way and Python's binding of parameters. A value of the wrong type for its
  keyword is taken to raise `TypeError` where it is bound.
* **Datasets.** `Data.v` treats a dataset as a value, `Heap.v` as an object whose
  inner dicts and coder set are references. Codings and `properties` are
  immutable values in `Heap.v`; `a + b` shares `b`'s coding objects.
  `copy.deepcopy` of a `Dataset` is modelled as CPython performs it: call
  `Dataset(dict)`, then copy the attributes. The JSON and TSV loaders leave
  `coders` empty, as the code does.
* **JSON** in `Data.v` starts from the parsed value. Writing yields a value, and
  `dump_load` is what `json.dumps`/`loads` does to it (sorted string keys, tuples
  to lists). `JsonText.v` adds the characters: the scanner and the printer of
  CPython's `json` package as called here. `float.__repr__` is a parameter; NaN,
  Infinity and escapes above U+00FF give the result "not modelled". A float is the
  rational nearest to the numeral, so overflow to `inf` and `-0.0` are left out, as
  are the limit on the digits of an int and the recursion limit. The model was
  compared with CPython's `json` on 150 values and 1532 texts (a test, not part of
  the proof).
  **TSV** in `Data.v` starts from the rows that `csv.reader` yields. `Text.v` adds
  the way there: universal newlines, lines, and the state machine of CPython's
  `_csv.c` for the "excel" dialect with another delimiter, including
  `csv.field_size_limit()`. It was compared with Python's `csv` module on 400
  random texts (a test, not part of the proof). Texts hold U+0000..U+00FF.
  **Folders** in `Data.v` are a tree value with the order of `os.listdir` as given
  and the result of reading each file. `Files.v` adds the way there: a tree of files
  with their characters, paths as the kernel resolves them (`.`, `..`, double
  slashes), `os.path.join`, `isdir`, `listdir`, opening for reading and writing, and
  a write that fails midway. There are no links and no permissions, nobody else
  changes the tree, and the working directory is its root. The recursion of the
  loader is bounded by the height of the tree.
* **Imports.** `Exports.v` models `sys.modules`, partially initialised modules,
  `import`, `from ... import` and attribute access on the lazy package module.
  The submodule fallback of `from`-imports is left out, test modules are left
  out, and dunder attributes are simplified.

## Not modelled

Decoding of bytes, file modes (`'rU'`, which newer
Python versions reject), links and permissions of files,
the command line and packaging files, docstrings and error message texts,
`segeval/data/samples.py` (data; used in `RepoTests.v`), lists of position labels
handed to `lamprier_et_al_2007_fix` (it adds tuples; `TypeError` for a string of
labels is modelled, for a list not), Python 2 but for its `round` (C93), the order
of a list of substitutions, recursion limits and memory.

## How the properties are proved

C01-C05 format conversions: list induction against `Spec.v` notions (prefix
sums, label changes). C06-C07: the metrics first convert to one canonical form,
so the conversions' correctness lifts.
C08-C17 BED: the transposition loop is refined to a greedy fold over candidate
triples whose state is only the accepted list; conservation, validity,
symmetry, order independence and prefix monotonicity follow by induction over
that fold. C11 by enumerating permutations (`perms` proved complete). C15 by an
exchange argument on paths; refuted for n_t=3 by computation. C16 by oracle.
C18-C26, C61: arithmetic over the counts, with relative error bounds per
rounded operation.
C27-C32: the matrix is a state machine; invariants by induction over histories.
C33-C41: loops are shown equal to counts over `seq`; label changes are shown
equal to boundary counts via prefix sums. C39 from the identity model.
C42-C45: folds over association lists; key injectivity for comma-free names.
C46-C50: sums over lists in Q; Cauchy-Schwarz for the bias.
C51-C57: association list algebra; the heap model for aliasing (C52).
C58: sums in Q; square roots are characterised by their square, so no real
numbers are needed. C59: monotonicity across magnitudes.
C60: an invariant of the module table kept by every access, plus monotonicity of
imports; the finite part is computed.
C62-C63: a run of the transposition loop on an embedded pair of strings is
related step by step to the run on the original pair; the costs of the cheapest
substitutions are compared by mapping pairings back and forth.
C64: counts over `seq` are mirrored; for n_t = 2 the mirror image of the edits
found is a script, so minimality (C15) bounds both numbers by each other.
C65: the substitutions chosen are the lexicographically first cheapest pairing;
that this choice commutes with exchanging the sides is the main step.
C66: every increment of the matrix is counted per row and column.
C67: the reader is turned into a single pass over the characters; an invariant
per grammar rule gives the rows, splitting a text at its first separator gives
totality, and determinism of the reader gives uniqueness.
C68-C69: completeness of the scanner by induction over the grammar, soundness by
induction over its fuel; the printer is shown to produce a text of the grammar.
C70-C71: windows are counted by intervals of their starts; a segmentation with any
given set of boundaries exists, which yields the blind spots and the attained
bound. C72: the seven regions of a Venn diagram of three boundary sets.
C73: every row object belongs to one matrix and one key; this invariant makes each
operation on the objects an operation on one value.
C74: the accepted list of the fold satisfies the greedy equations; uniqueness by
induction on span and position. C75: gaps that agree contribute no edit, so only
the few gaps of the error are looked at. C76: the entries that the loops collect for
a coder are a permutation of one entry for each other coder and item. C77: all that
is summed becomes k copies of itself. C79: each step adds half a unit; means of numbers
in [0, 1] do not amplify errors, and one entry below 1 keeps a mean below 1.
C80: a path leads to at most one place, and replacing an entry leaves the places of all
others. C81: by induction on the height the loader does the same as C56's on the
tree of results. C82: a swap needs a boundary that only the first segmentation has; so
does a substitution; the rest is counting. C83: the dict handed on is compared, key by
key, with the parameters of the function called. C84: the search reads the two strings
through their one-sided differences only. C85: the transpositions found for n come
first among those found for n', and each further one replaces two additions. C86: a
simulation, closed under sequencing and loops, between heap and value. C87: dicts
with the same codings are permutations of each other, level by level. C88, C89: the set of
transpositions is the only one with the greedy property (C74), and both parts
together have it. C90: the windows are split into those before, across and behind
the border. C91: the merged items are a fold of one-item insertions, which is
associative; numerators and denominators are sums over items. C92: the
edits of C88 counted by cell; precision, recall, F and the micro-average are
quotients whose numerators and denominators add up. C93: a mean that is not
a half is at least 1/(2n) away from every half, further than the roundings reach.
C94: an item without codings is skipped by the fold over items, so it can be
filtered from the order in which they are walked. C95: a reader that counts
open brackets outside of strings; texts compose. C96: every coder is in some pair.
C97: the mediant of fractions lies among them. C98: the list of requests is
doubled. C99: the requests of all items are the comparisons, in another order. C100: double
counting of the pairs a coder is left out of. C101: both subtract the same cost, S from a
larger number. C102: the sums of the parts. C103: when
the chance agreement of C76 is 0. C104: an invariant of two parallel folds.
C105: the value of C48 in terms of portions p, and sum p*p <= sum p.
C106: C104 with the flags of C23 and C41; deviations from the mean only change sign.
C107: C42, and the variance as mean of squares minus square of the mean.

A property whose natural statement is false of the code keeps that statement in
view: a `_refuted` theorem gives a computed witness besides the strongest true
statement.

## Trusted base

* Coq's kernel, including `vm_compute` while building. `coqchk` re-checks
  the compiled files without the VM.
* For every property theorem `Print Assumptions` prints "Closed under the global
  context". No axiom is used, not even from the standard library. `coqchk`
  lists seven constants `Coq.ssr.ssrunder.*` because std++ loads ssreflect; they
  are the bodies of an opaque module of the standard library and no theorem
  depends on them.
* The reading of Python semantics recorded in the comments of the model.
  Evidence for it: `RepoTests.v` recomputes the repository's test values
  (boundary edit distance, B, S, weights, confusion matrices, precision, recall,
  F-measure, Pk, WindowDiff, window size, formats, agreement, statistics), most
  to all 28 digits. While writing `Round.v` its results were compared with the
  `decimal` module of CPython 3.11's standard library.

## Testing the theorems

`seeded/LOG.jsonl` records edits that put a realistic bug into the model, and
which theorems then failed. Each was made in a copy outside this directory.
