# Formal model of cjktools in Rocq (Coq 8.16.1)

## Layout

`rocq/theories/`

| layer | files | contents |
|---|---|---|
| base | `Base.v`, `PyStr.v`, `PyText.v`, `PyFmt.v`, `Rose.v`, `Regex.v`, `RegexSyntax.v` | Python values used by the code: strings, exceptions, dicts, sets, `str` methods, `int()`, `"%d"`, a backtracking `re` engine and a reader for pattern texts |
| model | `*_model.v` | one definition per function of `/repo`, each with a comment citing file and lines; no proofs |
| spec | `*_spec.v`, `RegexSem.v` | small declarative specifications, independent of the model's helpers |
| proofs | `*_proofs.v` | lemmas |
| props | `*_props.v` | only the property theorems, non-vacuity `Example`s and `Print Assumptions` |

`COVERAGE.md` (generated by `tools/coverage.py`) lists every function of
`/repo/cjktools` with the definitions that cite it. `MANIFEST.json` is
generated by `tools/mkmanifest.py` from the theorem names and `tools/notes.json`.

## Trusted base

1. Coq's kernel (8.16.1), including `vm_compute`.
2. Axioms: none. `Print Assumptions` answers "Closed under the global context"
   for every theorem. `vcheck` reports seven `library_axioms`
   (`Coq.ssr.ssrunder.Under_rel.*`): these are the parameters of a module type
   inside Coq's own `ssreflect` library, loaded with the standard library; no
   theorem depends on them.
3. That the model says what the Python code does. The definitions follow the
   source branch by branch; what is simplified is listed below.
4. The rendering of Python's library:
   * `str` methods, `int()` of texts, slicing, `sorted`, `dict` order (CPython
     >= 3.7), `set`, `%d`/`%s` formatting, `posixpath` functions;
   * `re`: `Regex.v` implements the order of preference of Python's `sre`
     engine on the fragment used; `RegexSyntax.v` reads pattern texts. C93
     shows the model's expressions are the reading of the source's pattern
     texts, C94/C95 that the engine finds the preferred match;
   * generators and `with` (C130): a generator nobody refers to is closed at once, an
     exception keeps the local variables of the frames it left, `ExitStack` exits in
     reverse order;
   * exceptions from outside (C132): CPython raises them between bytecodes; the points
     of the model are before and after each call the proxies make, and within
     `pickle.load` and `pickle.dump`; `needs_update` is one step, buffers reach the
     file when the stream is closed, and the caller drops one call's exception before
     the next call;
   * `csv`: the state machine of CPython's `_csv.c` up to 3.9;
   * `unicodedata`, `pickle`, `strptime`, `str.lower`, `repr`, the file system,
     compression and `random.shuffle` are parameters; what is assumed about
     them is a premise of each theorem that needs it, and an instance meeting
     the premise is exhibited.

   The scripts in `tools/diff` compare these renderings with CPython 3.11.10 on
   random inputs (strings, `int()`, `%d`, lines, `csv`, UTF-8, `posixpath`,
   `argparse`, `'%.04f'`, `re` on random patterns), compare iterators of lists and dictionaries that change,
   check on examples when generators and `ExitStack` close, and check the premises about
   `unicodedata` on all code points and those about `pickle` on random objects.
   They run nothing of `/repo` and are not part of the build. They found two
   errors, since corrected: `int()` does not strip U+001C to U+001F, and
   `argparse` changed in 3.11.10.

## Modelling conventions

* A Python `str` is a `list Z` of code points; literals are written in UTF-8 in
  the Coq source (`u "..."`) and decoded by a computable UTF-8 decoder.
* A Python call that may raise returns `res A := Ok a | Raise exn`; every
  exception the modelled code can raise on the modelled domain is a value.
* A `dict` is an insertion-ordered association list with unique keys. Theorems
  whose truth could depend on another order quantify over the order (C02, C08,
  C10, C39, C64, ...).
* A `set` is a duplicate-free list; theorems speak about membership only.
* Mutable objects whose identity matters (tree nodes, places while loading,
  sets in `merge_dicts`, dictionary entries and their lists) live in an
  explicit store.
* `random.shuffle` is an arbitrary permutation oracle: theorems quantify over it.
* Loops are structural recursion, or recursion on fuel whose exhaustion is a
  distinct error; theorems prove it unreachable. Python's recursion limit is a
  parameter where the code recurses (`layout`, `__eq__`, `union`).

## What is modelled, and what is not

Modelled: every function and method of `cjktools/*.py` and
`cjktools/resources/*.py` (see `COVERAGE.md`), `scripts/load_as_rst.py`, and `setup.py`.

Not modelled:

* What setuptools does with the arguments `setup.py` gives it (C128), `docs/`, the test suite.
* Python 2, except how it opens, decodes, cuts and writes files (C30, `Python2_model.v`);
  its `__unicode__` methods and the pickles it would write are not modelled.
* The messages of exceptions that Python itself raises (those of the library are in
  C123 and C139); `__doc__` copying.
* Decompressing real files, and its errors: `sopen` is modelled as the choice of
  opener, encoding and closing (C30, C31); `Files_model.v` starts from the decoded
  text of a plain file, or the decompressed bytes of another, and
  `Encoding_model.v` from the bytes of both. The decoder of the locale is a
  parameter; UTF-8, Latin-1 and ASCII are instances. How many lines come through
  before a malformed byte is arbitrary.
* `RecursionError`, `MemoryError`. The other files read numbers without the limit on
  digits that Python has since 3.11 (and 3.7.14, 3.8.14, 3.9.14); what it changes is
  C140. Where a tree is built a float quotient is kept as its two operands; what
  the doubles are is C122, and counts too large for them are in C142.
* Concurrency, except processes sharing a cache file (C109), threads sharing a
  memory proxy (C111), a cached object (C124) or a corpus reader (C136), and what C26/C27 say about writes and crashes between steps.

## Properties and proofs

| id | model | proof |
|---|---|---|
| C01-C07 | `Scripts_model.v`: bands, `ScriptMapping`, normalisers, segmentation | pointwise map lemmas, finite band analysis by `lia`, induction for segmentation, uniqueness by induction |
| C08-C09 | `KanaTable_model.v`: table built from the literal rows; NFD as a parameter | finite sweep over the table and table-lookup lemmas |
| C10-C15 | `Alternations_model.v` | finite sweep over the 86+86 kana lifted to all characters; products by induction; while loop with fuel; lookbehind scan |
| C16-C22 | `Maps_model.v`, generic in keys and values; store for `merge_dicts`; call traces | dict lemmas, induction over items |
| C23-C28 | `SmartCache_model.v`: memory cache; file system with mtimes; pickle as prefix-free codec | invariants over histories; counterexamples by computation |
| C29-C31 | `Common_model.v`: decision logic, event traces | case analysis |
| C32-C34 | `Bilingual_model.v` | invariant preserved by update; grouping lemmas |
| C35-C40 | `Regex.v`, `DictFormat_model.v` | engine lemmas for greedy classes, round trips; induction over lines |
| C41-C42 | `SplitCodes_model.v` | declarative occurrence spec; invariant over lines |
| C43-C46 | `Kanjidic_model.v` | token-level round trip; last-wins lemma; call-count state machine |
| C47-C48 | `Radk_model.v` | invariant over lines, reuse of C17 |
| C49-C53 | `Place_model.v`: trees, store-based loader | stack walk = recursive preorder; loader invariant (path = right spine) |
| C54-C62 | `Tree_model.v`: store of nodes with parent pointers | walks by stack invariants; copy/prune by induction on trees |
| C63-C68 | `Pinyin_model.v` (zhuyin and pinyin tables) | sort + alternation = longest match |
| C69-C75 | `Csv_model.v`, `Tatoeba_model.v` | state machine invariants; induction over rows; connectivity closure |
| C76-C80 | `Tanaka_model.v`, `Tatoeba_model.v` | exact language of the word pattern; round trips |
| C81-C83 | `Misc_model.v` | case analysis |
| C84-C90 | `Layout_model.v`, `Show_model.v`, `Objects_model.v`, `Pinyin_model.v` | decoding functions inverse to printing; refutations for all inputs |
| C91-C92 | `Corpus_model.v` | Mapping laws; whole-file round trips |
| C93-C95 | `RegexSyntax.v`, `Patterns_model.v`, `RegexSem.v` | parser inverts printer; soundness and completeness of the engine against an inductive matching relation |
| C96 | `TreeEq_spec.v` | structural induction on pairs of trees |
| C97 | `MemoRec_model.v`: methods as trees of calls | induction on recursion depth; minimal-depth argument for single evaluation |
| C98 | `TreeFrame_spec.v`: programs of node operations | frame lemma for regions closed under parents |
| C99 | `LoadRst_model.v` | case analysis on the converter and the files |
| C100 | `FormatLang_spec.v`: grammars of the four dictionary formats | inversion of matches; sense scanning by induction on the text |
| C101 | `CsvLang_spec.v`: grammar of csv sources, with ends of lines as marks | invariant of the reader's state against the text read so far; running the machine over the grammar |
| C102 | `KanjidicLang_spec.v`: accepted and refused lines by their segments | every segment is one field or one defect; the invariant of C43 with weaker fields |
| C103-C105 | `Files_model.v`: file contents, line cutting, binary streams, standard streams | unique cut by induction; readers invariant under blank tails; reuse of C49 |
| C106-C107 | `SplitFiles_model.v`: file names, streams, the defaultdict | the grammars of C100 are closed under a final line feed; reuse of C42 |
| C108 | `Links_spec.v`: founding rows, settling rows | invariant over the rows read so far |
| C109 | `Procs_model.v`: processes, system calls, schedules | invariants over all interleavings; a decreasing measure per process; agreement with C26's model for a single process |
| C110 | `Compare_model.v`: rich comparison protocol, foreign classes, hash slots | case analysis over classes of operands; first deciding field |
| C111 | `Threads_model.v`: steps of the memory proxy, schedules | invariant over all interleavings; a decreasing measure per thread; agreement with C23's model for a single thread |
| C112 | `Alias_model.v`: objects built by the method, changes by receivers | simulation of the heap by one box per key |
| C113 | `Encoding_model.v`: decoders, streams that fail at a malformed byte, the locale as a parameter | `Utf8_proofs.v`: the decoder against the bit layout of UTF-8; reduction to the readers of texts; first-field invariant of the csv machine |
| C114 | `Share_model.v`: dictionaries of children and attributes as objects of their own | region of nodes that own dictionaries made since; simulation by `Tree_model.v` operation by operation; exact effect on every holder |
| C115 | `Session_model.v`: environment, directories, files as bytes, the module and class caches | reduction of every loader to the text found; invariant that a kept table has the kept segmenter; first request that could be met, by induction over histories |
| C116 | `Python2_model.v`: byte streams, stream readers and csv columns of Python 2.7 | simulation of the csv machine over characters by the one over UTF-8 bytes, up to the field limit; both ways of cutting lines agree up to white space; bitwise encoder = arithmetic one |
| C117 | no new model: `Written_spec.v` says how entries, radicals, rows and lines are written | composition of C43-C47, C63, C68, C92 with C103, C113 and C116 |
| C118 | `DictBytes_model.v`: dictionary files opened by name under both Pythons; `parse_line` on bytes | characters of groups come from the subject (induction on the pattern's runs); the word of an encoded line is the encoded word; headers as bytes |
| C119 | `ClassCache_model.v`: class attributes found along method resolution orders, histories of calls | invariants over histories; own attributes never change |
| C120 | `Imports_model.v`: the top-level statements of all 23 modules, Python's import statement in 2 and 3, `setup.py`'s requirements | a topological order of the modules checked by computation for each kind of Python, then one induction over loading for all states; an invariant over requests |
| C121 | `Command_model.v`: argparse's algorithm on the parser of `load_as_rst.py`, and the script's run | classification of an argument by its first characters; soundness by induction on fuel, completeness by induction on the grammar |
| C122 | `Float_model.v`: doubles as exact rationals, rounding to nearest even, `'%.04f'` | half-an-ulp bounds cross-multiplied in Z; monotonicity from nearness; error bounds of the two roundings added up |
| C123 | `Messages_model.v`: the same functions with the text put into each exception | dropping the texts gives the other models; induction over the lines with the state of the parse; the grammars of C100, C102 and C76 for what is faulty |
| C124 | `CacheThreads_model.v`: the steps of the five functions that keep an object, any number of threads, any schedule | invariants over schedules, with the calls of the constructor recorded; an object once assigned is not assigned again by the lazy functions |
| C125 | `Tree_model.v` (the loops over tree nodes), `TreeEdit_model.v`: the loops over places, with a body that may change the store | one walk over a store that changes, of which the five loops are cases; the visits form a tree by induction on the steps |
| C126-C127 | `CacheNest_model.v`: programs that read files and call cached methods, a world of files, stores made and lines printed | invariant: each cache is right or something it depends on is newer; induction on the steps; the results without cache as a relation |
| C128 | `Setup_model.v`: the run of `setup.py`, and how Python reads the version file | case analysis; induction on the version text; the list of modules checked by computation |
| C129-C130 | `FileLife_model.v`: streams with what they have left, the `ExitStack` of `Kanjidic`, the generator `load_file` and the loops over it | invariant over any schedule of generators; induction on files, lines and rows |
| C131 | `LineLife_model.v`: the line readers over the streams of `FileLife_model.v` | where a reader stops is defined from the whole-file readers; each of these is shown to be a fold |
| C132 | `Interrupt_model.v`: the calls of `memory_proxy` and `disk_proxy` with points, between steps and within a pickle, where an exception from outside may strike; open streams, their buffers, and the bare `except` | an oracle decides what strikes at each point passed; case analysis on the points of one call, then induction on the history with the invariant of C28 |
| C133 | `PlaceTorn_model.v`: `Place.dump` failing at a line that cannot be encoded, at an exception from outside, or out of disk | a file cut anywhere is the dump of a cropped tree, or ends with a line of too few words |
| C134 | `PruneAsk_model.v`: `TreeNode.prune` with predicates that keep a state, look at ancestors, or raise | induction over the tree: a subtree leaves the chain of parents above it as it was |
| C135 | `CountAsk_model.v`: `TreeDist.__init__` with count methods that keep a state, look above and below, or raise | induction over the tree: what is below a node is counted, what is above is untouched, when it is asked about |
| C136 | `Reload_model.v`: the setters and queries of the three corpus readers as programs of attribute reads and assignments, interleaved by any schedule | an invariant on what each attribute may hold; where one call assigns, the state is the one it has reached |
| C137 | C16-C21, C54-C62, C96 and `find_lang`, compared for reordered dictionaries (`Order_spec.v`: equal dictionaries, trees equal up to the order of children) | each function's own specification, applied twice, and permutations |
| C138 | `Live_model.v`: list iterators as indices, dictionaries as tables of slots with gaps, their iterators as CPython has them since 3.8 (compared with it in `tools/diff/live.py`); the method may do anything to the container | traces of the calls, related to C22's `calls`; induction over the entries to come |
| C139 | `Said_model.v`: the texts of the other exceptions, as for C123; labels that are not texts, and what `%` does with them | dropping the texts gives the other models; a text that is no key stands for any other label; depths on the stack of a walk never fall |
| C140 | `Digits_model.v`: the readers of numbers with `int()` as a parameter, and an `int()` and `str()` that count digits | a number that is looked at is in the row or line; a stricter `int()` can only refuse; relation between entries of before and now; number of digits and powers of ten |
| C141 | `Dialect_model.v`: `load_file` with keyword arguments: the choice of settings and the whole machine of `_csv.c`, except `QUOTE_NONNUMERIC` | simulation of `Csv_model.v`; characters and line ends as one stream; induction over how a field is written |
| C142 | `Overflow_model.v`: `TreeDist.__init__` with the conversions to float | the second pass against that of `Tree_model.v`, node by node; nearest doubles by their distances |
| C143 | `Wild_model.v`: the segmenter made from the text of its pattern by the parser of C93, `findall` with any number of groups | trees put together under the round trip of C93; matching without groups; the scan by induction on the text, both ways |
| C144 | `Layout_model.v` and `Tree_model.v` with every limit on the calls and every method, failing or not | the lines of the drawing walked beside the nodes with their depths; answers are kept when the limit grows |
| C145 | `WildTable_model.v`: `from_ascii`, `strip_tones`, `from_hanzi` over the segmenter of C143 | the theorems of C143 followed by the marks of C66; characters one by one |
| C146 | `DictEq_model.v`: `dict.__eq__` of places on the store, `Mapping.__eq__` and `dict.__eq__` under the rules for `==` of C110, entries as objects | counting keys; the paths from both sides by induction on the limit; addresses of two loads are apart |
| C147 | `Place_model.v` (C49) and `place_eq` of `DictEq_model.v` | the round trip of C49 into the same store; two trees with the same labels, by induction on the limit |

Properties that the faithful model shows to be false are kept with their full
statement; the counterexample is a theorem `..._refuted` and the strongest true
variant is `..._partial`.

## Findings

Behaviour of the code that contradicts its documentation or evident intent;
each is a theorem about the model.

| id | finding |
|---|---|
| C04 | `normalize_ascii` turns U+FF5F into DEL (U+007F): the band is one too wide |
| C11 | `canonical_segment_forms` raises KeyError on ゔ/ヴ with a left context |
| C13 | `canonical_forms` does not undo `surface_forms` when the last kana became っ |
| C14 | a leading iteration mark stops `insert_duplicate_kanji` |
| C15 | `expand_long_vowels` raises TypeError after kana without a vowel line |
| C26 | `disk_proxy` serves stale values for writes within the same clock tick or during the call |
| C28 | methods returning None are recomputed on each call |
| C37 | the full-width digit ６ is missing from the cj_kdic sense pattern |
| C46 | `get_cached` of Kanjidic and RadkDict rebuilds the object on each call |
| C47 | white space before `#` or `$` makes a radkfile line read as kanji |
| C49, C53 | aliases of places are written as a Python list and never come back |
| C56 | `del_child` leaves the child's parent pointer |
| C60 | the text path of the root looks for a child labelled '' |
| C61 | `build_index` always raises |
| C62 | `cum_count` omits grandchildren; a zero total raises ZeroDivisionError |
| C64, C67, C68 | `#` counts as an empty syllable; `is_pinyin` tests only a prefix; other text is dropped |
| C66 | the first letter of a syllable never carries the tone mark (a1, e1, er2) |
| C69 | a cell beginning with a double quote swallows tabs and line ends |
| C72 | a failing reload changes the reported source |
| C74 | a link joining two groups does not merge them |
| C76 | sense 0 is read but not written |
| C85 | `TreeDist.combine`, `union`, `diff` always raise |
| C87 | hashing a `DictionaryEntry` always raises |
| C90 | the zhuyin pattern is built from the pinyin column |
| C100 | an empty sense in a cj_kdic line puts a stray `n` in front of the next sense |
| C101 | a blank line makes every corpus reader refuse the file; an unmatched quote at the start of a cell takes the rest of the file |
| C102 | a blank line anywhere in the files, an entry with a one-part skip code, or a segment in any script but ASCII and kana makes the whole kanjidic fail to load |
| C103 | U+2028, form feed and six other characters start a new entry in the pinyin table but not in any other table |
| C104 | `.gz` and `.bz2` resources never load on Python 3, and dumping a tree to one empties the file and raises |
| C105 | reading from or writing to `-` closes the standard stream of the process |
| C106 | looking up an unknown code adds it to the coded dictionary |
| C107 | `iter_coded_entries(filename)` never works |
| C109 | two processes sharing a cache file larger than a stream buffer can get each other's values, or leave a hole in the stored value |
| C110 | `node == None` raises AttributeError; words and nodes cannot be hashed on Python 3 |
| C111 | overlapping calls of a memory_proxy'd method invoke it more than once per key |
| C112 | all callers of a memory_proxy'd method share one mutable object per key; keyword order matters |
| C113 | `sopen` ignores its encoding on Python 3, so files are decoded by the locale; in an eight-bit locale the resources load with no kanji in them; a byte order mark becomes part of the first key or makes the file unreadable |
| C114 | `TreeNode(l, children=d)` keeps `d` unless it is empty: nodes given the same dictionary share children, and the children given do not learn their parent, so `unlink` leaves them in place |
| C115 | The pinyin segmenter is kept for the life of the process, so a `PinyinTable` made after the data pack has changed reads the new characters with the old syllables and loses some of them |
| C116 | Under Python 2 a line or paragraph separator, form feed or next line ends a line of a dictionary file; a CR LF inside a quoted column of a corpus is kept; a column of 43691 kanji cannot be read; compressed files can be read in Python 2 only |
| C118 | The README's `with open(edict_file)` example raises UnknownFormatError under Python 2, and in a Latin-1 locale; no word outside ASCII can be loaded by Python 2 that way; CR LF files gain a sense "\r" per entry under Python 2; a byte order mark hides all headers but ENAMDICT's |
| C119 | `SubKanjidic.get_cached()` returns a plain `Kanjidic` when `Kanjidic.get_cached()` was called before; a class with two bases below `KanaTable` can change its cached object |
| C120 | `from cjktools import *` and `from cjktools.resources import *` always fail: `__all__` lists `enum`, `exceptions` and `format`, which do not exist; `resources/tatoeba.py` cannot be imported from Python 3.10 on (`collections.Mapping`) |
| C121 | Before Python 3.11.10 `load_as_rst.py --output=-- f` converts `f` and then fails with TypeError: argparse makes the output an empty list |
| C122 | `TreeDist.layout` rounds twice: with counts 1465604036091 of 3507488419507 it shows 0.4178 where 0.4179 is nearer. Counts below 450359962738 are always shown right |
| C123 | A links file with two columns, one of them no number, is said to need two columns; "filesmust" in the message about sentences files; the message about a malformed radkfile names no line, that about an unparsable place line no file |
| C124 | Threads that call `get_cached` at the same time get different objects; with `Kanjidic` and `RadkDict` a replaced object can come back, so that calls one after the other answer x, y, x |
| C125 | A node taken out of the tree during a walk is still visited; a body that keeps adding children to the node it is at never comes to an end |
| C126 | Naming the cache file of an inner method as dependency serves outdated values and fails once that file is gone; the cache does not record which method a value is of |
| C127 | With `CACHE_DEBUG` a cache file name the terminal cannot show makes every call raise |
| C128 | Without `setuptools_scm` the version file of an earlier run stays and is wrong |
| C130 | The sentences and the indices readers leave the file open while the exception of a refused row is kept |
| C132 | A Ctrl-C while the cache file is read is lost: the bare `except` swallows it, and the expensive method runs although the cache was fresh |
| C133 | A dump cut after whole lines, or within a reading, loads as a smaller tree; a place that cannot be encoded makes `dump` raise and leaves such a file instead of the old one |
| C136 | The dictionaries of a corpus reader are assigned one after the other and `group` reads them one after the other: during a reload, or after one that was interrupted, group(3) can be a group without 3 even if both files have the same links, a sentence can get the language of another file, and `details` can raise a TypeError |
| C137 | Equal dictionaries can have unequal inverses (`invert_mapping` fills its lists in iteration order); `find_node` may return different nodes of equal trees; the language of an id listed under two languages depends on the order of a dictionary |
| C138 | `procmap(l.remove, l)` leaves every other item; a method that replaces one key by another makes `map_dict` pass over an entry without notice |
| C139 | `Place.find_node` of a tuple is a TypeError from `%`, or names the only element; an unknown dependency is only noticed once the target exists; two spaces in the request for the data pack |
| C140 | kanjidic keeps a number of more than 4300 digits as a text, where the other readers refuse the file |
| C141 | `load_file(..., dialect=d)` ignores the delimiter of `d`, because the tab is passed as a keyword of its own; `quoting=csv.QUOTE_NONE` would read every corpus file (C69) |
| C142 | `TreeDist` fails on a count without a float anywhere in the tree, although the total may be small: it only has the counts of two levels (C62) |
| C143 | syllables go into the pattern without `re.escape`: one such as `[a-z]` takes over shorter ones, one with a group makes every segmentation a `ValueError` |
| C144 | walks, searches and `copy` keep a stack of their own and work at any depth, `==` and `layout` recurse: a deep tree can be copied but not compared with its copy, and its drawing breaks off |
| C145 | a syllable that may match nothing, such as `x*`, makes `from_ascii` fail on nearly every text, since `_apply_tone` takes the first letter |
| C146 | `Place` inherits `dict.__eq__`: places are compared by what is below them, so `Place("a") == Place("b")`, with other readings too; entries have no `__eq__`, so a `Kanjidic` is not equal to one loaded again |
| C147 | a place whose aliases are lost by `dump` and `from_file` (C49) is still `==` to the one loaded: `==` cannot serve as a check of a saved map |

## Testing the theorems

`seeded/LOG.jsonl` records mutations of model definitions made in a scratch copy
and the theorems that failed. Survivors led to tightened theorems or are marked
as equivalent programs.

How to read it: a lemma or theorem counts as failed when its proof script no longer
compiles. The tool then admits it and goes on, and every theorem that depends on it is
listed in `theorems_failed`. So the list is an upper bound. A script can break although
the statement is still true: programs known to be equivalent break scripts too, for
example two of those tried on C147. These have "none:" as their claim and an empty
list (two older entries list the theorems whose scripts broke). The failing examples in `other` are decided by computation, and show a real
difference in behaviour.

The `RepoTests_*.v` files run the project's own unit tests on the model: the
script, kana, alternation, mapping and cache tests, and the tests of the
resources with the repository's sample files (dictionary formats, codes,
radicals, trees, places, pinyin, kanjidic, Tatoeba). They are examples which
check the model against the authors' expectations; no claim rests on them. Left
out are the tests which only look at the file system, and the `__repr__`
tests. Two tests which the authors skip on Python 3
(`test_walk_preorder`, `test_walk_postorder`) fail on the model too.
