{
 "C04": {
  "note": "REFUTED as stated (finding): U+FF5F is inside the FullAscii band, so normalize_ascii turns it into DEL U+007F. Proved: the pointwise claim for every string without U+FF5F, that this is the only deviation, idempotence and length for every string."
 },
 "C11": {
  "note": "REFUTED for segments starting with U+3094/U+30F4 (vu) that have a left context: is_voiced holds but from_voiced has no entry, so a KeyError is raised. Proved for every other kana segment: the result is exactly the set of candidates, without duplicates. Stated for any Unicode database with the kana decompositions (premise ucd_ok, met by kana_ucd)."
 },
 "C13": {
  "note": "surface_forms is fully characterised. The recovery claim is REFUTED (['がく'] gives 'がっ' which canonical_forms does not restore); proved: exact condition (iff) under which canonical_forms restores the reading."
 },
 "C14": {
  "note": "REFUTED for strings that start with the iteration mark (loc > 0 stops the loop, later marks stay). Proved for every other string; totality, length and idempotence for all strings."
 },
 "C15": {
  "note": "REFUTED as 'never fails': TypeError exactly when a mark follows a kana without vowel line (small kana, ya/yu/yo, n). Proved: exact failure condition, exact result otherwise."
 },
 "C26": {
  "note": "REFUTED as stated (findings): a dependency written in the same clock tick as the store, or written by another process while the method runs, leaves a stale value that is served later (mtime test is strict). Proved: for all histories (calls, crashes, writes, removals) in which dependency writes get a later mtime than the earlier calls, every returned value is the method's value for the current contents; plus the exact list of failure causes. pickle, == and compression enter as the premise pickle_ok, met by a concrete instance."
 },
 "C27": {
  "note": "For every prefix length and every pickle/compression satisfying pickle_ok (prefix-freeness of pickle is a premise)."
 },
 "C28": {
  "note": "REFUTED for methods returning None: None is indistinguishable from a cache miss, so the method runs again on every call. Proved for every other result."
 },
 "C37": {
  "note": "REFUTED as stated (finding): the digit class of the cj_kdic sense pattern (auto_format.py:68) lacks the full-width six, so a numbering containing it stays in the sense text. Proved: the round trip for every numbering without that digit, and the exact result when the digit occurs."
 },
 "C46": {
  "note": "REFUTED for Kanjidic and RadkDict (finding): the default of getattr is evaluated on every call, so n calls construct (parse) n objects; a cached class also raises once its files are unreadable. Proved: every call returns the object of the first call; KanaTable and the pinyin tables construct exactly once."
 },
 "C47": {
  "note": "Proved for every file that loads, except white space before '#' and '$': such a line is read as kanji (C47_space_refuted). Trailing white space anywhere and white space around kanji lines do not matter."
 },
 "C49": {
  "note": "Proved for trees of places without aliases whose labels and readings are non-empty, contain no white space and whose readings are not the text 'None'. Aliases are written as a Python list and never come back (C49_aliases_refuted). C49_accepts characterises the files that load."
 },
 "C53": {
  "note": "Proved for places without aliases, with non-empty label and reading free of white space, reading other than 'None'. Otherwise false: C53_aliases_refuted, C53_details_refuted."
 },
 "C56": {
  "note": "The child leaves the children dictionary, but its parent field keeps pointing at the old parent: del_child writes attrib['parent'] = None instead of parent = None. Refuted for every built store."
 },
 "C57": {
  "note": "Premise keyed: the tree's nodes are filed under their own labels (true of every tree built with add_child); a copy takes its label from the dictionary key."
 },
 "C58": {
  "note": "For every predicate of a node's label, attributes and children; predicates that look at the parent are not covered."
 },
 "C60": {
  "note": "List paths: proved. Text paths: proved for non-empty paths of labels without '/', the first not empty; the text path of the root itself ('') looks up a child labelled '' instead (refuted)."
 },
 "C61": {
  "note": "Refuted for every tree: the loop unpacks each node into (path, node), which fails through __getitem__(0) with KeyError (or ValueError when the attributes happen to have keys 0, 1, 2)."
 },
 "C62": {
  "note": "cum_count adds only the direct children's own counts; it is the subtree total exactly when the counts two or more levels down sum to zero. What is computed is proved for every tree; a zero total raises ZeroDivisionError (e.g. TreeDist of a single node with the default len)."
 },
 "C64": {
  "note": "The segmentation is proved equal to the leftmost-longest one for every table and string, and independent of the order of the table; but a '#' in the text is reported as an empty syllable instead of being skipped (C64_hash_refuted). Syllables with regular-expression special characters are in C143."
 },
 "C65": {
  "note": "'r' is reported, and written by strip_tones, as 'er'."
 },
 "C66": {
  "note": "The first letter of a syllable is never marked, so a1..a4, e1.. and er2 all lose their tone (C66_mark_refuted). Exact description of the output for every syllable and tone; marks and distinctness proved when a vowel follows the first letter."
 },
 "C67": {
  "note": "is_pinyin only looks for one syllable or '#' at the start (C67_prefix), so it accepts 'ma1!' (C67_exactly_refuted). Every nonempty pinyin text is accepted."
 },
 "C68": {
  "note": "Proved as stated for inline=False, use_tones=True. In the other modes characters not in the table go through the segmenter, which drops them (C68_other_text_refuted) or fails on '#' (C68_hash_refuted); exact output proved."
 },
 "C69": {
  "note": "Proved for non-empty rows whose cells do not begin with a double quote, contain no NUL and have at most 131072 characters (C69_rows_partial); C69_cells gives the rows for lines that may also contain quoted cells. A cell beginning with a double quote is unquoted and swallows tabs and line ends up to the closing quote, so rows are merged (C69_quotes_refuted)."
 },
 "C76": {
  "note": "Proved for non-empty headwords without delimiters, non-empty readings and displays without their closing bracket, and senses of at least 1. A sense 0 can be read but is not written back (C76_sense_zero_refuted); C76_reread shows it is the only exception among words that can be read. C76_grammar and C76_reject give the exact language of word_re."
 },
 "C77": {
  "note": "Comparison with objects of other classes (NotImplemented) is in C110."
 },
 "C79": {
  "note": "Also proved: exactly which reading is chosen, and that the only failure is IndexError. Sense 0 picks the last reading (C79_zero)."
 },
 "C70": {
  "note": "Rows, source outcome, filter_row and strptime are arbitrary. C70_reads says exactly which sources load; C70_holds, C70_details say what the reader answers for every id."
 },
 "C71": {
  "note": "C71_first gives the exact answer when ids repeat across languages: the first language (by first appearance) that has the id."
 },
 "C72": {
  "note": "Refuted as stated: the setters assign the source attribute (and so repr) before reading. Proved for all failing sources: everything else (lookups, ids, filters, groups) is unchanged."
 },
 "C73": {
  "note": "Accepted links are those of well-formed rows kept by the filter."
 },
 "C74": {
  "note": "Refuted: a row linking two existing groups does not merge them and leaves an id in two groups. Partial: without such a bridging row, groups are the connected components; groups() is a partition exactly when no row bridges."
 },
 "C75": {
  "note": "The pair's first component says whether the source was read."
 },
 "C80": {
  "note": "unicode_digits is the standing hypothesis on int() and \\d. __getitem__ of an unknown id raises KeyError."
 },
 "C83": {
  "note": "The script classifier and the file system are parameters."
 },
 "C84": {
  "note": "Output is the list of printed lines; the recursion limit is a parameter counted in layout calls."
 },
 "C85": {
  "note": "combine/union/diff raise on every input, so the property is false of the code. combine also over objects with arbitrary attributes and classes, with and without python -O, and whatever the part after line 320 does (C85_combine_objects_refuted): lines 322-356 are never reached, for a text has no copy. Which error, case by case: C85_combine_missing, C85_combine_given, C85_errors."
 },
 "C86": {
  "note": "An empty reading prints like no reading, hence shown_reading."
 },
 "C87": {
  "note": "__hash__ reads the attribute name, which entries lack and which their slots do not let anyone set (C87_no_name); even a subclass that has one fails, as hash takes one argument and is given three (C87_named). For any object: C87_hash_objects_refuted. So the property is false of the code."
 },
 "C88": {
  "note": "A radical of None (text before the first $ line) makes sorting or joining raise TypeError."
 },
 "C90": {
  "note": "The code uses the pinyin column: exact pattern proved, zhuyin claim refuted."
 },
 "C91": {
  "note": "The methods are those of collections.Mapping over __getitem__, __iter__ and __len__; mixed comparison with dicts is in C146."
 },
 "C92": {
  "note": "Cells must be short enough for the csv module (131072 characters); dates need strptime to invert the format."
 },
 "C93": {
  "note": "Pinyin tables whose syllables contain special characters are in C143. The syntax read is the part of Python's that the package uses; the reader is proved to invert writing a tree down."
 },
 "C94": {
  "note": "About the matching engine of the model; that Python's engine follows the same rules is part of the trusted base."
 },
 "C95": {
  "note": "About the matching engine of the model, see C94."
 },
 "C96": {
  "note": "== of attribute values is a parameter. Trees deeper than Python's limit are in C144, comparison with objects of other classes in C110."
 },
 "C97": {
  "note": "Methods are deterministic functions of their arguments and of the outcomes of their inner calls. Arguments that are == must lead to the same outcome (and for the once-only claim to the same recursion depth; an example shows this is needed). RecursionError is not modelled."
 },
 "C98": {
  "note": "Each node owns its two dictionaries. prune and TreeDist() work on a copy; what they leave alone is in C58 and C62."
 },
 "C99": {
  "note": "pypandoc, opening for writing and encodability are parameters; warnings and the command line are not modelled."
 },
 "C100": {
  "note": "The grammar is written with appends and exclusions, without the regex engine. C100_empty_sense: an empty cj_kdic sense leaves the n of its separator in the next sense."
 },
 "C101": {
  "note": "Equivalence with an inductive grammar over the characters and line ends of the source, for every source. The csv machine itself (CPython's _csv.c) is transcribed and part of the trusted base."
 },
 "C102": {
  "note": "Arbitrary lines, by segments (C43_segments gives the segments of any text). Entries compared attribute by attribute. py_int with the digit values of the Unicode database as a parameter."
 },
 "C103": {
  "note": "Contents are decoded texts. The csv reader sees whether the last line has an end, hence the stronger premise there. Line separators as str.splitlines and universal newlines define them."
 },
 "C104": {
  "note": "Refuted on Python 3: BZ2File and GzipFile are binary, so every nonempty compressed kanjidic raises TypeError, every nonempty corpus file csv.Error, every place file fails, and dump raises TypeError after emptying the file. Proved: all other names are read as texts."
 },
 "C105": {
  "note": "Refuted: on '-' the with block closes sys.stdin or sys.stdout, and the next use raises ValueError. Proved for every other name."
 },
 "C106": {
  "note": "The lookup of an unknown code adds an empty dictionary under it (defaultdict), so membership tests and lengths change after lookups; the answers do not."
 },
 "C107": {
  "note": "Refuted for every name: the characters of the name are taken for lines, so the generator always raises UnknownFormatError (RuntimeError for the empty name). Proved for the lines of a file."
 },
 "C108": {
  "note": "Completes C74, whose claim (groups are the connected components) holds only without bridging rows."
 },
 "C109": {
  "note": "Proved when every record fits in one stream buffer, and for records of any size when all calls produce the same record and no process writes after another one has opened the file; no call ever waits. Refuted otherwise: a reader half way through the file gets the value of another call, and two writers of the same value can leave a hole that stays in the cache. Plain files, fixed dependencies."
 },
 "C110": {
  "note": "Holds for comparisons of words, and != is always the negation of ==. Refuted for nodes, whose comparison with None, a text or a word raises AttributeError in either order, and for hashing: both classes define __eq__ without __hash__."
 },
 "C111": {
  "note": "All but the last clause is proved. Refuted: two calls that overlap both invoke the method, and with a method whose value changes the second store replaces the value that was already handed out."
 },
 "C112": {
  "note": "Refuted for every method and key: all callers share one object per key, so a change made by one is what the next gets; and the same keyword arguments in another order are another key. Proved instead: exactly which changes a call finds, and the claim when nobody changes anything."
 },
 "C113": {
  "note": "On Python 3 sopen drops its encoding argument and the builtin open uses the locale: proved for UTF-8 locales, and refuted for every eight-bit locale (no kanji or zhuyin can be looked up, whatever the file). Refuted with a byte order mark, which becomes a spurious key or an error in every reader but kanji_list.get_list. Malformed bytes always raise, in any locale and buffering; the decoder is proved to be UTF-8 exactly."
 },
 "C114": {
  "note": "Refuted for dictionaries handed to the constructor: two nodes given the same non-empty one both get every child added to either while the child names one parent, and children given that way do not learn their parent, so unlink leaves them in place. The exact behaviour is proved for all worlds; copy, prune and TreeDist are right even then. C114_program justifies that Tree_model.v keeps dictionaries inside nodes."
 },
 "C115": {
  "note": "Missing: that segmenter and characters of a PinyinTable belong to the same pack. The segmenter is a global of the module, so a table made after CJKDATA has been pointed elsewhere joins the new characters to the old syllables; C115_one_pack_refuted shows one that loses a character. It holds as long as the environment and the files stay as they are (C115_one_pack_partial)."
 },
 "C116": {
  "note": "Missing: files with line breaks other than CR and LF (only Python 2 ends lines there, C116_breaks_refuted), compressed files (only Python 2 reads them, C116_compressed_refuted), corpora with a line end inside a quoted column or a carriage return alone (C116_quoted_refuted), columns longer than 131072 bytes and at most as many characters (C116_limit_refuted), locales other than UTF-8 in Python 3, malformed bytes. Dumping holds for all names but the standard output's."
 },
 "C117": {
  "note": "C117_files: any lines of scalar values without line breaks can be written so. Link groups are the connected components when no row bridges two groups (C74, C108)."
 },
 "C118": {
  "note": "Proved for Python 3 with UTF-8 (C118_python3_partial, C118_lookups) and any locale that decodes the file (C118_loads); for Python 2 when the stream is decoded and lines end in line feeds, or all is ASCII. The claim as a whole is false: C118_locale_refuted, C118_edict_python2_refuted, C118_foreign_python2_refuted, C118_crlf_python2_refuted, C118_bom_refuted, C118_compressed_refuted."
 },
 "C119": {
  "note": "Proved: the answers are exactly those of C119_first_answer and then stay (C119_same_object_partial; C119_kana_same_object_partial for single inheritance); the class of the answer is the class or a base (C119_class_partial). The claim that it is an instance of the class is false (C119_instance_refuted), and so is the stability of KanaTable with two bases (C119_two_bases_refuted). Metaclasses and programs that set _cached themselves are not modelled."
 },
 "C120": {
  "note": "Proved: C120_imports_partial (before 3.10) and C120_imports_new_partial (all but one module), C120_requirements, C120_needed. False: tatoeba.py from Python 3.10 on (C120_tatoeba_refuted) and importing everything from either package (C120_star_refuted). Top-level statements other than imports are taken to succeed; modules from outside the package are there with the listed names or not at all; that the files parse is assumed."
 },
 "C121": {
  "note": "argparse as in Python 3.10, and as in 3.11.10 where it differs (a parameter); usage and error messages are not modelled."
 },
 "C122": {
  "note": "Doubles are modelled exactly, as rationals: rounding to nearest with ties to even, gradual underflow, overflow of float(int). The counts are those of C62, children's own counts only."
 },
 "C123": {
  "note": "Refuted for links files: the message speaks of columns when a number is wrong. repr of a header and str.lower are parameters. The messages of find_node, of MissingCJKDataError and of non-string labels are in C139."
 },
 "C124": {
  "note": "One object for all threads is refuted: two calls at the same time get different objects, and with Kanjidic and RadkDict the object returned can alternate between calls that do not overlap. Constructors run in one step; attribute access is atomic; one class without cached bases."
 },
 "C125": {
  "note": "A node taken out of the tree before its turn is visited all the same, so the last claim is refuted. Other threads changing the tree are not modelled."
 },
 "C126": {
  "note": "With direct dependencies only, a changed file is not noticed until the inner method is called again: the outer cache is served outdated (C126_direct_refuted), and if the inner cache is removed the call fails (C126_removed_refuted). Two methods with one cache file get one another's values for equal arguments (C126_shared_file_refuted). Methods are programs that read files and call cached methods, and do not catch exceptions."
 },
 "C127": {
  "note": "A file name that cannot be printed makes the call raise, even on a hit (C127_unprintable_refuted)."
 },
 "C128": {
  "note": "Without setuptools_scm the version file of an earlier run stays (C128_stale_refuted); a version with a double quote would be read back differently (C128_version_quotes_refuted), which setuptools_scm does not make. What setuptools does with the arguments is not modelled."
 },
 "C130": {
  "note": "REFUTED for the sentences and the indices readers: when a row is refused, the generator is a local variable of the frame in the traceback, so the file stays open for as long as the exception is kept (C130_sentences_refuted, C130_indices_refuted). Proved for the links reader, and for these two whenever no row is refused; the generators themselves are proved for every schedule, and over one buffer they share its rows; a closed buffer is refused. CPython's reference counting is assumed."
 },
 "C132": {
  "note": "Refuted in part: what strikes while the cache file is read is swallowed by the bare except (smart_cache.py:123), and the call goes on as if the file could not be opened, running the method though the cache is fresh (C132_interrupts_end_calls_refuted). C132_outcome_partial tells the outcome exactly: the last exception that struck elsewhere ends the call, and at most two are swallowed. The rest is proved in full: the value returned, the files, the streams, the calls after and memory_proxy."
 },
 "C133": {
  "note": "Refuted: a file cut after whole lines loads as the tree of the places before the cut (C133_lines_refuted), and a place the encoding cannot write makes dump raise and leave such a file in place of the old one (C133_unencodable_refuted). Proved exactly: what is left in the file whatever happens (C133_dump) and, for every cut, whether it is refused and which tree it gives otherwise (C133_cut_partial): cut within a line's depth or label it is refused, cut within a reading the place gets the part that is left, so that a place without reading can get the reading N, No or Non. Bytes of UTF-8 reduce to this (C133_bytes). Aliases, which do not survive even whole (C49), are left out."
 },
 "C134": {
  "note": "Predicates that change the tree are left out. If the answers depend on the state, the second answer about the root is the one that counts (asked_twice in PruneAsk_spec.v, C134_case_twice)."
 },
 "C135": {
  "note": "Count methods that change the tree, and counts that are not whole numbers, are left out."
 },
 "C136": {
  "note": "Refuted: answers that belong together (C136_together_refuted), group() containing the sentence asked for (C136_group_refuted), no TypeError (C136_type_error_refuted). For links and indices the filters stay as they are while files are loaded."
 },
 "C137": {
  "note": "Refuted: equal inverses of equal maps (C137_invert_refuted), the same exception from map_dict (C137_map_dict_refuted), the same node from find_node (C137_found_refuted), one language for an id listed under two (C137_language_refuted)."
 },
 "C138": {
  "note": "Refuted: every item is mapped once (C138_removing_refuted, C138_replaced_refuted), the loops end (C138_endless_refuted), no RuntimeError when the size is kept (C138_put_back_refuted)."
 },
 "C139": {
  "note": "Refuted: a label that is not there is a KeyError (C139_find_key_error_refuted), an unknown dependency is refused (C139_update_unnoticed_refuted)."
 },
 "C140": {
  "note": "Refuted: a kanjidic with a number of too many digits is refused (C140_kanjidic_refused_refuted)."
 },
 "C141": {
  "note": "Refuted: a dialect brings its delimiter (C141_dialect_refuted)."
 },
 "C143": {
  "note": "Refuted: the syllable that matches most is taken (C143_longest_refuted), the order of the rows does not matter (C143_order_refuted). Missing: syllables outside the syntax of C93, and syllables that are patterns only together with others."
 },
 "C144": {
  "note": "The limit counts the calls of _layout_children and __eq__; the frames of the method and of the dictionary comparison in between are not counted separately."
 },
 "C145": {
  "note": "Refuted: every syllable of the table can be converted (C145_syllables_refuted: a longer one that matches nothing is found first). Missing: syllables as for C143."
 },
 "C146": {
  "note": "Refuted: equal places have the same details (C146_details_refuted), a dictionary loaded again is equal (C146_again_refuted), RadkDicts with the same radicals are equal and count the same strokes (C146_order_refuted, C146_strokes_refuted). == of values is a parameter that says that a value equals itself."
 },
 "C147": {
  "note": "Refuted: == tells whether a map was saved completely (C147_saved_refuted: a place whose aliases were lost by dump and from_file is == to the original). What the format can hold is [storable], as in C49."
 }
}