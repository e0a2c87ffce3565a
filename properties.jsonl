{"id": "C01", "title": "Kana conversion is a lossless pointwise renaming", "statement": "to_katakana replaces exactly the characters U+3041..U+3096 by the character 96 code points higher and to_hiragana does the reverse for U+30A1..U+30F6; every other character is returned unchanged, length and positions are preserved, conversion distributes over concatenation, each conversion is idempotent, and converting a string without katakana to katakana and back returns it unchanged (and symmetrically).", "quantifier": "every Unicode string (any length, any code points)", "why_tests_cant": "the input space is infinite; tests sample a handful of strings", "anchors": ["cjktools/scripts.py:ScriptMapping.__init__", "cjktools/scripts.py:ScriptMapping.__call__", "cjktools/scripts.py:to_hiragana", "cjktools/scripts.py:to_katakana"]}
{"id": "C02", "title": "script_type classifies by first character and does not depend on table order", "statement": "script_type(s) is Unknown for the empty string, otherwise it is the script whose documented code-point band contains the first character and Unknown when none does; at most one band can match, so the answer is the same whatever order the band dictionary is iterated in.", "quantifier": "every string and every iteration order of the band dictionary", "why_tests_cant": "the dictionary order is an implementation detail a test run fixes to one value", "anchors": ["cjktools/scripts.py:script_type", "cjktools/scripts.py:_known_bands"]}
{"id": "C03", "title": "script_boundaries is a lossless maximal segmentation", "statement": "For every non-empty string the tuple returned concatenates back to the string, has no empty segment, every segment consists of characters with the script type of its first character or the long-vowel mark, and no two adjacent segments could be merged (the next segment starts with a different script type and is not a long-vowel mark); this segmentation is the only one with these properties. For the empty string the result is a 1-tuple holding it.", "quantifier": "every Unicode string (any length, any code points)", "why_tests_cant": "the input space is infinite; tests sample a handful of strings", "anchors": ["cjktools/scripts.py:script_boundaries", "cjktools/scripts.py:script_type"]}
{"id": "C04", "title": "normalize_ascii converts full-width ASCII and touches nothing else", "statement": "normalize_ascii maps each of U+FF01..U+FF5E to the ASCII character 0xFEE0 lower, the ideographic space, comma and full stop to ' ', ',' and '.', leaves every other character unchanged, preserves length, and is idempotent.", "quantifier": "every Unicode string (any length, any code points)", "why_tests_cant": "the input space is infinite; tests sample a handful of strings", "anchors": ["cjktools/scripts.py:normalize_ascii", "cjktools/scripts.py:_mapped_chars", "cjktools/scripts.py:_known_bands"]}
{"id": "C05", "title": "normalize_kana and normalize never fail, are idempotent and reach a normal form", "statement": "normalize_kana replaces every half-width katakana character by its full-width counterpart and leaves all others unchanged, never raises, and is idempotent; normalize is idempotent and its output contains no half-width katakana and no full-width ASCII.", "quantifier": "every Unicode string (any length, any code points)", "why_tests_cant": "index arithmetic into a 63-character table must be in range for every character", "anchors": ["cjktools/scripts.py:normalize_kana", "cjktools/scripts.py:normalize", "cjktools/scripts.py:_full_width_kana"]}
{"id": "C06", "title": "compare_kana is a consistent three-way comparison", "statement": "compare_kana always returns -1, 0 or 1; it is antisymmetric and transitive; it returns 0 exactly when the two strings become equal after converting both to hiragana; and it is invariant under converting either argument between kana scripts.", "quantifier": "all pairs and triples of strings", "why_tests_cant": "order laws quantify over triples of arbitrary strings", "anchors": ["cjktools/scripts.py:compare_kana"]}
{"id": "C07", "title": "Script membership queries agree with each other", "statement": "For every string s and script t: contains_script(t, s) iff some character of s has script type t; script_types(s) is exactly the set of those types; unique_kanji(s) is exactly the set of characters of s of type Kanji; and get_script(t), for every script except Unknown, lists exactly the characters of type t, once each in code-point order (Unknown raises KeyError).", "quantifier": "every Unicode string (any length, any code points), every script", "why_tests_cant": "the input space is infinite; tests sample a handful of strings", "anchors": ["cjktools/scripts.py:get_script", "cjktools/scripts.py:contains_script", "cjktools/scripts.py:script_types", "cjktools/scripts.py:unique_kanji"]}
{"id": "C08", "title": "Kana coordinates are a bijection", "statement": "from_coords(*get_coords(k)) == k for every kana k in the table and get_coords(from_coords(c, v)) == (c, v) for every consonant row c and vowel v; get_coords raises KeyError for every other string; to_vowel_line / to_consonant_line agree with get_coords and return None elsewhere except that the vowel line of wa is a.", "quantifier": "every string used as a kana, every row/vowel pair, every dict order of the table", "why_tests_cant": "exceptional behaviour must hold for every string outside the table", "anchors": ["cjktools/kana_table.py:KanaTable._build_dicts", "cjktools/kana_table.py:KanaTable.get_coords", "cjktools/kana_table.py:KanaTable.from_coords", "cjktools/kana_table.py:KanaTable.to_vowel_line"]}
{"id": "C09", "title": "is_voiced / is_semivoiced detect exactly the (han)dakuten kana", "statement": "For every single character c, is_voiced(c) is True exactly when c canonically decomposes into a base and U+3099 or U+309A, is_semivoiced(c) exactly when the mark is U+309A (so semivoiced implies voiced); for a base kana followed by a combining mark the answer is True, and False for any string of three or more characters.", "quantifier": "every character, every string of length other than two, every kana+mark pair", "why_tests_cant": "the set of characters is far larger than any test list", "anchors": ["cjktools/kana_table.py:KanaTable.is_voiced", "cjktools/kana_table.py:KanaTable.is_semivoiced"]}
{"id": "C10", "title": "Voicing maps are total on kana and mutually inverse", "statement": "to_voiced is defined on exactly the hiragana and katakana characters, lists for each the kana obtained by adding dakuten / handakuten (ka, sa, ta rows: one; ha row: two; otherwise none), commutes with script conversion, and from_voiced maps each listed kana back to the unique kana it came from and is defined on nothing else, independently of dict iteration order.", "quantifier": "every character, every dict order", "why_tests_cant": "module-level tables are built by arithmetic on code points; one wrong row escapes a spot check", "anchors": ["cjktools/alternations.py:_create_voicing_map", "cjktools/alternations.py:to_voiced", "cjktools/alternations.py:from_voiced"]}
{"id": "C11", "title": "canonical_segment_forms returns exactly the documented candidates", "statement": "For a segment whose first character is hiragana or katakana the result is exactly: the segment; if right context is allowed, it is longer than one character and ends in the small tsu of its script, the six restorations of the last character; and if left context is allowed and its first kana is voiced, each of these with the first kana devoiced. All candidates have the segment's length. Segments not starting with kana raise ValueError.", "quantifier": "every string, every context flag", "why_tests_cant": "set contents and failures must be right for every segment", "anchors": ["cjktools/alternations.py:canonical_segment_forms"]}
{"id": "C12", "title": "canonical_forms is the product of the per-position candidates", "statement": "canonical_forms(segments) contains a tuple iff it has one component per segment and each component is a candidate of that segment with left context iff it is not the first and right context iff it is not the last; the number of results is the product of the candidate counts.", "quantifier": "every list of segments", "why_tests_cant": "lists of any length", "anchors": ["cjktools/alternations.py:canonical_forms"]}
{"id": "C13", "title": "canonical_forms recovers every reading from its surface forms", "statement": "If t is one of surface_forms(r) for a sequence r of kana segments, then r is among canonical_forms(t).", "quantifier": "every list of readings and every surface form", "why_tests_cant": "the two functions are documented as counterparts, tests use two examples", "anchors": ["cjktools/alternations.py:surface_forms", "cjktools/alternations.py:rendaku_variants", "cjktools/alternations.py:onbin_variants", "cjktools/alternations.py:canonical_forms"]}
{"id": "C14", "title": "insert_duplicate_kanji terminates and expands every repetition mark that has a predecessor", "statement": "insert_duplicate_kanji terminates on every string, preserves length, replaces each run of repetition marks by the character before the run, changes nothing else, and is idempotent.", "quantifier": "every Unicode string (any length, any code points)", "why_tests_cant": "termination of the while loop is a statement about all strings", "anchors": ["cjktools/alternations.py:insert_duplicate_kanji"]}
{"id": "C15", "title": "expand_long_vowels replaces each expandable long-vowel mark and nothing else", "statement": "expand_long_vowels preserves length and changes only long-vowel marks: a mark directly after a kana becomes that kana's vowel in the same script, every other mark and every other character is unchanged; it never fails.", "quantifier": "every Unicode string (any length, any code points)", "why_tests_cant": "the input space is infinite; tests sample a handful of strings", "anchors": ["cjktools/alternations.py:expand_long_vowels", "cjktools/alternations.py:_long_finder", "cjktools/kana_table.py:KanaTable.to_vowel_line", "cjktools/scripts.py:script_boundaries"]}
{"id": "C16", "title": "chain_mapping is function composition", "statement": "chain_mapping(d0, ..., dn) has exactly the keys of d0 and maps each to dn(...(d0(k))); it raises KeyError iff some intermediate value is missing from the next dictionary, IndexError with no arguments, and modifies none of its arguments.", "quantifier": "every sequence of dictionaries", "why_tests_cant": "chains of any length over any key type", "anchors": ["cjktools/maps.py:chain_mapping", "cjktools/maps.py:map_dict"]}
{"id": "C17", "title": "invert_mapping transposes the relation with multiplicity", "statement": "For every dictionary d of lists, key k occurs in invert_mapping(d)[v] exactly as often as v occurs in d[k]; v is a key iff it occurs in some value; the order of keys follows d; inverting twice gives back the same relation.", "quantifier": "every dictionary of sequences", "why_tests_cant": "relation equality quantifies over all keys and values", "anchors": ["cjktools/maps.py:invert_mapping"]}
{"id": "C18", "title": "is_injective and invert_injective_mapping agree", "statement": "is_injective(d) iff no two keys have equal values; invert_injective_mapping(d) returns iff is_injective(d), otherwise it fails its assertion; when it returns e, e[v] == k iff d[k] == v, and inverting again returns a dictionary equal to d.", "quantifier": "every dictionary", "why_tests_cant": "the input space is infinite; tests sample a handful of strings", "anchors": ["cjktools/maps.py:is_injective", "cjktools/maps.py:invert_injective_mapping"]}
{"id": "C19", "title": "map_dict changes values only", "statement": "map_dict(f, d) has the same keys in the same order and value f(d[k]) at each; with in_place=True the same dictionary object is returned holding the same contents; without it d is unchanged; if f raises on the i-th value an in-place call leaves exactly the first i values updated.", "quantifier": "every dictionary and every method", "why_tests_cant": "the input space is infinite; tests sample a handful of strings", "anchors": ["cjktools/maps.py:map_dict"]}
{"id": "C20", "title": "multi_dict groups values by key in input order", "statement": "multi_dict(pairs)[k] is the list of all values paired with k in input order; its keys are exactly the keys that occur, in order of first occurrence.", "quantifier": "every list of pairs", "why_tests_cant": "the input space is infinite; tests sample a handful of strings", "anchors": ["cjktools/maps.py:multi_dict"]}
{"id": "C21", "title": "merge_dicts is the key-wise union and never mutates its inputs", "statement": "merge_dicts(d1, ..., dn) has exactly the keys occurring in some di, each mapped to the set of all items found under that key; every set object reachable from the arguments has the same contents after the call as before.", "quantifier": "every sequence of dictionaries of collections, every aliasing between their values", "why_tests_cant": "aliasing between argument values is a heap property", "anchors": ["cjktools/maps.py:merge_dicts"]}
{"id": "C22", "title": "partial_map, filtered_map and procmap process each item once in order", "statement": "partial_map(f, xs) returns the truthy results in order and the items whose result was falsy in order; the two lengths sum to len(xs); filtered_map(f, xs) equals the first component; each of the three calls f exactly once per item, in order.", "quantifier": "every list and every method", "why_tests_cant": "the input space is infinite; tests sample a handful of strings", "anchors": ["cjktools/maps.py:partial_map", "cjktools/maps.py:filtered_map", "cjktools/maps.py:procmap"]}
{"id": "C23", "title": "memory_proxy is transparent and calls the method once per distinct arguments", "statement": "For every sequence of calls with hashable arguments through memory_proxy(f) with a deterministic f that cannot tell equal arguments apart, each call returns what f returns (or raises what f raises), and f is invoked at most once per distinct argument key that it completed on; a call that raises leaves nothing cached; a call with an unhashable argument raises TypeError without invoking f. For an f with state, a call is answered with the first value returned for an equal key, or else by invoking f once.", "quantifier": "every history of calls", "why_tests_cant": "histories of any length", "anchors": ["cjktools/smart_cache.py:memory_proxy"]}
{"id": "C24", "title": "needs_update is exactly the freshness test", "statement": "For every file system needs_update(target, deps) returns True iff the target does not exist or one of the files named by deps (a path, or a module's file and the files of the modules in its namespace) is strictly newer; deps after the first newer one are not inspected; a missing dependency file raises and a dependency of another type raises TypeError.", "quantifier": "every file system state, every dependency list", "why_tests_cant": "file system states are unbounded", "anchors": ["cjktools/smart_cache.py:needs_update", "cjktools/smart_cache.py:_get_module_dependencies"]}
{"id": "C25", "title": "Stored cache objects are returned only for equal arguments and fresh targets", "statement": "After store_cache_object(obj, f, a, p), try_cache(f, a', p', deps) returns obj iff a' == a, p' == p and needs_update(f, deps) is False, and otherwise returns None; no other file is changed.", "quantifier": "every object, argument tuple, parameter dict and dependency state", "why_tests_cant": "the input space is infinite; tests sample a handful of strings", "anchors": ["cjktools/smart_cache.py:try_cache", "cjktools/smart_cache.py:store_cache_object"]}
{"id": "C26", "title": "disk_proxy never serves a value computed from outdated dependencies", "statement": "In every history of calls and dependency modifications through disk_proxy_direct with a method that is a function of its arguments and the dependency contents, each call returns the method's value for the current dependency contents.", "quantifier": "every interleaving of proxied calls, dependency writes and clock ticks", "why_tests_cant": "staleness depends on schedules and clock granularity", "anchors": ["cjktools/smart_cache.py:disk_proxy_direct", "cjktools/smart_cache.py:try_cache", "cjktools/smart_cache.py:needs_update", "cjktools/smart_cache.py:store_cache_object"]}
{"id": "C27", "title": "A crash while writing the cache never produces a wrong value", "statement": "If the process dies at any point during store_cache_object, leaving any prefix of the bytes it would have written, the next try_cache on that file returns None or the complete stored object (for equal arguments), never anything else, and a following proxied call returns the right value.", "quantifier": "every crash point, every previous file content", "why_tests_cant": "crash points cannot be enumerated by tests", "anchors": ["cjktools/smart_cache.py:store_cache_object", "cjktools/smart_cache.py:try_cache"]}
{"id": "C28", "title": "disk_proxy does not recompute while nothing changes", "statement": "After a proxied call, repeating the call with equal arguments while the dependencies are not modified does not invoke the method again.", "quantifier": "every method, argument and history", "why_tests_cant": "needs all return values, including None", "anchors": ["cjktools/smart_cache.py:disk_proxy_direct", "cjktools/smart_cache.py:try_cache"]}
{"id": "C29", "title": "filter_comments removes exactly the comment lines", "statement": "filter_comments yields, in order, exactly the lines that do not start with '#'.", "quantifier": "every sequence of lines", "why_tests_cant": "the input space is infinite; tests sample a handful of strings", "anchors": ["cjktools/common.py:filter_comments"]}
{"id": "C30", "title": "sopen picks the stream by extension and mode", "statement": "sopen raises before opening anything when the mode contains both r and w; otherwise exactly one stream is opened: bz2 for names ending .bz2, gzip for .gz, standard input/output for '-' according to the mode, and a plain file otherwise, with the given mode.", "quantifier": "every filename and mode string", "why_tests_cant": "the input space is infinite; tests sample a handful of strings", "anchors": ["cjktools/common.py:sopen"]}
{"id": "C31", "title": "Streams supplied by the caller stay open", "statement": "A reader that takes an optional stream closes a stream it opened by default and never closes the one passed by the caller, whether or not the body raises.", "quantifier": "every body outcome", "why_tests_cant": "must hold on all exit paths", "anchors": ["cjktools/common.py:get_stream_context", "cjktools/common.py:_NullContextWrapper"]}
{"id": "C32", "title": "Merging dictionary entries keeps readings and senses paired", "statement": "For entries with one reading or one reading per sense, after e.update(r) the entry again satisfies this invariant, its (reading, sense) pairs are those of e followed by those of r, its word is unchanged, r keeps its pairs; entries with different words are rejected and left unchanged. It holds after any sequence of updates.", "quantifier": "every pair of entries, every sequence of merges, including e.update(e)", "why_tests_cant": "the input space is infinite; tests sample a handful of strings", "anchors": ["cjktools/resources/bilingual_dict.py:DictionaryEntry.update", "cjktools/resources/bilingual_dict.py:DictionaryEntry.__init__"]}
{"id": "C33", "title": "senses_by_reading groups the pairs", "statement": "For every valid entry with at least one sense, senses_by_reading()[r] is the list of senses paired with r in order, its keys are exactly the readings; merging two entries concatenates their groups reading by reading.", "quantifier": "every entry", "why_tests_cant": "the input space is infinite; tests sample a handful of strings", "anchors": ["cjktools/resources/bilingual_dict.py:DictionaryEntry.senses_by_reading"]}
{"id": "C34", "title": "BilingualDictionary.update overwrites or refuses", "statement": "update with the default policy makes every key of the right-hand side take its value and leaves other keys alone; with the Merge policy it raises NotYetImplementedError and changes nothing.", "quantifier": "every pair of dictionaries", "why_tests_cant": "the input space is infinite; tests sample a handful of strings", "anchors": ["cjktools/resources/bilingual_dict.py:BilingualDictionary.update"]}
{"id": "C35", "title": "EDICT lines parse to what they were written from", "statement": "Writing a word, an optional bracketed reading and a non-empty list of slash-separated senses as an EDICT line and parsing the line yields exactly that word, reading (the word itself if absent; spaces removed) and senses in order, with or without a trailing newline.", "quantifier": "every word, reading and sense list free of the delimiters", "why_tests_cant": "regular-expression matching with backtracking over unbounded lines", "anchors": ["cjktools/resources/auto_format.py:known_formats", "cjktools/resources/dict_format.py:RegexFormat.parse_line"]}
{"id": "C36", "title": "jc_kdic lines parse to what they were written from", "statement": "Same as C35 for the jc_kdic format: word, bracketed reading, tab, senses separated by full-width commas.", "quantifier": "every word, reading and sense list free of the delimiters", "why_tests_cant": "as C35", "anchors": ["cjktools/resources/auto_format.py:known_formats", "cjktools/resources/dict_format.py:RegexFormat.parse_line"]}
{"id": "C37", "title": "cj_kdic lines parse to what they were written from", "statement": "Same for the cj_kdic format: word, tab, reading, literal backslash-n, senses separated by literal backslash-n and optionally numbered with full-width digits and a full-width stop, the numbering being removed.", "quantifier": "every word, reading, sense list and numbering", "why_tests_cant": "as C35; digit classes are easy to get wrong for one digit", "anchors": ["cjktools/resources/auto_format.py:known_formats", "cjktools/resources/dict_format.py:RegexFormat.parse_line"]}
{"id": "C38", "title": "CEDICT lines parse to what they were written from", "statement": "Same for CEDICT: traditional form, simplified form (the headword), optional bracketed reading, slash-separated senses.", "quantifier": "every traditional/simplified form, reading, sense list free of the delimiters", "why_tests_cant": "as C35", "anchors": ["cjktools/resources/auto_format.py:known_formats", "cjktools/resources/dict_format.py:RegexFormat.parse_line"]}
{"id": "C39", "title": "Format detection is unambiguous", "statement": "No header line matches two known formats, so detect_format returns the unique matching format whatever the order of known_formats, and raises UnknownFormatError iff none matches.", "quantifier": "every header line, every order of the formats", "why_tests_cant": "the input space is infinite; tests sample a handful of strings", "anchors": ["cjktools/resources/auto_format.py:detect_format", "cjktools/resources/auto_format.py:known_formats"]}
{"id": "C40", "title": "Loading a dictionary groups entries by headword without loss", "statement": "For every sequence of parsable lines, the dictionary's keys are the distinct words in order of first appearance and each entry's (reading, sense) pairs are the concatenation of the pairs of all lines with that word in file order; the first unparsable line makes loading raise its error; an empty stream raises StopIteration.", "quantifier": "every file", "why_tests_cant": "files of any length, any interleaving of homographs", "anchors": ["cjktools/resources/dict_format.py:DictionaryFormat.parse_dictionary", "cjktools/resources/auto_format.py:load_dictionary", "cjktools/resources/auto_format.py:iter_entries"]}
{"id": "C41", "title": "get_codes finds exactly the parenthesised known codes", "statement": "A code c is in get_codes(sense) iff c is a known code and the sense contains, somewhere, a parenthesised non-empty group of letters, digits, commas and hyphens one of whose comma-separated parts is c.", "quantifier": "every Unicode string (any length, any code points)", "why_tests_cant": "all placements and nestings of parentheses", "anchors": ["cjktools/resources/split_by_codes.py:get_codes", "cjktools/resources/split_by_codes.py:_code_pattern"]}
{"id": "C42", "title": "load_coded_dictionary splits without loss or leakage", "statement": "After loading, word w is listed under code c iff some line for w has a sense carrying c, and the entry listed there is the fully merged entry of w (all its lines), the same object under every code.", "quantifier": "every file", "why_tests_cant": "merging happens after earlier codes were recorded; aliasing matters", "anchors": ["cjktools/resources/split_by_codes.py:load_coded_dictionary", "cjktools/resources/split_by_codes.py:iter_coded_entries"]}
{"id": "C43", "title": "Kanjidic lines are decoded field by field", "statement": "A kanjidic line composed of a kanji, a hexadecimal code, coded fields, katakana and hiragana readings and {glosses} in any interleaving is parsed so that glosses, on readings, kun readings and the values of each code appear in line order under the documented field names, stroke count is the first S value, frequency the first F value, skip code the three numbers of the first P value; T1/T2 markers are ignored.", "quantifier": "every well-formed line", "why_tests_cant": "the input space is infinite; tests sample a handful of strings", "anchors": ["cjktools/resources/kanjidic.py:Kanjidic._parse_line"]}
{"id": "C44", "title": "all_readings is the set of stems in hiragana", "statement": "For every entry whose readings contain at most one dot, all_readings is exactly the set of readings with hyphens removed and everything from the dot on removed, on readings converted to hiragana; a reading with two dots raises ValueError.", "quantifier": "every entry", "why_tests_cant": "the input space is infinite; tests sample a handful of strings", "anchors": ["cjktools/resources/kanjidic.py:KanjidicEntry.get_all_readings"]}
{"id": "C45", "title": "Kanjidic maps each kanji to its last entry and ignores comments", "statement": "After loading a sequence of files, the keys are exactly the kanji of the non-comment lines and each maps to the entry of the last line for it over all files in order.", "quantifier": "every sequence of files", "why_tests_cant": "the input space is infinite; tests sample a handful of strings", "anchors": ["cjktools/resources/kanjidic.py:Kanjidic.__init__", "cjktools/resources/kanjidic.py:Kanjidic._parse_kanjidic"]}
{"id": "C46", "title": "Cached instances are built once", "statement": "Repeated get_cached calls return the same object and construct (parse) it at most once.", "quantifier": "every number of calls", "why_tests_cant": "construction count over histories", "anchors": ["cjktools/resources/kanjidic.py:Kanjidic.get_cached", "cjktools/resources/radkdict.py:RadkDict.get_cached", "cjktools/kana_table.py:KanaTable.get_cached"]}
{"id": "C47", "title": "RadkDict inverts the radical file", "statement": "For every radkfile that loads, radical r is in rkd[k] iff k occurs in a kanji line governed by r (the closest preceding '$' line), with multiplicity and in file order of radicals; comment lines and surrounding whitespace do not matter; stroke counts are those of the last '$' line of each radical.", "quantifier": "every file", "why_tests_cant": "the input space is infinite; tests sample a handful of strings", "anchors": ["cjktools/resources/radkdict.py:RadkDict._parse_radkfile"]}
{"id": "C48", "title": "RadkDict rejects malformed radical lines", "statement": "Loading fails iff some '$' line does not have 3 or 4 whitespace-separated parts or its third part is not an integer.", "quantifier": "every file", "why_tests_cant": "the input space is infinite; tests sample a handful of strings", "anchors": ["cjktools/resources/radkdict.py:RadkDict._parse_radkfile"]}
{"id": "C49", "title": "Place trees survive dump and from_file", "statement": "Place.from_file(dump(t)) rebuilds the same tree: same labels, readings, aliases and children in the same order, for every tree of places whose details contain no whitespace.", "quantifier": "every tree", "why_tests_cant": "trees of any shape and depth", "anchors": ["cjktools/resources/place.py:Place.dump", "cjktools/resources/place.py:Place.from_file", "cjktools/resources/place.py:Place._to_line", "cjktools/resources/place.py:Place._from_line"]}
{"id": "C50", "title": "Place.walk is the depth-annotated preorder", "statement": "walk yields every node exactly once in preorder, children in insertion order, each with its depth.", "quantifier": "every tree", "why_tests_cant": "the input space is infinite; tests sample a handful of strings", "anchors": ["cjktools/resources/place.py:Place.walk"]}
{"id": "C51", "title": "walk_with_path and find_all report true paths", "statement": "walk_with_path yields each node in walk order with the '/'-joined labels of its proper ancestors and never fails; find_all(l) returns exactly the pairs for the nodes labelled l, in that order.", "quantifier": "every tree", "why_tests_cant": "the input space is infinite; tests sample a handful of strings", "anchors": ["cjktools/resources/place.py:Place.walk_with_path", "cjktools/resources/place.py:Place.find_all"]}
{"id": "C52", "title": "Place.find_node finds a shallowest match whatever the shuffle", "statement": "For every outcome of the random shuffles, find_node(l) on a tree whose root is not labelled l returns a node labelled l at minimal depth together with the labels leading to it, and raises KeyError iff no node is labelled l.", "quantifier": "every tree and every sequence of shuffles", "why_tests_cant": "randomised order; a test sees one shuffle", "anchors": ["cjktools/resources/place.py:Place.find_node"]}
{"id": "C53", "title": "Place lines round-trip", "statement": "_from_line(_to_line(d)) returns depth d and the same label, reading and aliases for every place whose details contain no whitespace.", "quantifier": "every place and depth", "why_tests_cant": "the input space is infinite; tests sample a handful of strings", "anchors": ["cjktools/resources/place.py:Place._to_line", "cjktools/resources/place.py:Place._from_line"]}
{"id": "C54", "title": "Tree walks visit every node exactly once in a valid order", "statement": "walk_preorder lists every node once with parents before children; walk_postorder lists every node once with children before parents; walk_breadth_first lists every node once in non-decreasing depth for every shuffle.", "quantifier": "every tree, every shuffle", "why_tests_cant": "the input space is infinite; tests sample a handful of strings", "anchors": ["cjktools/resources/tree.py:TreeNode.walk_preorder", "cjktools/resources/tree.py:TreeNode.walk_postorder", "cjktools/resources/tree.py:TreeNode.walk_breadth_first"]}
{"id": "C55", "title": "Parent and child links stay consistent", "statement": "Starting from fresh nodes, after any sequence of add_child of parentless nodes under unused labels, and unlink operations, c.parent is p iff c is stored among p's children under its own label.", "quantifier": "every operation sequence", "why_tests_cant": "the input space is infinite; tests sample a handful of strings", "anchors": ["cjktools/resources/tree.py:TreeNode.add_child", "cjktools/resources/tree.py:TreeNode.unlink"]}
{"id": "C56", "title": "del_child detaches the child", "statement": "After p.del_child(c), c is no longer among p's children and c has no parent.", "quantifier": "every tree", "why_tests_cant": "state after the operation", "anchors": ["cjktools/resources/tree.py:TreeNode.del_child"]}
{"id": "C57", "title": "copy yields an equal, independent tree", "statement": "copy of a root returns a tree with the same labels, attributes and child order, made only of new nodes with consistent parent links, and leaves every original node unchanged; copying a node with a non-empty parent raises.", "quantifier": "every tree", "why_tests_cant": "sharing is a heap property", "anchors": ["cjktools/resources/tree.py:TreeNode.copy"]}
{"id": "C58", "title": "prune keeps exactly the viable part", "statement": "prune(pred) returns the tree obtained by repeatedly dropping childless nodes failing pred, None when nothing is left; the original tree is unchanged.", "quantifier": "every tree and predicate", "why_tests_cant": "mutation happens while a generator walks the tree", "anchors": ["cjktools/resources/tree.py:TreeNode.prune", "cjktools/resources/tree.py:TreeNode.walk_postorder", "cjktools/resources/tree.py:TreeNode.unlink"]}
{"id": "C59", "title": "TreeNode.find_node returns a shallowest match", "statement": "For every shuffle find_node(l) returns a node labelled l of minimal depth, and raises KeyError iff there is none.", "quantifier": "every tree, every shuffle", "why_tests_cant": "randomised", "anchors": ["cjktools/resources/tree.py:TreeNode.find_node"]}
{"id": "C60", "title": "Paths and ancestors agree", "statement": "In a consistent tree, path_from_root(n) equals get_ancestors(n), starts at the root, ends at n, and following its labels from the root with get_path returns n, for list paths and for '/'-joined string paths; get_path raises KeyError iff some label is missing.", "quantifier": "every tree and node", "why_tests_cant": "the input space is infinite; tests sample a handful of strings", "anchors": ["cjktools/resources/tree.py:TreeNode.path_from_root", "cjktools/resources/tree.py:TreeNode.get_ancestors", "cjktools/resources/tree.py:TreeNode.get_path"]}
{"id": "C61", "title": "build_index maps each label to its nodes", "statement": "build_index returns, for every tree, a dictionary from each label to the list of all nodes carrying it.", "quantifier": "every tree", "why_tests_cant": "the input space is infinite; tests sample a handful of strings", "anchors": ["cjktools/resources/tree.py:TreeNode.build_index"]}
{"id": "C62", "title": "TreeDist cumulative counts propagate upwards", "statement": "In TreeDist(root, count_method) every node's cum_count is the sum of count over its whole subtree.", "quantifier": "every tree and count method", "why_tests_cant": "the input space is infinite; tests sample a handful of strings", "anchors": ["cjktools/resources/tree.py:TreeDist.__init__"]}
{"id": "C63", "title": "Zhuyin/pinyin tables reflect the file", "statement": "For every table file of two-column lines and comments, zhuyin_to_pinyin_table and pinyin_to_zhuyin_table map each key to the partner in the last line for it, get_all_pinyin lists 'r' followed by the pinyin column in order; any non-comment line without exactly two columns raises ValueError.", "quantifier": "every file", "why_tests_cant": "the input space is infinite; tests sample a handful of strings", "anchors": ["cjktools/resources/zhuyin_table.py:parse_lines", "cjktools/resources/zhuyin_table.py:zhuyin_to_pinyin_table", "cjktools/resources/zhuyin_table.py:pinyin_to_zhuyin_table", "cjktools/resources/zhuyin_table.py:get_all_pinyin"]}
{"id": "C64", "title": "Pinyin segmentation is leftmost-longest", "statement": "At each position segment_pinyin takes the longest syllable of the table that is a prefix of the rest (ties cannot differ), with the following digit 0-5 as tone if present, and otherwise skips one character; the result depends only on the set of syllables, not on their order in the file.", "quantifier": "every table and string", "why_tests_cant": "regex alternation order is decided by a sort", "anchors": ["cjktools/resources/zhuyin_table.py:pinyin_regex_pattern", "cjktools/resources/pinyin_table.py:PinyinSegmenter.segment_pinyin"]}
{"id": "C65", "title": "Numbered pinyin round-trips through the segmenter", "statement": "For every list of table syllables each written with an explicit tone digit, segment_pinyin of the concatenation returns exactly that list (with r reported as er), and strip_tones returns the concatenated syllables.", "quantifier": "every table of digit-free syllables and every list", "why_tests_cant": "the input space is infinite; tests sample a handful of strings", "anchors": ["cjktools/resources/pinyin_table.py:PinyinSegmenter.segment_pinyin", "cjktools/resources/pinyin_table.py:PinyinTable.strip_tones"]}
{"id": "C66", "title": "from_ascii marks the tone and keeps the letters", "statement": "from_ascii of a numbered syllable differs from the syllable only by at most one vowel replaced by its toned form, removing tone marks gives the syllable back, and for tones 1 to 4 a syllable containing a vowel carries exactly one tone mark, so distinct tones are distinguishable.", "quantifier": "every syllable and tone", "why_tests_cant": "the input space is infinite; tests sample a handful of strings", "anchors": ["cjktools/resources/pinyin_table.py:PinyinTable._apply_tone", "cjktools/resources/pinyin_table.py:PinyinTable.from_ascii"]}
{"id": "C67", "title": "is_pinyin accepts exactly pinyin strings", "statement": "is_pinyin(s) is True iff s, lower-cased and without spaces, can be written entirely as a sequence of table syllables with optional tones.", "quantifier": "every table and string", "why_tests_cant": "the input space is infinite; tests sample a handful of strings", "anchors": ["cjktools/resources/pinyin_table.py:PinyinSegmenter.is_pinyin"]}
{"id": "C68", "title": "from_hanzi converts hanzi and keeps other text", "statement": "from_hanzi replaces each hanzi in the table by the pinyin of its first reading and leaves all other characters of the string in place.", "quantifier": "every table and string", "why_tests_cant": "the input space is infinite; tests sample a handful of strings", "anchors": ["cjktools/resources/pinyin_table.py:PinyinTable.from_hanzi"]}
{"id": "C69", "title": "Tab-separated rows survive the CSV reader", "statement": "Reading a file whose rows are tab-joined fields without tabs or line breaks yields exactly those rows.", "quantifier": "every file", "why_tests_cant": "quote handling is a state machine over all characters", "anchors": ["cjktools/resources/tatoeba.py:TatoebaReader.load_file"]}
{"id": "C70", "title": "TatoebaSentenceReader holds exactly the selected sentences", "statement": "For every well-formed list of rows and language filter, the reader's keys are the ids of the rows whose language is selected and not filtered, each mapped to the text of the last such row; sentence() returns it and raises InvalidIDError for every other id; the number of columns of the first row decides whether details are available (other counts raise InvalidFileError).", "quantifier": "every row list and language set", "why_tests_cant": "the input space is infinite; tests sample a handful of strings", "anchors": ["cjktools/resources/tatoeba.py:TatoebaSentenceReader.sentences", "cjktools/resources/tatoeba.py:TatoebaSentenceReader.sentence", "cjktools/resources/tatoeba.py:TatoebaSentenceReader.details"]}
{"id": "C71", "title": "language() reports the language of a loaded sentence", "statement": "For every loaded id, language(id) is the language of its row (if ids are unique), and it raises InvalidIDError exactly for ids that are not loaded.", "quantifier": "every row list", "why_tests_cant": "the input space is infinite; tests sample a handful of strings", "anchors": ["cjktools/resources/tatoeba.py:TatoebaSentenceReader.language"]}
{"id": "C72", "title": "A failing reload leaves the reader unchanged", "statement": "If assigning a new source to a loaded reader raises, the reader behaves exactly as before the assignment.", "quantifier": "every previous state and every failing source", "why_tests_cant": "failure can occur at any row", "anchors": ["cjktools/resources/tatoeba.py:TatoebaSentenceReader.sentences", "cjktools/resources/tatoeba.py:TatoebaLinksReader.links", "cjktools/resources/tatoeba.py:TatoebaIndexReader.jpn_indices"]}
{"id": "C73", "title": "Link groups contain only connected sentences and everyone belongs to their own group", "statement": "For every list of links, the ids known to the reader are exactly the endpoints of accepted links, group(x) contains x, every member of group(x) is connected to x through accepted links, and unknown ids raise InvalidIDError.", "quantifier": "every list of links", "why_tests_cant": "the input space is infinite; tests sample a handful of strings", "anchors": ["cjktools/resources/tatoeba.py:TatoebaLinksReader.links", "cjktools/resources/tatoeba.py:TatoebaLinksReader.group"]}
{"id": "C74", "title": "Link groups are the connected components", "statement": "group(x) is the whole set of sentences connected to x, and groups() is a partition of the ids.", "quantifier": "every list of links in every order", "why_tests_cant": "merging of groups depends on the order of rows", "anchors": ["cjktools/resources/tatoeba.py:TatoebaLinksReader.links", "cjktools/resources/tatoeba.py:TatoebaLinksReader.groups"]}
{"id": "C75", "title": "Link filters select by endpoint", "statement": "With sentence_ids given, the links used are exactly those whose sentence (filter sent_id), translation (trans_id) or both endpoints (both) are in the set; without sentence_ids all are used; other filter names raise ValueError before reading.", "quantifier": "every filter string, id set and link list", "why_tests_cant": "the input space is infinite; tests sample a handful of strings", "anchors": ["cjktools/resources/tatoeba.py:TatoebaLinksReader._sentence_ids_filter", "cjktools/resources/tatoeba.py:TatoebaLinksReader.links"]}
{"id": "C76", "title": "TanakaWord round-trips through its text form", "statement": "TanakaWord.from_text(str(w)) equals w, field by field, for every word with a non-empty headword free of the delimiters, optional reading, sense and display.", "quantifier": "every well-formed word", "why_tests_cant": "the input space is infinite; tests sample a handful of strings", "anchors": ["cjktools/resources/tatoeba.py:TanakaWord.from_text", "cjktools/resources/tatoeba.py:TanakaWord.__str__"]}
{"id": "C77", "title": "TanakaWord equality is an equivalence", "statement": "== on TanakaWord is reflexive, symmetric, transitive, identifies an omitted display with the headword, and != is its negation.", "quantifier": "all words", "why_tests_cant": "the input space is infinite; tests sample a handful of strings", "anchors": ["cjktools/resources/tatoeba.py:TanakaWord.__eq__", "cjktools/resources/tatoeba.py:TanakaWord.__ne__", "cjktools/resources/tatoeba.py:TanakaWord.resolve_display"]}
{"id": "C78", "title": "Sentences round-trip through parse_sentence", "statement": "parse_sentence of space-joined word texts returns those words, extra spaces are ignored, and the sentence is rejected with InvalidEntryError iff some word is not well formed.", "quantifier": "every sentence", "why_tests_cant": "the input space is infinite; tests sample a handful of strings", "anchors": ["cjktools/resources/tatoeba.py:TatoebaIndexReader.parse_sentence"]}
{"id": "C79", "title": "adjust_details only fills in missing readings from the dictionary", "statement": "adjust_details changes nothing but readings that were missing, every reading it sets is one of the dictionary's readings for the headword and differs from the headword, it is idempotent, and without a dictionary it changes nothing.", "quantifier": "every sentence and dictionary", "why_tests_cant": "the input space is infinite; tests sample a handful of strings", "anchors": ["cjktools/resources/tatoeba.py:TatoebaIndexReader.adjust_details"]}
{"id": "C80", "title": "TatoebaIndexReader holds exactly the selected sentences", "statement": "Keys are the ids of the rows selected by the subset, each mapped to the parsed text of its last row, link(id) is that row's second column, unknown ids raise InvalidIDError.", "quantifier": "every row list, subset", "why_tests_cant": "the input space is infinite; tests sample a handful of strings", "anchors": ["cjktools/resources/tatoeba.py:TatoebaIndexReader.jpn_indices", "cjktools/resources/tatoeba.py:TatoebaIndexReader.link"]}
{"id": "C81", "title": "Data directory lookup order", "statement": "find_path returns the CJKDATA variable when set, otherwise the first existing default directory, otherwise raises MissingCJKDataError.", "quantifier": "every environment and directory state", "why_tests_cant": "the input space is infinite; tests sample a handful of strings", "anchors": ["cjktools/resources/cjkdata.py:find_path", "cjktools/resources/cjkdata.py:get_resource"]}
{"id": "C82", "title": "Language codes are invertible", "statement": "from_one_char_code / from_two_char_code invert to_one_char_code / to_two_char_code: c is the code of l iff l is the language of c.", "quantifier": "every string", "why_tests_cant": "must hold for strings outside the tables too", "anchors": ["cjktools/resources/languages.py:from_one_char_code", "cjktools/resources/languages.py:from_two_char_code"]}
{"id": "C83", "title": "A kanji list holds the kanji of its file, each once", "statement": "get_list returns a set with exactly the kanji characters (by the script classifier) of the file of that name in the kanji list directory, without duplicates; a missing file raises; get_lists names every list file.", "quantifier": "every directory content, file text and list name", "why_tests_cant": "must hold for any file text, including repeated kanji and other scripts", "anchors": ["cjktools/resources/kanji_list.py:get_list", "cjktools/resources/kanji_list.py:get_lists"]}
{"id": "C84", "title": "The tree drawing shows every node and determines the tree", "statement": "TreeNode.layout prints one line per node in pre-order, each ending in the node's text; two trees with the same drawing have the same labels, shape and order; trees deeper than the recursion limit raise RecursionError.", "quantifier": "every tree, every naming method, every depth limit", "why_tests_cant": "injectivity of the drawing over all trees cannot be sampled", "anchors": ["cjktools/resources/tree.py:TreeNode.layout"]}
{"id": "C85", "title": "TreeDist union and diff combine two distributions", "statement": "combine/union/diff of two TreeDist return a TreeDist over the topological union.", "quantifier": "every pair of distributions", "why_tests_cant": "the code raises on every input; a test only shows it for one", "anchors": ["cjktools/resources/tree.py:TreeDist.combine", "cjktools/resources/tree.py:TreeDist.union", "cjktools/resources/tree.py:TreeDist.diff"]}
{"id": "C86", "title": "Displayed places and entries determine what they show", "statement": "str(Place) determines label, non-empty reading and number of children for every constructible place; str(DictionaryEntry) determines word, number of distinct readings and number of senses.", "quantifier": "every pair of places / entries", "why_tests_cant": "two different objects with equal texts could hide among all strings", "anchors": ["cjktools/resources/place.py:Place.__str__", "cjktools/resources/bilingual_dict.py:DictionaryEntry.__str__"]}
{"id": "C87", "title": "Dictionary entries are hashable", "statement": "hash(entry) returns a value, equal for equal entries.", "quantifier": "every entry", "why_tests_cant": "the code raises on every input", "anchors": ["cjktools/resources/bilingual_dict.py:DictionaryEntry.__hash__"]}
{"id": "C88", "title": "print_radicals prints the sorted radicals of each kanji", "statement": "One line per kanji, in order, with exactly the radicals listed for it in dictionary order; stops with KeyError at the first kanji not in the file.", "quantifier": "every radkfile and kanji sequence", "why_tests_cant": "needs all files and all stopping points", "anchors": ["cjktools/resources/radkdict.py:print_radicals"]}
{"id": "C89", "title": "Node attributes behave as a mapping", "statement": "After node[k]=v, node[k] is v and k in node; other keys, other nodes, the label, children and parent are unchanged; del removes exactly k or raises KeyError; str(node) determines label and number of children.", "quantifier": "every heap, node and key", "why_tests_cant": "frame conditions over all other nodes and keys", "anchors": ["cjktools/resources/tree.py:TreeNode.__setitem__", "cjktools/resources/tree.py:TreeNode.__getitem__", "cjktools/resources/tree.py:TreeNode.__delitem__", "cjktools/resources/tree.py:TreeNode.__contains__", "cjktools/resources/tree.py:TreeNode.__str__"]}
{"id": "C90", "title": "The zhuyin pattern lists the zhuyin syllables", "statement": "zhuyin_regex_pattern returns the alternation of the zhuyin column followed by an optional tone.", "quantifier": "every table", "why_tests_cant": "the code uses the pinyin column for every table", "anchors": ["cjktools/resources/zhuyin_table.py:zhuyin_regex_pattern"]}
{"id": "C91", "title": "The readers behave as dictionaries", "statement": "For every loaded sentence, links or index reader: iteration gives each key once, `in`, get, len, keys, items and values agree with __getitem__, no method raises, and two readers are == exactly when they answer every lookup alike (texts, sets of ids, words up to their displayed form).", "quantifier": "every reader that loads, every key", "why_tests_cant": "agreement over all keys and all pairs of readers", "anchors": ["cjktools/resources/tatoeba.py:TatoebaDict.__getitem__", "cjktools/resources/tatoeba.py:TatoebaDict.__iter__", "cjktools/resources/tatoeba.py:TatoebaDict.__len__", "cjktools/resources/tatoeba.py:TatoebaLinksReader.__getitem__"]}
{"id": "C92", "title": "Corpora survive being written to files and read back", "statement": "A tab-separated file written from sentences (3 or 6 columns), links or indices is read back by the matching reader: each id gives the text, details, group or words of its last row, and ids not written are unknown.", "quantifier": "every corpus of cells without tabs, line breaks, NUL or a leading quotation mark", "why_tests_cant": "composition of file lines, csv machine, int() and reader over all corpora", "anchors": ["cjktools/resources/tatoeba.py:TatoebaReader.load_file", "cjktools/resources/tatoeba.py:TatoebaSentenceReader.sentences", "cjktools/resources/tatoeba.py:TatoebaLinksReader.links", "cjktools/resources/tatoeba.py:TatoebaIndexReader.jpn_indices"]}
{"id": "C93", "title": "The model's regular expressions are those written in the source", "statement": "Every pattern text compiled in the package (dictionary formats, kanjidic segments, edict codes, Tanaka words, long vowels, and the generated pinyin patterns) has exactly one reading in Python's regular expression syntax, and that reading matches and captures, at the start of a text and in a scan, exactly what the expression used in the model matches and captures.", "quantifier": "all subject texts, all pinyin tables of plain syllables, all digit predicates", "why_tests_cant": "equality of two patterns on every subject text", "anchors": ["cjktools/resources/auto_format.py:known_formats", "cjktools/resources/tatoeba.py:TanakaWord.word_re", "cjktools/resources/kanjidic.py:Kanjidic._parse_line", "cjktools/resources/split_by_codes.py:_code_pattern", "cjktools/alternations.py:_long_finder", "cjktools/resources/pinyin_table.py:PinyinSegmenter.__init__", "cjktools/resources/zhuyin_table.py:pinyin_regex_pattern"]}
{"id": "C94", "title": "Matching finds the preferred match whenever there is a match", "statement": "For every pattern whose repeated parts cannot match nothing, as all patterns of the package are, match() succeeds exactly when the text matches by the declarative rules, and returns the first match in Python's order of preference (left branch first, longest repetition first, shortest for a lazy one).", "quantifier": "all patterns without empty repetition, all texts", "why_tests_cant": "completeness of backtracking over unbounded texts", "anchors": ["cjktools/resources/dict_format.py:RegexFormat.parse_line", "cjktools/resources/dict_format.py:RegexFormat.match_header", "cjktools/resources/tatoeba.py:TanakaWord.from_text", "cjktools/resources/pinyin_table.py:PinyinSegmenter.is_pinyin"]}
{"id": "C95", "title": "Scans find the leftmost matches one after the other", "statement": "The patterns used with findall and finditer never match the empty text, and a scan returns exactly the sequence of leftmost preferred matches, each starting at or after the end of the one before, with no match at any position skipped.", "quantifier": "all texts", "why_tests_cant": "absence of skipped matches over unbounded texts", "anchors": ["cjktools/resources/dict_format.py:RegexFormat.parse_line", "cjktools/resources/kanjidic.py:Kanjidic._parse_line", "cjktools/resources/split_by_codes.py:get_codes", "cjktools/resources/pinyin_table.py:PinyinSegmenter.segment_pinyin", "cjktools/alternations.py:expand_long_vowels"]}
{"id": "C96", "title": "Trees compare equal exactly when they have the same shape and contents", "statement": "For two trees whose nodes are filed under their labels, == terminates and is true exactly when labels, attributes and (by label, in any order) the subtrees are equal; this is an equivalence relation.", "quantifier": "all stores and all pairs of finite trees", "why_tests_cant": "structural comparison of unbounded trees, including unequal ones", "anchors": ["cjktools/resources/tree.py:TreeNode.__eq__"]}
{"id": "C97", "title": "memory_proxy is transparent for recursive methods", "statement": "When a deterministic method calls its own memory_proxy, every history of calls returns what the undecorated method returns, ends whenever the undecorated method ends and needs no deeper recursion; over the whole history, of two starts of the method on equal arguments the earlier raised an exception (so each value is computed once).", "quantifier": "all method bodies (as trees of calls), all call histories, all recursion depths", "why_tests_cant": "nested calls update the table while an outer call is running; unbounded recursion", "anchors": ["cjktools/smart_cache.py:memory_proxy"]}
{"id": "C98", "title": "A tree and its copy never influence each other", "statement": "After copy, every sequence of node operations (new nodes, setting and deleting attributes, add_child, del_child, unlink, further copies) on the copy leaves all older nodes exactly as they were, and every sequence on older nodes leaves the copy as it was; TreeDist.copy gives the same tree of labels and attributes on fresh nodes.", "quantifier": "all stores, all trees, all operation sequences, including operations that raise", "why_tests_cant": "aliasing between copies shows only under particular later mutations; the sequences are unbounded", "anchors": ["cjktools/resources/tree.py:TreeNode.copy", "cjktools/resources/tree.py:TreeDist.copy"]}
{"id": "C99", "title": "convert loads or falls back and writes only its output", "statement": "load_as_rst.convert returns the preamble, a line end and the converted text (or the file's own text when pypandoc is missing or fails and strict is off), writes exactly that plus a line end to the output file if one is given, changes no other file, and on failure leaves the files alone except that an unencodable text leaves an empty output.", "quantifier": "all file systems, all behaviours of pypandoc, all arguments", "why_tests_cant": "depends on an optional external converter and its failures", "anchors": ["scripts/load_as_rst.py:convert", "scripts/load_as_rst.py:load_text"]}
{"id": "C100", "title": "The dictionary formats accept exactly their grammars", "statement": "For each of the four known formats, parse_line reads a line as (word, reading, senses) exactly when the line belongs to the grammar of the format with that reading, and raises FormatError for every other line; a file loads exactly when all its lines belong to the grammar, and the entries are those of the lines.", "quantifier": "all lines, including malformed ones, all files, all four formats", "why_tests_cant": "the set of accepted lines is infinite and backtracking in the optional parts makes odd lines parse in unexpected ways", "anchors": ["cjktools/resources/dict_format.py:RegexFormat.parse_line", "cjktools/resources/auto_format.py:known_formats"]}
{"id": "C101", "title": "Corpus files are read exactly by their grammar", "statement": "For every source of lines, load_file yields exactly the rows given by a grammar of plain and quoted fields (quoted fields may run over lines, an open quote at the end of the source closes the last row, a blank line is an empty row), and fails exactly at a NUL, at a character after a line break, or at a field over the limit. Consequences: lines with line breaks only at their ends are accepted; cells not beginning with a quote are the tab-separated pieces; an unmatched opening quote takes the rest of the file; a blank line makes all three readers refuse the file.", "quantifier": "all lists of lines of any length, all endings of the source", "why_tests_cant": "quoting makes the meaning of a line depend on all earlier lines of the file", "anchors": ["cjktools/resources/tatoeba.py:TatoebaReader.load_file"]}
{"id": "C102", "title": "The fate of every kanjidic line", "statement": "For every text at all, reading it as a kanjidic line either raises exactly the error of its first defect - fewer than two segments, a code that is not hexadecimal, a segment that starts with neither ASCII nor kana (or a hyphen not followed by kana), no stroke count, no skip code, a skip code that is a plain number, a skip code with a part that is no number - or returns the one entry its segments describe; a set of dictionary files loads exactly when every line that is not a comment is of the second kind, so one blank line refuses the whole dictionary.", "quantifier": "every line and every list of files, for every digit database", "why_tests_cant": "tests read a handful of well-formed lines of the shipped dictionary; the claim covers every malformed line and names the error of each", "anchors": ["cjktools/resources/kanjidic.py:Kanjidic._parse_line", "cjktools/resources/kanjidic.py:Kanjidic._parse_kanjidic"]}
{"id": "C103", "title": "Line ends do not matter, and dumped trees are read back on every platform", "statement": "Every text has exactly one cut into lines and line ends, and opened files yield the lines of that cut. Two files with the same lines but different line ends (and with or without one at the end) give the same kanjidic, radical dictionary, pinyin and zhuyin tables and place trees; the same corpus rows if both have or both lack a final end. The pinyin table is cut at ten characters instead of two, and agrees with the others on texts without the remaining eight. A tree of storable places written to an ordinary file with any line separator is read back as the same tree, and no other file changes.", "quantifier": "all file contents, all names that are neither compressed nor '-', all trees of storable places, the separators \\n, \\r\\n and \\r", "why_tests_cant": "tests run on one platform with the shipped files; the claim is about every mixture of line ends in files of any length", "anchors": ["cjktools/common.py:sopen", "cjktools/resources/kanjidic.py:Kanjidic.__init__", "cjktools/resources/place.py:Place.dump", "cjktools/resources/place.py:Place.from_file", "cjktools/resources/pinyin_table.py", "cjktools/resources/zhuyin_table.py", "cjktools/resources/radkdict.py:RadkDict.__init__", "cjktools/resources/tatoeba.py:TatoebaReader.load_file"]}
{"id": "C104", "title": "Compressed resources behave like plain ones", "statement": "sopen offers to open .gz and .bz2 files transparently, so a kanjidic, a corpus file or a place tree stored in a compressed file should load exactly as from a plain file, and a place tree should be writable to one.", "quantifier": "all names ending in .gz or .bz2, all contents, all trees", "why_tests_cant": "tests only use plain files", "anchors": ["cjktools/common.py:sopen", "cjktools/resources/kanjidic.py:Kanjidic.__init__", "cjktools/resources/tatoeba.py:TatoebaReader.load_file", "cjktools/resources/place.py:Place.dump", "cjktools/resources/place.py:Place.from_file"]}
{"id": "C105", "title": "Reading or writing files leaves the standard streams usable", "statement": "A with block over sopen(name, mode) leaves every stream that was open before as its body leaves it, the standard input and output included, so that two resources can be read from or written to '-' one after the other.", "quantifier": "all names and modes, all bodies, all states of the open streams", "why_tests_cant": "tests never use '-', and the damage is done to the whole process", "anchors": ["cjktools/common.py:sopen", "cjktools/resources/place.py:Place.dump", "cjktools/resources/tatoeba.py:TatoebaReader.load_file"]}
{"id": "C106", "title": "Coded dictionaries from files, streams and lookups", "statement": "load_coded_dictionary gives the same dictionary for a file name as for a stream of the lines of that file, leaves exactly the streams open that were open before even when it raises, and never closes a stream it was given. All dictionary readers give the same result for two files with the same lines and different line ends. In any sequence of lookups in the returned dictionary, each lookup answers with exactly the words some line of which carries the code, with all their readings and senses, and no lookup changes the answer of another; the codes looked up become keys of the dictionary.", "quantifier": "all file contents, all lists of lines, all states of the open streams, all sequences of lookups", "why_tests_cant": "tests look up a few known codes once, on one platform", "anchors": ["cjktools/resources/split_by_codes.py:load_coded_dictionary", "cjktools/resources/auto_format.py:load_dictionary", "cjktools/resources/auto_format.py:iter_entries"]}
{"id": "C107", "title": "iter_coded_entries iterates over the entries of the named file", "statement": "As its docstring says, iter_coded_entries(filename) yields the entries of the dictionary file of that name with their codes.", "quantifier": "all file names, all dictionaries", "why_tests_cant": "the function is never called with a file name in the tests", "anchors": ["cjktools/resources/split_by_codes.py:iter_coded_entries"]}
{"id": "C108", "title": "Link groups follow the rows, bridging rows included", "statement": "For every links file: a row founds a group when neither of its sentences occurs in an earlier used row; any other row belongs to the group settled earlier for its source, or failing that for its translation; a sentence is settled by the last row in which it is the translation, or without one by the first row in which it occurs. groups() lists one group per founding row, in order, holding exactly the sentences of the rows that belong to it, and group(i) is the group of the row that settles i.", "quantifier": "all lists of rows, all filters, all sentence ids", "why_tests_cant": "which group a sentence ends in depends on the order and direction of all rows; tests contain no bridging rows", "anchors": ["cjktools/resources/tatoeba.py:TatoebaLinksReader.links", "cjktools/resources/tatoeba.py:TatoebaLinksReader.group", "cjktools/resources/tatoeba.py:TatoebaLinksReader.groups"]}
{"id": "C109", "title": "Concurrent callers of a disk-cached method get right values", "statement": "When any number of processes call the same disk-cached method at the same time, their reads and writes interleaved in any way and any of them killed at any point, every call that returns a value returns the method's value for its own arguments, and no call waits for another process.", "quantifier": "all numbers of processes, all arguments, all interleavings of their system calls, all crashes, all methods", "why_tests_cant": "a wrong value needs a particular interleaving of the system calls of two or three processes; tests run one process", "anchors": ["cjktools/smart_cache.py:disk_proxy_direct", "cjktools/smart_cache.py:try_cache", "cjktools/smart_cache.py:store_cache_object"]}
{"id": "C110", "title": "Words and tree nodes can be compared with any object and collected", "statement": "Comparing a TanakaWord or a TreeNode with an object of another class never raises: an object that is nothing like it is unequal, or decides by its own __eq__, in either order; != is always the negation of ==; words and nodes can be searched for in lists and used as members of sets, dictionary keys and arguments of memory_proxy. Searching a list for a node finds the node itself without comparing it, an equal node by ==, and fails at a comparison that fails and at a word.", "quantifier": "all words, all nodes, all objects of other classes with any attributes and any __eq__, both operand orders, all lists", "why_tests_cant": "tests compare words with one foreign class and nodes with none; the outcome depends on the attributes and methods of an arbitrary other class", "anchors": ["cjktools/resources/tatoeba.py:TanakaWord.__eq__", "cjktools/resources/tatoeba.py:TanakaWord.__ne__", "cjktools/resources/tree.py:TreeNode.__eq__", "cjktools/smart_cache.py:memory_proxy"]}
{"id": "C111", "title": "Threads may share a function decorated with memory_proxy", "statement": "When any number of threads call a memory_proxy'd method at the same time, interleaved in any way, every call ends with the outcome of an invocation of the method on an equal key (for a deterministic method: its own outcome), a call that starts after an equal one has returned does not invoke the method, no thread waits for another, and the method is invoked at most once per key.", "quantifier": "all numbers of threads, all keys, all interleavings, all methods", "why_tests_cant": "the outcome depends on the interleaving; tests use one thread", "anchors": ["cjktools/smart_cache.py:memory_proxy"]}
{"id": "C112", "title": "What callers do with values from memory_proxy does not reach other callers", "statement": "For every history of calls through memory_proxy and of changes which callers make to the objects they were given, every call returns an object with the contents the method builds for its arguments, and the method is invoked once for all spellings of the same arguments.", "quantifier": "every history of calls and changes, all methods, all keys", "why_tests_cant": "tests look at single calls with immutable values", "anchors": ["cjktools/smart_cache.py:memory_proxy"]}
{"id": "C113", "title": "Resource files hold UTF-8 and are read as such", "statement": "A resource file which holds the UTF-8 encoding of a text, with or without a byte order mark, is read as that text by every reader and in every locale; a file with malformed bytes is refused, and a reader never gives a resource of which part was not decoded. Trees are read back as they were dumped. A pinyin table that does not decode is a UnicodeError, or an IndexError if a line that was decoded before is blank.", "quantifier": "all byte sequences, texts, locales, buffer sizes and readers", "why_tests_cant": "tests run in one locale on a few well-formed files without a byte order mark", "anchors": ["cjktools/common.py:sopen", "cjktools/resources/kanjidic.py:Kanjidic.__init__", "cjktools/resources/radkdict.py:_default_stream", "cjktools/resources/zhuyin_table.py:_default_stream", "cjktools/resources/pinyin_table.py:PinyinTable.__init__", "cjktools/resources/kanji_list.py:get_list", "cjktools/resources/tatoeba.py:TatoebaReader.load_file", "cjktools/resources/place.py:Place.from_file", "cjktools/resources/place.py:Place.dump"]}
{"id": "C114", "title": "Tree nodes and the dictionaries they refer to", "statement": "A node's children and attributes are its own: a change to one node shows in no other, a child has one parent and knows it. This holds for every program that hands in no dictionary of its own. A dictionary handed to the constructor is kept when it is not empty and replaced otherwise, and a change to it shows in exactly the nodes that hold it. Copies, pruned copies and distributions share nothing, whatever the original shares.", "quantifier": "all worlds of nodes and dictionaries, all constructor arguments, all programs", "why_tests_cant": "aliasing shows only after later changes through another reference; tests never hand a dictionary to two nodes", "anchors": ["cjktools/resources/tree.py:TreeNode.__init__", "cjktools/resources/tree.py:TreeNode.add_child", "cjktools/resources/tree.py:TreeNode.del_child", "cjktools/resources/tree.py:TreeNode.unlink", "cjktools/resources/tree.py:TreeNode.copy", "cjktools/resources/tree.py:TreeNode.prune", "cjktools/resources/tree.py:TreeDist.__init__"]}
{"id": "C115", "title": "Programs that run while the data pack comes, goes and changes", "statement": "Each loader that takes no path reads the pack found at the moment of the call: it gives what its parser makes of the text stored there, and fails as the search or the opening of the file does. The segmenter and the table kept by the pinyin module are those of the first request that could be met, failed requests leave nothing behind, and what is kept survives every later change. All PinyinTable objects share one segmenter. While the pack stays as it was, a table's syllables and its characters come from that pack.", "quantifier": "all environments, directories, files and bytes, all histories of changes and calls", "why_tests_cant": "the test suite has one pack and never changes it while the program runs; a cache shows only over histories", "anchors": ["cjktools/resources/cjkdata.py:get_resource", "cjktools/resources/pinyin_table.py:get_pinyin_table", "cjktools/resources/pinyin_table.py:get_pinyin_segmenter", "cjktools/resources/pinyin_table.py:PinyinTable.__init__", "cjktools/resources/pinyin_table.py:PinyinSegmenter.__init__", "cjktools/resources/kanjidic.py:Kanjidic.get_cached", "cjktools/resources/radkdict.py:RadkDict.get_cached", "cjktools/resources/zhuyin_table.py:zhuyin_to_pinyin_table", "cjktools/resources/kanji_list.py:get_list"]}
{"id": "C116", "title": "Both supported Pythons read and write the same files", "statement": "On files in UTF-8 Python 2.7 and Python 3 give the same kanji dictionaries, radical dictionaries, zhuyin and pinyin tables, trees of places and rows of a corpus, and fail alike. A tree dumped by either is the same sequence of bytes, and both read it back as the same tree.", "quantifier": "all texts, file names, trees, line separators and buffer sizes", "why_tests_cant": "each Python runs the tests by itself, on a few small files without odd line breaks, long columns or quoted line ends; nothing compares the two", "anchors": ["cjktools/common.py:sopen", "cjktools/common.py:stream_codec", "cjktools/resources/kanjidic.py:Kanjidic.__init__", "cjktools/resources/radkdict.py:RadkDict", "cjktools/resources/zhuyin_table.py:parse_lines", "cjktools/resources/place.py:Place.dump", "cjktools/resources/place.py:Place.from_file", "cjktools/resources/tatoeba.py:TatoebaReader.load_file"]}
{"id": "C117", "title": "Queries answer with what the files say, from bytes to answers", "statement": "A kanji dictionary, radical file, zhuyin table, pinyin table or corpus written in UTF-8, its lines laid out in any legal way and ended in any of the usual ways, loads in both Pythons, and every query on the loaded object answers with what is written: the fields of the last entry of a kanji, the radicals under which a kanji stands and their stroke counts, the last reading of a syllable or character, the sentences, links and indices of the corpus. Nothing else is answered.", "quantifier": "all sequences of entries, comments, layouts, line ends and file names", "why_tests_cant": "tests look at a few entries of one fixed file; the chain of decoding, line cutting, parsing, merging and lookup is never checked for files in general", "anchors": ["cjktools/resources/kanjidic.py:Kanjidic.__init__", "cjktools/resources/kanjidic.py:KanjidicEntry", "cjktools/resources/radkdict.py:RadkDict", "cjktools/resources/zhuyin_table.py:parse_lines", "cjktools/resources/pinyin_table.py:PinyinTable.from_hanzi", "cjktools/resources/tatoeba.py:TatoebaSentenceReader", "cjktools/resources/tatoeba.py:TatoebaLinksReader", "cjktools/resources/tatoeba.py:TatoebaIndexReader", "cjktools/common.py:sopen"]}
{"id": "C118", "title": "Dictionary files are read alike in both Pythons and every locale", "statement": "A dictionary file opened by name, as the README and load_coded_dictionary do, loads to the dictionary its lines spell, in Python 2 and 3, whatever the locale, the line ends, a byte order mark or compression. This holds in Python 3 with a UTF-8 locale, and for ASCII files in Python 2. It fails otherwise: EDICT files are not recognised in other locales nor by Python 2's open, no word outside ASCII can be loaded there, carriage returns become senses, a byte order mark hides most headers, compressed files are refused in Python 3. In Python 2 a line of bytes that is an entry is a UnicodeError unless its word and reading are ASCII.", "quantifier": "all files, headers, entries, line ends, locales, heaps and file names", "why_tests_cant": "the tests pass decoded streams; no test opens a dictionary file by name, in any encoding, under either Python", "anchors": ["cjktools/resources/auto_format.py:load_dictionary", "cjktools/resources/auto_format.py:detect_format", "cjktools/resources/dict_format.py:RegexFormat.parse_line", "cjktools/resources/dict_format.py:RegexFormat.match_header", "cjktools/resources/split_by_codes.py:load_coded_dictionary", "cjktools/common.py:sopen"]}
{"id": "C119", "title": "get_cached on derived classes", "statement": "get_cached called on any class derived from Kanjidic, RadkDict or KanaTable, in any order and interleaving, always answers with one and the same instance of that class. For Kanjidic and RadkDict the object stays the same once answered, unless construction fails; the first answer is the object of the nearest class in the method resolution order that has one, or a new instance. The claim is false as a whole: a derived class answers with an object of its base when the base was asked first, and with two bases KanaTable's get_cached answers with different objects at different times.", "quantifier": "all class hierarchies with their method resolution orders, all histories of calls and of failing constructions", "why_tests_cant": "the tests call get_cached twice on the library's own classes; hierarchies, orders of calls and failures are unbounded", "anchors": ["cjktools/resources/radkdict.py:RadkDict.get_cached", "cjktools/resources/kanjidic.py:Kanjidic.get_cached", "cjktools/kana_table.py:KanaTable.get_cached"]}
{"id": "C120", "title": "Importing the package with its declared requirements", "statement": "With the requirements that setup.py declares for the running Python installed, every module of the package can be imported, in any order and after any earlier successful or failed imports, and then has all its names; and `from cjktools import *` and `from cjktools.resources import *` give the names of __all__. True of the modules before Python 3.10, and from 3.10 on of all but resources/tatoeba.py, which can then never be imported (collections.Mapping); false of both star imports in every Python, since __all__ lists enum, exceptions and format, which do not exist. The requirements are exactly what the Python lacks, and each is needed. Whatever was imported before, whatever is installed and however little stack there is, importing a module raises nothing but ImportError and RecursionError, and a star import AttributeError besides.", "quantifier": "all versions of Python (three numbers), all sequences of import requests for the package's modules, all sets of installed distributions", "why_tests_cant": "a test run has one interpreter, one set of installed distributions and one order of imports; circular or implicit relative imports only show in some orders", "anchors": ["setup.py:REQUIRES", "cjktools/__init__.py", "cjktools/resources/__init__.py", "cjktools/resources/tatoeba.py", "cjktools/common.py"]}
{"id": "C121", "title": "The command line of load_as_rst.py", "statement": "The script accepts exactly the command lines of a small grammar (one input anywhere, the output in any of its spellings and abbreviations, the last one counting, -- before or after a last input), each with one meaning; it then prints the input's text between two newlines, or writes just that to the output and prints nothing. Every other line exits with status 2, or 0 only if help is asked for, and touches no file. Every pair of names can be said, except, before Python 3.11.10, -- for the output, which becomes an empty list and ends in TypeError.", "quantifier": "all lists of arguments, all file systems, with and without pypandoc", "why_tests_cant": "there is no test of the script; argument lists and abbreviations are unbounded", "anchors": ["scripts/load_as_rst.py"]}
{"id": "C122", "title": "The frequencies a tree distribution prints", "statement": "TreeDist.layout shows each node with its cumulative count over the total as computed in IEEE doubles and written with four decimals: both counts are rounded to the nearest double, then their quotient, then its decimals, ties to even throughout; counts of 2^1024 - 2^970 and more have no float. The root always shows 1.0000, a larger count never shows less and none more than 1.0000. Up to 450359962737 the number shown is the nearest one with four decimals to the exact quotient; for larger counts it need not be.", "quantifier": "all trees, counting methods and counts", "why_tests_cant": "the errors of floating point appear only in some of the pairs of counts, of which there are unboundedly many; layout is only tested for plain labels", "anchors": ["cjktools/resources/tree.py:TreeDist.layout", "cjktools/resources/tree.py:TreeDist.__init__"]}
{"id": "C123", "title": "What the exceptions say", "statement": "When a place file, dictionary, kanjidic file, sentence or index row is refused with a message, the message is about the first faulty line, row or piece, everything before it being acceptable, and says which: the line number given for a strange depth is that of the line, a bad dictionary line is quoted, a piece of a sentence and its sentence can be read off the message. A dictionary is never refused without a message. A failed lookup names the number looked up. Messages are given for these faults and no others; a links file with two columns is nevertheless said to need two columns when one of them is no number, and the message about a radkfile does not say which line is meant.", "quantifier": "all files, lines, sentences, rows and numbers", "why_tests_cant": "the tests check at most the class of the exception; that the message points at the right line of an arbitrary file takes a proof about the whole parse", "anchors": ["cjktools/resources/place.py:Place.from_file", "cjktools/resources/place.py:Place._from_line", "cjktools/resources/dict_format.py:RegexFormat.parse_line", "cjktools/resources/auto_format.py:detect_format", "cjktools/resources/kanjidic.py:Kanjidic._parse_line", "cjktools/resources/radkdict.py:RadkDict._parse_radkfile", "cjktools/resources/tatoeba.py:TatoebaSentenceReader", "cjktools/resources/tatoeba.py:TatoebaLinksReader", "cjktools/resources/tatoeba.py:TatoebaIndexReader"]}
{"id": "C124", "title": "Threads sharing a cached object", "statement": "When several threads call Kanjidic.get_cached, RadkDict.get_cached, KanaTable.get_cached, get_pinyin_table or get_pinyin_segmenter, whatever the schedule, each call ends within four steps with an object that one of the constructors made, or with the failure of the constructor it called itself, never with a missing attribute; constructors that agree give answers that agree; once an object is stored and no call is under way, all further calls get that object. The lazy functions call no constructor once an object is stored and never go back to an object they had replaced. All threads getting one object is claimed too.", "quantifier": "all numbers of threads, schedules, constructors and shared states", "why_tests_cant": "the tests call the functions in one thread; the interleavings are unbounded in number", "anchors": ["cjktools/resources/kanjidic.py:Kanjidic.get_cached", "cjktools/resources/radkdict.py:RadkDict.get_cached", "cjktools/kana_table.py:KanaTable.get_cached", "cjktools/resources/pinyin_table.py:get_pinyin_table", "cjktools/resources/pinyin_table.py:get_pinyin_segmenter"]}
{"id": "C125", "title": "Changing a tree while walking over it", "statement": "A loop over TreeNode.walk_preorder, walk_postorder, walk_breadth_first, Place.walk or walk_with_path may change the tree in its body. Whatever the body does, a preorder or breadth-first walk visits the nodes of one finite tree in which below each node stands what was below it just after its visit. A body that leaves what is below later nodes does not disturb the walk (children first: nor do changes below ancestors); unlinking each node as it is visited visits the whole tree and leaves every node without parent and children; a body that only removes children visits a part of the tree and ends; one that leaves a child below every node it visits never ends. walk_with_path never finds a strange depth, and without relabelling gives the labels above each place. That every node visited is in the tree is claimed too.", "quantifier": "all stores, bodies, shuffles and steps", "why_tests_cant": "the tests never change a tree during a walk; the bodies and trees are unbounded in number", "anchors": ["cjktools/resources/place.py:Place.walk", "cjktools/resources/place.py:Place.walk_with_path", "cjktools/resources/tree.py:TreeNode.walk_preorder", "cjktools/resources/tree.py:TreeNode.walk_postorder", "cjktools/resources/tree.py:TreeNode.walk_breadth_first", "cjktools/resources/tree.py:TreeNode.unlink"]}
{"id": "C126", "title": "Disk-cached methods that call one another", "statement": "Methods behind disk_proxy may call one another. If each has its own cache file, the dependencies of each name every file that is read for its result, by itself or by a method it calls, and files are only rewritten with times later than the caches that depend on them, then whatever happened before - calls, crashes in the middle of a store, files written and removed, caches removed - a value returned equals the one the methods would return at that moment without any cache, and a call ends if the methods do. Where nothing but the methods can fail, every exception is theirs too. A value returned stays in the cache: as long as no dependency is newer than it, calls with equal arguments return an equal value without running a method. No file but the caches is changed. The same is claimed if a method only names the files it reads itself and the cache files of the methods it calls, and if methods share a cache file.", "quantifier": "all sets of methods and call graphs, recursion included, arguments, histories, times and crashes", "why_tests_cant": "the tests have one method that reads nothing; stale values show up only after particular sequences of calls and writes", "anchors": ["cjktools/smart_cache.py:disk_proxy_direct", "cjktools/smart_cache.py:disk_proxy", "cjktools/smart_cache.py:try_cache", "cjktools/smart_cache.py:store_cache_object", "cjktools/smart_cache.py:needs_update"]}
{"id": "C127", "title": "CACHE_DEBUG changes nothing but what is printed", "statement": "Without CACHE_DEBUG nothing is printed. With it every call has the same result and leaves the same files; the lines of a call that returns a value say truly whether it was found in the cache or computed and stored, the lines of the calls within in between, with one line for each store. The lines of any other call are the beginning of such lines.", "quantifier": "all sets of methods, histories and file names", "why_tests_cant": "the tests do not look at the output; nesting is unbounded", "anchors": ["cjktools/smart_cache.py:disk_proxy_direct"]}
{"id": "C128", "title": "What setup.py hands to setuptools", "statement": "When setup.py reaches setup(), the long description is a line end and the README's text, the requirements are those this Python lacks, the packages listed contain every module of the library and every module these import from it, and importing the version file gives the version just computed; it gets there whenever the README can be read and the version written. Whatever happens no other file changes, and a second run changes nothing. The version file always tells the version of the source it lies in.", "quantifier": "all versions, file contents, converters, Pythons, and outcomes of setuptools_scm", "why_tests_cant": "setup.py is not tested; it runs once per release", "anchors": ["setup.py", "scripts/load_as_rst.py:convert"]}
{"id": "C129", "title": "Kanjidic opens all its files, then closes them all", "statement": "Kanjidic(files) opens the files in order before it takes a line of any, takes the lines of each before those of the next, and closes them in the reverse order whatever fails: an open, a read or a line. If a file cannot be opened no line is taken and its error is raised; no files at all is a TypeError. Other streams are neither read nor closed, but for the standard input when '-' is named, and naming that twice is naming it once.", "quantifier": "all lists of names, all disks, all states of the open streams", "why_tests_cant": "tests never look at open files, nor make an open fail midway", "anchors": ["cjktools/resources/kanjidic.py:Kanjidic.__init__", "cjktools/common.py:sopen"]}
{"id": "C130", "title": "Corpus files are closed when the reader is done with them", "statement": "The rows load_file yields are its file's, however many generators run at once and in whatever order; a file is open exactly while its generator is in the middle of its rows, and streams of the caller are neither opened nor closed. When the links, the sentences or the indices reader returns or raises, the streams open are those open before.", "quantifier": "all files, all schedules of next() and close(), all rows", "why_tests_cant": "schedules are unbounded; tests never look at open files", "anchors": ["cjktools/resources/tatoeba.py:TatoebaReader.load_file", "cjktools/resources/tatoeba.py:TatoebaSentenceReader.sentences", "cjktools/resources/tatoeba.py:TatoebaLinksReader.links", "cjktools/resources/tatoeba.py:TatoebaIndexReader.jpn_indices"]}
{"id": "C131", "title": "Readers take a line at a time and close what they open", "statement": "Given a stream, RadkDict, the readers of the zhuyin table, load_dictionary and load_coded_dictionary read it down to the first line that cannot be accepted, or to its end, and no further: the lines after it are still there for the caller, whose streams stay open. Given a file, these, Place.from_file and the hanzi table open it once, read it as far, and close it whatever fails. Bytes are refused at their first line. What is returned or raised is what is made of the lines. The generator of iter_entries takes one line per entry, when the entry is asked for, so that lines and entries of a stream can be taken in turns, and none after a line it refused.", "quantifier": "all streams, including those that fail midway, all lines, all turns", "why_tests_cant": "tests read whole files that parse; no test looks at what is left in a stream or at open files", "anchors": ["cjktools/resources/radkdict.py:RadkDict.__init__", "cjktools/resources/zhuyin_table.py:parse_lines", "cjktools/resources/zhuyin_table.py:zhuyin_to_pinyin_table", "cjktools/resources/pinyin_table.py:PinyinTable.__init__", "cjktools/resources/auto_format.py:load_dictionary", "cjktools/resources/auto_format.py:iter_entries", "cjktools/resources/split_by_codes.py:load_coded_dictionary", "cjktools/resources/place.py:Place.from_file", "cjktools/common.py:get_stream_context"]}
{"id": "C132", "title": "Calls through the cache proxies can be interrupted", "statement": "An exception from outside, such as a KeyboardInterrupt, what a signal handler raises or a MemoryError, that strikes anywhere in a call through disk_proxy ends the call. It never makes a call return a wrong value: the cache file is left as it was or holds a beginning of a store of the right value, so that after any history of struck calls, crashes and changes of the dependencies a call that returns is right, and one that nothing strikes in fails only as the method, the dependencies or the store fail. A call that returns leaves no stream open, one that raises at most one, closed once the exception is dropped. In calls through memory_proxy answers are the method's whatever strikes.", "quantifier": "all points of strike in all calls, all exceptions, all histories, all methods and arguments", "why_tests_cant": "tests do not interrupt calls; the points of strike over a history are unbounded", "anchors": ["cjktools/smart_cache.py:disk_proxy_direct", "cjktools/smart_cache.py:try_cache", "cjktools/smart_cache.py:store_cache_object", "cjktools/smart_cache.py:memory_proxy"]}
{"id": "C133", "title": "A dump of places cut short is not mistaken for a tree", "statement": "Place.dump that fails midway, at a line the encoding cannot write, struck by an exception or out of disk, leaves a beginning of its text in the file. from_file refuses such a file, wherever it is cut, unless nothing is missing.", "quantifier": "all trees of storable places, all points of failure, all lengths of what is left", "why_tests_cant": "no test makes a dump fail or reads a file cut short; trees and cuts are unbounded", "anchors": ["cjktools/resources/place.py:Place.dump", "cjktools/resources/place.py:Place.from_file", "cjktools/resources/place.py:Place._from_line"]}
{"id": "C134", "title": "What prune asks its predicate, and what it makes of the answers", "statement": "prune never changes the tree it is called on. It asks the predicate about exactly the nodes none of whose descendants satisfies it, children before parents and last children first, and once more about the root if nothing is left below it; it ends with the first exception the predicate raises; otherwise its result is a new, linked tree of the nodes that satisfy the predicate and those above them, or None. The predicate may look at a node and at those above it, keep a state of its own, and raise.", "quantifier": "all trees, all predicates of a node and its ancestors with any state and any exceptions", "why_tests_cant": "predicates and trees are unbounded; the tests call prune with one predicate on one tree", "anchors": ["cjktools/resources/tree.py:TreeNode.prune", "cjktools/resources/tree.py:TreeNode.walk_postorder", "cjktools/resources/tree.py:TreeNode.unlink", "cjktools/resources/tree.py:TreeNode.get_ancestors"]}
{"id": "C135", "title": "What TreeDist asks its count method, and what it makes of the answers", "statement": "TreeDist(root, count_method) works on a new, linked tree and leaves the given one as it was. It calls the count method once about every node, children before parents and last children first, when the counts of everything below the node are there and nothing above it is counted yet; it ends with the first exception the method raises, or with ZeroDivisionError. Otherwise every node keeps the answer in 'count', the answer with those of its children in 'cum_count', and its share of the root's 'cum_count' in 'freq'. A method that adds up the counts of the children leaves in every node's count the sum over its subtree.", "quantifier": "all trees, all count methods of a node, what is below and what is above it, with any state and any exceptions", "why_tests_cant": "count methods and trees are unbounded; the order of the calls shows only in methods with a state or with side effects", "anchors": ["cjktools/resources/tree.py:TreeDist.__init__", "cjktools/resources/tree.py:TreeNode.walk_postorder", "cjktools/resources/tree.py:TreeNode.copy"]}
{"id": "C136", "title": "Corpus readers that are reloaded while in use", "statement": "While other threads reload a corpus reader, and after reloads that were interrupted anywhere, every question about sentences, languages, ids, the list of groups, words or links is answered as by a reader loaded with one file alone: the one before or one of the new ones. A question asked once a reload has returned is answered from its file, and a reload that runs undisturbed puts right whatever interrupted ones have left. If the languages are changed meanwhile, every text and language told is that of a row in a language wanted at some time. Answers to two questions may come from different files; group() itself may look a sentence up in one file and its group in another and so return a group without the sentence; details() and a reload may raise a TypeError.", "quantifier": "all readers, files, numbers of concurrent calls and interleavings, all points of interruption", "why_tests_cant": "the interleavings are unbounded and cannot be forced from a test; the wrong groups show only between two assignments", "anchors": ["cjktools/resources/tatoeba.py:TatoebaSentenceReader.sentences", "cjktools/resources/tatoeba.py:TatoebaSentenceReader.details", "cjktools/resources/tatoeba.py:TatoebaSentenceReader.language", "cjktools/resources/tatoeba.py:TatoebaLinksReader.links", "cjktools/resources/tatoeba.py:TatoebaLinksReader.__getitem__", "cjktools/resources/tatoeba.py:TatoebaIndexReader.jpn_indices"]}
{"id": "C137", "title": "Equal dictionaries that list their entries in different orders", "statement": "Reordering the entries of the dictionaries involved changes no result beyond the order of its entries: is_injective, invert_injective_mapping and chain_mapping give equal results or the same exception, map_dict with a stateless method equal results or an exception in both cases, invert_mapping and multi_dict the same lists up to order, merge_dicts the same sets also for reordered arguments. Walks of equal trees visit equal nodes, find_node finds a node at the same depth or none in both, and copies, pruned trees and TreeDist results are equal again, as == confirms. language(i) is the same if i is listed under one language only. Refuted: inverses of equal maps need not be equal, map_dict may raise another exception and leave other changes, find_node may return different nodes of equal trees, and an id listed twice gets a language that depends on the order.", "quantifier": "all dictionaries, trees of any shape and size, shuffles, methods, predicates and counts that do not look at the order", "why_tests_cant": "a test sees the one order of its interpreter; Python 2 changes it between versions and platforms", "anchors": ["cjktools/maps.py:chain_mapping", "cjktools/maps.py:invert_mapping", "cjktools/maps.py:is_injective", "cjktools/maps.py:invert_injective_mapping", "cjktools/maps.py:map_dict", "cjktools/maps.py:multi_dict", "cjktools/maps.py:merge_dicts", "cjktools/resources/tree.py:TreeNode.find_node", "cjktools/resources/tree.py:TreeNode.walk_preorder", "cjktools/resources/tree.py:TreeNode.prune", "cjktools/resources/tree.py:TreeDist.__init__", "cjktools/resources/tatoeba.py:TatoebaSentenceReader.language"]}
{"id": "C138", "title": "Methods that change the list or dictionary they are mapped over", "statement": "A method that appends to the list that procmap, partial_map or filtered_map goes through is called once for each item of the final list, in order, up to the first exception; the loops end if the list stays within a bound. A method that changes values of the dictionary map_dict goes through, and keeps its keys, is called once for each key, in order, with the value the key has by then. Whatever it does, map_dict calls it at most once per entry there was and, if it returns, the dictionary has as many entries as before; a call that leaves more or fewer ends in a RuntimeError with the changes made so far. Methods that leave the container alone give what C19 and C22 say. Refuted: procmap(l.remove, l) passes over every other item; a method that always appends never ends; a key replaced by another is passed over without notice; an entry taken out and put back makes map_dict fail after all calls.", "quantifier": "all lists, dictionaries with any gaps in their tables, methods with any state that do anything to the container", "why_tests_cant": "what iterators of changed containers do depends on every change made; tests use methods that change nothing", "anchors": ["cjktools/maps.py:map_dict", "cjktools/maps.py:procmap", "cjktools/maps.py:partial_map", "cjktools/maps.py:filtered_map"]}
{"id": "C139", "title": "What the remaining exceptions say", "statement": "Each remaining raise of the library is reached exactly when stated, with its text: Place.find_node of a text names it exactly when no place of the tree has that label; TreeNode.find_node raises the label exactly when no node has it; a place is made exactly of a text without spaces, and anything else given as a label is shown; sopen refuses exactly the modes with both r and w, before looking at the encoding and without opening anything; needs_update names the type of the first unknown dependency exactly when the target exists and everything before that dependency is older; kana segments are refused exactly when they do not begin with kana; a tree node is refused for copying and pruning exactly below a node with children; the data pack is asked for exactly when CJKDATA is unset and none of the default directories exists, by get_resource, get_lists and get_list too. walk_with_path never finds a strange depth, in any store. Refuted: find_node says KeyError for every label that is not there (a tuple becomes the arguments of the format: TypeError, or the name of its element); an unknown dependency is always refused.", "quantifier": "all trees, stores, shuffles, labels of any kind, modes, file systems, dependencies, segments and environments", "why_tests_cant": "the exact condition of a message is a statement about all inputs that do and do not raise it", "anchors": ["cjktools/common.py:sopen", "cjktools/smart_cache.py:needs_update", "cjktools/alternations.py:canonical_segment_forms", "cjktools/resources/place.py:Place.find_node", "cjktools/resources/place.py:Place.walk_with_path", "cjktools/resources/tree.py:TreeNode.copy", "cjktools/resources/cjkdata.py:find_path"]}
{"id": "C140", "title": "Numbers of more digits than int() takes", "statement": "Since Python 3.11, and 3.7.14, 3.8.14 and 3.9.14 of the older ones, int() of a text and str() of a number refuse more digits than a limit (4300 unless changed, 0 for none). With any limit, a radical file, a tree of places, a file of sentences, links or indices and a word of the corpus are each read as before, or refused: with ValueError (links: InvalidFileError), and exactly when a stroke count, a depth, an id of a row that is looked at or a sense has more digits than the limit, zeros in front included. A kanjidic whose lines have no more digits is read as before; any other is refused, or has the same kanji, fields and order, with numbers of too many digits as texts. A word can be written exactly when its sense is below the power of ten of the limit; what is written can be read back, and what was read can be written. Refuted: a kanjidic with a number of too many digits is refused (the number silently becomes a text).", "quantifier": "all limits, digit tables, files, rows, filters, languages and words", "why_tests_cant": "which numbers are looked at depends on everything read before them, and tests use small numbers", "anchors": ["cjktools/resources/kanjidic.py:Kanjidic._parse_line", "cjktools/resources/radkdict.py:RadkDict._parse_radkfile", "cjktools/resources/tatoeba.py:TatoebaSentenceReader", "cjktools/resources/tatoeba.py:TatoebaLinksReader", "cjktools/resources/tatoeba.py:TatoebaIndexReader", "cjktools/resources/tatoeba.py:TanakaWord.from_text"]}
{"id": "C141", "title": "Corpus files read with settings for the csv module", "statement": "load_file passes keyword arguments on to csv.reader. Without any, files are read as in C69 and C101. Those given apply, else those of the dialect given, else the defaults, except that the delimiter is a tab unless given itself; settings that make no sense are a TypeError before anything is read. Rows written under settings that can tell them apart - plain, with special characters behind the escape character, or in quotation marks, doubled or escaped, with line breaks inside and spaces in front where these are skipped - are read back from the text of the file. Without quotation marks and escapes each line is split at its delimiters and a blank line is an empty row; with quoting=csv.QUOTE_NONE the corpus files are read back whatever their fields begin with. strict=True only cuts the rows short with a csv.Error: a quotation left open, which else takes the rest of the file as its field, and text after a closing quotation mark are such errors. And QUOTE_ALL reads as QUOTE_MINIMAL. Refuted: rows are read in the dialect given (its delimiter is ignored).", "quantifier": "all keyword arguments, dialects, rows, fields and texts", "why_tests_cant": "the tests pass no settings at all, and the combinations are without bound", "anchors": ["cjktools/resources/tatoeba.py:TatoebaReader.load_file"]}
{"id": "C142", "title": "Tree distributions over counts too large for floats", "statement": "TreeDist is built, with the counts of C62 and the original left alone, when the total is not zero and every node's cumulative count is below 2^1024 - 2^970 in size. Otherwise it is not: a total of zero is a ZeroDivisionError even if a deeper count has no float, and a count without a float is an OverflowError wherever in the tree it is, also where the total is small. Counts that are not negative and fit all together never overflow, and a frequency is 0.0 only for a count of 0, however large the total.", "quantifier": "all trees, counting methods and counts", "why_tests_cant": "the limit is a number of 309 digits, and a tree that fails can hide the count at any depth; the tests only count children", "anchors": ["cjktools/resources/tree.py:TreeDist.__init__"]}
{"id": "C143", "title": "Syllables that mean something as regular expressions", "statement": "Syllables of the zhuyin table that are patterns one by one (C93's syntax, no repetition of something that may be empty) make a segmenter, unless a group name occurs twice, which is an re.error. If none of them has a group, segment_pinyin goes from left to right, takes at each place the first syllable that can be matched, the longest text first and in the order of the file among texts of one length, in the way which it prefers, with the following digit 0-5 as tone, and never fails; places where a syllable matches nothing, and # where none matches, give an empty syllable. If one of them has a group, named or not, every text in which anything is found is a ValueError and all others give nothing. is_pinyin tells whether one of them matches at the start, or #. For plain syllables this is C64 and C67. The syllable taken is the one that matches most, and the order of the rows does not matter.", "quantifier": "all tables of such syllables and all texts", "why_tests_cant": "the tests use one table of plain syllables", "anchors": ["cjktools/resources/pinyin_table.py:PinyinSegmenter.__init__", "cjktools/resources/pinyin_table.py:PinyinSegmenter.segment_pinyin", "cjktools/resources/pinyin_table.py:PinyinSegmenter.is_pinyin", "cjktools/resources/zhuyin_table.py:pinyin_regex_pattern"]}
{"id": "C144", "title": "What a drawing or a comparison has done when it fails", "statement": "TreeNode.layout prints the drawing of the tree up to the first node, parents before children, whose method raises, or up to and with the first node as many levels down as calls fit on the stack, and raises that error or RecursionError; what it printed is always the beginning of the drawing, all of it if it returns. TreeNode.__eq__ raises nothing but RecursionError; any answer it gives is the right one, and it gives one if either tree has no more levels than calls fit on the stack. A tree is found equal to itself with one call. Equal trees with no node in common need as many calls as they have levels. So a tree, which can be copied whatever its depth, can be compared with its copy exactly up to that depth, and whatever the limit there is one that cannot.", "quantifier": "all trees, methods of drawing, stack limits and heaps", "why_tests_cant": "the tests draw and compare trees of two or three levels, and no drawing fails", "anchors": ["cjktools/resources/tree.py:TreeNode.layout", "cjktools/resources/tree.py:TreeNode._layout_children", "cjktools/resources/tree.py:TreeNode.__eq__", "cjktools/resources/tree.py:TreeNode.copy"]}
{"id": "C145", "title": "Conversion with syllables that mean something as regular expressions", "statement": "With syllables as in C143 and no groups among them, PinyinTable.from_ascii writes each syllable found in the twice normalized text with the mark of its tone, unless an empty syllable is found, which is an IndexError; strip_tones joins the syllables and never fails. If one of them has a group both are a ValueError on every text in which anything is found and give nothing on all others. from_hanzi converts character by character by the first reading of its row, or by the character itself without a row, the first failure ending it and a row without readings being an IndexError. For plain syllables these are the conversions of C65, C66 and C68. Every syllable of the table can be converted.", "quantifier": "all tables of such syllables, tables of characters, texts and options", "why_tests_cant": "the tests use one table of plain syllables and a few readings", "anchors": ["cjktools/resources/pinyin_table.py:PinyinTable.from_ascii", "cjktools/resources/pinyin_table.py:PinyinTable.strip_tones", "cjktools/resources/pinyin_table.py:PinyinTable.from_hanzi", "cjktools/resources/pinyin_table.py:PinyinTable._apply_tone"]}
{"id": "C146", "title": "What == says of the package's dictionaries", "statement": "Places, which are dictionaries, are == exactly when the same labels in a row lead to a place from both; an answer within the stack limit is the right one, nothing but RecursionError is raised, and trees with no more levels than the limit are compared; a place is equal to itself. Dictionaries are == exactly when all lookups answer alike, and so are a reader and a dictionary, on either side; a reader whose items cannot be read makes the comparison fail, and of two the left one's failure is raised; objects that are no mappings decide by their own __eq__ and are unequal otherwise. Dictionaries of entries (Kanjidic, BilingualDictionary) are == exactly when they hold the same objects, so two that were loaded one after the other only if both are empty. Equal places have the same label, reading and aliases; a Kanjidic loaded again is equal to the first; equal RadkDicts count the same strokes, and the order of the radicals does not matter.", "quantifier": "all stores of places and stack limits, all dictionaries, readers and other objects", "why_tests_cant": "the tests compare no places and no whole dictionaries", "anchors": ["cjktools/resources/place.py:Place", "cjktools/resources/kanjidic.py:Kanjidic", "cjktools/resources/radkdict.py:RadkDict", "cjktools/resources/bilingual_dict.py:BilingualDictionary", "cjktools/resources/tatoeba.py:TatoebaDict"]}
{"id": "C147", "title": "A map that is saved and loaded again compared with the first", "statement": "For a map of places that the file format can hold, dump and from_file give another object that is == to the first, on either side, if all its levels fit on the stack; otherwise both comparisons raise RecursionError. Places with the same labels below them are == whatever their own details are. == tells whether a map was saved completely.", "quantifier": "all stores, trees of places, stack limits and repr functions", "why_tests_cant": "trees of any size and depth, and every stack limit", "anchors": ["cjktools/resources/place.py:Place", "cjktools/resources/place.py:Place.dump", "cjktools/resources/place.py:Place.from_file"]}
