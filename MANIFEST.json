{
 "claims": [
  {
   "property": "C01",
   "status": "proved",
   "theorems": [
    "C01_to_katakana_pointwise",
    "C01_to_hiragana_pointwise",
    "C01_conversion_idempotent",
    "C01_round_trip",
    "C01_concatenation",
    "C01_mappings_are_constructed"
   ],
   "note": ""
  },
  {
   "property": "C02",
   "status": "proved",
   "theorems": [
    "C02_script_type_exact",
    "C02_bands_disjoint",
    "C02_order_irrelevant"
   ],
   "note": ""
  },
  {
   "property": "C03",
   "status": "proved",
   "theorems": [
    "C03_lossless_maximal",
    "C03_unique",
    "C03_empty"
   ],
   "note": ""
  },
  {
   "property": "C04",
   "status": "partial",
   "theorems": [
    "C04_normalize_ascii_refuted",
    "C04_normalize_ascii_partial",
    "C04_only_deviation",
    "C04_idempotent",
    "C04_length"
   ],
   "note": "REFUTED as stated (finding): U+FF5F is inside the FullAscii band, so normalize_ascii turns it into DEL U+007F. Proved: the pointwise claim for every string without U+FF5F, that this is the only deviation, idempotence and length for every string."
  },
  {
   "property": "C05",
   "status": "proved",
   "theorems": [
    "C05_normalize_kana_total_pointwise",
    "C05_normalize_kana_idempotent",
    "C05_normalize_normal_form",
    "C05_normalize_is_both"
   ],
   "note": ""
  },
  {
   "property": "C06",
   "status": "proved",
   "theorems": [
    "C06_three_way",
    "C06_antisymmetric",
    "C06_transitive",
    "C06_zero_iff_same_hiragana",
    "C06_script_independent",
    "C06_pure_kana_hiragana_order"
   ],
   "note": ""
  },
  {
   "property": "C07",
   "status": "proved",
   "theorems": [
    "C07_contains_script",
    "C07_script_types",
    "C07_unique_kanji",
    "C07_get_script"
   ],
   "note": ""
  },
  {
   "property": "C08",
   "status": "proved",
   "theorems": [
    "C08_get_coords_exact",
    "C08_get_coords_key_error",
    "C08_from_coords_exact",
    "C08_from_get",
    "C08_get_from",
    "C08_to_consonant_line",
    "C08_to_vowel_line"
   ],
   "note": ""
  },
  {
   "property": "C09",
   "status": "proved",
   "theorems": [
    "C09_single_character",
    "C09_base_and_mark",
    "C09_other_lengths",
    "C09_semivoiced_is_voiced"
   ],
   "note": ""
  },
  {
   "property": "C10",
   "status": "proved",
   "theorems": [
    "C10_voicing_maps",
    "C10_construction_succeeds",
    "C10_to_voiced",
    "C10_from_voiced",
    "C10_unique_source",
    "C10_commutes_with_script_conversion"
   ],
   "note": ""
  },
  {
   "property": "C11",
   "status": "partial",
   "theorems": [
    "C11_segment_candidates_partial",
    "C11_vu_refuted",
    "C11_not_kana",
    "C11_same_length"
   ],
   "note": "REFUTED for segments starting with U+3094/U+30F4 (vu) that have a left context: is_voiced holds but from_voiced has no entry, so a KeyError is raised. Proved for every other kana segment: the result is exactly the set of candidates, without duplicates. Stated for any Unicode database with the kana decompositions (premise ucd_ok, met by kana_ucd)."
  },
  {
   "property": "C12",
   "status": "proved",
   "theorems": [
    "C12_product_of_candidates",
    "C12_fails_only_if_a_segment_fails",
    "C12_kana_segments"
   ],
   "note": ""
  },
  {
   "property": "C13",
   "status": "partial",
   "theorems": [
    "C13_surface_forms",
    "C13_recovery_partial",
    "C13_recovery_refuted"
   ],
   "note": "surface_forms is fully characterised. The recovery claim is REFUTED (['がく'] gives 'がっ' which canonical_forms does not restore); proved: exact condition (iff) under which canonical_forms restores the reading."
  },
  {
   "property": "C14",
   "status": "partial",
   "theorems": [
    "C14_expands_partial",
    "C14_total_length_idempotent",
    "C14_leading_mark_refuted"
   ],
   "note": "REFUTED for strings that start with the iteration mark (loc > 0 stops the loop, later marks stay). Proved for every other string; totality, length and idempotence for all strings."
  },
  {
   "property": "C15",
   "status": "partial",
   "theorems": [
    "C15_expands_partial",
    "C15_fails_exactly",
    "C15_never_fails_refuted"
   ],
   "note": "REFUTED as 'never fails': TypeError exactly when a mark follows a kana without vowel line (small kana, ya/yu/yo, n). Proved: exact failure condition, exact result otherwise."
  },
  {
   "property": "C16",
   "status": "proved",
   "theorems": [
    "C16_chain_mapping_composes",
    "C16_chain_mapping_no_arguments"
   ],
   "note": ""
  },
  {
   "property": "C17",
   "status": "proved",
   "theorems": [
    "C17_invert_mapping_multiplicity",
    "C17_invert_mapping_keys",
    "C17_invert_mapping_order",
    "C17_invert_twice"
   ],
   "note": ""
  },
  {
   "property": "C18",
   "status": "proved",
   "theorems": [
    "C18_is_injective",
    "C18_invert_injective_total",
    "C18_invert_injective_inverts"
   ],
   "note": ""
  },
  {
   "property": "C19",
   "status": "proved",
   "theorems": [
    "C19_map_dict_in_place",
    "C19_map_dict_copy",
    "C19_put_changes_one_object"
   ],
   "note": ""
  },
  {
   "property": "C20",
   "status": "proved",
   "theorems": [
    "C20_multi_dict",
    "C20_firsts_is_the_set_of_keys"
   ],
   "note": ""
  },
  {
   "property": "C21",
   "status": "proved",
   "theorems": [
    "C21_merge_dicts"
   ],
   "note": ""
  },
  {
   "property": "C22",
   "status": "proved",
   "theorems": [
    "C22_procmap",
    "C22_partial_map",
    "C22_partial_map_lengths",
    "C22_filtered_map",
    "C22_filtered_first"
   ],
   "note": ""
  },
  {
   "property": "C23",
   "status": "proved",
   "theorems": [
    "C23_memory_proxy_call",
    "C23_transparent",
    "C23_at_most_once"
   ],
   "note": ""
  },
  {
   "property": "C24",
   "status": "proved",
   "theorems": [
    "C24_missing_target",
    "C24_needs_update",
    "C24_verdict_unique",
    "C24_newer_iff"
   ],
   "note": ""
  },
  {
   "property": "C25",
   "status": "proved",
   "theorems": [
    "C25_store_then_try"
   ],
   "note": ""
  },
  {
   "property": "C26",
   "status": "partial",
   "theorems": [
    "C26_never_stale_partial",
    "C26_failures",
    "C26_same_tick_refuted",
    "C26_race_refuted"
   ],
   "note": "REFUTED as stated (findings): a dependency written in the same clock tick as the store, or written by another process while the method runs, leaves a stale value that is served later (mtime test is strict). Proved: for all histories (calls, crashes, writes, removals) in which dependency writes get a later mtime than the earlier calls, every returned value is the method's value for the current contents; plus the exact list of failure causes. pickle, == and compression enter as the premise pickle_ok, met by a concrete instance."
  },
  {
   "property": "C27",
   "status": "proved",
   "theorems": [
    "C27_torn_cache_file",
    "C27_call_after_crash",
    "C27_standard_streams"
   ],
   "note": "For every prefix length and every pickle/compression satisfying pickle_ok (prefix-freeness of pickle is a premise)."
  },
  {
   "property": "C28",
   "status": "partial",
   "theorems": [
    "C28_no_recomputation_partial",
    "C28_none_refuted"
   ],
   "note": "REFUTED for methods returning None: None is indistinguishable from a cache miss, so the method runs again on every call. Proved for every other result."
  },
  {
   "property": "C29",
   "status": "proved",
   "theorems": [
    "C29_filter_comments",
    "C29_unique"
   ],
   "note": ""
  },
  {
   "property": "C30",
   "status": "proved",
   "theorems": [
    "C30_conflicting_mode",
    "C30_one_stream",
    "C30_choice_is_unique",
    "C30_unknown_codec"
   ],
   "note": ""
  },
  {
   "property": "C31",
   "status": "proved",
   "theorems": [
    "C31_codec",
    "C31_caller_stream_untouched",
    "C31_default_stream_closed",
    "C31_default_fails"
   ],
   "note": ""
  },
  {
   "property": "C32",
   "status": "proved",
   "theorems": [
    "C32_update",
    "C32_rejected",
    "C32_any_sequence",
    "C32_constructed",
    "C32_invalid_refused"
   ],
   "note": ""
  },
  {
   "property": "C33",
   "status": "proved",
   "theorems": [
    "C33_groups",
    "C33_merged_groups",
    "C33_no_readings"
   ],
   "note": ""
  },
  {
   "property": "C34",
   "status": "proved",
   "theorems": [
    "C34_overwrite",
    "C34_merge_refused"
   ],
   "note": ""
  },
  {
   "property": "C35",
   "status": "proved",
   "theorems": [
    "C35_edict_roundtrip"
   ],
   "note": ""
  },
  {
   "property": "C36",
   "status": "proved",
   "theorems": [
    "C36_jc_kdic_roundtrip"
   ],
   "note": ""
  },
  {
   "property": "C37",
   "status": "partial",
   "theorems": [
    "C37_cj_kdic_roundtrip_partial",
    "C37_six_refuted"
   ],
   "note": "REFUTED as stated (finding): the digit class of the cj_kdic sense pattern (auto_format.py:68) lacks the full-width six, so a numbering containing it stays in the sense text. Proved: the round trip for every numbering without that digit, and the exact result when the digit occurs."
  },
  {
   "property": "C38",
   "status": "proved",
   "theorems": [
    "C38_cedict_roundtrip"
   ],
   "note": ""
  },
  {
   "property": "C39",
   "status": "proved",
   "theorems": [
    "C39_header_exact",
    "C39_disjoint",
    "C39_any_order"
   ],
   "note": ""
  },
  {
   "property": "C40",
   "status": "proved",
   "theorems": [
    "C40_load",
    "C40_first_error",
    "C40_only_format_error",
    "C40_bad_header",
    "C40_empty",
    "C40_iter"
   ],
   "note": ""
  },
  {
   "property": "C41",
   "status": "proved",
   "theorems": [
    "C41_get_codes",
    "C41_no_duplicates"
   ],
   "note": ""
  },
  {
   "property": "C42",
   "status": "proved",
   "theorems": [
    "C42_load_coded",
    "C42_iter_coded",
    "C42_empty"
   ],
   "note": ""
  },
  {
   "property": "C43",
   "status": "proved",
   "theorems": [
    "C43_segments",
    "C43_fields",
    "C43_values_function",
    "C43_bad_code",
    "C43_no_stroke_count",
    "C43_bad_skip_code"
   ],
   "note": ""
  },
  {
   "property": "C44",
   "status": "proved",
   "theorems": [
    "C44_all_readings",
    "C44_two_dots"
   ],
   "note": ""
  },
  {
   "property": "C45",
   "status": "proved",
   "theorems": [
    "C45_last_entry_wins",
    "C45_kanji_is_first_segment",
    "C45_first_bad_line",
    "C45_no_files"
   ],
   "note": ""
  },
  {
   "property": "C46",
   "status": "partial",
   "theorems": [
    "C46_hasattr_builds_once",
    "C46_getattr_same_object_partial",
    "C46_getattr_builds_once_refuted",
    "C46_getattr_fails_when_cached"
   ],
   "note": "REFUTED for Kanjidic and RadkDict (finding): the default of getattr is evaluated on every call, so n calls construct (parse) n objects; a cached class also raises once its files are unreadable. Proved: every call returns the object of the first call; KanaTable and the pinyin tables construct exactly once."
  },
  {
   "property": "C47",
   "status": "partial",
   "theorems": [
    "C47_inverts",
    "C47_membership",
    "C47_comments",
    "C47_space_partial",
    "C47_space_refuted"
   ],
   "note": "Proved for every file that loads, except white space before '#' and '$': such a line is read as kanji (C47_space_refuted). Trailing white space anywhere and white space around kanji lines do not matter."
  },
  {
   "property": "C48",
   "status": "proved",
   "theorems": [
    "C48_loads",
    "C48_fails"
   ],
   "note": ""
  },
  {
   "property": "C49",
   "status": "partial",
   "theorems": [
    "C49_roundtrip_partial",
    "C49_aliases_refuted",
    "C49_accepts",
    "C49_refuses"
   ],
   "note": "Proved for trees of places without aliases whose labels and readings are non-empty, contain no white space and whose readings are not the text 'None'. Aliases are written as a Python list and never come back (C49_aliases_refuted). C49_accepts characterises the files that load."
  },
  {
   "property": "C50",
   "status": "proved",
   "theorems": [
    "C50_walk",
    "C50_once"
   ],
   "note": ""
  },
  {
   "property": "C51",
   "status": "proved",
   "theorems": [
    "C51_walk_with_path",
    "C51_find_all"
   ],
   "note": ""
  },
  {
   "property": "C52",
   "status": "proved",
   "theorems": [
    "C52_find_node"
   ],
   "note": ""
  },
  {
   "property": "C53",
   "status": "partial",
   "theorems": [
    "C53_line_partial",
    "C53_aliases_refuted",
    "C53_details_refuted",
    "C53_allowed",
    "C53_not_allowed",
    "C53_read"
   ],
   "note": "Proved for places without aliases, with non-empty label and reading free of white space, reading other than 'None'. Otherwise false: C53_aliases_refuted, C53_details_refuted."
  },
  {
   "property": "C54",
   "status": "proved",
   "theorems": [
    "C54_preorder",
    "C54_postorder",
    "C54_breadth_first",
    "C54_nodes"
   ],
   "note": ""
  },
  {
   "property": "C55",
   "status": "proved",
   "theorems": [
    "C55_consistent",
    "C55_filed_by_label",
    "C55_unlink"
   ],
   "note": ""
  },
  {
   "property": "C56",
   "status": "partial",
   "theorems": [
    "C56_removed_partial",
    "C56_parent_refuted",
    "C56_not_a_child"
   ],
   "note": "The child leaves the children dictionary, but its parent field keeps pointing at the old parent: del_child writes attrib['parent'] = None instead of parent = None. Refuted for every built store."
  },
  {
   "property": "C57",
   "status": "proved",
   "theorems": [
    "C57_copy",
    "C57_equal",
    "C57_not_a_root"
   ],
   "note": "Premise keyed: the tree's nodes are filed under their own labels (true of every tree built with add_child); a copy takes its label from the dictionary key."
  },
  {
   "property": "C58",
   "status": "proved",
   "theorems": [
    "C58_prune",
    "C58_kept"
   ],
   "note": "For every predicate of a node's label, attributes and children; predicates that look at the parent are not covered."
  },
  {
   "property": "C59",
   "status": "proved",
   "theorems": [
    "C59_find_node"
   ],
   "note": ""
  },
  {
   "property": "C60",
   "status": "partial",
   "theorems": [
    "C60_same",
    "C60_path",
    "C60_get_path",
    "C60_labels",
    "C60_KeyError",
    "C60_text_partial",
    "C60_text_root_refuted"
   ],
   "note": "List paths: proved. Text paths: proved for non-empty paths of labels without '/', the first not empty; the text path of the root itself ('') looks up a child labelled '' instead (refuted)."
  },
  {
   "property": "C61",
   "status": "partial",
   "theorems": [
    "C61_build_index_refuted"
   ],
   "note": "Refuted for every tree: the loop unpacks each node into (path, node), which fails through __getitem__(0) with KeyError (or ValueError when the attributes happen to have keys 0, 1, 2)."
  },
  {
   "property": "C62",
   "status": "partial",
   "theorems": [
    "C62_counts_partial",
    "C62_cumulative_refuted"
   ],
   "note": "cum_count adds only the direct children's own counts; it is the subtree total exactly when the counts two or more levels down sum to zero. What is computed is proved for every tree; a zero total raises ZeroDivisionError (e.g. TreeDist of a single node with the default len)."
  },
  {
   "property": "C63",
   "status": "proved",
   "theorems": [
    "C63_to_pinyin",
    "C63_to_zhuyin",
    "C63_all_pinyin",
    "C63_bad_columns",
    "C63_rows_total"
   ],
   "note": ""
  },
  {
   "property": "C64",
   "status": "partial",
   "theorems": [
    "C64_leftmost_longest_partial",
    "C64_total",
    "C64_no_hash",
    "C64_hash_refuted",
    "C64_order_irrelevant",
    "C64_pattern_text"
   ],
   "note": "The segmentation is proved equal to the leftmost-longest one for every table and string, and independent of the order of the table; but a '#' in the text is reported as an empty syllable instead of being skipped (C64_hash_refuted). Syllables with regular-expression special characters are in C143."
  },
  {
   "property": "C65",
   "status": "proved",
   "theorems": [
    "C65_round_trip",
    "C65_strip_tones"
   ],
   "note": "'r' is reported, and written by strip_tones, as 'er'."
  },
  {
   "property": "C66",
   "status": "partial",
   "theorems": [
    "C66_from_ascii_partial",
    "C66_apply_tone",
    "C66_tones_distinct_partial",
    "C66_mark_refuted",
    "C66_text"
   ],
   "note": "The first letter of a syllable is never marked, so a1..a4, e1.. and er2 all lose their tone (C66_mark_refuted). Exact description of the output for every syllable and tone; marks and distinctness proved when a vowel follows the first letter."
  },
  {
   "property": "C67",
   "status": "partial",
   "theorems": [
    "C67_prefix",
    "C67_accepts_partial",
    "C67_exactly_refuted"
   ],
   "note": "is_pinyin only looks for one syllable or '#' at the start (C67_prefix), so it accepts 'ma1!' (C67_exactly_refuted). Every nonempty pinyin text is accepted."
  },
  {
   "property": "C68",
   "status": "partial",
   "theorems": [
    "C68_numeric_partial",
    "C68_inline_partial",
    "C68_toneless_partial",
    "C68_other_text_refuted",
    "C68_hash_refuted",
    "C68_table",
    "C68_blank_row"
   ],
   "note": "Proved as stated for inline=False, use_tones=True. In the other modes characters not in the table go through the segmenter, which drops them (C68_other_text_refuted) or fails on '#' (C68_hash_refuted); exact output proved."
  },
  {
   "property": "C69",
   "status": "partial",
   "theorems": [
    "C69_rows_partial",
    "C69_cells",
    "C69_quotes_refuted"
   ],
   "note": "Proved for non-empty rows whose cells do not begin with a double quote, contain no NUL and have at most 131072 characters (C69_rows_partial); C69_cells gives the rows for lines that may also contain quoted cells. A cell beginning with a double quote is unquoted and swallows tabs and line ends up to the closing quote, so rows are merged (C69_quotes_refuted)."
  },
  {
   "property": "C70",
   "status": "proved",
   "theorems": [
    "C70_reads",
    "C70_holds",
    "C70_cases",
    "C70_details",
    "C70_columns",
    "C70_empty"
   ],
   "note": "Rows, source outcome, filter_row and strptime are arbitrary. C70_reads says exactly which sources load; C70_holds, C70_details say what the reader answers for every id."
  },
  {
   "property": "C71",
   "status": "proved",
   "theorems": [
    "C71_unique",
    "C71_unknown",
    "C71_first"
   ],
   "note": "C71_first gives the exact answer when ids repeat across languages: the first language (by first appearance) that has the id."
  },
  {
   "property": "C72",
   "status": "partial",
   "theorems": [
    "C72_sentences_partial",
    "C72_links_partial",
    "C72_indices_partial",
    "C72_success",
    "C72_source_refuted"
   ],
   "note": "Refuted as stated: the setters assign the source attribute (and so repr) before reading. Proved for all failing sources: everything else (lookups, ids, filters, groups) is unchanged."
  },
  {
   "property": "C73",
   "status": "proved",
   "theorems": [
    "C73_groups",
    "C73_reads",
    "C73_bad_row"
   ],
   "note": "Accepted links are those of well-formed rows kept by the filter."
  },
  {
   "property": "C74",
   "status": "partial",
   "theorems": [
    "C74_bridge_refuted",
    "C74_component_partial",
    "C74_partition_partial"
   ],
   "note": "Refuted: a row linking two existing groups does not merge them and leaves an id in two groups. Partial: without such a bridging row, groups are the connected components; groups() is a partition exactly when no row bridges."
  },
  {
   "property": "C75",
   "status": "proved",
   "theorems": [
    "C75_unknown_filter",
    "C75_all",
    "C75_filtered",
    "C75_keeps"
   ],
   "note": "The pair's first component says whether the source was read."
  },
  {
   "property": "C76",
   "status": "partial",
   "theorems": [
    "C76_round_trip_partial",
    "C76_sense_zero_refuted",
    "C76_reread",
    "C76_grammar",
    "C76_reject"
   ],
   "note": "Proved for non-empty headwords without delimiters, non-empty readings and displays without their closing bracket, and senses of at least 1. A sense 0 can be read but is not written back (C76_sense_zero_refuted); C76_reread shows it is the only exception among words that can be read. C76_grammar and C76_reject give the exact language of word_re."
  },
  {
   "property": "C77",
   "status": "proved",
   "theorems": [
    "C77_equivalence",
    "C77_exact",
    "C77_display",
    "C77_ne"
   ],
   "note": "Comparison with objects of other classes (NotImplemented) is in C110."
  },
  {
   "property": "C78",
   "status": "proved",
   "theorems": [
    "C78_round_trip",
    "C78_pieces",
    "C78_words",
    "C78_reject",
    "C78_total"
   ],
   "note": ""
  },
  {
   "property": "C79",
   "status": "proved",
   "theorems": [
    "C79_filled",
    "C79_idempotent",
    "C79_no_dictionary",
    "C79_kept",
    "C79_chosen",
    "C79_each",
    "C79_error"
   ],
   "note": "Also proved: exactly which reading is chosen, and that the only failure is IndexError. Sense 0 picks the last reading (C79_zero)."
  },
  {
   "property": "C80",
   "status": "proved",
   "theorems": [
    "C80_reads",
    "C80_holds",
    "C80_keys"
   ],
   "note": "unicode_digits is the standing hypothesis on int() and \\d. __getitem__ of an unknown id raises KeyError."
  },
  {
   "property": "C81",
   "status": "proved",
   "theorems": [
    "C81_variable",
    "C81_default",
    "C81_first_default",
    "C81_resource",
    "C81_absolute"
   ],
   "note": ""
  },
  {
   "property": "C82",
   "status": "proved",
   "theorems": [
    "C82_one_char",
    "C82_two_char",
    "C82_codes"
   ],
   "note": ""
  },
  {
   "property": "C83",
   "status": "proved",
   "theorems": [
    "C83_get_list",
    "C83_fails",
    "C83_get_lists"
   ],
   "note": "The script classifier and the file system are parameters."
  },
  {
   "property": "C84",
   "status": "proved",
   "theorems": [
    "C84_drawing",
    "C84_too_deep",
    "C84_lines",
    "C84_readable",
    "C84_labels",
    "C84_frequencies",
    "C84_no_frequency"
   ],
   "note": "Output is the list of printed lines; the recursion limit is a parameter counted in layout calls."
  },
  {
   "property": "C85",
   "status": "partial",
   "theorems": [
    "C85_combine_refuted",
    "C85_arguments",
    "C85_union_refuted",
    "C85_errors",
    "C85_combine_objects_refuted",
    "C85_combine_missing",
    "C85_combine_given"
   ],
   "note": "combine/union/diff raise on every input, so the property is false of the code. combine also over objects with arbitrary attributes and classes, with and without python -O, and whatever the part after line 320 does (C85_combine_objects_refuted): lines 322-356 are never reached, for a text has no copy. Which error, case by case: C85_combine_missing, C85_combine_given, C85_errors."
  },
  {
   "property": "C86",
   "status": "proved",
   "theorems": [
    "C86_place",
    "C86_entry",
    "C86_place_text",
    "C86_entry_text"
   ],
   "note": "An empty reading prints like no reading, hence shown_reading."
  },
  {
   "property": "C87",
   "status": "partial",
   "theorems": [
    "C87_hash_objects_refuted",
    "C87_no_name",
    "C87_named",
    "C87_hash_refuted"
   ],
   "note": "__hash__ reads the attribute name, which entries lack and which their slots do not let anyone set (C87_no_name); even a subclass that has one fails, as hash takes one argument and is given three (C87_named). For any object: C87_hash_objects_refuted. So the property is false of the code."
  },
  {
   "property": "C88",
   "status": "proved",
   "theorems": [
    "C88_lines",
    "C88_no_file"
   ],
   "note": "A radical of None (text before the first $ line) makes sorting or joining raise TypeError."
  },
  {
   "property": "C89",
   "status": "proved",
   "theorems": [
    "C89_set",
    "C89_contains",
    "C89_delete",
    "C89_shown"
   ],
   "note": ""
  },
  {
   "property": "C90",
   "status": "partial",
   "theorems": [
    "C90_column_partial",
    "C90_zhuyin_refuted"
   ],
   "note": "The code uses the pinyin column: exact pattern proved, zhuyin claim refuted."
  },
  {
   "property": "C91",
   "status": "proved",
   "theorems": [
    "C91_sentences",
    "C91_links",
    "C91_indices",
    "C91_methods",
    "C91_other_errors",
    "C91_equal",
    "C91_values",
    "C91_repr",
    "C91_shown",
    "C91_source"
   ],
   "note": "The methods are those of collections.Mapping over __getitem__, __iter__ and __len__; mixed comparison with dicts is in C146."
  },
  {
   "property": "C92",
   "status": "proved",
   "theorems": [
    "C92_sentences",
    "C92_detailed",
    "C92_links",
    "C92_indices"
   ],
   "note": "Cells must be short enough for the csv module (131072 characters); dates need strptime to invert the format."
  },
  {
   "property": "C93",
   "status": "proved",
   "theorems": [
    "C93_syntax",
    "C93_dictionaries",
    "C93_segments",
    "C93_codes",
    "C93_words",
    "C93_long_vowels",
    "C93_pinyin"
   ],
   "note": "Pinyin tables whose syllables contain special characters are in C143. The syntax read is the part of Python's that the package uses; the reader is proved to invert writing a tree down."
  },
  {
   "property": "C94",
   "status": "proved",
   "theorems": [
    "C94_match",
    "C94_preferred",
    "C94_text",
    "C94_patterns"
   ],
   "note": "About the matching engine of the model; that Python's engine follows the same rules is part of the trusted base."
  },
  {
   "property": "C95",
   "status": "proved",
   "theorems": [
    "C95_scan",
    "C95_patterns",
    "C95_nonempty"
   ],
   "note": "About the matching engine of the model, see C94."
  },
  {
   "property": "C96",
   "status": "proved",
   "theorems": [
    "C96_equal",
    "C96_equivalence"
   ],
   "note": "== of attribute values is a parameter. Trees deeper than Python's limit are in C144, comparison with objects of other classes in C110."
  },
  {
   "property": "C97",
   "status": "proved",
   "theorems": [
    "C97_values",
    "C97_terminates",
    "C97_depth",
    "C97_once",
    "C97_flat"
   ],
   "note": "Methods are deterministic functions of their arguments and of the outcomes of their inner calls. Arguments that are == must lead to the same outcome (and for the once-only claim to the same recursion depth; an example shows this is needed). RecursionError is not modelled."
  },
  {
   "property": "C98",
   "status": "proved",
   "theorems": [
    "C98_original_kept",
    "C98_copy_kept",
    "C98_frame",
    "C98_dist_copy",
    "C98_dist_copy_not_a_root"
   ],
   "note": "Each node owns its two dictionaries. prune and TreeDist() work on a copy; what they leave alone is in C58 and C62."
  },
  {
   "property": "C99",
   "status": "proved",
   "theorems": [
    "C99_text",
    "C99_writes",
    "C99_failure",
    "C99_strict",
    "C99_input",
    "C99_directory",
    "C99_unreadable"
   ],
   "note": "pypandoc, opening for writing and encodability are parameters; warnings and the command line are not modelled."
  },
  {
   "property": "C100",
   "status": "proved",
   "theorems": [
    "C100_exact",
    "C100_rejects",
    "C100_file",
    "C100_empty_sense"
   ],
   "note": "The grammar is written with appends and exclusions, without the regex engine. C100_empty_sense: an empty cj_kdic sense leaves the n of its separator in the next sense."
  },
  {
   "property": "C101",
   "status": "proved",
   "theorems": [
    "C101_exact",
    "C101_unique",
    "C101_accepts",
    "C101_plain",
    "C101_swallows",
    "C101_blank"
   ],
   "note": "Equivalence with an inductive grammar over the characters and line ends of the source, for every source. The csv machine itself (CPython's _csv.c) is transcribed and part of the trusted base."
  },
  {
   "property": "C102",
   "status": "proved",
   "theorems": [
    "C102_refused",
    "C102_accepted",
    "C102_unique",
    "C102_files",
    "C102_blank_line"
   ],
   "note": "Arbitrary lines, by segments (C43_segments gives the segments of any text). Entries compared attribute by attribute. py_int with the digit values of the Unicode database as a parameter."
  },
  {
   "property": "C103",
   "status": "proved",
   "theorems": [
    "C103_text",
    "C103_codec",
    "C103_kanjidic",
    "C103_readers",
    "C103_corpus",
    "C103_table",
    "C103_table_text",
    "C103_place",
    "C103_missing",
    "C103_stdout"
   ],
   "note": "Contents are decoded texts. The csv reader sees whether the last line has an end, hence the stronger premise there. Line separators as str.splitlines and universal newlines define them."
  },
  {
   "property": "C104",
   "status": "partial",
   "theorems": [
    "C104_kanjidic_refuted",
    "C104_corpus_refuted",
    "C104_place_refuted",
    "C104_place_words_refuted",
    "C104_empty_partial",
    "C104_dump_refuted",
    "C104_ordinary_partial",
    "C104_standard_input",
    "C104_kanjidic_partial"
   ],
   "note": "Refuted on Python 3: BZ2File and GzipFile are binary, so every nonempty compressed kanjidic raises TypeError, every nonempty corpus file csv.Error, every place file fails, and dump raises TypeError after emptying the file. Proved: all other names are read as texts."
  },
  {
   "property": "C105",
   "status": "partial",
   "theorems": [
    "C105_closed_refuted",
    "C105_others_partial"
   ],
   "note": "Refuted: on '-' the with block closes sys.stdin or sys.stdout, and the next use raises ValueError. Proved for every other name."
  },
  {
   "property": "C106",
   "status": "proved",
   "theorems": [
    "C106_path",
    "C106_missing",
    "C106_stream",
    "C106_line_ends",
    "C106_lookups"
   ],
   "note": "The lookup of an unknown code adds an empty dictionary under it (defaultdict), so membership tests and lengths change after lookups; the answers do not."
  },
  {
   "property": "C107",
   "status": "partial",
   "theorems": [
    "C107_names_refuted",
    "C107_lines_partial"
   ],
   "note": "Refuted for every name: the characters of the name are taken for lines, so the generator always raises UnknownFormatError (RuntimeError for the empty name). Proved for the lines of a file."
  },
  {
   "property": "C108",
   "status": "proved",
   "theorems": [
    "C108_rows",
    "C108_settled",
    "C108_founders",
    "C108_groups",
    "C108_group"
   ],
   "note": "Completes C74, whose claim (groups are the connected components) holds only without bridging rows."
  },
  {
   "property": "C109",
   "status": "partial",
   "theorems": [
    "C109_small_caches_partial",
    "C109_one_record_partial",
    "C109_no_waiting",
    "C109_alone",
    "C109_mixed_refuted",
    "C109_hole_refuted"
   ],
   "note": "Proved when every record fits in one stream buffer, and for records of any size when all calls produce the same record and no process writes after another one has opened the file; no call ever waits. Refuted otherwise: a reader half way through the file gets the value of another call, and two writers of the same value can leave a hole that stays in the cache. Plain files, fixed dependencies."
  },
  {
   "property": "C110",
   "status": "partial",
   "theorems": [
    "C110_ne",
    "C110_word_other",
    "C110_word_alike",
    "C110_decided",
    "C110_word_in",
    "C110_node_other_refuted",
    "C110_node_word_refuted",
    "C110_node_in",
    "C110_hash_refuted"
   ],
   "note": "Holds for comparisons of words, and != is always the negation of ==. Refuted for nodes, whose comparison with None, a text or a word raises AttributeError in either order, and for hashing: both classes define __eq__ without __hash__."
  },
  {
   "property": "C111",
   "status": "partial",
   "theorems": [
    "C111_transparent",
    "C111_outcomes",
    "C111_later_calls",
    "C111_no_waiting",
    "C111_alone",
    "C111_once_refuted"
   ],
   "note": "All but the last clause is proved. Refuted: two calls that overlap both invoke the method, and with a method whose value changes the second store replaces the value that was already handed out."
  },
  {
   "property": "C112",
   "status": "partial",
   "theorems": [
    "C112_one_object_per_key",
    "C112_unchanged_partial",
    "C112_change_refuted",
    "C112_keyword_order_refuted"
   ],
   "note": "Refuted for every method and key: all callers share one object per key, so a change made by one is what the next gets; and the same keyword arguments in another order are another key. Proved instead: exactly which changes a call finds, and the claim when nobody changes anything."
  },
  {
   "property": "C113",
   "status": "partial",
   "theorems": [
    "C113_utf8",
    "C113_utf8_malformed",
    "C113_text_partial",
    "C113_kanjidic_partial",
    "C113_table",
    "C113_list",
    "C113_list_refused",
    "C113_loads",
    "C113_malformed",
    "C113_table_malformed",
    "C113_table_error",
    "C113_standard_input",
    "C113_empty",
    "C113_dump",
    "C113_locale_refuted",
    "C113_given",
    "C113_ascii",
    "C113_narrow",
    "C113_bom_refuted"
   ],
   "note": "On Python 3 sopen drops its encoding argument and the builtin open uses the locale: proved for UTF-8 locales, and refuted for every eight-bit locale (no kanji or zhuyin can be looked up, whatever the file). Refuted with a byte order mark, which becomes a spurious key or an error in every reader but kanji_list.get_list. Malformed bytes always raise, in any locale and buffering; the decoder is proved to be UTF-8 exactly."
  },
  {
   "property": "C114",
   "status": "partial",
   "theorems": [
    "C114_program",
    "C114_new",
    "C114_keeps",
    "C114_assigned_later",
    "C114_assigned",
    "C114_assigned_attrib",
    "C114_add_child",
    "C114_setitem",
    "C114_copy",
    "C114_prune",
    "C114_dist",
    "C114_unique_parent_refuted",
    "C114_given_children_refuted"
   ],
   "note": "Refuted for dictionaries handed to the constructor: two nodes given the same non-empty one both get every child added to either while the child names one parent, and children given that way do not learn their parent, so unlink leaves them in place. The exact behaviour is proved for all worlds; copy, prune and TreeDist are right even then. C114_program justifies that Tree_model.v keeps dictionaries inside nodes."
  },
  {
   "property": "C115",
   "status": "partial",
   "theorems": [
    "C115_texts",
    "C115_missing",
    "C115_world",
    "C115_kept",
    "C115_first",
    "C115_tables",
    "C115_one_pack_partial",
    "C115_get_cached",
    "C115_one_pack_refuted"
   ],
   "note": "Missing: that segmenter and characters of a PinyinTable belong to the same pack. The segmenter is a global of the module, so a table made after CJKDATA has been pointed elsewhere joins the new characters to the old syllables; C115_one_pack_refuted shows one that loses a character. It holds as long as the environment and the files stay as they are (C115_one_pack_partial)."
  },
  {
   "property": "C116",
   "status": "partial",
   "theorems": [
    "C116_kanjidic_partial",
    "C116_tables_partial",
    "C116_place_partial",
    "C116_corpus_partial",
    "C116_corpus_back_partial",
    "C116_corpus_malformed",
    "C116_dump",
    "C116_stdout",
    "C116_encoder",
    "C116_compressed_refuted",
    "C116_breaks_refuted",
    "C116_quoted_refuted",
    "C116_limit_refuted"
   ],
   "note": "Missing: files with line breaks other than CR and LF (only Python 2 ends lines there, C116_breaks_refuted), compressed files (only Python 2 reads them, C116_compressed_refuted), corpora with a line end inside a quoted column or a carriage return alone (C116_quoted_refuted), columns longer than 131072 bytes and at most as many characters (C116_limit_refuted), locales other than UTF-8 in Python 3, malformed bytes. Dumping holds for all names but the standard output's."
  },
  {
   "property": "C117",
   "status": "proved",
   "theorems": [
    "C117_files",
    "C117_kanjidic",
    "C117_radicals",
    "C117_zhuyin",
    "C117_hanzi",
    "C117_sentences",
    "C117_links",
    "C117_indices"
   ],
   "note": "C117_files: any lines of scalar values without line breaks can be written so. Link groups are the connected components when no row bridges two groups (C74, C108)."
  },
  {
   "property": "C118",
   "status": "partial",
   "theorems": [
    "C118_python3_partial",
    "C118_lookups",
    "C118_loads",
    "C118_coded_loads",
    "C118_missing",
    "C118_locale_refuted",
    "C118_python2_decoded_partial",
    "C118_compressed_refuted",
    "C118_empty",
    "C118_edict_python2_refuted",
    "C118_foreign_python2_refuted",
    "C118_line_python2",
    "C118_words_python2",
    "C118_ascii_python2",
    "C118_crlf_python2_refuted",
    "C118_bom_refuted"
   ],
   "note": "Proved for Python 3 with UTF-8 (C118_python3_partial, C118_lookups) and any locale that decodes the file (C118_loads); for Python 2 when the stream is decoded and lines end in line feeds, or all is ASCII. The claim as a whole is false: C118_locale_refuted, C118_edict_python2_refuted, C118_foreign_python2_refuted, C118_crlf_python2_refuted, C118_bom_refuted, C118_compressed_refuted."
  },
  {
   "property": "C119",
   "status": "partial",
   "theorems": [
    "C119_same_object_partial",
    "C119_kana_same_object_partial",
    "C119_two_bases_refuted",
    "C119_first_answer",
    "C119_instance_refuted",
    "C119_class_partial",
    "C119_identity",
    "C119_one_table"
   ],
   "note": "Proved: the answers are exactly those of C119_first_answer and then stay (C119_same_object_partial; C119_kana_same_object_partial for single inheritance); the class of the answer is the class or a base (C119_class_partial). The claim that it is an instance of the class is false (C119_instance_refuted), and so is the stability of KanaTable with two bases (C119_two_bases_refuted). Metaclasses and programs that set _cached themselves are not modelled."
  },
  {
   "property": "C120",
   "status": "partial",
   "theorems": [
    "C120_imports_partial",
    "C120_imports_new_partial",
    "C120_tatoeba_refuted",
    "C120_star_refuted",
    "C120_absent",
    "C120_unknown",
    "C120_requirements",
    "C120_needed",
    "C120_errors"
   ],
   "note": "Proved: C120_imports_partial (before 3.10) and C120_imports_new_partial (all but one module), C120_requirements, C120_needed. False: tatoeba.py from Python 3.10 on (C120_tatoeba_refuted) and importing everything from either package (C120_star_refuted). Top-level statements other than imports are taken to succeed; modules from outside the package are there with the listed names or not at all; that the files parse is assumed."
  },
  {
   "property": "C121",
   "status": "proved",
   "theorems": [
    "C121_line",
    "C121_one_meaning",
    "C121_any_names",
    "C121_exit",
    "C121_run",
    "C121_nothing"
   ],
   "note": "argparse as in Python 3.10, and as in 3.11.10 where it differs (a parameter); usage and error messages are not modelled."
  },
  {
   "property": "C122",
   "status": "proved",
   "theorems": [
    "C122_shown",
    "C122_overflow",
    "C122_values",
    "C122_reading",
    "C122_nearest",
    "C122_rounded_twice",
    "C122_root",
    "C122_order",
    "C122_layout"
   ],
   "note": "Doubles are modelled exactly, as rationals: rounding to nearest with ties to even, gradual underflow, overflow of float(int). The counts are those of C62, children's own counts only."
  },
  {
   "property": "C123",
   "status": "partial",
   "theorems": [
    "C123_same",
    "C123_place",
    "C123_place_line",
    "C123_dictionary",
    "C123_dictionary_explained",
    "C123_kanjidic",
    "C123_sentence",
    "C123_sentence_named",
    "C123_indices",
    "C123_lookups",
    "C123_lookups_said",
    "C123_arguments_said",
    "C123_sentences",
    "C123_links_refuted",
    "C123_radkfile"
   ],
   "note": "Refuted for links files: the message speaks of columns when a number is wrong. repr of a header and str.lower are parameters. The messages of find_node, of MissingCJKDataError and of non-string labels are in C139."
  },
  {
   "property": "C124",
   "status": "partial",
   "theorems": [
    "C124_answers",
    "C124_calls",
    "C124_same_contents",
    "C124_settled",
    "C124_settled_state",
    "C124_late_calls",
    "C124_no_return",
    "C124_no_waiting",
    "C124_alone",
    "C124_one_object_refuted",
    "C124_comes_back_refuted"
   ],
   "note": "One object for all threads is refuted: two calls at the same time get different objects, and with Kanjidic and RadkDict the object returned can alternate between calls that do not overlap. Constructors run in one step; attribute access is atomic; one class without cached bases."
  },
  {
   "property": "C125",
   "status": "partial",
   "theorems": [
    "C125_preorder_visits",
    "C125_preorder_current",
    "C125_preorder_past",
    "C125_unlink_all",
    "C125_preorder_removals",
    "C125_preorder_endless",
    "C125_postorder_past",
    "C125_postorder_removals",
    "C125_breadth_visits",
    "C125_breadth_removals",
    "C125_breadth_endless",
    "C125_in_the_tree_refuted",
    "C125_place_visits",
    "C125_place_removals",
    "C125_place_endless",
    "C125_place_paths",
    "C125_place_depths"
   ],
   "note": "A node taken out of the tree before its turn is visited all the same, so the last claim is refuted. Other threads changing the tree are not modelled."
  },
  {
   "property": "C126",
   "status": "partial",
   "theorems": [
    "C126_right",
    "C126_exceptions",
    "C126_ends",
    "C126_one_result",
    "C126_files",
    "C126_kept",
    "C126_direct_refuted",
    "C126_removed_refuted",
    "C126_shared_file_refuted"
   ],
   "note": "With direct dependencies only, a changed file is not noticed until the inner method is called again: the outer cache is served outdated (C126_direct_refuted), and if the inner cache is removed the call fails (C126_removed_refuted). Two methods with one cache file get one another's values for equal arguments (C126_shared_file_refuted). Methods are programs that read files and call cached methods, and do not catch exceptions."
  },
  {
   "property": "C127",
   "status": "partial",
   "theorems": [
    "C127_quiet",
    "C127_same",
    "C127_lines",
    "C127_begun",
    "C127_basename",
    "C127_unprintable_refuted"
   ],
   "note": "A file name that cannot be printed makes the call raise, even on a hit (C127_unprintable_refuted)."
  },
  {
   "property": "C128",
   "status": "partial",
   "theorems": [
    "C128_arguments",
    "C128_gets_there",
    "C128_files",
    "C128_version",
    "C128_version_any",
    "C128_version_quotes_refuted",
    "C128_again",
    "C128_stale_refuted",
    "C128_scm_error",
    "C128_unencodable",
    "C128_unwritable",
    "C128_no_readme",
    "C128_packages"
   ],
   "note": "Without setuptools_scm the version file of an earlier run stays (C128_stale_refuted); a version with a double quote would be read back differently (C128_version_quotes_refuted), which setuptools_scm does not make. What setuptools does with the arguments is not modelled."
  },
  {
   "property": "C129",
   "status": "proved",
   "theorems": [
    "C129_closed",
    "C129_events",
    "C129_result",
    "C129_others",
    "C129_stdin",
    "C129_stdin_twice"
   ],
   "note": ""
  },
  {
   "property": "C130",
   "status": "partial",
   "theorems": [
    "C130_generators",
    "C130_buffers",
    "C130_buffers_shared",
    "C130_buffers_closed",
    "C130_links",
    "C130_sentences_partial",
    "C130_indices_partial",
    "C130_sentences_refuted",
    "C130_indices_refuted"
   ],
   "note": "REFUTED for the sentences and the indices readers: when a row is refused, the generator is a local variable of the frame in the traceback, so the file stays open for as long as the exception is kept (C130_sentences_refuted, C130_indices_refuted). Proved for the links reader, and for these two whenever no row is refused; the generators themselves are proved for every schedule, and over one buffer they share its rows; a closed buffer is refused. CPython's reference counting is assumed."
  },
  {
   "property": "C131",
   "status": "proved",
   "theorems": [
    "C131_radkfile",
    "C131_zhuyin",
    "C131_patterns",
    "C131_hanzi",
    "C131_dictionary",
    "C131_coded",
    "C131_place",
    "C131_where",
    "C131_entries",
    "C131_entries_over",
    "C131_entries_end"
   ],
   "note": ""
  },
  {
   "property": "C132",
   "status": "partial",
   "theorems": [
    "C132_undisturbed",
    "C132_outcome_partial",
    "C132_streams",
    "C132_files",
    "C132_right",
    "C132_afterwards",
    "C132_memory",
    "C132_interrupts_end_calls_refuted"
   ],
   "note": "Refuted in part: what strikes while the cache file is read is swallowed by the bare except (smart_cache.py:123), and the call goes on as if the file could not be opened, running the method though the cache is fresh (C132_interrupts_end_calls_refuted). C132_outcome_partial tells the outcome exactly: the last exception that struck elsewhere ends the call, and at most two are swallowed. The rest is proved in full: the value returned, the files, the streams, the calls after and memory_proxy."
  },
  {
   "property": "C133",
   "status": "partial",
   "theorems": [
    "C133_dump",
    "C133_cut_partial",
    "C133_lines_refuted",
    "C133_unencodable_refuted",
    "C133_bytes"
   ],
   "note": "Refuted: a file cut after whole lines loads as the tree of the places before the cut (C133_lines_refuted), and a place the encoding cannot write makes dump raise and leave such a file in place of the old one (C133_unencodable_refuted). Proved exactly: what is left in the file whatever happens (C133_dump) and, for every cut, whether it is refused and which tree it gives otherwise (C133_cut_partial): cut within a line's depth or label it is refused, cut within a reading the place gets the part that is left, so that a place without reading can get the reading N, No or Non. Bytes of UTF-8 reduce to this (C133_bytes). Aliases, which do not survive even whole (C49), are left out."
  },
  {
   "property": "C134",
   "status": "proved",
   "theorems": [
    "C134_prune",
    "C134_asked",
    "C134_pathed",
    "C134_bare",
    "C134_ancestors",
    "C134_same"
   ],
   "note": "Predicates that change the tree are left out. If the answers depend on the state, the second answer about the root is the one that counts (asked_twice in PruneAsk_spec.v, C134_case_twice)."
  },
  {
   "property": "C135",
   "status": "proved",
   "theorems": [
    "C135_dist",
    "C135_asked",
    "C135_once",
    "C135_sums",
    "C135_not_root",
    "C135_same"
   ],
   "note": "Count methods that change the tree, and counts that are not whole numbers, are left out."
  },
  {
   "property": "C136",
   "status": "partial",
   "theorems": [
    "C136_one_file",
    "C136_details",
    "C136_source",
    "C136_fresh",
    "C136_alone",
    "C136_repairs",
    "C136_text",
    "C136_language",
    "C136_links_one_file",
    "C136_group",
    "C136_group_once",
    "C136_links_fresh",
    "C136_links_alone",
    "C136_indices_one_file",
    "C136_indices_alone",
    "C136_group_refuted",
    "C136_together_refuted",
    "C136_type_error_refuted"
   ],
   "note": "Refuted: answers that belong together (C136_together_refuted), group() containing the sentence asked for (C136_group_refuted), no TypeError (C136_type_error_refuted). For links and indices the filters stay as they are while files are loaded."
  },
  {
   "property": "C137",
   "status": "partial",
   "theorems": [
    "C137_equal_is_reordered",
    "C137_is_injective",
    "C137_invert_injective",
    "C137_invert",
    "C137_invert_refuted",
    "C137_multi_dict",
    "C137_merge_dicts",
    "C137_map_dict",
    "C137_map_dict_refuted",
    "C137_chain_mapping",
    "C137_walks",
    "C137_find_node",
    "C137_copy",
    "C137_prune",
    "C137_tree_dist",
    "C137_equal_trees",
    "C137_found_refuted",
    "C137_language",
    "C137_one_language",
    "C137_language_refuted"
   ],
   "note": "Refuted: equal inverses of equal maps (C137_invert_refuted), the same exception from map_dict (C137_map_dict_refuted), the same node from find_node (C137_found_refuted), one language for an id listed under two (C137_language_refuted)."
  },
  {
   "property": "C138",
   "status": "partial",
   "theorems": [
    "C138_unchanged",
    "C138_appending_procmap",
    "C138_appending_partial_map",
    "C138_appending_filtered_map",
    "C138_ends",
    "C138_endless_refuted",
    "C138_removing_refuted",
    "C138_untouched",
    "C138_assignment",
    "C138_keys_kept",
    "C138_keys_kept_copy",
    "C138_calls",
    "C138_size",
    "C138_changed_size",
    "C138_replaced_refuted",
    "C138_put_back_refuted"
   ],
   "note": "Refuted: every item is mapped once (C138_removing_refuted, C138_replaced_refuted), the loops end (C138_endless_refuted), no RuntimeError when the size is kept (C138_put_back_refuted)."
  },
  {
   "property": "C139",
   "status": "partial",
   "theorems": [
    "C139_same",
    "C139_find_text",
    "C139_find_other",
    "C139_find_key_error_refuted",
    "C139_place",
    "C139_depths",
    "C139_copy",
    "C139_prune",
    "C139_tree_find",
    "C139_sopen",
    "C139_update",
    "C139_update_unnoticed_refuted",
    "C139_segment",
    "C139_segments",
    "C139_pack_text",
    "C139_pack"
   ],
   "note": "Refuted: a label that is not there is a KeyError (C139_find_key_error_refuted), an unknown dependency is refused (C139_update_unnoticed_refuted)."
  },
  {
   "property": "C140",
   "status": "partial",
   "theorems": [
    "C140_before",
    "C140_int",
    "C140_radk",
    "C140_places",
    "C140_sentences",
    "C140_links",
    "C140_indices",
    "C140_word",
    "C140_kanjidic_short",
    "C140_kanjidic",
    "C140_kanjidic_refused_refuted",
    "C140_written",
    "C140_reread",
    "C140_rewritten"
   ],
   "note": "Refuted: a kanjidic with a number of too many digits is refused (C140_kanjidic_refused_refuted)."
  },
  {
   "property": "C141",
   "status": "partial",
   "theorems": [
    "C141_default",
    "C141_settings",
    "C141_rows",
    "C141_split",
    "C141_unquoted",
    "C141_strict",
    "C141_not_closed",
    "C141_goes_on",
    "C141_quote_all",
    "C141_dialect_refuted"
   ],
   "note": "Refuted: a dialect brings its delimiter (C141_dialect_refuted)."
  },
  {
   "property": "C142",
   "status": "proved",
   "theorems": [
    "C142_built",
    "C142_fails",
    "C142_together",
    "C142_zero"
   ],
   "note": ""
  },
  {
   "property": "C143",
   "status": "partial",
   "theorems": [
    "C143_made",
    "C143_segments",
    "C143_total",
    "C143_groups",
    "C143_is_pinyin",
    "C143_plain",
    "C143_longest_refuted",
    "C143_order_refuted"
   ],
   "note": "Refuted: the syllable that matches most is taken (C143_longest_refuted), the order of the rows does not matter (C143_order_refuted). Missing: syllables outside the syntax of C93, and syllables that are patterns only together with others."
  },
  {
   "property": "C144",
   "status": "proved",
   "theorems": [
    "C144_drawn",
    "C144_printed",
    "C144_answers",
    "C144_errors",
    "C144_enough",
    "C144_equal",
    "C144_itself",
    "C144_copy",
    "C144_no_limit_is_enough"
   ],
   "note": "The limit counts the calls of _layout_children and __eq__; the frames of the method and of the dictionary comparison in between are not counted separately."
  },
  {
   "property": "C145",
   "status": "partial",
   "theorems": [
    "C145_from_ascii",
    "C145_strip_tones",
    "C145_groups",
    "C145_from_hanzi",
    "C145_plain",
    "C145_twice",
    "C145_syllables_refuted"
   ],
   "note": "Refuted: every syllable of the table can be converted (C145_syllables_refuted: a longer one that matches nothing is found first). Missing: syllables as for C143."
  },
  {
   "property": "C146",
   "status": "partial",
   "theorems": [
    "C146_places",
    "C146_places_errors",
    "C146_places_enough",
    "C146_leaves",
    "C146_itself",
    "C146_dicts",
    "C146_reader_dict",
    "C146_reader_errors",
    "C146_others",
    "C146_entries",
    "C146_loaded_twice",
    "C146_details_refuted",
    "C146_again_refuted",
    "C146_strokes_refuted",
    "C146_order_refuted"
   ],
   "note": "Refuted: equal places have the same details (C146_details_refuted), a dictionary loaded again is equal (C146_again_refuted), RadkDicts with the same radicals are equal and count the same strokes (C146_order_refuted, C146_strokes_refuted). == of values is a parameter that says that a value equals itself."
  },
  {
   "property": "C147",
   "status": "partial",
   "theorems": [
    "C147_loaded",
    "C147_labels",
    "C147_saved_refuted"
   ],
   "note": "Refuted: == tells whether a map was saved completely (C147_saved_refuted: a place whose aliases were lost by dump and from_file is == to the original). What the format can hold is [storable], as in C49."
  }
 ]
}