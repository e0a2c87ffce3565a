# Functions of /repo/cjktools and /repo/scripts, and the definitions that model them

Generated by tools/coverage.py from the citations in the models.

## cjktools/alternations.py

| function | lines | model |
|---|---|---|
| `canonical_forms` | 31-53 | Alternations_model.candidate_sets, Said_model.candidates_told |
| `canonical_segment_forms` | 56-81 | Alternations_model.devoice, Alternations_model.canonical_segment_forms, RepoTests_core.ten, Said_model.segment_forms_told |
| `surface_forms` | 84-96 | Alternations_model.surface_forms |
| `rendaku_variants` | 99-106 | Alternations_model.rendaku_variants |
| `onbin_variants` | 109-118 | Alternations_model.onbin_variants |
| `_create_voicing_map` | 121-146 | Alternations_model.voicing_of, Alternations_model.kata_voicing, Alternations_model.join_voicing |
| `insert_duplicate_kanji` | 153-168 | Alternations_model.dup_loop |
| `expand_long_vowels` | 174-209 | Alternations_model.replace_loop, Alternations_model.expand_segment, Alternations_model.expand_long_vowels |

## cjktools/common.py

| function | lines | model |
|---|---|---|
| `filter_comments` | 19-27 | Common_model.filter_comments |
| `sopen` | 30-72 | Common_model.sopen, Encoding_model.push, Encoding_model.open_bytes, FileLife_model.open_file, Files_model.sopen_id, Python2_model.handled, Python2_model.open2, Said_model.sopen_told |
| `stream_codec` | 75-84 | Common_model.stream_codec, Python2_model.coded2 |
| `get_stream_context` | 87-91 | Common_model.get_stream_context, LineLife_model.with_source |
| `_NullContextWrapper.__init__` | 99-100 | Common_model.context, FileLife_model.holder, LineLife_model.with_source |
| `_NullContextWrapper.__enter__` | 102-103 | Common_model.context, FileLife_model.holder, LineLife_model.with_source |
| `_NullContextWrapper.__exit__` | 105-106 | Common_model.context, FileLife_model.holder, LineLife_model.with_source |

## cjktools/kana_table.py

| function | lines | model |
|---|---|---|
| `KanaTable.__init__` | 31-40 | KanaTable_model.vowels |
| `KanaTable._build_dicts` | 42-69 | KanaTable_model.kana_rows, KanaTable_model.consonant_dict, KanaTable_model.vowel_step |
| `KanaTable.get_coords` | 71-76 | KanaTable_model.get_coords |
| `KanaTable.from_coords` | 78-83 | KanaTable_model.from_coords |
| `KanaTable.to_vowel_line` | 85-90 | KanaTable_model.to_vowel_line |
| `KanaTable.to_consonant_line` | 92-94 | KanaTable_model.to_consonant_line |
| `KanaTable.is_voiced` | 97-100 | KanaTable_model.is_voiced |
| `KanaTable.is_semivoiced` | 103-106 | KanaTable_model.is_semivoiced |
| `KanaTable.get_table` | 108-110 | KanaTable_model.get_table |
| `KanaTable.get_cached` | 113-118 | CacheThreads_model.kind, CacheThreads_model.world, ClassCache_model.lazy_cached, KanaTable_model.-, Kanjidic_model.get_cached_hasattr |
| `KanaTable.__repr__` | 120-121 | KanaTable_model.- |

## cjktools/maps.py

| function | lines | model |
|---|---|---|
| `chain_mapping` | 16-30 | Maps_model.getitem_method |
| `invert_mapping` | 33-43 | Maps_model.invert_mapping |
| `is_injective` | 46-59 | Maps_model.is_injective_loop |
| `invert_injective_mapping` | 62-72 | Maps_model.invert_injective_loop |
| `map_dict` | 75-96 | Live_model.live_loop, Live_model.live_gen, Maps_model.method, Maps_model.map_dict_loop, Maps_model.map_dict_gen, Maps_model.map_dict |
| `multi_dict` | 99-123 | Maps_model.multi_dict |
| `procmap` | 126-143 | Live_model.live_procmap, Maps_model.procmap |
| `merge_dicts` | 146-159 | Maps_model.merge_step |
| `partial_map` | 162-189 | Live_model.live_partial_map, Maps_model.partial_map_loop |
| `filtered_map` | 192-197 | Live_model.live_filtered_map, Maps_model.filtered_map |

## cjktools/resources/auto_format.py

| function | lines | model |
|---|---|---|
| `detect_format` | 16-26 | DictFormat_model.detect_format_in, Messages_model.detect_told |
| `load_dictionary` | 29-36 | DictBytes_model.dict_open, DictBytes_model.load_dictionary2, DictFormat_model.load_dictionary, LineLife_model.dictionary_life, Messages_model.load_dictionary_told |
| `iter_entries` | 39-46 | DictFormat_model.iter_entries, LineLife_model.entries_next, SplitCodes_model.in_generator |

## cjktools/resources/bilingual_dict.py

| function | lines | model |
|---|---|---|
| `BilingualDictionary.__init__` | 30-35 | Bilingual_model.bd_update |
| `BilingualDictionary.update` | 37-42 | Bilingual_model.bd_update |
| `DictionaryEntry.__init__` | 52-57 | Bilingual_model.entry, Bilingual_model.new_entry, DictEq_model.entry_objects, Objects_model.new_entry |
| `DictionaryEntry.update` | 59-81 | Bilingual_model.pad, Bilingual_model.entry_update, DictEq_model.entry_objects, Messages_model.update_told |
| `DictionaryEntry.senses_by_reading` | 83-95 | Bilingual_model.senses_by_reading, DictEq_model.entry_objects |
| `DictionaryEntry.__repr__` | 97-98 | DictEq_model.entry_objects, Show_model.entry_str |
| `DictionaryEntry.__str__` | 100-105 | DictEq_model.entry_objects, Show_model.entry_str |
| `DictionaryEntry.__hash__` | 110-111 | Bilingual_model.entry_hash, DictEq_model.entry_objects, Objects_model.V, Objects_model.hash_object |

## cjktools/resources/cjkdata.py

| function | lines | model |
|---|---|---|
| `find_path` | 16-29 | Misc_model.search, Said_model.please |
| `get_resource` | 32-34 | Misc_model.get_resource, Said_model.resource_told, Session_model.resource |

## cjktools/resources/dict_format.py

| function | lines | model |
|---|---|---|
| `DictionaryFormat.match_header` | 46-51 | DictFormat_model.match_header |
| `DictionaryFormat.parse_line` | 53-55 | DictFormat_model.match_header |
| `DictionaryFormat.parse_dictionary` | 57-71 | DictFormat_model.parse_lines, LineLife_model.dict_line, Messages_model.lines_told |
| `DictionaryFormat.iter_entries` | 73-79 | DictFormat_model.iter_lines, LineLife_model.entries_next |
| `RegexFormat.__init__` | 90-94 | DictFormat_model.format |
| `RegexFormat.match_header` | 96-97 | DictBytes_model.dict_sopen, DictFormat_model.match_header |
| `RegexFormat.parse_line` | 99-118 | DictBytes_model.parse_line2, DictFormat_model.parse_line, Messages_model.entry_told |

## cjktools/resources/kanji_list.py

| function | lines | model |
|---|---|---|
| `get_lists` | 19-21 | Misc_model.listdir, Said_model.lists_told |
| `get_list` | 24-28 | Encoding_model.push, Encoding_model.utf8_contents, Misc_model.contents, Said_model.lists_told, Session_model.load_list |

## cjktools/resources/kanjidic.py

| function | lines | model |
|---|---|---|
| `KanjidicEntry.__init__` | 63-66 | DictEq_model.entry_objects, Kanjidic_model.new_entry |
| `KanjidicEntry.get_all_readings` | 68-84 | DictEq_model.entry_objects, Kanjidic_model.stem_of |
| `Kanjidic.__init__` | 96-110 | Encoding_model.chain_bytes, FileLife_model.event, FileLife_model.enter_files, FileLife_model.kanjidic_init, Files_model.parse_chain, Kanjidic_model.init, Python2_model.chain2, Session_model.load_kanjidic |
| `Kanjidic.get_cached` | 113-117 | CacheThreads_model.kind, CacheThreads_model.world, ClassCache_model.eager_cached, Kanjidic_model.get_cached_getattr, Session_model.cached_kanjidic |
| `Kanjidic._parse_kanjidic` | 119-133 | Digits_model.kanjidic_by, FileLife_model.kanji_line, Kanjidic_model.parse_kanjidic, Messages_model.kanjidic_told |
| `Kanjidic._parse_line` | 135-193 | Digits_model.segment_by, Digits_model.finish_by, Digits_model.line_by, Kanjidic_model.seg_char, Kanjidic_model.parse_segment, Kanjidic_model.finish, Kanjidic_model.parse_segs, Messages_model.segment_told, Messages_model.segs_told, Patterns_model.segment_text |

## cjktools/resources/pinyin_table.py

| function | lines | model |
|---|---|---|
| `PinyinTable.__init__` | 39-51 | Encoding_model.push, Encoding_model.utf8_source, Files_model.codec_from, Files_model.table_path, LineLife_model.table_line, Pinyin_model.load_table, Session_model.load_hanzi, Session_model.new_table |
| `PinyinTable.from_hanzi` | 53-69 | Pinyin_model.from_hanzi, WildTable_model.int_, WildTable_model.from_hanzi_any |
| `PinyinTable.from_ascii` | 71-80 | Pinyin_model.from_ascii, WildTable_model.int_, WildTable_model.from_ascii_any |
| `PinyinTable.strip_tones` | 82-86 | Pinyin_model.from_ascii, WildTable_model.int_, WildTable_model.strip_tones_any |
| `PinyinTable._apply_tone` | 88-104 | Pinyin_model.tone_loop, WildTable_model.int_ |
| `PinyinSegmenter.__init__` | 108-116 | Patterns_model.single_text, Pinyin_model.base_pattern, Session_model.disk, Session_model.load_segmenter, Wild_model.isd, Wild_model.segmenter |
| `PinyinSegmenter.segment_pinyin` | 118-136 | Pinyin_model.text_of, Wild_model.isd, Wild_model.corrected |
| `PinyinSegmenter.is_pinyin` | 138-140 | Pinyin_model.is_pinyin, Wild_model.isd, Wild_model.is_pinyin_any |
| `normalize` | 143-148 | Pinyin_model.normalize |
| `get_pinyin_table` | 151-158 | CacheThreads_model.kind, CacheThreads_model.world, Kanjidic_model.get_cached_hasattr, Session_model.get_table |
| `get_pinyin_segmenter` | 161-169 | CacheThreads_model.kind, CacheThreads_model.world, Kanjidic_model.get_cached_hasattr, Session_model.get_segmenter |

## cjktools/resources/place.py

| function | lines | model |
|---|---|---|
| `Place.__init__` | 26-43 | Messages_model.place_told, Place_model.place_new, Said_model.place_any |
| `Place.get_children` | 45-46 | Place_model.place |
| `Place.__repr__` | 50-51 | Show_model.place_str |
| `Place.__str__` | 53-58 | Show_model.place_str |
| `Place.dump` | 63-66 | Encoding_model.dump_bytes, Files_model.dump_path, Files_model.with_sopen, PlaceTorn_model.repr, PlaceTorn_model.print_lines, PlaceTorn_model.dump_torn, Place_model.dump, Python2_model.dump2 |
| `Place.from_file` | 69-106 | Digits_model.load_loop_by, Digits_model.from_file_by, Encoding_model.place_bytes, Files_model.place_path, Files_model.with_sopen, LineLife_model.place_line, LineLife_model.root_line, LineLife_model.place_life, Messages_model.load_told, Messages_model.from_file_told, Place_model.load_loop, Place_model.from_file, Python2_model.place2 |
| `Place.append` | 108-110 | Place_model.append |
| `Place.find_node` | 112-141 | Place_model.found, Said_model.lookup, Said_model.find_any_loop |
| `Place.find_all` | 143-153 | Place_model.find_all |
| `Place.walk` | 155-169 | Place_model.walk_loop, TreeEdit_model.body |
| `Place.walk_with_path` | 171-199 | Place_model.with_path, Said_model.with_path_told, TreeEdit_model.body |
| `Place._to_line` | 201-209 | Place_model.to_line |
| `Place._from_line` | 212-233 | Digits_model.from_line_by, Files_model.byte_space, Messages_model.from_line_told, Place_model.from_line |

## cjktools/resources/radkdict.py

| function | lines | model |
|---|---|---|
| `_default_stream` | 22-23 | Common_model.reader, Encoding_model.push, Encoding_model.open_default, Files_model.open_text, Python2_model.coded2, Session_model.load_radk |
| `RadkDict.__init__` | 34-40 | Common_model.reader, Encoding_model.open_default, Files_model.open_text, LineLife_model.radk_life, Python2_model.coded2, Session_model.load_radk |
| `RadkDict._parse_radkfile` | 42-79 | Digits_model.radk_loop_by, Digits_model.radk_by, LineLife_model.radk_line, LineLife_model.radk_done, Messages_model.radk_told, Radk_model.radk_loop, Radk_model.parse_radkfile |
| `RadkDict.get_cached` | 82-87 | CacheThreads_model.kind, CacheThreads_model.world, ClassCache_model.eager_cached, Kanjidic_model.get_cached_getattr, Session_model.cached_radk |
| `print_radicals` | 90-97 | Show_model.radicals_line, Show_model.print_each |

## cjktools/resources/split_by_codes.py

| function | lines | model |
|---|---|---|
| `load_coded_dictionary` | 16-47 | Common_model.reader, DictBytes_model.run_lines, DictBytes_model.coded_open, DictBytes_model.load_coded2, DictBytes_model.coded_open2, LineLife_model.with_source, LineLife_model.coded_line, LineLife_model.coded_life, SplitCodes_model.codes_of, SplitCodes_model.load_lines, SplitFiles_model.load_coded_source, SplitFiles_model.dd_getitem |
| `iter_coded_entries` | 50-59 | SplitCodes_model.codes_of, SplitCodes_model.in_generator, SplitFiles_model.iter_coded_name |
| `get_codes` | 82-90 | SplitCodes_model.get_codes |

## cjktools/resources/tatoeba.py

| function | lines | model |
|---|---|---|
| `TatoebaDict.__getitem__` | 34-35 | Corpus_model.mapping, Corpus_model.as_sentences, Corpus_model.as_indices, Tatoeba_model.getitem |
| `TatoebaDict.__iter__` | 37-38 | Corpus_model.mapping, Corpus_model.as_sentences, Corpus_model.as_links, Corpus_model.as_indices, Reload_model.call_prog |
| `TatoebaDict.__len__` | 40-41 | Corpus_model.mapping, Corpus_model.m_len, Corpus_model.as_sentences, Corpus_model.as_links, Corpus_model.as_indices, Reload_model.call_prog |
| `TatoebaReader.__init__` | 49-51 | Tatoeba_model.rows_of |
| `TatoebaReader.load_file` | 53-84 | Common_model.reader, Corpus_model.load_text_file, CsvLang_spec.toks, Csv_model.cstate, Csv_model.load_file, Dialect_model.style, Dialect_model.with_tab, Dialect_model.load_file_with, Encoding_model.load_bytes, FileLife_model.event, FileLife_model.holder, FileLife_model.resume, FileLife_model.gen_next, Files_model.csv_source, Files_model.with_sopen, Python2_model.decode_col, Python2_model.load2 |
| `TatoebaReader._get_src_repr` | 86-91 | Corpus_model.get_src_repr |
| `TatoebaSentenceReader.__init__` | 112-114 | Reload_model.attrs, Tatoeba_model.reader, Tatoeba_model.new_sentences |
| `TatoebaSentenceReader.language` | 116-134 | Messages_model.language_told, Reload_model.call_prog, Tatoeba_model.find_lang |
| `TatoebaSentenceReader.sentence` | 136-150 | Messages_model.sentence_of_told, Reload_model.call_prog, Tatoeba_model.getitem |
| `TatoebaSentenceReader.details` | 152-180 | Messages_model.details_told, Reload_model.call_prog, Tatoeba_model.details |
| `TatoebaSentenceReader.sentences` | 183-187 | Reload_model.call_prog, Tatoeba_model.reader |
| `TatoebaSentenceReader.sentences` | 190-241 | Digits_model.read_row_by, Digits_model.sentences_by, FileLife_model.date, Messages_model.sentences_told, Reload_model.attrs, Reload_model.row_prog, Reload_model.publish, Reload_model.reload_prog, Tatoeba_model.tables, Tatoeba_model.add_id, Tatoeba_model.read_sentences, Tatoeba_model.set_sentences |
| `TatoebaSentenceReader.sentence_ids` | 244-248 | Reload_model.call_prog, Tatoeba_model.sentence_ids |
| `TatoebaSentenceReader._base_dict` | 251-252 | Corpus_model.as_sentences, Reload_model.call_prog |
| `TatoebaSentenceReader.parse_date` | 255-262 | Tatoeba_model.parse_date |
| `TatoebaSentenceReader.filter_row` | 264-265 | Tatoeba_model.rows_of |
| `TatoebaSentenceReader.__repr__` | 267-269 | Corpus_model.sentences_repr |
| `TatoebaLinksReader.__init__` | 273-295 | Tatoeba_model.lreader, Tatoeba_model.new_links |
| `TatoebaLinksReader.group` | 297-316 | Messages_model.group_told, Reload_model.ids_, Tatoeba_model.group |
| `TatoebaLinksReader.groups` | 318-326 | Tatoeba_model.groups |
| `TatoebaLinksReader.links` | 329-330 | Tatoeba_model.lreader |
| `TatoebaLinksReader.links` | 333-373 | Digits_model.link_row_by, Digits_model.links_by, FileLife_model.link_step, Messages_model.links_told, Reload_model.lattrs, Reload_model.links_prog, Tatoeba_model.link_row, Tatoeba_model.skipped, Tatoeba_model.add_link, Tatoeba_model.read_links, Tatoeba_model.set_links |
| `TatoebaLinksReader.sentence_ids_filter` | 376-377 | Tatoeba_model.lreader |
| `TatoebaLinksReader._sentence_ids_filter` | 379-394 | Messages_model.filter_told, Tatoeba_model.lower |
| `TatoebaLinksReader.sentence_id_subset` | 397-398 | Tatoeba_model.lreader |
| `TatoebaLinksReader._sentence_id_subset` | 400-401 | Tatoeba_model.lreader |
| `TatoebaLinksReader._base_dict` | 404-405 | Corpus_model.as_links |
| `TatoebaLinksReader.__getitem__` | 407-408 | Corpus_model.as_links, Reload_model.ids_, Tatoeba_model.lgetitem |
| `TatoebaLinksReader.__repr__` | 410-411 | Corpus_model.sentences_repr |
| `TanakaWord.__init__` | 428-433 | Tanaka_model.word |
| `TanakaWord.from_text` | 436-462 | Digits_model.from_text_by, Messages_model.from_text_told, Tanaka_model.from_text |
| `TanakaWord.resolve_display` | 464-471 | Tanaka_model.resolve_display |
| `TanakaWord.__str__` | 473-484 | Digits_model.word_str_limited, Tanaka_model.fmt02 |
| `TanakaWord.__eq__` | 489-508 | Compare_model.field, Compare_model.word_dunder_eq, Tanaka_model.word_eq |
| `TanakaWord.__ne__` | 510-511 | Compare_model.field, Compare_model.dunder_ne, Tanaka_model.word_eq |
| `TatoebaIndexReader.__init__` | 523-538 | Tatoeba_model.ireader, Tatoeba_model.new_indices |
| `TatoebaIndexReader.link` | 540-559 | Messages_model.link_told, Tatoeba_model.link |
| `TatoebaIndexReader.jpn_indices` | 562-563 | Tatoeba_model.ireader |
| `TatoebaIndexReader.jpn_indices` | 566-590 | Digits_model.index_row_by, FileLife_model.indices_life, Messages_model.index_row_told, Reload_model.iattrs, Reload_model.indices_prog, Tatoeba_model.index_row, Tatoeba_model.set_indices |
| `TatoebaIndexReader.parse_sentence` | 592-620 | Digits_model.words_by, Messages_model.words_told, Tanaka_model.word, Tanaka_model.sentence_splitter |
| `TatoebaIndexReader.adjust_details` | 622-658 | Tanaka_model.word, Tanaka_model.py_index |
| `TatoebaIndexReader.sentence_id_subset` | 662-663 | Tatoeba_model.ireader |
| `TatoebaIndexReader.sentence_id_subset` | 666-667 | Tatoeba_model.new_indices |
| `TatoebaIndexReader._base_dict` | 670-671 | Corpus_model.as_indices |

## cjktools/resources/tree.py

| function | lines | model |
|---|---|---|
| `TreeNode.__init__` | 23-27 | Share_model.snode, Share_model.or_kids, TreeFrame_spec.op, Tree_model.node |
| `TreeNode.get_ancestors` | 29-37 | Tree_model.ancestors_loop |
| `TreeNode.path_from_root` | 41-54 | Tree_model.path_loop |
| `TreeNode.walk_preorder` | 58-70 | Share_model.body, Tree_model.for_preorder |
| `TreeNode.walk` | 72-73 | Share_model.body, Tree_model.for_preorder |
| `TreeNode.walk_postorder` | 75-92 | Share_model.body, Tree_model.for_postorder |
| `TreeNode.walk_breadth_first` | 94-114 | Tree_model.shuffle |
| `TreeNode.unlink` | 116-121 | Share_model.s_unlink, TreeFrame_spec.op, Tree_model.unlink |
| `TreeNode.copy` | 123-146 | Said_model.copy_told, Share_model.dup, TreeFrame_spec.op, Tree_model.copy_kids |
| `TreeNode.prune` | 148-165 | PruneAsk_model.S, PruneAsk_model.ask_body, PruneAsk_model.prune_ask, Said_model.prune_told, Share_model.s_prune_body, Tree_model.prune_body |
| `TreeNode.__len__` | 167-168 | Tree_model.truth |
| `TreeNode.__str__` | 170-171 | Layout_model.node_str |
| `TreeNode.__repr__` | 173-174 | Layout_model.node_str |
| `TreeNode.add_child` | 176-179 | Share_model.s_add_child, Tree_model.add_child |
| `TreeNode.del_child` | 181-187 | Share_model.s_add_child, Tree_model.del_child |
| `TreeNode.get_path` | 189-199 | Tree_model.get_path |
| `TreeNode.find_node` | 201-210 | Said_model.tree_find_told, Tree_model.find_body |
| `TreeNode.__getitem__` | 212-214 | Tree_model.unpack2 |
| `TreeNode.__setitem__` | 216-218 | Layout_model.node_getitem, Share_model.s_setitem |
| `TreeNode.__contains__` | 220-221 | Layout_model.node_getitem |
| `TreeNode.__delitem__` | 223-226 | Layout_model.node_getitem, Share_model.s_setitem |
| `TreeNode.__eq__` | 228-231 | Compare_model.field, Compare_model.node_dunder_eq, Tree_model.node_eq |
| `TreeNode.build_index` | 233-245 | Tree_model.index_body |
| `TreeNode.layout` | 247-258 | Layout_model.layout, Layout_model.default_method |
| `TreeNode._layout_children` | 260-273 | Layout_model.layout_children |
| `TreeDist.__init__` | 281-304 | CountAsk_model.S, CountAsk_model.tally_body, CountAsk_model.dist_ask, Float_model.rne, Float_model.float_of, Float_model.shown, Layout_model.dist, Layout_model.dist_copy, Objects_model.new_dist, Overflow_model.freq_float, Overflow_model.tree_dist_float, Overflow_model.-, Share_model.s_count_body, Tree_model.num |
| `TreeDist.copy` | 306-308 | Layout_model.dist_copy |
| `TreeDist.layout` | 310-314 | Float_model.rne, Float_model.fixed4, Float_model.shown, Float_model.fixed_value, Layout_model.dist_layout |
| `TreeDist.combine` | 316-356 | Layout_model.combine, Objects_model.V, Objects_model.combine_objects |
| `TreeDist.union` | 358-359 | Layout_model.union_params |
| `TreeDist.diff` | 361-362 | Layout_model.union_params |

## cjktools/resources/zhuyin_table.py

| function | lines | model |
|---|---|---|
| `_default_stream` | 17-18 | Common_model.reader, Encoding_model.push, Encoding_model.open_default, Files_model.open_text, Python2_model.coded2, Session_model.zhuyin_file |
| `parse_lines` | 23-28 | LineLife_model.pair_line, Pinyin_model.starts_hash, Python2_model.coded2 |
| `zhuyin_to_pinyin_table` | 31-38 | Common_model.reader, Encoding_model.open_default, Files_model.open_text, LineLife_model.zhuyin_life, Pinyin_model.zhuyin_to_pinyin_table, Session_model.zhuyin_file |
| `pinyin_to_zhuyin_table` | 41-48 | Common_model.reader, Encoding_model.open_default, Files_model.open_text, LineLife_model.zhuyin_life, Pinyin_model.zhuyin_to_pinyin_table, Session_model.zhuyin_file |
| `get_all_pinyin` | 51-59 | Common_model.reader, Encoding_model.open_default, Files_model.open_text, LineLife_model.zhuyin_life, Pinyin_model.get_all_pinyin, Session_model.zhuyin_file |
| `pinyin_regex_pattern` | 62-73 | LineLife_model.pinyin_pattern_life, Pinyin_model.pinyin_regex_pattern, Wild_model.isd |
| `zhuyin_regex_pattern` | 76-86 | Common_model.reader, LineLife_model.zhuyin_life, Pinyin_model.zhuyin_regex_pattern |

## cjktools/scripts.py

| function | lines | model |
|---|---|---|
| `ScriptMapping.__init__` | 53-61 | Scripts_model.mapping, Scripts_model.make_mapping |
| `ScriptMapping.__call__` | 63-76 | Scripts_model.apply_mapping |
| `normalize_ascii` | 91-106 | Scripts_model.normalize_ascii |
| `normalize_kana` | 113-136 | Scripts_model.normalize_kana |
| `normalize` | 139-154 | Scripts_model.normalize |
| `get_script` | 157-168 | Scripts_model.get_script |
| `compare_kana` | 171-187 | Scripts_model.compare_kana |
| `contains_script` | 190-207 | Scripts_model.contains_script |
| `script_type` | 210-243 | Scripts_model.band_of, Scripts_model.script_type_in |
| `script_boundaries` | 246-281 | Scripts_model.sb_loop, Scripts_model.script_boundaries |
| `script_types` | 284-302 | Scripts_model.script_types |
| `unique_kanji` | 305-320 | Scripts_model.unique_kanji |

## cjktools/smart_cache.py

| function | lines | model |
|---|---|---|
| `disk_proxy_direct` | 20-57 | CacheNest_model.exec, Interrupt_model.run_method, Interrupt_model.call_struck, Procs_model.proc, Procs_model.update, SmartCache_model.method |
| `disk_proxy_direct.proxy_method` | 37-53 | CacheNest_model.exec, Interrupt_model.run_method, Interrupt_model.call_struck, Procs_model.proc, Procs_model.update, SmartCache_model.method |
| `disk_proxy` | 60-64 | SmartCache_model.disk_call_crash |
| `memory_proxy` | 67-92 | Alias_model.oeq, Alias_model.share, Interrupt_model.memory_call_struck, MemoRec_model.oeq, MemoRec_model.rec_call, SmartCache_model.memory_call, Threads_model.oeq, Threads_model.tstep |
| `memory_proxy.proxy_method` | 79-88 | Alias_model.oeq, Alias_model.share, Interrupt_model.memory_call_struck, MemoRec_model.oeq, MemoRec_model.rec_call, SmartCache_model.memory_call, Threads_model.oeq, Threads_model.tstep |
| `try_cache` | 95-130 | Interrupt_model.read_block, Interrupt_model.try_cache_struck, Procs_model.parse_cache, Procs_model.update, SmartCache_model.read_cache, SmartCache_model.try_cache |
| `store_cache_object` | 133-152 | CacheNest_model.store, Interrupt_model.store_struck, Procs_model.update, SmartCache_model.store_cache_object |
| `needs_update` | 155-181 | Said_model.check_told, Said_model.update_needed_told, SmartCache_model.any_newer, SmartCache_model.check_dependencies, SmartCache_model.needs_update |
| `_get_module_dependencies` | 184-196 | SmartCache_model.get_module_dependencies |

## scripts/load_as_rst.py

| function | lines | model |
|---|---|---|
| `_fallback_load` | 23-32 | LoadRst_model.fallback_load |
| `convert` | 47-77 | LoadRst_model.convert |
