-Q theories Verif
theories/Base.v
theories/Scripts_model.v
theories/Scripts_spec.v
theories/Scripts_proofs.v
theories/Scripts_props.v
theories/PyStr.v
theories/KanaTable_model.v
theories/KanaTable_spec.v
theories/KanaTable_proofs.v
theories/KanaTable_props.v
theories/Maps_model.v
theories/Maps_spec.v
theories/Maps_proofs.v
theories/Maps_props.v
theories/Alternations_model.v
theories/Alternations_spec.v
theories/Alternations_proofs.v
theories/Alternations_props.v
theories/Common_model.v
theories/Common_spec.v
theories/Common_proofs.v
theories/Common_props.v
theories/SmartCache_model.v
theories/SmartCache_spec.v
theories/SmartCache_proofs.v
theories/SmartCache_props.v
theories/Bilingual_model.v
theories/Bilingual_spec.v
theories/Bilingual_proofs.v
theories/Bilingual_props.v
theories/Regex.v
theories/DictFormat_model.v
theories/DictFormat_spec.v
theories/DictFormat_proofs.v
theories/DictFormat_props.v
theories/PyText.v
theories/SplitCodes_model.v
theories/SplitCodes_spec.v
theories/SplitCodes_proofs.v
theories/SplitCodes_props.v
theories/Kanjidic_model.v
theories/Kanjidic_spec.v
theories/Kanjidic_proofs.v
theories/Kanjidic_props.v
theories/Radk_model.v
theories/Radk_spec.v
theories/Radk_proofs.v
theories/Radk_props.v
theories/PyFmt.v
theories/Rose.v
theories/Place_model.v
theories/Place_spec.v
theories/Place_proofs.v
theories/Place_props.v
theories/Tree_model.v
theories/Tree_spec.v
theories/Tree_proofs.v
theories/Tree_props.v
theories/Pinyin_model.v
theories/Pinyin_spec.v
theories/Pinyin_proofs.v
theories/Pinyin_props.v
theories/Csv_model.v
theories/Csv_spec.v
theories/Csv_proofs.v
theories/Csv_props.v
theories/Tanaka_model.v
theories/Tanaka_spec.v
theories/Tanaka_proofs.v
theories/Tanaka_props.v
theories/Tatoeba_model.v
theories/Tatoeba_spec.v
theories/Tatoeba_proofs.v
theories/Tatoeba_props.v
theories/Misc_model.v
theories/Misc_spec.v
theories/Misc_proofs.v
theories/Misc_props.v
theories/Layout_model.v
theories/Layout_spec.v
theories/Layout_proofs.v
theories/Layout_props.v
theories/Show_model.v
theories/Show_spec.v
theories/Show_proofs.v
theories/Show_props.v
theories/Corpus_model.v
theories/Corpus_spec.v
theories/Corpus_proofs.v
theories/Corpus_props.v
theories/RegexSyntax.v
theories/RegexSyntax_proofs.v
theories/RegexSem.v
theories/RegexSem_proofs.v
theories/Patterns_model.v
theories/Patterns_spec.v
theories/Patterns_proofs.v
theories/Patterns_props.v
theories/TreeEq_spec.v
theories/TreeEq_proofs.v
theories/TreeEq_props.v
theories/MemoRec_model.v
theories/MemoRec_spec.v
theories/MemoRec_proofs.v
theories/MemoRec_props.v
theories/TreeFrame_spec.v
theories/TreeFrame_proofs.v
theories/TreeFrame_props.v
theories/LoadRst_model.v
theories/LoadRst_spec.v
theories/LoadRst_proofs.v
theories/LoadRst_props.v
theories/FormatLang_spec.v
theories/FormatLang_proofs.v
theories/FormatLang_props.v
theories/RepoTests_core.v
theories/RepoTests_dicts.v
theories/RepoTests_radk.v
theories/RepoTests_tree.v
theories/RepoTests_place.v
theories/RepoTests_pinyin.v
theories/RepoTests_kanjidic.v
theories/RepoTests_tatoeba.v
theories/CsvLang_spec.v
theories/CsvLang_proofs.v
theories/CsvLang_props.v
theories/KanjidicLang_spec.v
theories/KanjidicLang_proofs.v
theories/KanjidicLang_props.v
theories/Files_model.v
theories/Files_spec.v
theories/Files_proofs.v
theories/Files_props.v
theories/SplitFiles_model.v
theories/SplitFiles_proofs.v
theories/SplitFiles_props.v
theories/Links_spec.v
theories/Links_proofs.v
theories/Links_props.v
theories/Procs_model.v
theories/Procs_spec.v
theories/Procs_proofs.v
theories/Procs_props.v
theories/Compare_model.v
theories/Compare_spec.v
theories/Compare_proofs.v
theories/Compare_props.v
theories/Threads_model.v
theories/Threads_spec.v
theories/Threads_proofs.v
theories/Threads_props.v
theories/Alias_model.v
theories/Alias_spec.v
theories/Alias_proofs.v
theories/Alias_props.v
theories/Encoding_model.v
theories/Encoding_spec.v
theories/Utf8_proofs.v
theories/Encoding_proofs.v
theories/Encoding_props.v
theories/Share_model.v
theories/Share_spec.v
theories/Share_proofs.v
theories/Share2_proofs.v
theories/Share_props.v
theories/Session_model.v
theories/Session_spec.v
theories/Session_proofs.v
theories/Session_props.v
theories/Python2_model.v
theories/Python2_spec.v
theories/Python2_proofs.v
theories/Python2_props.v
theories/Written_spec.v
theories/Written_proofs.v
theories/Written_props.v
theories/DictBytes_model.v
theories/DictBytes_spec.v
theories/DictBytes_proofs.v
theories/DictBytes_props.v
theories/ClassCache_model.v
theories/ClassCache_spec.v
theories/ClassCache_proofs.v
theories/ClassCache_props.v
theories/Imports_model.v
theories/Imports_spec.v
theories/Imports_proofs.v
theories/Imports_props.v
theories/Command_model.v
theories/Command_spec.v
theories/Command_proofs.v
theories/Command_props.v
theories/Float_model.v
theories/Float_spec.v
theories/Float_proofs.v
theories/Float_props.v
theories/Messages_model.v
theories/Messages_spec.v
theories/Messages_proofs.v
theories/Messages_props.v
theories/CacheThreads_model.v
theories/CacheThreads_spec.v
theories/CacheThreads_proofs.v
theories/CacheThreads_props.v
theories/TreeEdit_model.v
theories/TreeEdit_spec.v
theories/TreeEdit_proofs.v
theories/TreeEdit_proofs2.v
theories/TreeEdit_proofs3.v
theories/TreeEdit_props.v
theories/CacheNest_model.v
theories/CacheNest_spec.v
theories/CacheNest_proofs.v
theories/CacheNest_props.v
theories/Setup_model.v
theories/Setup_spec.v
theories/Setup_proofs.v
theories/Setup_props.v
theories/FileLife_model.v
theories/FileLife_spec.v
theories/FileLife_proofs.v
theories/FileLife_props.v
theories/LineLife_model.v
theories/LineLife_spec.v
theories/LineLife_proofs.v
theories/LineLife_props.v
theories/Interrupt_model.v
theories/Interrupt_spec.v
theories/Interrupt_proofs.v
theories/Interrupt_props.v
theories/PlaceTorn_model.v
theories/PlaceTorn_spec.v
theories/PlaceTorn_proofs.v
theories/PlaceTorn_props.v
theories/Objects_model.v
theories/Objects_spec.v
theories/Objects_proofs.v
theories/Objects_props.v
theories/PruneAsk_model.v
theories/PruneAsk_spec.v
theories/PruneAsk_proofs.v
theories/PruneAsk_props.v
theories/CountAsk_model.v
theories/CountAsk_spec.v
theories/CountAsk_proofs.v
theories/CountAsk_props.v
theories/Reload_model.v
theories/Reload_spec.v
theories/Reload_proofs.v
theories/Reload_props.v
theories/Order_spec.v
theories/Order_proofs.v
theories/Order_props.v
theories/Live_model.v
theories/Live_spec.v
theories/Live_proofs.v
theories/Live_props.v
theories/Said_model.v
theories/Said_spec.v
theories/Said_proofs.v
theories/Said_props.v
theories/Digits_model.v
theories/Digits_spec.v
theories/Digits_proofs.v
theories/Digits_props.v
theories/Dialect_model.v
theories/Dialect_spec.v
theories/Dialect_proofs.v
theories/Dialect_props.v
theories/Overflow_model.v
theories/Overflow_proofs.v
theories/Overflow_props.v
theories/Wild_model.v
theories/Wild_spec.v
theories/Wild_proofs.v
theories/Wild_props.v
theories/Depth_spec.v
theories/Depth_proofs.v
theories/Depth_props.v
theories/WildTable_model.v
theories/WildTable_spec.v
theories/WildTable_props.v
theories/DictEq_model.v
theories/DictEq_spec.v
theories/DictEq_proofs.v
theories/DictEq_props.v
theories/LoadEq_proofs.v
theories/LoadEq_props.v
