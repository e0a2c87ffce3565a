(* Imports_model.v -- importing the modules of the installed package: the
   statements at the top level of every file of /repo/cjktools that setup.py:60
   installs, Python's import statement, and the requirements of setup.py.

   A module is executed when it is first imported.  Of its statements only the
   imports can fail: that the tables the others build exist is proved elsewhere
   (Scripts_proofs.v, Alternations_proofs.v, C82).  A dotted name is the list of
   its components.  Modules from outside the package either are there with the
   names listed here or are not there. *)
From Verif Require Import Base.

Notation modname := (list (list Z)) (only parsing).
Inductive stmt :=
| Import (m : modname)                                        (* import m *)
| From (level : nat) (m : modname) (names : list (str * str)) (* from ..m import n as k *)
| Try (s t : stmt)                                            (* try: s  except ImportError: t *)
| Bind (n : str).                                             (* def n, class n, n = ... *)
Definition plain (names : list str) : list (str * str) := map (fun n => (n, n)) names.

(* __init__.py:13 *)
Definition body_pkg_cjktools : list stmt :=
  [Bind (u "__all__")].
(* alternations.py:12-22 *)
Definition body_alternations : list stmt :=
  [From 0%nat [u "__future__"] (plain [u "unicode_literals"]); From 0%nat [u "cjktools"] (plain [u "kana_table"]);
   From 0%nat [u "cjktools"] (plain [u "scripts"]); From 0%nat [u "cjktools"] (plain [u "maps"]); From 0%nat [u "six"] [(u "unichr", u "chr")];
   From 0%nat [u "six"] (plain [u "iteritems"]); Import [u "re"]; From 0%nat [u "itertools"] (plain [u "product"]); Bind (u "_sokuon_map");
   Bind (u "_onbin_map"); Bind (u "canonical_forms"); Bind (u "canonical_segment_forms"); Bind (u "surface_forms"); Bind (u "rendaku_variants");
   Bind (u "onbin_variants"); Bind (u "_create_voicing_map"); Bind (u "to_voiced"); Bind (u "from_voiced"); Bind (u "from_voiced");
   Bind (u "insert_duplicate_kanji"); Bind (u "_long_finder"); Bind (u "expand_long_vowels")].
(* common.py:11-16, 109-112 *)
Definition body_common : list stmt :=
  [Import [u "sys"]; Import [u "codecs"]; Import [u "bz2"]; Import [u "gzip"]; Import [u "six"]; Bind (u "filter_comments"); Bind (u "sopen");
   Bind (u "stream_codec"); Bind (u "get_stream_context"); Bind (u "_NullContextWrapper");
   Try (From 0%nat [u "contextlib"] [(u "ExitStack", u "_ExitStack")]) (From 0%nat [u "contextlib2"] [(u "ExitStack", u "_ExitStack")])].
(* errors.py:10 *)
Definition body_errors : list stmt :=
  [Bind (u "AbstractMethodError"); Bind (u "NotYetImplementedError"); Bind (u "NotEnoughDataError"); Bind (u "DomainError")].
(* kana_table.py:11-16 *)
Definition body_kana_table : list stmt :=
  [From 0%nat [u "__future__"] (plain [u "unicode_literals"]); Import [u "copy"]; From 0%nat [u "six"] (plain [u "iteritems"]);
   Import [u "unicodedata"]; Bind (u "small_kana"); Bind (u "n_kana"); Bind (u "KanaTable")].
(* maps.py:12-13 *)
Definition body_maps : list stmt :=
  [From 0%nat [u "itertools"] (plain [u "chain"]); From 0%nat [u "six"] (plain [u "iteritems"]); Bind (u "chain_mapping"); Bind (u "invert_mapping");
   Bind (u "is_injective"); Bind (u "invert_injective_mapping"); Bind (u "map_dict"); Bind (u "multi_dict"); Bind (u "procmap");
   Bind (u "merge_dicts"); Bind (u "partial_map"); Bind (u "filtered_map")].
(* scripts.py:12-17 *)
Definition body_scripts : list stmt :=
  [From 0%nat [u "__future__"] (plain [u "unicode_literals"]); From 0%nat [u "enum"] (plain [u "Enum"]);
   From 0%nat [u "six"] (plain [u "unichr"; u "text_type"; u "iteritems"]); From 0%nat [u "six"; u "moves"] (plain [u "range"]); Bind (u "Script");
   Bind (u "_known_bands"); Bind (u "_inter_kana_distance"); Bind (u "ScriptMapping"); Bind (u "to_hiragana"); Bind (u "to_katakana");
   Bind (u "_mapped_chars"); Bind (u "_to_ascii"); Bind (u "normalize_ascii"); Bind (u "_full_width_kana"); Bind (u "normalize_kana");
   Bind (u "normalize"); Bind (u "get_script"); Bind (u "compare_kana"); Bind (u "contains_script"); Bind (u "script_type");
   Bind (u "script_boundaries"); Bind (u "script_types"); Bind (u "unique_kanji")].
(* smart_cache.py:11-18 *)
Definition body_smart_cache : list stmt :=
  [Import [u "types"]; Import [u "os"]; From 0%nat [u "os"] (plain [u "path"]); From 0%nat [u "six"] (plain [u "string_types"]);
   From 0%nat [u "six"; u "moves"] [(u "cPickle", u "pickle")]; From 1%nat [] (plain [u "common"]); Bind (u "disk_proxy_direct");
   Bind (u "disk_proxy"); Bind (u "memory_proxy"); Bind (u "try_cache"); Bind (u "store_cache_object"); Bind (u "needs_update");
   Bind (u "_get_module_dependencies")].
(* resources/__init__.py:13 *)
Definition body_pkg_resources : list stmt :=
  [Bind (u "__all__")].
(* resources/auto_format.py:11-13 *)
Definition body_auto_format : list stmt :=
  [From 0%nat [u "__future__"] (plain [u "unicode_literals"]); From 1%nat [u "dict_format"] (plain [u "RegexFormat"; u "UnknownFormatError"]);
   Bind (u "detect_format"); Bind (u "load_dictionary"); Bind (u "iter_entries"); Bind (u "known_formats")].
(* resources/bilingual_dict.py:11-15 *)
Definition body_bilingual_dict : list stmt :=
  [From 0%nat [u "enum"] (plain [u "Enum"]); From 0%nat [u "cjktools"; u "errors"] (plain [u "NotYetImplementedError"]); Import [u "six"];
   From 0%nat [u "six"] (plain [u "text_type"]); Bind (u "ClashPolicy"); Bind (u "BilingualDictionary"); Bind (u "DictionaryEntry")].
(* resources/cjkdata.py:7-7 *)
Definition body_cjkdata : list stmt :=
  [From 0%nat [u "os"] (plain [u "path"; u "environ"]); Bind (u "SEARCH_PATHS"); Bind (u "find_path"); Bind (u "get_resource");
   Bind (u "MissingCJKDataError")].
(* resources/dict_format.py:14-19 *)
Definition body_dict_format : list stmt :=
  [From 0%nat [u "__future__"] (plain [u "unicode_literals"]); Import [u "re"];
   From 0%nat [u "cjktools"; u "errors"] (plain [u "NotYetImplementedError"]);
   From 1%nat [u "bilingual_dict"] (plain [u "BilingualDictionary"; u "DictionaryEntry"]); Bind (u "UnknownFormatError"); Bind (u "FormatError");
   Bind (u "DuplicateEntryError"); Bind (u "DictionaryFormat"); Bind (u "RegexFormat")].
(* resources/kanji_list.py:11-16 *)
Definition body_kanji_list : list stmt :=
  [Import [u "os"]; Import [u "codecs"]; From 0%nat [u "cjktools"] (plain [u "scripts"]); From 1%nat [] (plain [u "cjkdata"]); Bind (u "get_lists");
   Bind (u "get_list")].
(* resources/kanjidic.py:10-21 *)
Definition body_kanjidic : list stmt :=
  [From 0%nat [u "__future__"] (plain [u "unicode_literals"]); Import [u "re"]; From 0%nat [u "itertools"] (plain [u "chain"]);
   From 0%nat [u "cjktools"] (plain [u "scripts"]); From 0%nat [u "cjktools"; u "common"] (plain [u "sopen"]);
   From 0%nat [u "cjktools"; u "common"] [(u "_ExitStack", u "ExitStack")]; From 0%nat [u "functools"] (plain [u "reduce"]);
   From 1%nat [] (plain [u "cjkdata"]); Bind (u "basic_features"); Bind (u "remappings"); Bind (u "KanjidicEntry"); Bind (u "Kanjidic");
   Bind (u "_cached_kanjidic")].
(* resources/languages.py:11-11 *)
Definition body_languages : list stmt :=
  [From 0%nat [u "cjktools"; u "maps"] (plain [u "invert_injective_mapping"]); Bind (u "to_one_char_code"); Bind (u "from_one_char_code");
   Bind (u "to_two_char_code"); Bind (u "from_two_char_code")].
(* resources/pinyin_table.py:11-17 *)
Definition body_pinyin_table : list stmt :=
  [From 0%nat [u "__future__"] (plain [u "unicode_literals"]); Import [u "re"]; Import [u "codecs"]; From 1%nat [] (plain [u "zhuyin_table"]);
   From 1%nat [] (plain [u "cjkdata"]); Bind (u "vowels"); Bind (u "consonants"); Bind (u "tone_to_vowels"); Bind (u "_cached_pinyin_table");
   Bind (u "_cached_pinyin_segmenter"); Bind (u "PinyinFormatError"); Bind (u "PinyinTable"); Bind (u "PinyinSegmenter"); Bind (u "normalize");
   Bind (u "get_pinyin_table"); Bind (u "get_pinyin_segmenter")].
(* resources/place.py:10-17 *)
Definition body_place : list stmt :=
  [From 0%nat [u "__future__"] (plain [u "unicode_literals"; u "print_function"]); Import [u "random"];
   From 0%nat [u "cjktools"; u "common"] (plain [u "sopen"]); From 0%nat [u "six"] (plain [u "string_types"; u "text_type"; u "iteritems"]);
   Import [u "six"]; Bind (u "Place")].
(* resources/radkdict.py:12-19 *)
Definition body_radkdict : list stmt :=
  [Import [u "sys"]; From 0%nat [u "cjktools"] (plain [u "maps"]);
   From 0%nat [u "cjktools"; u "common"] (plain [u "get_stream_context"; u "stream_codec"]); From 1%nat [] (plain [u "cjkdata"]);
   From 0%nat [u "six"] (plain [u "text_type"]); Bind (u "_default_stream"); Bind (u "RadkDict"); Bind (u "print_radicals")].
(* resources/split_by_codes.py:7-13 *)
Definition body_split_by_codes : list stmt :=
  [Import [u "re"]; From 0%nat [u "collections"] (plain [u "defaultdict"]); Import [u "six"];
   From 0%nat [u "cjktools"; u "common"] [(u "_NullContextWrapper", u "NullContextWrapper")];
   From 1%nat [u "auto_format"] (plain [u "iter_entries"]); Bind (u "load_coded_dictionary"); Bind (u "iter_coded_entries");
   Bind (u "_code_pattern"); Bind (u "_known_codes"); Bind (u "get_codes")].
(* resources/tatoeba.py:15-26 *)
Definition body_tatoeba : list stmt :=
  [Import [u "re"]; Import [u "itertools"]; From 0%nat [u "datetime"] (plain [u "datetime"]);
   From 0%nat [u "collections"] (plain [u "defaultdict"; u "Mapping"]); From 0%nat [u "six"] (plain [u "raise_from"; u "iteritems"]);
   From 0%nat [u "six"] (plain [u "PY2"]); Import [u "csv"]; From 0%nat [u "cjktools"; u "common"] (plain [u "sopen"; u "_NullContextWrapper"]);
   Bind (u "TatoebaDict"); Bind (u "TatoebaReader"); Bind (u "TatoebaSentenceReader"); Bind (u "TatoebaLinksReader"); Bind (u "TanakaWord");
   Bind (u "TatoebaIndexReader"); Bind (u "MissingDataError"); Bind (u "InvalidFileError"); Bind (u "InvalidIDError"); Bind (u "InvalidEntryError")].
(* resources/tree.py:11-13 *)
Definition body_tree : list stmt :=
  [From 0%nat [u "random"] (plain [u "shuffle"]); Import [u "six"]; Bind (u "TreeNode"); Bind (u "TreeDist")].
(* resources/zhuyin_table.py:11-14 *)
Definition body_zhuyin_table : list stmt :=
  [From 0%nat [u "functools"] (plain [u "partial"]); From 1%nat [] (plain [u "cjkdata"]);
   From 0%nat [u "cjktools"; u "common"] (plain [u "get_stream_context"; u "stream_codec"]); Bind (u "_default_stream");
   Bind (u "_get_stream_context"); Bind (u "parse_lines"); Bind (u "zhuyin_to_pinyin_table"); Bind (u "pinyin_to_zhuyin_table");
   Bind (u "get_all_pinyin"); Bind (u "pinyin_regex_pattern"); Bind (u "zhuyin_regex_pattern")].
Definition source : list (list str * list stmt) :=
  [([u "cjktools"], body_pkg_cjktools);
   ([u "cjktools"; u "alternations"], body_alternations);
   ([u "cjktools"; u "common"], body_common);
   ([u "cjktools"; u "errors"], body_errors);
   ([u "cjktools"; u "kana_table"], body_kana_table);
   ([u "cjktools"; u "maps"], body_maps);
   ([u "cjktools"; u "scripts"], body_scripts);
   ([u "cjktools"; u "smart_cache"], body_smart_cache);
   ([u "cjktools"; u "resources"], body_pkg_resources);
   ([u "cjktools"; u "resources"; u "auto_format"], body_auto_format);
   ([u "cjktools"; u "resources"; u "bilingual_dict"], body_bilingual_dict);
   ([u "cjktools"; u "resources"; u "cjkdata"], body_cjkdata);
   ([u "cjktools"; u "resources"; u "dict_format"], body_dict_format);
   ([u "cjktools"; u "resources"; u "kanji_list"], body_kanji_list);
   ([u "cjktools"; u "resources"; u "kanjidic"], body_kanjidic);
   ([u "cjktools"; u "resources"; u "languages"], body_languages);
   ([u "cjktools"; u "resources"; u "pinyin_table"], body_pinyin_table);
   ([u "cjktools"; u "resources"; u "place"], body_place);
   ([u "cjktools"; u "resources"; u "radkdict"], body_radkdict);
   ([u "cjktools"; u "resources"; u "split_by_codes"], body_split_by_codes);
   ([u "cjktools"; u "resources"; u "tatoeba"], body_tatoeba);
   ([u "cjktools"; u "resources"; u "tree"], body_tree);
   ([u "cjktools"; u "resources"; u "zhuyin_table"], body_zhuyin_table)].
(* __init__.py:13-23 and resources/__init__.py:13-26 *)
Definition all_names (m : modname) : list str :=
  if eqb m [u "cjktools"] then
    [u "alternations"; u "common"; u "enum"; u "exceptions"; u "kana_table"; u "maps"; u "scripts"; u "smart_cache"; u "resources"]
  else if eqb m [u "cjktools"; u "resources"] then
    [u "auto_format"; u "bilingual_dict"; u "format"; u "kanjidic"; u "kanji_list"; u "languages"; u "pinyin_table"; u "place"; u "radkdict";
     u "split_by_codes"; u "tree"; u "zhuyin_table"]
  else [].
Definition packages : list modname := [[u "cjktools"]; [u "cjktools"; u "resources"]].

(** ** Versions and requirements *)
Record version := { major : Z; minor : Z; micro : Z }.
(** sys.version_info < (a, b, c): two more components follow in version_info *)
Definition before (v : version) (a b c : Z) : bool :=
  (major v <? a) || (major v =? a) && ((minor v <? b) || (minor v =? b) && (micro v <? c)).
(* setup.py:31-38 *)
Definition requires (v : version) : list str :=
  let r := [u "six"] in
  let r := if before v 3 4 0 then r ++ [u "enum34"] else r in
  if before v 3 3 0 then r ++ [u "contextlib2>=0.5.3"] else r.

(** ** What is outside the package *)
(** of the standard library, what has come and gone *)
Record python := { old : bool; exit_stack : bool; has_enum : bool; has_mapping : bool }.
Definition python_of (v : version) : python :=
  {| old := major v =? 2; exit_stack := negb (before v 3 3 0); has_enum := negb (before v 3 4 0); has_mapping := before v 3 10 0 |}.
Definition stdlib (p : python) : list (modname * list str) :=
  [([u "__future__"], [u "unicode_literals"; u "print_function"]); ([u "sys"], []); ([u "codecs"], []); ([u "bz2"], []); ([u "gzip"], []);
   ([u "types"], []); ([u "os"], [u "path"; u "environ"]); ([u "itertools"], [u "chain"; u "product"]); ([u "re"], []); ([u "copy"], []);
   ([u "unicodedata"], []); ([u "random"], [u "shuffle"]); ([u "datetime"], [u "datetime"]); ([u "csv"], []);
   ([u "functools"], [u "reduce"; u "partial"]);
   ([u "collections"], u "defaultdict" :: (if has_mapping p then [u "Mapping"] else []));
   ([u "contextlib"], if exit_stack p then [u "ExitStack"] else [])] ++
  (if has_enum p then [([u "enum"], [u "Enum"])] else []).
Definition site (dists : list str) : list (modname * list str) :=
  (if mem (u "six") dists then
     [([u "six"], [u "unichr"; u "iteritems"; u "string_types"; u "text_type"; u "raise_from"; u "PY2"]); ([u "six"; u "moves"], [u "cPickle"; u "range"])]
   else []) ++
  (if mem (u "enum34") dists then [([u "enum"], [u "Enum"])] else []) ++
  (if mem (u "contextlib2>=0.5.3") dists then [([u "contextlib2"], [u "ExitStack"])] else []).

(** ** The import statement *)
Section Imports.
  Variable p : python.
  Variable dists : list str.                                  (* the distributions installed *)
  Definition outside : list (modname * list str) := stdlib p ++ site dists.

  (** sys.modules, with the attributes bound so far *)
  Notation modules := (dict modname (list str)).
  Definition is_package (m : modname) : bool := mem m packages.
  Definition package_of (m : modname) : modname := if is_package m then m else removelast m.
  (** Python 2 looks beside the importing module first *)
  Definition resolve (m x : modname) : modname :=
    match x with
    | h :: _ => if old p && dmem (package_of m ++ [h]) source then package_of m ++ x else x
    | [] => x
    end.
  Definition inside (x : modname) : bool := match x with h :: _ => eqb h (u "cjktools") | [] => false end.
  Definition bind_name (m : modname) (n : str) (w : modules) : modules :=
    match dget m w with Some a => dset m (a ++ [n]) w | None => w end.
  Definition attr (w : modules) (m : modname) (n : str) : bool := match dget m w with Some a => mem n a | None => false end.
  Fixpoint prefixes_from (done : modname) (x : modname) : list modname :=
    match x with [] => [] | h :: r => (done ++ [h]) :: prefixes_from (done ++ [h]) r end.

  Section Step.
    Variable load : modules -> modname -> modules * res unit.
    Fixpoint load_all (l : list modname) (w : modules) : modules * res unit :=
      match l with
      | [] => (w, Ok tt)
      | m :: l => match load w m with (w, Ok _) => load_all l w | (w, Raise e) => (w, Raise e) end
      end.
    (** import x: the packages it is in, then itself *)
    Definition import_ (x : modname) (w : modules) : modules * res unit :=
      if inside x then load_all (prefixes_from [] x) w
      else (w, if dmem x outside then Ok tt else Raise ImportError).
    (** the name n of the module x, which may be a module in it *)
    Definition import_name (x : modname) (n : str) (w : modules) : modules * res unit :=
      if inside x then if attr w x n then (w, Ok tt) else if is_package x then import_ (x ++ [n]) w else (w, Raise ImportError)
      else (w, if match dget x outside with Some a => mem n a | None => false end then Ok tt else Raise ImportError).
    Fixpoint import_names (m x : modname) (names : list (str * str)) (w : modules) : modules * res unit :=
      match names with
      | [] => (w, Ok tt)
      | (n, k) :: names =>
          match import_name x n w with
          | (w, Ok _) => import_names m x names (bind_name m k w)
          | (w, Raise e) => (w, Raise e)
          end
      end.
    (** a statement of module m *)
    Fixpoint exec (m : modname) (s : stmt) (w : modules) : modules * res unit :=
      match s with
      | Bind n => (bind_name m n w, Ok tt)
      | Import x =>
          match import_ (resolve m x) w with
          | (w, Ok _) => (bind_name m (hd [] x) w, Ok tt)
          | (w, Raise e) => (w, Raise e)
          end
      | From level x names =>
          let x := match level with O => resolve m x | S _ => package_of m ++ x end in
          match import_ x w with
          | (w, Ok _) => import_names m x names w
          | (w, Raise e) => (w, Raise e)
          end
      | Try s t => match exec m s w with (w, Raise ImportError) => exec m t w | o => o end
      end.
    Fixpoint exec_all (m : modname) (l : list stmt) (w : modules) : modules * res unit :=
      match l with
      | [] => (w, Ok tt)
      | s :: l => match exec m s w with (w, Ok _) => exec_all m l w | (w, Raise e) => (w, Raise e) end
      end.
  End Step.
  (** a module is executed when it is not in sys.modules; it is taken out again when that fails *)
  Fixpoint load (depth : nat) (w : modules) (m : modname) : modules * res unit :=
    if dmem m w then (w, Ok tt)
    else match dget m source, depth with
         | None, _ => (w, Raise ImportError)
         | Some _, O => (w, Raise RecursionError)
         | Some body, S d =>
             match exec_all (load d) m body (dset m [] w) with
             | (w, Ok _) => (bind_name (removelast m) (last m []) w, Ok tt)
             | (w, Raise e) => (ddel m w, Raise e)
             end
         end.

  Variable depth : nat.
  (** import x, and from x import *, in a program *)
  Definition import_module (x : modname) (w : modules) : modules * res unit := import_ (load depth) x w.
  Fixpoint star_submodules (x : modname) (names : list str) (w : modules) : modules * res unit :=
    match names with
    | [] => (w, Ok tt)
    | n :: names =>
        if attr w x n then star_submodules x names w
        else if dmem (x ++ [n]) source then
          match import_ (load depth) (x ++ [n]) w with (w, Ok _) => star_submodules x names w | (w, Raise e) => (w, Raise e) end
        else star_submodules x names w
    end.
  Definition import_star (x : modname) (w : modules) : modules * res unit :=
    match import_module x w with
    | (w, Ok _) =>
        match star_submodules x (all_names x) w with
        | (w, Ok _) => (w, if forallb (attr w x) (all_names x) then Ok tt else Raise AttributeError)
        | (w, Raise e) => (w, Raise e)
        end
    | (w, Raise e) => (w, Raise e)
    end.

  (** a program *)
  Inductive request := Module (x : modname) | Star (x : modname).
  Definition perform (r : request) (w : modules) : modules * res unit :=
    match r with Module x => import_module x w | Star x => import_star x w end.
  (** what a module has been asked for so far leaves behind *)
  Fixpoint session (l : list request) (w : modules) : modules :=
    match l with [] => w | r :: l => session l (fst (perform r w)) end.
End Imports.
