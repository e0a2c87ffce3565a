(* Patterns_model.v -- the texts of the regular expressions compiled in
   /repo/cjktools, as Python sees them after its own string escapes. *)
From Verif Require Import Base PyStr Regex Scripts_model.

(* alternations.py:171 *)
Definition long_finder_text : str := u "(?<=[\u3041-\u3096])ー".
(* what it compiles to (Alternations_model.long_finder computes its matches directly) *)
Definition long_re : re := Seq (Behind (fun p => (0x3041 <=? p) && (p <=? 0x3096))) (Chr (isc long_vowel_mark)).
(* auto_format.py:53-75; in the plain strings of that file \t is a tab, \\ one
   backslash, and \[ stays as it is *)
Definition edict_header : str := u "^.？？？.*$".
Definition edict_line : str := u "^(?P<word>[^ ]+) (\[(?P<reading>[^\]]+)\] )?(?P<senses>.*)$".
Definition edict_sense : str := u "/(?P<sense>[^/]+)".
Definition jc_header : str := u "^FORMAT jc_kdic$".
Definition jc_line : str := u "^(?P<word>[^ ]+) \[(?P<reading>[^\]]+)\]" ++ [9] ++ u "(?P<senses>.*)$".
Definition jc_sense : str := u "(?P<sense>[^，]+)[，]?".
Definition cj_header : str := u "^FORMAT cj_kdic$".
Definition cj_line : str := u "^(?P<word>[^" ++ [9] ++ u "]+)" ++ [9] ++ u "(?P<reading>[^\\]+)\\n(?P<senses>.*)$".
Definition cj_sense : str := u "([１２３４５７８９０]+．)?(?P<sense>[^\\]+)(\\n)?".
Definition cedict_header : str := u "^# CEDICT.*$".
Definition cedict_line : str := u "^[^ ]+ (?P<word>[^ ]+) (\[(?P<reading>[^\]]+)\])?(?P<senses>.*)".
Definition cedict_sense : str := u "/(?P<sense>[^/]+)".
(* kanjidic.py:137 *)
Definition segment_text : str := u "[^ {]+|{.*?}".
(* split_by_codes.py:62-65 *)
Definition code_text : str := u "\(([a-zA-Z0-9,-]+)\)".
(* tatoeba.py:421-426  adjacent string literals are joined *)
Definition word_text : str :=
  u "(?P<headword>[^\(\[\{\|\~]+)" ++ u "(?:\((?P<reading>[^\)]+)\))?" ++ u "(?:\|\d+)?" ++
  u "(?:\[(?P<sense>[\d]+)\])?" ++ u "(?:\{(?P<display>[^\}]+)\})?" ++ u "(?:(?P<example>\~))?$".
(* pinyin_table.py:111-116  PinyinSegmenter.__init__: base_pattern and
   string_pattern, from the text of zhuyin_table.pinyin_regex_pattern *)
Definition single_text (pinyin_pattern : str) : str := u "(" ++ pinyin_pattern ++ u "|" ++ u "#" ++ u ")".
Definition string_text (pinyin_pattern : str) : str := u "(" ++ single_text pinyin_pattern ++ u ")+".
