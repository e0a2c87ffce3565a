(* RepoTests_pinyin.v -- test_zhuyin_table.py and test_pinyin_table.py of
   /repo/cjktools/tests/resources run on the model: checks on single inputs; no
   property rests on them.  The rows stand for the files of the separate data package. *)
From Verif Require Import Base PyText Regex Pinyin_model RepoTests_core.

(** a line with its end *)
Definition ln (s : str) : str := s ++ [10].
Definition low (s : str) : str := map (fun c => if (65 <=? c) && (c <=? 90) then c + 32 else c) s.
Definition data : list str := [ln (u "ㄔㄚ cha"); ln (u "ㄅㄟ bei"); ln (u "ㄐㄧㄥ jing"); ln (u "ㄉㄚ da"); u "ㄒㄩㄝ xue"].
(* test_zhuyin_table.py:31-41 *)
Example test_tables :
  (do d <- zhuyin_to_pinyin_table data; dgetitem d (u "ㄔㄚ")) = Ok (u "cha") /\
  (do d <- pinyin_to_zhuyin_table data; dgetitem d (u "cha")) = Ok (u "ㄔㄚ").
Proof. vm_compute; split; reflexivity. Qed.
(* test_zhuyin_table.py:43-50: the pattern text made into "^(..)+$" *)
Example test_pinyin_parsing :
  pinyin_regex_pattern data = Ok (u "(jing|cha|bei|xue|da|r)([0-5]?)") /\
  let pattern l := Seq (Plus (Grp [9] (Seq (Grp g1 (alts (sorted_len l))) (Grp g2 (Opt (Chr digit05)))))) Eol in
  ok_and (fun l => match match_ (pattern l) (u "gdaymatehowsitgoing") with None => true | _ => false end &&
                   match match_ (pattern l) (u "beijingdaxue") with Some _ => true | None => false end) (get_all_pinyin data) = true.
Proof. split; vm_compute; reflexivity. Qed.

(* ---------------- test_pinyin_table.py ---------------- *)
(** the rows of the zhuyin table and of the hanzi table which the tests use *)
Definition zhuyin_rows : list str := map (fun p => ln (u "ㄅ " ++ p))
  [u "yi"; u "dai"; u "feng"; u "liu"; u "bao"; u "li"; u "quan"; u "cheng"; u "zhe"; u "wei"; u "wang"; u "lü"; u "wo"; u "shang";
   u "da"; u "xue"; u "ge"; u "jin"; u "er"; u "xu"; u "qi"; u "bu"; u "de"; u "ni"; u "niu"; u "xia"; u "wu"; u "hao"; u "lai"; u "tai"; u "u"; u "e"; u "an"; u "ling"].
Definition hanzi_rows : list str := map ln [u "一 yi1"; u "代 dai4"; u "风 feng1"; u "流 liu2"].
Definition with_seg {A} (f : re -> res A) : res A := do seg <- new_segmenter zhuyin_rows; f seg.
(* test_pinyin_table.py:24-27 *)
Example test_pinyin_table :
  with_seg (fun seg => do t <- load_table hanzi_rows []; from_hanzi low seg t (u "一代风流") true true) = Ok (u "yīdàifēnglíu").
Proof. vm_compute; reflexivity. Qed.
(* test_pinyin_table.py:29-35 *)
Example test_ascii_pinyin :
  with_seg (fun seg => mapM (from_ascii low seg) [u "bao1li2 quan3"; u "cheng2zhewei2wang2"; u "lü1"]) =
  Ok [u "bāolíqǔan"; u "chéngzhewéiwáng"; u "lǖ"].
Proof. vm_compute; reflexivity. Qed.
(* test_pinyin_table.py:37-65 *)
Example test_pinyin_segmenter :
  with_seg (fun seg => mapM (segment_pinyin low seg)
    [u "woshangdaxue"; u "wo1shang2da3xue4"; u "cheng2zhewei2wang2"; u "yi1ge4jin4r"; u "yi1lü4xu"; u "shangqi3bu4"]) =
  Ok [[(u "wo", 0); (u "shang", 0); (u "da", 0); (u "xue", 0)];
      [(u "wo", 1); (u "shang", 2); (u "da", 3); (u "xue", 4)];
      [(u "cheng", 2); (u "zhe", 0); (u "wei", 2); (u "wang", 2)];
      [(u "yi", 1); (u "ge", 4); (u "jin", 4); (u "er", 0)];
      [(u "yi", 1); (u "lü", 4); (u "xu", 0)];
      [(u "shang", 0); (u "qi", 3); (u "bu", 4)]].
Proof. vm_compute; reflexivity. Qed.
(* test_pinyin_table.py:81-92 *)
Example test_strip_tones :
  with_seg (fun seg => mapM (strip_tones low seg) [u "xia4wu3hao3"; u "xia4bu4lai2tai2"; u "Xia4bu4Lai2tai2"; u "yi1lü4"]) =
  Ok [u "xiawuhao"; u "xiabulaitai"; u "xiabulaitai"; u "yilü"].
Proof. vm_compute; reflexivity. Qed.
