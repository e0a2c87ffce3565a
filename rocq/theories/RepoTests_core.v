(* RepoTests_core.v -- the project's own unit tests, /repo/cjktools/tests, run on
   the model.  These are checks that the model computes what the authors expect
   of the code, on single inputs; no property rests on them.  Names follow the
   test methods. *)
From Verif Require Import Base PyStr Scripts_model KanaTable_model KanaTable_spec Maps_model Alternations_model SmartCache_model.

(** equality of sets, and of dictionaries up to their order *)
Definition same_set {A} `{EqB A} (a b : list A) : bool := forallb (fun x => mem x b) a && forallb (fun x => mem x a) b.
Definition same_dict {K V} `{EqB K} (veq : V -> V -> bool) (a b : dict K V) : bool :=
  Nat.eqb (length a) (length b) &&
  forallb (fun kv => match dget (fst kv) b with Some v => veq (snd kv) v | None => false end) a.
Definition ok_and {A} (p : A -> bool) (r : res A) : bool := match r with Ok a => p a | Raise _ => false end.

(* ---------------- test_scripts.py ---------------- *)
Definition hiragana_text : str := u "ぁあぃいぅうぇえぉおかがきぎくぐけげこごさざしじすずせぜそぞただちぢっつづてでとどなにぬねのはばぱひびぴふぶぷへべぺほぼぽまみむめもゃやゅゆょよらりるれろゎわゐゑをんゔゕゖ".
Definition katakana_text : str := u "ァアィイゥウェエォオカガキギクグケゲコゴサザシジスズセゼソゾタダチヂッツヅテデトドナニヌネノハバパヒビピフブプヘベペホボポマミムメモャヤュユョヨラリルレロヮワヰヱヲンヴヵヶ".
(* test_scripts.py:28-38 *)
Example test_fetch_scripts :
  get_script Hiragana = Ok hiragana_text /\ get_script Katakana = Ok katakana_text /\
  to_hiragana katakana_text = hiragana_text /\ to_katakana hiragana_text = katakana_text.
Proof. vm_compute; repeat split. Qed.
Definition test_script : str := u "AＡあア亜".
(* test_scripts.py:40-48 *)
Example test_script_type :
  script_type test_script = Ascii /\ map (fun c => script_type [c]) test_script = [Ascii; FullAscii; Hiragana; Katakana; Kanji].
Proof. vm_compute; repeat split. Qed.
(* test_scripts.py:50-61 *)
Example test_contains_script :
  forallb (fun s => contains_script s test_script) [Hiragana; Kanji; Ascii; Katakana] = true /\
  contains_script Ascii (tl test_script) = false /\ contains_script Kanji (removelast test_script) = false.
Proof. vm_compute; repeat split. Qed.
(* test_scripts.py:63-68 *)
Example test_compare_kana :
  compare_kana (u "Aあア亜") (u "Aアあ亜") = 0 /\ compare_kana (u "あAア亜") (u "アあ亜A") <> 0.
Proof. split; vm_compute; congruence. Qed.
(* test_scripts.py:70-82 *)
Example test_normalize_ascii :
  let full := u "ｋｌｉｎｇｏｎｓ　ｏｎ　ｔｈｅ　ｓｔａｒｂｏａｒｄ　ｂｏｗ！＠＃＆＊（）？，。；＋＝""" in
  let half := u "klingons on the starboard bow!@#&*()?,.;+=""" in
  length full = length half /\ map (fun c => normalize_ascii [c]) full = map (fun c => [c]) half.
Proof. vm_compute; split; reflexivity. Qed.
(* test_scripts.py:84-91 *)
Example test_normalize_kana : normalize_kana (u "ｶｷｸｹｺ") = Ok (u "カキクケコ").
Proof. vm_compute; reflexivity. Qed.
Example test_normalize : normalize (u "Aあア阿ｱＡ") = Ok (u "Aあア阿アA").
Proof. vm_compute; reflexivity. Qed.
Example test_script_type_empty : script_type [] = Unknown.
Proof. reflexivity. Qed.

(* ---------------- test_kana_table.py ---------------- *)
(* test_kana_table.py:25-31 *)
Example test_get_coords :
  get_coords kana_rows (u "ち") = Ok (u "た", u "い") /\ get_coords kana_rows (u "ぷ") = Ok (u "ぱ", u "う") /\
  get_coords kana_rows (u "お") = Ok (u "あ", u "お").
Proof. vm_compute; repeat split. Qed.
(* test_kana_table.py:33-46 *)
Example test_vowel_line :
  map (fun c => to_vowel_line kana_rows [c]) (u "ごもさあぎわ") =
  map (fun c => Ok (Some [c])) (u "おおああいあ") /\ to_consonant_line kana_rows (u "わ") = None.
Proof. vm_compute; split; reflexivity. Qed.
(* test_kana_table.py:48-52 *)
Example test_from_coords : from_coords kana_rows (u "か") (u "お") = Ok (u "こ") /\ from_coords kana_rows (u "ぱ") (u "え") = Ok (u "ぺ").
Proof. vm_compute; split; reflexivity. Qed.
(* test_kana_table.py:54-82 *)
Example test_is_voiced :
  forallb (is_voiced kana_ucd) ([u "ほ" ++ [0x309a]; u "う" ++ [0x3099]; u "し" ++ [0x3099]; u "ま" ++ [0x3099]] ++ map (fun c => [c]) (u "ばだゔざぱ")) = true /\
  existsb (is_voiced kana_ucd) (map (fun c => [c]) (u "はしもにちゃ")) = false.
Proof. vm_compute; split; reflexivity. Qed.
Example test_is_semivoiced :
  forallb (is_semivoiced kana_ucd) ((u "ほ" ++ [0x309a]) :: map (fun c => [c]) (u "ぱぽぺぴぷパペピプポ")) = true /\
  existsb (is_semivoiced kana_ucd) ((u "ほ" ++ [0x3099]) :: map (fun c => [c]) (u "まかにじばぼびサツズシホハABCç")) = false.
Proof. vm_compute; split; reflexivity. Qed.

(* ---------------- test_alternations.py ---------------- *)
Definition pairs2 (a b : list str) : list (list str) := flat_map (fun x => map (fun y => [x; y]) b) a.
(* test_alternations.py:27-33, 75-81 *)
Example test_canonical_forms :
  ok_and (same_set (pairs2 (map (fun c => u "ゆ" ++ [c]) (u "いちりきつくっ")) [u "くり"; u "ぐり"]))
    (canonical_forms kana_ucd [u "ゆっ"; u "ぐり"]) = true /\
  ok_and (same_set (pairs2 (map (fun c => u "ユ" ++ [c]) (u "イチリキツクッ")) [u "クリ"; u "グリ"]))
    (canonical_forms kana_ucd [u "ユッ"; u "グリ"]) = true.
Proof. vm_compute; split; reflexivity. Qed.
(* test_alternations.py:35-42, 83-90; the context flags default to False
   (alternations.py:56) *)
Example test_canonical_segment_forms :
  ok_and (same_set [u "ばり"; u "はり"]) (canonical_segment_forms kana_ucd (u "ばり") true false) = true /\
  canonical_segment_forms kana_ucd (u "わ") false false = Ok [u "わ"] /\
  ok_and (same_set [u "バリ"; u "ハリ"]) (canonical_segment_forms kana_ucd (u "バリ") true false) = true /\
  canonical_segment_forms kana_ucd (u "ワ") false false = Ok [u "ワ"].
Proof. vm_compute; repeat split. Qed.
(* test_alternations.py:44-50, 92-98 *)
Example test_canonical_segment_forms_doubling :
  ok_and (same_set [u "さい"; u "さき"; u "さく"; u "さち"; u "さっ"; u "さつ"; u "さり"]) (canonical_segment_forms kana_ucd (u "さっ") true true) = true /\
  ok_and (same_set [u "サイ"; u "サキ"; u "サク"; u "サチ"; u "サッ"; u "サツ"; u "サリ"]) (canonical_segment_forms kana_ucd (u "サッ") true true) = true.
Proof. vm_compute; split; reflexivity. Qed.
(* test_alternations.py:52-60, 100-107 *)
Example test_surface_forms :
  ok_and (same_set [[u "けい"; u "がく"]; [u "けい"; u "かく"]; [u "けっ"; u "がく"]; [u "けっ"; u "かく"]]) (surface_forms [u "けい"; u "かく"]) = true /\
  ok_and (same_set [[u "ケイ"; u "ガク"]; [u "ケイ"; u "カク"]; [u "ケッ"; u "ガク"]; [u "ケッ"; u "カク"]]) (surface_forms [u "ケイ"; u "カク"]) = true.
Proof. vm_compute; split; reflexivity. Qed.
(* test_alternations.py:62-69, 109-116, 133-147 *)
Example test_expand_long_vowels :
  map expand_long_vowels [u "すー"; u "しー"; u "かー"; u "スー"; u "シー"; u "カー"; u "ABCキーさー白い"; []] =
  map Ok [u "すう"; u "しい"; u "かあ"; u "スウ"; u "シイ"; u "カア"; u "ABCキイさあ白い"; []].
Proof. vm_compute; reflexivity. Qed.
(* test_alternations.py:120-131; the second test passes a pair of texts where a
   text is meant, here the text of its first element *)
Example test_insert_duplicate_kanji : insert_duplicate_kanji (u "孜々") = Ok (u "孜孜").
Proof. vm_compute; reflexivity. Qed.
Example test_canonical_segment_forms_ascii : canonical_segment_forms kana_ucd (u "oh") false false = Raise ValueError.
Proof. vm_compute; reflexivity. Qed.

(* ---------------- test_maps.py ---------------- *)
(* test_maps.py:22-32; the values 1.5, 3.5 as 15, 35, the keys 'a'.. as 101.. *)
Example test_chain_dicts :
  chain_mapping [[(1, 101); (2, 102); (3, 103)]; [(101, 15); (102, 35); (103, 15)]] [0%nat; 1%nat] =
  ([[(1, 101); (2, 102); (3, 103)]; [(101, 15); (102, 35); (103, 15)]; [(1, 15); (2, 35); (3, 15)]], Ok 2%nat).
Proof. vm_compute; reflexivity. Qed.
(* test_maps.py:34-41 *)
Example test_invert_dict :
  same_dict eqb (invert_mapping [(1, [1; 2; 3]); (2, [1; 3])]) [(1, [1; 2]); (2, [1]); (3, [1; 2])] = true /\
  ok_and (same_dict eqb [(u "a", 1); (u "b", 2); (u "c", 3)]) (invert_injective_mapping [(1, u "a"); (2, u "b"); (3, u "c")]) = true.
Proof. vm_compute; split; reflexivity. Qed.
(* test_maps.py:43-51 *)
Example test_map_dict :
  let sq := fun (s : unit) (x : Z) => (s, Ok (x * x)) in
  let d := [(u "a", 1); (u "b", 2); (u "c", 3)] in
  let e := [(u "a", 1); (u "b", 4); (u "c", 9)] in
  map_dict sq tt [d] 0%nat false = (tt, [d; e], Ok 1%nat) /\ map_dict sq tt [d] 0%nat true = (tt, [e], Ok 0%nat).
Proof. vm_compute; split; reflexivity. Qed.
(* test_maps.py:53-71 *)
Example test_merge_dicts :
  let heap := [u "cat"; u "dog"; set_of (u "canine"); u "bird"] in
  let '(h, r) := merge_dicts heap [[(1, 0%nat); (2, 1%nat)]; [(1, 2%nat); (3, 3%nat)]] in
  let '(h', r') := merge_dicts heap [[(1, 0%nat); (2, 1%nat)]; [(1, 0%nat); (2, 1%nat)]; [(1, 0%nat); (2, 1%nat)]] in
  let value h r k := match dget k r with Some a => fetch [] h a | None => [] end in
  same_set (value h r 1) (u "catine") = true /\ same_set (value h r 2) (u "dog") = true /\ same_set (value h r 3) (u "bird") = true /\
  dkeys r' = [1; 2] /\ same_set (value h' r' 1) (u "cat") = true /\ same_set (value h' r' 2) (u "dog") = true.
Proof. vm_compute; repeat split. Qed.
(* test_maps.py:75-115; None is falsy, the other results here are not 0 *)
Definition ten (a : Z) : list Z := map (fun i => a + i) [0; 1; 2; 3; 4; 5; 6; 7; 8; 9].
Definition truthy (o : option Z) : bool := match o with Some z => negb (z =? 0) | None => false end.
Example test_partial_map :
  partial_map (fun (s : unit) (x : Z) => (s, Ok None)) truthy tt (ten 0) = (tt, Ok ([], ten 0)) /\
  partial_map (fun (s : unit) x => (s, Ok (Some x))) truthy tt (ten 1) = (tt, Ok (map Some (ten 1), [])) /\
  partial_map (fun (s : unit) x => (s, Ok (if x mod 2 =? 0 then None else Some (x * 10)))) truthy tt (ten 10) =
    (tt, Ok (map Some [110; 130; 150; 170; 190], [10; 12; 14; 16; 18])).
Proof. vm_compute; repeat split. Qed.
(* test_maps.py:118-125 *)
Example test_multi_dict :
  same_dict eqb (multi_dict [(u "a", 2); (u "b", 3); (u "a", 4)]) [(u "a", [2; 4]); (u "b", [3])] = true /\
  multi_dict (@nil (str * Z)) = [].
Proof. vm_compute; split; reflexivity. Qed.

(* ---------------- test_smart_cache.py ---------------- *)
(* values are numbers, -1 is None, and the pickle of a number is the number and 0 *)
Definition t_dump (v : Z) : list Z * option exn := ([v; 0], None).
Definition t_load (b : list Z) : option (Z * list Z) := match b with v :: 0 :: r => Some (v, r) | _ => None end.
Definition t_none (v : Z) : bool := v =? -1.
Definition plain (_ : list Z) (b : list Z) : list Z := b.
Definition yes (_ : list Z) : bool := true.
Definition t_try := try_cache (fun l => l) Z.eqb (-1) t_load plain yes.
Definition t_store := store_cache_object t_dump plain yes.
Definition dep_file : str := u "tmp_dep_file".
Definition cache_file : str := u "tmp_cache_file".
Definition written (now : Z) : file := {| content := [now]; mtime := now |}.
(* test_smart_cache.py:44-70 *)
Example test_paired_cache :
  let st0 := [(dep_file, written 0)] in
  t_try st0 cache_file (-1) (-1) [DepPath dep_file] = Ok (-1) /\
  let (st1, r) := t_store st0 1 (10 * 3) cache_file (-1) (-1) in
  r = Ok tt /\ t_try st1 cache_file (-1) (-1) [DepPath dep_file] = Ok 30 /\
  t_try (dset dep_file (written 2) st1) cache_file (-1) (-1) [DepPath dep_file] = Ok (-1).
Proof. vm_compute; repeat split. Qed.
(* test_smart_cache.py:72-97 *)
Definition factory_method1 (w : nat * list (str * file)) (x p : Z) := ((S (fst w), snd w), Ok (x * 3)).
Example test_proxy_method :
  let go := run (fun l => l) Z.eqb (-1) t_none t_dump t_load plain plain yes yes factory_method1 cache_file [DepPath dep_file] in
  let w0 := (0%nat, [(dep_file, written 0)]) in
  let (w1, r1) := go w0 [ECall 1 2 (-1)] in
  let (w2, r2) := go w1 [ECall 1 2 (-1)] in
  let (w3, r3) := go w2 [EWrite dep_file (written 2); ECall 2 2 (-1)] in
  r1 = [Ok 6] /\ fst w1 = 1%nat /\ r2 = [Ok 6] /\ fst w2 = 1%nat /\ r3 = [Ok 6] /\ fst w3 = 2%nat.
Proof. vm_compute; repeat split. Qed.
