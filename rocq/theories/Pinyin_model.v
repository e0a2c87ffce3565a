(* Pinyin_model.v -- model of /repo/cjktools/resources/zhuyin_table.py and
   pinyin_table.py.
   A table file is the list of its lines.  [lower] is str.lower, of which the
   theorems say what they need.  A pattern is the regular expression that
   re.compile makes of the text for syllables without special characters;
   tables with others are outside the model. *)
From Verif Require Import Base PyText Regex.

(* zhuyin_table.py:23-28  parse_lines *)
Definition starts_hash (line : str) : bool := match line with c :: _ => c =? u1 "#" | [] => false end.
Definition parse_lines (istream : list str) : list (list str) :=
  map (fun line => split_ws (rstrip line)) (filter (fun line => negb (starts_hash line)) istream).
(* for zhuyin, pinyin in parse_lines(stream) *)
Fixpoint for_pairs {S} (body : S -> str -> str -> S) (rows : list (list str)) (s : S) : res S :=
  match rows with
  | [] => Ok s
  | [zhuyin; pinyin] :: r => for_pairs body r (body s zhuyin pinyin)
  | _ => Raise ValueError
  end.
(* zhuyin_table.py:31-38, 41-48 *)
Definition zhuyin_to_pinyin_table (istream : list str) : res (dict str str) :=
  for_pairs (fun table zhuyin pinyin => dset zhuyin pinyin table) (parse_lines istream) [].
Definition pinyin_to_zhuyin_table (istream : list str) : res (dict str str) :=
  for_pairs (fun table zhuyin pinyin => dset pinyin zhuyin table) (parse_lines istream) [].
(* zhuyin_table.py:51-59 *)
Definition get_all_pinyin (istream : list str) : res (list str) :=
  for_pairs (fun all_pinyin zhuyin pinyin => all_pinyin ++ [pinyin]) (parse_lines istream) [u "r"].

(* sorted(l, key=len, reverse=True): a stable sort *)
Fixpoint insert_len (w : str) (l : list str) : list str :=
  match l with
  | [] => [w]
  | x :: r => if (length x <=? length w)%nat then w :: x :: r else x :: insert_len w r
  end.
Definition sorted_len (l : list str) : list str := fold_right insert_len [] l.

(* zhuyin_table.py:62-73  pinyin_regex_pattern *)
Definition pinyin_regex_pattern (istream : list str) : res str :=
  do all_pinyin <- get_all_pinyin istream;
  Ok (u "(" ++ join (u "|") (sorted_len all_pinyin) ++ u ")([0-5]?)").
(* zhuyin_table.py:76-86  zhuyin_regex_pattern *)
Definition zhuyin_regex_pattern (istream : list str) : res str :=
  do all_pinyin <- for_pairs (fun all_pinyin zhuyin pinyin => all_pinyin ++ [pinyin]) (parse_lines istream) [];
  Ok (u "(" ++ join (u "|") all_pinyin ++ u ")[0-4]?").

(* what re.compile makes of such patterns *)
Definition plain (c : char) : bool := negb (mem c (u ".^$*+?{}[]\|()")).
Fixpoint alts (l : list str) : re :=
  match l with [] => Eps | [w] => Lit w | w :: r => Alt (Lit w) (alts r) end.
Definition digit05 (c : char) : bool := (48 <=? c) && (c <=? 53).
Definition g1 : str := [1]. Definition g2 : str := [2]. Definition g3 : str := [3].
(* pinyin_table.py:108-116  PinyinSegmenter.__init__ : "((a|b|..)([0-5]?)|#)" *)
Definition base_pattern (syllables : list str) : re :=
  Grp g1 (Alt (Seq (Grp g2 (alts (sorted_len syllables))) (Grp g3 (Opt (Chr digit05)))) (Lit (u "#"))).
Definition outside_model : exn := UserError O.
Definition new_segmenter (istream : list str) : res re :=
  do all_pinyin <- get_all_pinyin istream;
  if forallb (forallb plain) all_pinyin then Ok (base_pattern all_pinyin) else Raise outside_model.

Section Pinyin.
  Variable lower : str -> str.

  (* pinyin_table.py:143-148  normalize *)
  Definition normalize (ascii_pinyin : str) : str :=
    map (fun c => if c =? u1 "v" then u1 "ü" else c) (filter (fun c => negb (c =? u1 " ")) (lower ascii_pinyin)).

  (* pinyin_table.py:118-136  segment_pinyin *)
  Definition text_of (n : str) (m : pos) : str := match group n m with Some w => w | None => [] end.
  Definition correct (st : pos * pos) : res (str * Z) :=
    let m := snd st in
    do tone <- (match text_of g3 m with [] => Ok 0 | t => of_option ValueError (py_int ascii_dv 10 t) end);
    let pinyin := if eqb (text_of g2 m) (u "r") then u "er" else text_of g2 m in
    Ok (pinyin, tone).
  Definition segment_pinyin (single_pattern : re) (pinyin_string : str) : res (list (str * Z)) :=
    mapM correct (finditer single_pattern (normalize pinyin_string)).

  (* pinyin_table.py:138-140  is_pinyin *)
  Definition is_pinyin (single_pattern : re) (symbol_string : str) : bool :=
    match match_ (Plus single_pattern) (normalize symbol_string) with Some _ => true | None => false end.

  (* pinyin_table.py:19-27 *)
  Definition vowels : str := u "aeiouü".
  Definition tone_to_vowels : dict Z str :=
    [(0, u "aeiouü"); (1, u "āēīōūǖ"); (2, u "áéíóúǘ"); (3, u "ǎěǐǒǔǚ"); (4, u "àèìòùǜ")].
  (* s.index(c), s[i] *)
  Fixpoint index_of (c : char) (s : str) : option nat :=
    match s with [] => None | d :: r => if d =? c then Some O else option_map S (index_of c r) end.

  (* pinyin_table.py:88-104  _apply_tone *)
  Fixpoint tone_loop (tone : Z) (used_tone : bool) (results : str) (s : str) : res str :=
    match s with
    | [] => Ok results
    | c :: r =>
        if negb used_tone && mem c vowels then
          do row <- dgetitem tone_to_vowels tone;
          do i <- of_option ValueError (index_of c vowels);
          do d <- of_option IndexError (nth_error row i);
          tone_loop tone true (results ++ [d]) r
        else tone_loop tone used_tone (results ++ [c]) r
    end.
  Definition apply_tone (syllable : str) (tone : Z) : res str :=
    let tone := if tone =? 5 then 0 else tone in
    match syllable with
    | [] => Raise IndexError
    | c :: r => tone_loop tone false [c] r
    end.

  (* pinyin_table.py:71-86  from_ascii, strip_tones *)
  Definition from_ascii (seg : re) (ascii_pinyin : str) : res str :=
    do chunks <- segment_pinyin seg (normalize ascii_pinyin);
    do chunks <- mapM (fun pt => apply_tone (fst pt) (snd pt)) chunks;
    Ok (join [] chunks).
  Definition strip_tones (seg : re) (ascii_pinyin : str) : res str :=
    do chunks <- segment_pinyin seg (normalize ascii_pinyin);
    Ok (join [] (map fst chunks)).

  (* pinyin_table.py:39-51  PinyinTable.__init__, the table *)
  Fixpoint load_table (lines : list str) (table : dict str (list str)) : res (dict str (list str)) :=
    match lines with
    | [] => Ok table
    | line :: r =>
        if starts_hash line then load_table r table
        else match split_ws (rstrip line) with
             | [] => Raise IndexError
             | hanzi :: readings => load_table r (dset hanzi readings table)
             end
    end.
  (* pinyin_table.py:53-69  from_hanzi *)
  Definition from_hanzi (seg : re) (table : dict str (list str)) (hanzi_string : str) (inline use_tones : bool) : res str :=
    let inline := if use_tones then inline else false in
    do result <- mapM (fun c =>
      do numeric_reading <- of_option IndexError (nth_error (match dget [c] table with Some r => r | None => [[c]] end) 0);
      if inline then from_ascii seg numeric_reading
      else if use_tones then Ok numeric_reading
      else strip_tones seg numeric_reading) hanzi_string;
    Ok (join [] result).
End Pinyin.
