(* WildTable_model.v -- the conversions of PinyinTable
   (/repo/cjktools/resources/pinyin_table.py:53-104) through a segmenter whose syllables
   may contain characters that mean something in a regular expression. *)
From Verif Require Import Base PyText Regex RegexSyntax Pinyin_model Wild_model.

Section WildTable.
  Variable int_ : str -> option Z.
  Variable lower : str -> str.

  (* pinyin_table.py:71-80  from_ascii *)
  Definition from_ascii_any (self : segmenter) (ascii_pinyin : str) : res str :=
    let standard_form := normalize lower ascii_pinyin in
    do chunks <- segment_any int_ lower self standard_form;
    do chunks <- mapM (fun pt => apply_tone (fst pt) (snd pt)) chunks;
    Ok (join [] chunks).
  (* pinyin_table.py:82-86  strip_tones *)
  Definition strip_tones_any (self : segmenter) (ascii_pinyin : str) : res str :=
    let standard_form := normalize lower ascii_pinyin in
    do chunks <- segment_any int_ lower self standard_form;
    Ok (join [] (map fst chunks)).
  (* pinyin_table.py:53-69  from_hanzi *)
  Definition from_hanzi_any (self : segmenter) (table : dict str (list str)) (hanzi_string : str) (inline use_tones : bool) : res str :=
    let inline := if negb use_tones then false else inline in
    do result <- mapM (fun c =>
      do numeric_reading <- of_option IndexError (nth_error (match dget [c] table with Some r => r | None => [[c]] end) 0);
      if inline then from_ascii_any self numeric_reading
      else if negb use_tones then strip_tones_any self numeric_reading
      else Ok numeric_reading) hanzi_string;
    Ok (join [] result).
End WildTable.
