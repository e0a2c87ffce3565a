(* Scripts_model.v -- model of /repo/cjktools/scripts.py *)
From Verif Require Import Base.

(* scripts.py:20-27  class Script(Enum) *)
Inductive Script : Type :=
| Hiragana | Katakana | Kanji | Ascii | FullAscii | HalfKatakana | Unknown.

Definition script_eqb (a b : Script) : bool :=
  match a, b with
  | Hiragana, Hiragana | Katakana, Katakana | Kanji, Kanji | Ascii, Ascii
  | FullAscii, FullAscii | HalfKatakana, HalfKatakana | Unknown, Unknown => true
  | _, _ => false
  end.
Lemma script_eqb_spec a b : reflect (a = b) (script_eqb a b).
Proof. destruct a, b; constructor; congruence. Qed.
#[export] Instance EqB_Script : EqB Script := {| eqb := script_eqb; eqb_spec := script_eqb_spec |}.

(* scripts.py:29-36  _known_bands (a dict: keys are unique) *)
Definition known_bands : dict Script (char * char) :=
  [ (Ascii,        (0x0021, 0x00ff));
    (Hiragana,     (0x3041, 0x3096));
    (Katakana,     (0x30a1, 0x30f6));
    (Kanji,        (0x4e00, 0x9fa5));
    (FullAscii,    (0xff01, 0xff5f));
    (HalfKatakana, (0xff61, 0xff9f)) ].

(* scripts.py:41-61  class ScriptMapping: the attributes set by __init__
   (to_end is only used in the assertion) *)
Record mapping := { from_start : char; from_end : char; ord_diff : Z }.

(* scripts.py:53-61  ScriptMapping.__init__ : KeyError for a script without a
   band, AssertionError when the source band is wider than the target band *)
Definition make_mapping (from_script to_script : Script) : res mapping :=
  do (fs, fe) <- dgetitem known_bands from_script;
  do (ts, te) <- dgetitem known_bands to_script;
  if fe - fs <=? te - ts
  then Ok {| from_start := fs; from_end := fe; ord_diff := ts - fs |}
  else Raise AssertionError.

(* scripts.py:63-76  ScriptMapping.__call__ *)
Definition apply_mapping (m : mapping) (j_string : str) : str :=
  map (fun c => if (from_start m <=? c) && (c <=? from_end m) then c + ord_diff m else c) j_string.

(* The mapping objects built at import time; that the constructor does not
   fail is proved (mappings_constructed in Scripts_proofs.v). *)
Definition the_mapping (r : res mapping) : mapping :=
  match r with Ok m => m | Raise _ => {| from_start := 0; from_end := 0; ord_diff := 0 |} end.

(* scripts.py:78 *)
Definition to_hiragana (j_string : str) : str := apply_mapping (the_mapping (make_mapping Katakana Hiragana)) j_string.
(* scripts.py:79 *)
Definition to_katakana (j_string : str) : str := apply_mapping (the_mapping (make_mapping Hiragana Katakana)) j_string.

(* scripts.py:82-86  _mapped_chars *)
Definition mapped_chars : dict char char :=
  [ (0x3000, 0x0020); (0x3001, 0x002c); (0x3002, 0x002e) ].

(* scripts.py:88  _to_ascii *)
Definition to_ascii_ (j_string : str) : str := apply_mapping (the_mapping (make_mapping FullAscii Ascii)) j_string.

(* scripts.py:91-106  normalize_ascii *)
Definition normalize_ascii (j_string : str) : str :=
  to_ascii_ (map (fun c => match dget c mapped_chars with Some d => d | None => c end) j_string).

(* scripts.py:109-110  _full_width_kana *)
Definition full_width_kana : str := Eval compute in
  u "。「」、・ヲァィゥェォャュョッーアイウエオカキクケコサシスセソタチツテトナニ" ++
  u "ヌネノハヒフヘホマミムメモヤユヨラリルレロワン゛゜".

(* scripts.py:113-136  normalize_kana; the string index may raise IndexError *)
Definition normalize_kana (j_string : str) : res str :=
  do (start_h, end_h) <- dgetitem known_bands HalfKatakana;
  mapM (fun c =>
    if (start_h <=? c) && (c <=? end_h)
    then of_option IndexError (nth_error full_width_kana (Z.to_nat (c - 0xff61)))
    else Ok c) j_string.

(* scripts.py:139-154  normalize *)
Definition normalize (j_string : str) : res str :=
  do s <- normalize_kana j_string; Ok (normalize_ascii s).

(* range(a, b) *)
Definition zrange (a b : Z) : list Z := map (fun i => a + Z.of_nat i) (seq 0 (Z.to_nat (b - a))).

(* scripts.py:157-168  get_script *)
Definition get_script (script : Script) : res str :=
  do (a, b) <- dgetitem known_bands script; Ok (zrange a (b + 1)).

(* scripts.py:171-187  compare_kana *)
Definition compare_kana (a b : str) : Z :=
  let a := to_katakana a in
  let b := to_katakana b in
  (if str_ltb b a then 1 else 0) - (if str_ltb a b then 1 else 0).

(* scripts.py:239-243  the for loop of script_type over a given iteration
   order of the bands *)
Fixpoint band_of (bands : dict Script (char * char)) (c : char) : Script :=
  match bands with
  | [] => Unknown
  | (sc, (s, e)) :: r => if (s <=? c) && (c <=? e) then sc else band_of r c
  end.

(* scripts.py:210-243  script_type, parametrised by the iteration order *)
Definition script_type_in (bands : dict Script (char * char)) (s : str) : Script :=
  match s with [] => Unknown | c :: _ => band_of bands c end.
Definition script_type (s : str) : Script := script_type_in known_bands s.

(* scripts.py:284-302  script_types *)
Definition script_types (j_string : str) : list Script := set_of (map (fun c => script_type [c]) j_string).

(* scripts.py:190-207  contains_script *)
Definition contains_script (script : Script) (j_string : str) : bool := mem script (script_types j_string).

Definition long_vowel_mark : char := 0x30FC. (* 'ー' *)

(* scripts.py:269-279  the loop of script_boundaries *)
Fixpoint sb_loop (segments : list str) (ty : Script) (seg : str) (rest : str) : list str :=
  match rest with
  | [] => match seg with [] => segments | _ => segments ++ [seg] end
  | c :: r =>
      if eqb (script_type [c]) ty || (c =? long_vowel_mark)
      then sb_loop segments ty (seg ++ [c]) r
      else sb_loop (segments ++ [seg]) (script_type [c]) [c] r
  end.

(* scripts.py:246-281  script_boundaries *)
Definition script_boundaries (j_string : str) : list str :=
  match j_string with
  | [] => [j_string]
  | c :: r => sb_loop [] (script_type j_string) [c] r
  end.

(* set.remove *)
Definition sremove {A} `{EqB A} (x : A) (s : list A) : list A := filter (fun y => negb (eqb x y)) s.

(* scripts.py:305-320  unique_kanji *)
Definition unique_kanji (j_string : str) : list char :=
  let kanji_set := set_of j_string in
  fold_left (fun acc c => if negb (eqb (script_type [c]) Kanji) then sremove c acc else acc)
            kanji_set kanji_set.
