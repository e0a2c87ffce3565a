(* Wild_model.v -- zhuyin tables whose syllables contain characters that mean
   something in a regular expression (/repo/cjktools/resources/pinyin_table.py:107-140,
   zhuyin_table.py:62-73).  The text of the pattern is read by the parser of
   RegexSyntax.v; [isd] tells what \d matches and [int_] is int().  Outside the model:
   texts that parser does not read, of which Python refuses some and reads others, and
   repetitions of something that may be empty. *)
From Verif Require Import Base PyText Regex RegexSyntax RegexSem Pinyin_model Patterns_model.

Section Wild.
  Variable isd : Z -> bool.
  Variable int_ : str -> option Z.
  Variable lower : str -> str.

  (* every group has a number, with or without a name *)
  Fixpoint unnamed (r : rx) : rx :=
    match r with Last b => Last (unnamed_br b) | Or b r => Or (unnamed_br b) (unnamed r) end
  with unnamed_br (b : br) : br :=
    match b with Nil => Nil | Cons a q b => Cons (unnamed_atom a) q (unnamed_br b) end
  with unnamed_atom (a : atom) : atom :=
    match a with
    | AGrp (Named _) r => AGrp Cap (unnamed r)
    | AGrp k r => AGrp k (unnamed r)
    | a => a
    end.
  Fixpoint names (r : rx) : list str :=
    match r with Last b => names_br b | Or b r => names_br b ++ names r end
  with names_br (b : br) : list str :=
    match b with Nil => [] | Cons a q b => names_atom a ++ names_br b end
  with names_atom (a : atom) : list str :=
    match a with
    | AGrp (Named n) r => n :: names r
    | AGrp _ r => names r
    | _ => []
    end.
  Definition key_ (n : nat) : list Z := [Z.of_nat n].
  Fixpoint repeated (l : list str) : bool := match l with [] => false | n :: r => mem n r || repeated r end.
  (* re.compile: the expression, and how many groups it has; a name given twice is refused *)
  Definition re_error : exn := UserError 1.
  Definition re_compile (text : str) : res (re * nat) :=
    match parse text with
    | None => Raise outside_model
    | Some t => if repeated (names t) then Raise re_error else Ok (c_rx isd key_ 0 (unnamed t))
    end.

  (* pinyin_table.py:108-116  PinyinSegmenter.__init__ *)
  Record segmenter := mkseg { single_pattern : re * nat; string_pattern : re * nat }.
  Definition new_segmenter_any (istream : list str) : res segmenter :=
    do p <- pinyin_regex_pattern istream;
    do single_pattern <- re_compile (single_text p);
    do string_pattern <- re_compile (string_text p);
    if solid (fst single_pattern) then Ok (mkseg single_pattern string_pattern) else Raise outside_model.

  (* pattern.findall: the text of the match if there are no groups, of the group if there
     is one, a tuple of the texts of all groups otherwise; '' for those not met *)
  Inductive found := Text (s : str) | Tuple (l : list str).
  Definition findall (pattern : re * nat) (s : str) : list found :=
    map (fun st => let m := snd st in
      match snd pattern with
      | O => Text (text (fst st) m)
      | 1%nat => Text (text_of (key_ 1) m)
      | n => Tuple (map (fun i => text_of (key_ i) m) (seq 1 n))
      end) (finditer (fst pattern) s).
  (* for block, pinyin, tone in result *)
  Definition unpack3 (f : found) : res (str * str * str) :=
    match f with
    | Text [a; b; c] => Ok ([a], [b], [c])
    | Tuple [a; b; c] => Ok (a, b, c)
    | _ => Raise ValueError
    end.
  (* pinyin_table.py:118-136  segment_pinyin *)
  Definition corrected (f : found) : res (str * Z) :=
    do x <- unpack3 f;
    let '(_, pinyin, tone) := x in
    do tone <- (match tone with [] => Ok 0 | _ => of_option ValueError (int_ tone) end);
    Ok (if eqb pinyin (u "r") then u "er" else pinyin, tone).
  Definition segment_any (self : segmenter) (pinyin_string : str) : res (list (str * Z)) :=
    mapM corrected (findall (single_pattern self) (normalize lower pinyin_string)).
  (* pinyin_table.py:138-140  is_pinyin *)
  Definition is_pinyin_any (self : segmenter) (symbol_string : str) : bool :=
    match match_ (fst (string_pattern self)) (normalize lower symbol_string) with Some _ => true | None => false end.
End Wild.
