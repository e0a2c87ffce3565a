(* KanaTable_model.v -- model of /repo/cjktools/kana_table.py *)
From Verif Require Import Base PyStr.

(* kana_table.py:43-57  the literal table.  Keys are one-character strings. *)
Definition kana_rows : dict str str := Eval compute in
  [ (u "あ", u "あいうえお");
    (u "か", u "かきくけこ");
    (u "が", u "がぎぐげご");
    (u "さ", u "さしすせそ");
    (u "ざ", u "ざじずぜぞ");
    (u "た", u "たちつてと");
    (u "だ", u "だぢづでど");
    (u "ま", u "まみむめも");
    (u "は", u "はひふへほ");
    (u "ば", u "ばびぶべぼ");
    (u "ぱ", u "ぱぴぷぺぽ");
    (u "な", u "なにぬねの");
    (u "ら", u "らりるれろ") ].

(* kana_table.py:36  self.vowels *)
Definition vowels : str := Eval compute in u "あいうえお".

(* zip( *rows ): the columns, up to the shortest row *)
Fixpoint heads_tails {A} (rows : list (list A)) : option (list A * list (list A)) :=
  match rows with
  | [] => Some ([], [])
  | [] :: _ => None
  | (a :: r) :: rows' =>
      match heads_tails rows' with
      | Some (hs, ts) => Some (a :: hs, r :: ts)
      | None => None
      end
  end.
Fixpoint zip_with_first {A} (first : list A) (rows : list (list A)) : list (list A) :=
  match first with
  | [] => []
  | a :: first' =>
      match heads_tails rows with
      | Some (hs, ts) => (a :: hs) :: zip_with_first first' ts
      | None => []
      end
  end.
Definition zip_star {A} (rows : list (list A)) : list (list A) :=
  match rows with [] => [] | r :: rows' => zip_with_first r rows' end.

(* sorted(chars) *)
Fixpoint insert_char (c : char) (l : str) : str :=
  match l with [] => [c] | d :: r => if c <=? d then c :: l else d :: insert_char c r end.
Definition sorted_chars (l : str) : str := fold_right insert_char [] l.

Section Table.
  (* self._table, in the iteration order of the dict *)
  Variable table : dict str str.

  (* kana_table.py:59-62  _to_consonant_line *)
  Definition consonant_dict : dict str str :=
    fold_left (fun acc row => dupdate acc (map (fun e => ([e], fst row)) (snd row))) table [].

  (* kana_table.py:64-69  _to_vowel_line; [vowel_line[0]] cannot fail because a
     zip column of a non-empty table is non-empty (an empty column would raise
     IndexError) *)
  Definition vowel_step (acc : res (dict str str)) (col : str) : res (dict str str) :=
    do d <- acc;
    let vowel_line := sorted_chars col in
    do vowel <- sitem vowel_line 0;
    Ok (dupdate d (map (fun k => ([k], [vowel])) vowel_line)).
  Definition vowel_dict : res (dict str str) :=
    fold_left vowel_step (zip_star (dvals table)) (Ok []).

  (* kana_table.py:71-76  get_coords *)
  Definition get_coords (kana : str) : res (str * str) :=
    do vd <- vowel_dict;
    do c <- dgetitem consonant_dict kana;
    do v <- dgetitem vd kana;
    Ok (c, v).

  (* kana_table.py:78-83  from_coords: table lookup (KeyError), then
     str.index of the vowel (ValueError), then string index (IndexError) *)
  Definition from_coords (consonant vowel : str) : res str :=
    do row <- dgetitem table consonant;
    do i <- sindex vowel vowels;
    do k <- sitem row i;
    Ok [k].

  (* kana_table.py:85-90  to_vowel_line (None = no vowel line) *)
  Definition to_vowel_line (kana : str) : res (option str) :=
    do vd <- vowel_dict;
    if eqb kana (u "わ") then Ok (Some (u "あ")) else Ok (dget kana vd).

  (* kana_table.py:92-94  to_consonant_line *)
  Definition to_consonant_line (kana : str) : option str := dget kana consonant_dict.

  (* kana_table.py:108-110  get_table: a deep copy, the same rows *)
  Definition get_table : dict str str := table.
End Table.

(* ------------------------------------------------------------------ *)
(* unicodedata.normalize('NFD', s): the Unicode character database is a
   parameter (full canonical decomposition and combining class of each
   character); the canonical ordering algorithm is modelled. *)
Record UCD := { decomp : char -> str; ccc : char -> Z }.

(* move a character with combining class before the preceding characters of
   larger class; [rev_done] is the ordered text so far, reversed *)
Fixpoint place_mark (U : UCD) (c : char) (rev_done : str) : str :=
  match rev_done with
  | [] => [c]
  | d :: r =>
      if (0 <? ccc U c) && (ccc U c <? ccc U d) then d :: place_mark U c r else c :: rev_done
  end.
Definition canonical_order (U : UCD) (s : str) : str :=
  rev (fold_left (fun acc c => place_mark U c acc) s []).
Definition nfd (U : UCD) (s : str) : str := canonical_order U (flat_map (decomp U) s).

(* kana_table.py:96-100  is_voiced *)
Definition is_voiced (U : UCD) (kana : str) : bool :=
  match nfd U kana with
  | [_; m] => (m =? 0x3099) || (m =? 0x309a)
  | _ => false
  end.
(* kana_table.py:102-106  is_semivoiced *)
Definition is_semivoiced (U : UCD) (kana : str) : bool :=
  match nfd U kana with
  | [_; m] => m =? 0x309a
  | _ => false
  end.

(* __repr__ (kana_table.py:120-121) is the constant text KanaTable();
   get_cached (kana_table.py:112-118) is in Kanjidic_model.v. *)
