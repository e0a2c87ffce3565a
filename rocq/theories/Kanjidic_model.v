(* Kanjidic_model.v -- model of /repo/cjktools/resources/kanjidic.py *)
From Verif Require Import Base PyStr PyText Scripts_model Regex.

(* kanjidic.py:33-56  remappings *)
Definition remappings : dict char str :=
  [(u1 "B", u "radical_index"); (u1 "C", u "classical_radical_index"); (u1 "F", u "frequency");
   (u1 "G", u "jyouyou_grade"); (u1 "H", u "halpern_index"); (u1 "N", u "nelson_index");
   (u1 "V", u "new_nelson_index"); (u1 "D", u "dictionary_code"); (u1 "P", u "skip_code");
   (u1 "S", u "stroke_count"); (u1 "U", u "unicode"); (u1 "I", u "spahn_code");
   (u1 "Q", u "four_corner_code"); (u1 "M", u "morohashi_index"); (u1 "E", u "henshall_code");
   (u1 "K", u "gakken_code"); (u1 "L", u "heisig_code"); (u1 "O", u "oneill_code");
   (u1 "W", u "korean_reading"); (u1 "Y", u "pinyin_reading"); (u1 "X", u "cross_references");
   (u1 "Z", u "misclassified_as")].

(** the values an entry holds *)
Inductive value :=
| VInt (z : Z)
| VStr (s : str)
| VList (l : list value)
| VTuple (l : list Z).

Section Kanjidic.
  (** digit values of the Unicode database, see PyText.v *)
  Variable dv : Z -> option Z.

  (* kanjidic.py:138  [^ {]+|{.*?} *)
  Definition seg_char (c : Z) : bool := negb ((c =? u1 " ") || (c =? u1 "{")).
  Definition segment_pattern : re :=
    Alt (Plus (Chr seg_char))
        (Seqs [Chr (isc (u1 "{")); Lazy (Chr dot); Chr (isc (u1 "}"))]).
  (* pattern.findall without groups: the texts matched *)
  Definition findall0 (r : re) (s : str) : list str := map (fun m => text (fst m) (snd m)) (finditer r s).

  (* info[k].append(x), where info[k] exists *)
  Definition append_at (k : str) (x : value) (info : dict str value) : res (dict str value) :=
    match dget k info with
    | Some (VList l) => Ok (dset k (VList (l ++ [x])) info)
    | Some _ => Raise AttributeError
    | None => Raise KeyError
    end.
  (* info.setdefault(k, []) *)
  Definition setdefault_list (k : str) (info : dict str value) : dict str value :=
    match dget k info with Some _ => info | None => dset k (VList []) info end.
  (* d[k][0] for a value that is indexed *)
  Definition first_of (o : option value) : res value :=
    match o with
    | None => Raise KeyError
    | Some (VList (x :: _)) => Ok x
    | Some (VList []) => Raise IndexError
    | Some (VStr (c :: _)) => Ok (VStr [c])
    | Some (VStr []) => Raise IndexError
    | Some (VTuple (z :: _)) => Ok (VInt z)
    | Some (VTuple []) => Raise IndexError
    | Some (VInt _) => Raise TypeError
    end.
  (* s[1:-1] *)
  Definition inner (s : str) : str := removelast (tl s).
  Definition in_T12 (s : str) : bool := mem s [u "T1"; u "T2"].

  (* kanjidic.py:152-186, one segment *)
  Definition parse_segment (s : str) (info : dict str value) : res (dict str value) :=
    if startswith (u "{") s then append_at (u "gloss") (VStr (inner s)) info
    else if negb (script_eqb (script_type s) Ascii) || startswith (u "-") s then
      match s with
      | [] => Raise IndexError
      | c :: r =>
          do char <- (if c =? u1 "-" then match r with d :: _ => Ok d | [] => Raise IndexError end else Ok c);
          if script_eqb (script_type [char]) Katakana then append_at (u "on_readings") (VStr s) info
          else if script_eqb (script_type [char]) Hiragana then append_at (u "kun_readings") (VStr s) info
          else Raise PlainException
      end
    else if in_T12 s then Ok info
    else
      match s with
      | [] => Raise IndexError
      | code :: remainder =>
          let v := match py_int dv 10 remainder with Some z => VInt z | None => VStr remainder end in
          let k := match dget code remappings with Some k => k | None => [code] end in
          append_at k v (setdefault_list k info)
      end.
  Fixpoint parse_segments (segments : list str) (info : dict str value) : res (dict str value) :=
    match segments with
    | [] => Ok info
    | s :: r => do info <- parse_segment s info; parse_segments r info
    end.

  Definition int_of (base : Z) (s : str) : res Z :=
    match py_int dv base s with Some z => Ok z | None => Raise ValueError end.
  Definition new_info (kanji : str) (jis_code : Z) : dict str value :=
    [(u "kanji", VStr kanji); (u "gloss", VList []); (u "on_readings", VList []);
     (u "kun_readings", VList []); (u "jis_code", VInt jis_code)].
  (* kanjidic.py:188-193 *)
  Definition finish (info : dict str value) : res (dict str value) :=
    do sc <- first_of (dget (u "stroke_count") info);
    let info := dset (u "stroke_count") sc info in
    do info <- (match dget (u "frequency") info with
                | Some v => do f <- first_of (Some v); Ok (dset (u "frequency") f info)
                | None => Ok info
                end);
    do p <- first_of (dget (u "skip_code") info);
    do parts <- (match p with VStr s => Ok (split_on (u1 "-") s) | _ => Raise AttributeError end);
    do t <- mapM (int_of 10) parts;
    Ok (dset (u "skip_code") (VTuple t) info).
  (* kanjidic.py:63-66  KanjidicEntry( **info ): the attributes of the entry *)
  Definition new_entry (info : dict str value) : res (dict str value) :=
    if dmem (u "on_readings") info && dmem (u "kun_readings") info then Ok info else Raise AssertionError.
  (* kanjidic.py:135-193  _parse_line *)
  Definition parse_segs (segs : list str) : res (dict str value) :=
    match segs with
    | [] => Raise IndexError
    | [_] => Raise IndexError
    | kanji :: jis :: segments =>
        do jis_code <- int_of 16 jis;
        do info <- parse_segments segments (new_info kanji jis_code);
        do info <- finish info;
        new_entry info
    end.
  Definition parse_line (line : str) : res (dict str value) :=
    parse_segs (findall0 segment_pattern (strip line)).

  (* kanjidic.py:119-134  _parse_kanjidic *)
  Fixpoint parse_kanjidic (line_stream : list str) (self : dict str (dict str value)) : res (dict str (dict str value)) :=
    match line_stream with
    | [] => Ok self
    | line :: r =>
        if startswith (u "#") line then parse_kanjidic r self
        else
          do entry <- parse_line line;
          match dget (u "kanji") entry with
          | Some (VStr k) => parse_kanjidic r (dset k entry self)
          | Some _ => Raise TypeError
          | None => Raise AttributeError
          end
    end.
  (* kanjidic.py:96-110  __init__; the files by their lines, opening them is not
     modelled.  reduce() of an empty sequence raises TypeError *)
  Definition init (files : list (list str)) : res (dict str (dict str value)) :=
    match files with
    | [] => Raise TypeError
    | f :: r => parse_kanjidic (fold_left (@app (list Z)) r f) []
    end.

  (* kanjidic.py:68-84  get_all_readings; the set as a list without duplicates *)
  Definition stem_of (reading : str) : res str :=
    let reading := if mem (u1 "-") reading then filter (notc (u1 "-")) reading else reading in
    if mem (u1 ".") reading then
      match split_on (u1 ".") reading with
      | [stem; suffix] => Ok stem
      | _ => Raise ValueError
      end
    else Ok reading.
  Fixpoint reading_loop (readings : list str) (reading_set : list str) : res (list str) :=
    match readings with
    | [] => Ok reading_set
    | r :: rs => do s <- stem_of r; reading_loop rs (sadd s reading_set)
    end.
  Definition all_readings (kun_readings on_readings : list str) : res (list str) :=
    reading_loop (kun_readings ++ map to_hiragana on_readings) [].
End Kanjidic.

(** Class-level caching.  A class builds instances with [construct], which may
    change the state of the program and may raise; [cached] is the class
    attribute [_cached]. *)
Section Cached.
  Context {S A : Type}.
  Variable construct : S -> S * res A.
  (* kanjidic.py:112-117 and radkdict.py:81-87: the default of getattr is an
     argument, so it is evaluated first *)
  Definition get_cached_getattr (st : S * option A) : (S * option A) * res A :=
    let '(s, cached) := st in
    match construct s with
    | (s, Raise e) => ((s, cached), Raise e)
    | (s, Ok fresh) =>
        let c := match cached with Some c => c | None => fresh end in
        ((s, Some c), Ok c)
    end.
  (* kana_table.py:112-118, pinyin_table.py:152-169 *)
  Definition get_cached_hasattr (st : S * option A) : (S * option A) * res A :=
    let '(s, cached) := st in
    match cached with
    | Some c => (st, Ok c)
    | None =>
        match construct s with
        | (s, Raise e) => ((s, None), Raise e)
        | (s, Ok fresh) => ((s, Some fresh), Ok fresh)
        end
    end.
  (** a history of n calls: the results in order *)
  Fixpoint calls (get : S * option A -> (S * option A) * res A) (n : nat) (st : S * option A) : (S * option A) * list (res A) :=
    match n with
    | O => (st, [])
    | Datatypes.S n => let '(st, r) := get st in let '(st, rs) := calls get n st in (st, r :: rs)
    end.
End Cached.
