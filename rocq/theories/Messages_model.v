(* Messages_model.v -- what the exceptions say.  The same functions as in the other
   files, with the text each "raise" of /repo puts into the exception; [None] where
   Python itself raises (int(), an index, a missing key).  [forget] drops the texts
   and gives back the models of the other files (C123). *)
From Verif Require Import Base PyStr PyText PyFmt Scripts_model Regex Maps_model Bilingual_model DictFormat_model Kanjidic_model Radk_model
  Rose Place_model Csv_model Tanaka_model Tatoeba_model.

Inductive told (A : Type) := Fine (a : A) | Fail (e : exn) (said : option str).
Arguments Fine {A}. Arguments Fail {A}.
Definition forget {A} (t : told A) : res A := match t with Fine a => Ok a | Fail e _ => Raise e end.
(* a call in which only Python raises *)
Definition silent {A} (r : res A) : told A := match r with Ok a => Fine a | Raise e => Fail e None end.
Definition tbind {A B} (m : told A) (k : A -> told B) : told B := match m with Fine a => k a | Fail e s => Fail e s end.
Notation "'try' x <- m ; k" := (tbind m (fun x => k)) (at level 200, x pattern, m at level 100, k at level 200).

(** ** Places *)
Section Place.
  Variable dv : Z -> option Z.
  (* place.py:26-43  __init__ *)
  Definition place_told (label : str) (reading : option str) (aliases : option (list str)) : told place :=
    match place_new label reading aliases with
    | Ok p => Fine p
    | Raise e => Fail e (Some (u "no spaces allowed in place details"))
    end.
  (* place.py:211-233  _from_line *)
  Definition from_line_told (line : str) : told (Z * place) :=
    match split_ws (rstrip line) with
    | [depth; label; reading] =>
        try depth <- silent (of_option ValueError (py_int dv 10 depth));
        let reading := if eqb reading (u "None") then None else Some reading in
        try p <- place_told label reading None; Fine (depth, p)
    | [depth; label; reading; aliases] =>
        try depth <- silent (of_option ValueError (py_int dv 10 depth));
        let reading := if eqb reading (u "None") then None else Some reading in
        try p <- place_told label reading (Some (split_on (u1 ":") aliases)); Fine (depth, p)
    | _ => Fail ValueError (Some (u "Can't parse line " ++ line))
    end.
  (* place.py:79-103  the loop of from_file; enumerate() counts from 0 *)
  Fixpoint load_told (filename : str) (line_no : Z) (h : list place) (path : list addr) (last_depth : Z) (last_node : addr) (lines : list str)
      : told (list place) :=
    match lines with
    | [] => Fine h
    | line :: rest =>
        try r <- from_line_told line;
        let '(depth, p) := r in
        let node := length h in
        let h := h ++ [p] in
        try path <- (if depth =? last_depth + 1 then Fine (path ++ [last_node])
                     else if depth =? last_depth then Fine path
                     else if depth <? last_depth then Fine (but_last (last_depth - depth) path)
                     else Fail PlainException (Some (u "Strange depth found " ++ filename ++ u " (line " ++ dec (line_no + 1) ++ u ")")));
        match pop_last path with
        | None => Fail IndexError None
        | Some (parent, _) => load_told filename (line_no + 1) (append h parent node) path depth node rest
        end
    end.
  (* place.py:68-106  from_file *)
  Definition from_file_told (filename : str) (h : list place) (lines : list str) : told (list place * addr) :=
    match lines with
    | [] => Fail StopIteration None
    | line :: rest =>
        try r <- from_line_told line;
        let '(depth, p) := r in
        if negb (depth =? 0) then Fail PlainException (Some (u "file " ++ filename ++ u " should start with a root node"))
        else
          let root_node := length h in
          try h' <- load_told filename 1 (h ++ [p]) [root_node] depth root_node rest;
          Fine (h', root_node)
    end.
End Place.

(** ** Dictionaries *)
(* dict_format.py:99-118  parse_line *)
Definition entry_told (f : format) (entry_line : str) : told parsed :=
  match match_ (line_pattern f) entry_line with
  | None => Fail FormatError (Some (u "Bad line: " ++ entry_line))
  | Some m =>
      match Regex.group (u "word") m with
      | None => Fail AttributeError None
      | Some w =>
          let word := no_spaces w in
          let reading := no_spaces (match Regex.group (u "reading") m with
                                    | Some (c :: r) => c :: r
                                    | _ => word
                                    end) in
          match Regex.group (u "senses") m with
          | None => Fail TypeError None
          | Some sense_line =>
              match map sense_of (finditer (sense_pattern f) sense_line) with
              | [] => Fail FormatError (Some (u "No senses for word: " ++ word))
              | senses => Fine (word, ([reading], senses))
              end
          end
      end
  end.
(* bilingual_dict.py:59-81  update *)
Definition update_told (h : heap) (old entry : addr) : heap * told unit :=
  match entry_update h old entry with
  | (h, Ok x) => (h, Fine x)
  | (h, Raise e) => (h, Fail e (Some (u "Can only merge homographs")))
  end.
(* dict_format.py:57-71  parse_dictionary *)
Fixpoint lines_told (parse : list Z -> told parsed) (h : heap) (b : dict str addr) (lines : list str) : heap * told (dict str addr) :=
  match lines with
  | [] => (h, Fine b)
  | line :: r =>
      match parse line with
      | Fail e s => (h, Fail e s)
      | Fine p =>
          match build_entry h p with
          | (h, Raise e) => (h, Fail e None)
          | (h, Ok entry) =>
              let w := Bilingual_model.word (entry_at h entry) in
              match dget w b with
              | Some old =>
                  match update_told h old entry with
                  | (h, Fail e s) => (h, Fail e s)
                  | (h, Fine _) => lines_told parse h b r
                  end
              | None => lines_told parse h (dset w entry b) r
              end
          end
      end
  end.
(* auto_format.py:16-26  detect_format; [repr] is Python's *)
Definition detect_told (repr : str -> str) (header : str) : told format :=
  match detect_format header with
  | Ok f => Fine f
  | Raise e => Fail e (Some (u "unknown header line: " ++ repr header))
  end.
(* auto_format.py:29-36  load_dictionary *)
Definition load_dictionary_told (repr : str -> str) (h : heap) (istream : list str) : heap * told (dict str addr) :=
  match istream with
  | [] => (h, Fail StopIteration None)
  | header :: lines =>
      match detect_told repr header with
      | Fail e s => (h, Fail e s)
      | Fine f => lines_told (entry_told f) h [] lines
      end
  end.

(** ** Kanjidic *)
Section Kanjidic.
  Variable dv : Z -> option Z.
  (* kanjidic.py:152-186, one segment *)
  Definition segment_told (s : str) (info : dict str value) : told (dict str value) :=
    if startswith (u "{") s then silent (append_at (u "gloss") (VStr (inner s)) info)
    else if negb (script_eqb (script_type s) Ascii) || startswith (u "-") s then
      match s with
      | [] => Fail IndexError None
      | c :: r =>
          try char <- (if c =? u1 "-" then match r with d :: _ => Fine d | [] => Fail IndexError None end else Fine c);
          if script_eqb (script_type [char]) Katakana then silent (append_at (u "on_readings") (VStr s) info)
          else if script_eqb (script_type [char]) Hiragana then silent (append_at (u "kun_readings") (VStr s) info)
          else Fail PlainException (Some (u "Unknown segment " ++ s))
      end
    else silent (parse_segment dv s info).
  Fixpoint segments_told (segments : list str) (info : dict str value) : told (dict str value) :=
    match segments with
    | [] => Fine info
    | s :: r => try info <- segment_told s info; segments_told r info
    end.
  (* kanjidic.py:135-193  _parse_line *)
  Definition segs_told (segs : list str) : told (dict str value) :=
    match segs with
    | [] => Fail IndexError None
    | [_] => Fail IndexError None
    | kanji :: jis :: segments =>
        try jis_code <- silent (int_of dv 16 jis);
        try info <- segments_told segments (new_info kanji jis_code);
        try info <- silent (finish dv info);
        silent (Kanjidic_model.new_entry info)
    end.
  Definition line_told (line : str) : told (dict str value) := segs_told (findall0 segment_pattern (strip line)).
  (* kanjidic.py:119-134  _parse_kanjidic *)
  Fixpoint kanjidic_told (line_stream : list str) (self : dict str (dict str value)) : told (dict str (dict str value)) :=
    match line_stream with
    | [] => Fine self
    | line :: r =>
        if startswith (u "#") line then kanjidic_told r self
        else
          try entry <- line_told line;
          match dget (u "kanji") entry with
          | Some (VStr k) => kanjidic_told r (dset k entry self)
          | Some _ => Fail TypeError None
          | None => Fail AttributeError None
          end
    end.
End Kanjidic.

(** ** Radicals *)
(* radkdict.py:42-79  _parse_radkfile: the only text is that of line 65 *)
Definition radk_told (dv : Z -> option Z) (lines : list str) : told radkdict :=
  match parse_radkfile dv lines with
  | Ok d => Fine d
  | Raise PlainException => Fail PlainException (Some (u "format error parsing radkfile"))
  | Raise e => Fail e None
  end.

(** ** The corpora *)
Section Corpora.
  Variable dv : Z -> option Z.
  (* tatoeba.py:435-462  from_text *)
  Definition from_text_told (text : str) : told word :=
    match from_text dv text with
    | Ok w => Fine w
    | Raise InvalidEntryError => Fail InvalidEntryError (Some (u "Could not interpret word " ++ text))
    | Raise e => Fail e None
    end.
  (* tatoeba.py:592-620  parse_sentence *)
  Fixpoint words_told (text : str) (ws : list str) : told (list word) :=
    match ws with
    | [] => Fine []
    | [] :: r => words_told text r
    | w :: r =>
        try wobj <- (match from_text_told w with
                     | Fail InvalidEntryError _ => Fail InvalidEntryError (Some (u "Failed to interpret word " ++ w ++ u " in sentence " ++ text))
                     | x => x
                     end);
        try sentence <- words_told text r;
        Fine (wobj :: sentence)
    end.
  Definition sentence_told (text : str) : told (list word) := words_told text (sentence_splitter text).
  (* tatoeba.py:575-587, one row *)
  Definition index_row_told (s : option (list Z)) (edict : option (dict str (list str))) (row : list str)
      (d : dict Z (list word) * dict Z Z) : told (dict Z (list word) * dict Z Z) :=
    match row with
    | [sent_id; meaning_id; text] =>
        try sent_id <- silent (int_ dv sent_id);
        try meaning_id <- silent (int_ dv meaning_id);
        if (match s with Some ids => negb (mem sent_id ids) | None => false end) then Fine d
        else
          try ws <- sentence_told text;
          let (ws, o) := adjust_details edict ws in
          try _ <- silent o;
          Fine (dset sent_id ws (fst d), dset sent_id meaning_id (snd d))
    | _ => Fail ValueError None
    end.
  Fixpoint index_rows_told (s : option (list Z)) (edict : option (dict str (list str))) (rows : list (list str))
      (d : dict Z (list word) * dict Z Z) : told (dict Z (list word) * dict Z Z) :=
    match rows with [] => Fine d | row :: r => try d <- index_row_told s edict row d; index_rows_told s edict r d end.

  (* tatoeba.py:338-374 *)
  Definition links_told (s : option (list Z)) (fs ft : bool) (rows : list (list str)) : told lstate :=
    match read_links dv s fs ft rows (mklstate [] [] 0) with
    | Ok st => Fine st
    | Raise e => Fail e (Some (u "Invalid links file - files must have 2 columns"))
    end.
  (* tatoeba.py:379-394  _sentence_ids_filter *)
  Definition filter_told (lower : str -> str) (s : option (list Z)) (valstr : str) : told (bool * bool * str) :=
    match ids_filter lower s valstr with
    | Ok x => Fine x
    | Raise e => Fail e (Some (u "Invalid sentence_ids_filter: " ++ lower valstr))
    end.
  Context {date : Type}.
  (* tatoeba.py:193-242  the sentences; sic *)
  Definition sentences_told (strptime : str -> res date) (filter_row : list str -> bool) (langs : option (list str)) (src : rows_of) : told (tables date) :=
    match src with
    | ([], Raise e) => Fail e None
    | ([], Ok _) => Fail StopIteration None
    | (first_row :: rows, o) =>
        try detailed <- (if Nat.eqb (length first_row) 3 then Fine false
                         else if Nat.eqb (length first_row) 6 then Fine true
                         else Fail InvalidFileError (Some (u "Invalid sentences file, filesmust have either 3 or 6 columns.")));
        try t <- silent (read_rows dv strptime filter_row langs (first_row :: rows) (mktables [] [] (if detailed then Some [] else None)));
        try _ <- silent o;
        Fine t
    end.
  (* tatoeba.py:116-134  language *)
  Definition language_told (r : reader date) (i : Z) : told str :=
    try t <- silent (tables_of r);
    match find_lang i (language_dict t) with
    | Ok l => Fine l
    | Raise e => Fail e (Some (u "No language found for sentence id " ++ dec i))
    end.
  (* tatoeba.py:136-150  sentence *)
  Definition sentence_of_told (r : reader date) (i : Z) : told str :=
    match getitem r i with
    | Ok s => Fine s
    | Raise KeyError => Fail InvalidIDError (Some (u "Could not find sentence with ID " ++ dec i))
    | Raise e => Fail e None
    end.
  (* tatoeba.py:152-180  details *)
  Definition details_told (r : reader date) (i : Z) : told (info date) :=
    try t <- silent (tables_of r);
    match detailed_info_dict t with
    | None => Fail MissingDataError (Some (u "Detailed information not loaded."))
    | Some dd =>
        match dget i dd with
        | Some x => Fine x
        | None => Fail InvalidIDError (Some (u "Detailed information not found for sentence ID " ++ dec i))
        end
    end.
  (* tatoeba.py:297-316  group *)
  Definition group_told (r : lreader) (i : Z) : told (list Z) :=
    match lgetitem r i with
    | Ok g => Fine g
    | Raise KeyError => Fail InvalidIDError (Some (u "Could not find sentence ID " ++ dec i ++ u " in any groups"))
    | Raise e => Fail e None
    end.
  (* tatoeba.py:540-559  link *)
  Definition link_told (r : ireader) (i : Z) : told Z :=
    try d <- silent (of_option AttributeError (idicts r));
    match dget i (snd d) with
    | Some m => Fine m
    | None => Fail InvalidIDError (Some (u "Sentence ID " ++ dec i ++ u " not found"))
    end.
End Corpora.
