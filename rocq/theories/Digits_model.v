(* Digits_model.v -- int() and str() with the limit on digits that Python has since
   3.11, 3.10.7, 3.9.14, 3.8.14 and 3.7.14 (sys.get_int_max_str_digits, 4300 unless it
   is changed; 0 for none).  The
   functions that read numbers, with int(s) as a parameter, here called [int10];
   otherwise as in the files named.  int(s, 16) has no limit. *)
From Verif Require Import Base PyStr PyText PyFmt Scripts_model Regex Csv_model Tanaka_model Tatoeba_model Kanjidic_model Maps_model Radk_model Rose Place_model.

(** ** int(s): the digits are counted, also leading zeros, but no signs and underscores *)
Definition is_digit (dv : Z -> option Z) (c : Z) : bool := match dv c with Some _ => true | None => false end.
Definition digit_count (dv : Z -> option Z) (s : str) : Z := Z.of_nat (length (filter (is_digit dv) s)).
Definition int_limited (dv : Z -> option Z) (limit : Z) (s : str) : option Z :=
  if (0 <? limit) && (limit <? digit_count dv s) then None else py_int dv 10 s.
(** ** str(n), format(n, 'd') *)
Definition dec_limited (limit : Z) (n : Z) : option str :=
  if (0 <? limit) && (limit <? Z.of_nat (length (dec (Z.abs n)))) then None else Some (dec n).

Section By.
  Variable dv : Z -> option Z.
  Variable int10 : str -> option Z.

  (** ** kanjidic *)
  (* kanjidic.py:152-186, one segment *)
  Definition segment_by (s : str) (info : dict str value) : res (dict str value) :=
    if startswith (u "{") s then append_at (u "gloss") (VStr (inner s)) info
    else if negb (script_eqb (script_type s) Ascii) || startswith (u "-") s then
      match s with
      | [] => Raise IndexError
      | c :: r =>
          do char <- (if c =? u1 "-" then match r with d :: _ => Ok d | [] => Raise IndexError end else Ok c);
          if script_eqb (script_type [char]) Katakana then append_at (u "on_readings") (VStr s) info
          else if script_eqb (script_type [char]) Hiragana then append_at (u "kun_readings") (VStr s) info
          else Raise PlainException
      end
    else if in_T12 s then Ok info
    else
      match s with
      | [] => Raise IndexError
      | code :: remainder =>
          let v := match int10 remainder with Some z => VInt z | None => VStr remainder end in
          let k := match dget code remappings with Some k => k | None => [code] end in
          append_at k v (setdefault_list k info)
      end.
  Fixpoint segments_by (segments : list str) (info : dict str value) : res (dict str value) :=
    match segments with
    | [] => Ok info
    | s :: r => do info <- segment_by s info; segments_by r info
    end.
  (* kanjidic.py:188-193 *)
  Definition finish_by (info : dict str value) : res (dict str value) :=
    do sc <- first_of (dget (u "stroke_count") info);
    let info := dset (u "stroke_count") sc info in
    do info <- (match dget (u "frequency") info with
                | Some v => do f <- first_of (Some v); Ok (dset (u "frequency") f info)
                | None => Ok info
                end);
    do p <- first_of (dget (u "skip_code") info);
    do parts <- (match p with VStr s => Ok (split_on (u1 "-") s) | _ => Raise AttributeError end);
    do t <- mapM (fun q => of_option ValueError (int10 q)) parts;
    Ok (dset (u "skip_code") (VTuple t) info).
  (* kanjidic.py:135-193  _parse_line *)
  Definition line_by (line : str) : res (dict str value) :=
    match findall0 segment_pattern (strip line) with
    | [] => Raise IndexError
    | [_] => Raise IndexError
    | kanji :: jis :: segments =>
        do jis_code <- int_of dv 16 jis;
        do info <- segments_by segments (new_info kanji jis_code);
        do info <- finish_by info;
        new_entry info
    end.
  (* kanjidic.py:119-134  _parse_kanjidic *)
  Fixpoint kanjidic_by (line_stream : list str) (self : dict str (dict str value)) : res (dict str (dict str value)) :=
    match line_stream with
    | [] => Ok self
    | line :: r =>
        if startswith (u "#") line then kanjidic_by r self
        else
          do entry <- line_by line;
          match dget (u "kanji") entry with
          | Some (VStr k) => kanjidic_by r (dset k entry self)
          | Some _ => Raise TypeError
          | None => Raise AttributeError
          end
    end.

  (** ** radkdict *)
  (* radkdict.py:50-75  the loop *)
  Fixpoint radk_loop_by (line_stream : list str) (current_radical : radical)
      (radical_to_kanji : dict radical (list char)) (radical_to_stroke_count : dict radical Z)
      : res (dict radical (list char) * dict radical Z) :=
    match line_stream with
    | [] => Ok (radical_to_kanji, radical_to_stroke_count)
    | line :: rest =>
        let line := rstrip line in
        if startswith (u "#") line then radk_loop_by rest current_radical radical_to_kanji radical_to_stroke_count
        else if startswith (u "$") line then
          let parts := split_ws line in
          if mem (length parts) [3%nat; 4%nat] then
            match parts with
            | dollar :: current_radical :: stroke_count :: _ =>
                match int10 stroke_count with
                | Some z => radk_loop_by rest (Some current_radical) radical_to_kanji
                              (dset (Some current_radical) z radical_to_stroke_count)
                | None => Raise ValueError
                end
            | _ => Raise ValueError
            end
          else Raise PlainException
        else
          let kanji := strip line in
          radk_loop_by rest current_radical (dextend current_radical kanji radical_to_kanji) radical_to_stroke_count
    end.
  (* radkdict.py:42-79  _parse_radkfile *)
  Definition radk_by (line_stream : list str) : res radkdict :=
    do r <- radk_loop_by line_stream None [] [];
    let '(rtk, rts) := r in
    let self := dupdate [] (invert_mapping rtk) in
    match map_dict (fun (s : unit) v => (s, Ok v)) tt [self] 0%nat true with
    | (_, st, Ok a) => Ok {| items := fetch [] st a; radical_to_kanji := rtk; radical_to_stroke_count := rts |}
    | (_, _, Raise e) => Raise e
    end.

  (** ** places *)
  (* place.py:211-233  _from_line *)
  Definition from_line_by (line : str) : res (Z * place) :=
    match split_ws (rstrip line) with
    | [depth; label; reading] =>
        do depth <- of_option ValueError (int10 depth);
        let reading := if eqb reading (u "None") then None else Some reading in
        do p <- place_new label reading None; Ok (depth, p)
    | [depth; label; reading; aliases] =>
        do depth <- of_option ValueError (int10 depth);
        let reading := if eqb reading (u "None") then None else Some reading in
        do p <- place_new label reading (Some (split_on (u1 ":") aliases)); Ok (depth, p)
    | _ => Raise ValueError
    end.
  (* place.py:79-103  the loop of from_file *)
  Fixpoint load_loop_by (h : list place) (path : list addr) (last_depth : Z) (last_node : addr) (lines : list str) : res (list place) :=
    match lines with
    | [] => Ok h
    | line :: rest =>
        do r <- from_line_by line;
        let '(depth, p) := r in
        let node := length h in
        let h := h ++ [p] in
        do path <- (if depth =? last_depth + 1 then Ok (path ++ [last_node])
                    else if depth =? last_depth then Ok path
                    else if depth <? last_depth then Ok (but_last (last_depth - depth) path)
                    else Raise PlainException);
        match pop_last path with
        | None => Raise IndexError
        | Some (parent, _) => load_loop_by (append h parent node) path depth node rest
        end
    end.
  (* place.py:68-106  from_file *)
  Definition from_file_by (h : list place) (lines : list str) : res (list place * addr) :=
    match lines with
    | [] => Raise StopIteration
    | line :: rest =>
        do r <- from_line_by line;
        let '(depth, p) := r in
        if negb (depth =? 0) then Raise PlainException
        else
          let root_node := length h in
          do h' <- load_loop_by (h ++ [p]) [root_node] depth root_node rest;
          Ok (h', root_node)
    end.

  (** ** the corpus *)
  Definition id_by (s : str) : res Z := of_option ValueError (int10 s).
  Section Sentences.
    Variable date : Type.
    Variable strptime : str -> res date.
    Variable filter_row : list str -> bool.
    (* tatoeba.py:214-237, one row *)
    Definition read_row_by (langs : option (list str)) (row : list str) (t : tables date) : res (tables date) :=
      if filter_row row then Ok t
      else
        match firstn 3 row with
        | [sent_id; lang; text] =>
            if (match langs with Some ls => negb (mem lang ls) | None => false end) then Ok t
            else
              do sent_id <- id_by sent_id;
              let ld := add_id lang sent_id (language_dict t) in
              let sd := dset sent_id text (sentence_dict t) in
              match detailed_info_dict t with
              | None => Ok (mktables ld sd None)
              | Some dd =>
                  match firstn 3 (skipn 3 row) with
                  | [uname; d_added; d_modified] =>
                      let uname := if eqb uname (u "\N") then None else Some uname in
                      do d_added <- parse_date strptime d_added;
                      do d_modified <- parse_date strptime d_modified;
                      Ok (mktables ld sd (Some (dset sent_id (uname, d_added, d_modified) dd)))
                  | _ => Raise ValueError
                  end
              end
        | _ => Raise ValueError
        end.
    Fixpoint read_rows_by (langs : option (list str)) (rows : list (list str)) (t : tables date) : res (tables date) :=
      match rows with [] => Ok t | row :: r => do t <- read_row_by langs row t; read_rows_by langs r t end.
    (* tatoeba.py:193-242  the body of the setter after its first line *)
    Definition sentences_by (langs : option (list str)) (src : rows_of) : res (tables date) :=
      match src with
      | ([], Raise e) => Raise e
      | ([], Ok _) => Raise StopIteration
      | (first_row :: rows, o) =>
          do detailed <- (if Nat.eqb (length first_row) 3 then Ok false
                          else if Nat.eqb (length first_row) 6 then Ok true else Raise InvalidFileError);
          do t <- read_rows_by langs (first_row :: rows) (mktables [] [] (if detailed then Some [] else None));
          do _ <- o;
          Ok t
      end.
  End Sentences.
  (* tatoeba.py:344-346  two integers *)
  Definition link_row_by (row : list str) : res (Z * Z) :=
    match row with
    | [a; b] => match id_by a, id_by b with Ok x, Ok y => Ok (x, y) | _, _ => Raise InvalidFileError end
    | _ => Raise InvalidFileError
    end.
  (* tatoeba.py:338-371 *)
  Fixpoint links_by (s : option (list Z)) (fs ft : bool) (rows : list (list str)) (st : lstate) : res lstate :=
    match rows with
    | [] => Ok st
    | row :: r =>
        do p <- link_row_by row;
        links_by s fs ft r (if skipped s fs ft p then st else add_link p st)
    end.
  (* tatoeba.py:435-462  from_text *)
  Definition from_text_by (text : str) : res word :=
    match match_ (word_re dv) text with
    | None => Raise InvalidEntryError
    | Some m =>
        do sense <- (match Regex.group n_sense m with
                     | Some t => do z <- of_option ValueError (int10 t); Ok (Some z)
                     | None => Ok None
                     end);
        Ok (mkword (match Regex.group n_headword m with Some h => h | None => [] end) (Regex.group n_reading m) sense (Regex.group n_display m)
              (match Regex.group n_example m with Some _ => true | None => false end))
    end.
  (* tatoeba.py:592-620  parse_sentence *)
  Fixpoint words_by (ws : list str) : res (list word) :=
    match ws with
    | [] => Ok []
    | w :: r =>
        match w with
        | [] => words_by r
        | _ => do wobj <- from_text_by w; do sentence <- words_by r; Ok (wobj :: sentence)
        end
    end.
  (* tatoeba.py:575-587, one row *)
  Definition index_row_by (s : option (list Z)) (edict : option (dict str (list str))) (row : list str)
      (d : dict Z (list word) * dict Z Z) : res (dict Z (list word) * dict Z Z) :=
    match row with
    | [sent_id; meaning_id; text] =>
        do sent_id <- id_by sent_id;
        do meaning_id <- id_by meaning_id;
        if (match s with Some ids => negb (mem sent_id ids) | None => false end) then Ok d
        else
          do ws <- words_by (sentence_splitter text);
          let (ws, o) := adjust_details edict ws in
          do _ <- o;
          Ok (dset sent_id ws (fst d), dset sent_id meaning_id (snd d))
    | _ => Raise ValueError
    end.
  Fixpoint indices_by (s : option (list Z)) (edict : option (dict str (list str))) (rows : list (list str))
      (d : dict Z (list word) * dict Z Z) : res (dict Z (list word) * dict Z Z) :=
    match rows with [] => Ok d | row :: r => do d <- index_row_by s edict row d; indices_by s edict r d end.
End By.

(* tatoeba.py:473-484  __str__, with format() of the sense *)
Definition word_str_limited (limit : Z) (w : word) : res str :=
  do sense_ <- (match sense w with
                | Some n => if n =? 0 then Ok [] else do _ <- of_option ValueError (dec_limited limit n); Ok (u "[" ++ fmt02 n ++ u "]")
                | None => Ok []
                end);
  let base := headword w in
  let base := match Tanaka_model.reading w with Some (c :: r) => base ++ u "(" ++ (c :: r) ++ u ")" | _ => base end in
  let base := base ++ sense_ in
  let base := match display w with Some (c :: r) => base ++ u "{" ++ (c :: r) ++ u "}" | _ => base end in
  Ok (if example w then base ++ u "~" else base).
