(* Files_model.v -- from the contents of files to the readers of
   /repo/cjktools/resources.  The contents of a plain file are its decoded text,
   those of a compressed file its bytes after decompression; decoding and
   decompression themselves, and their errors, are not modelled.  Python 3. *)
From Verif Require Import Base PyStr PyText PyFmt Maps_model Common_model Csv_model Tatoeba_model Kanjidic_model Radk_model Pinyin_model Place_model.

(** ** Lines *)
(* str.splitlines: the characters that end a line *)
Definition line_breaks : list char := [10; 11; 12; 13; 28; 29; 30; 133; 8232; 8233].
Definition linebreak (c : char) : bool := mem c line_breaks.
(* iterating over a stream of codecs.open, which cuts with str.splitlines and
   keeps the ends (pinyin_table.py:44-45) *)
Fixpoint codec_from (cur : str) (s : str) : list str :=
  match s with
  | [] => match cur with [] => [] | _ => [rev cur] end
  | c :: r =>
      if linebreak c then
        match r with
        | d :: r' => if (c =? 13) && (d =? 10) then rev (10 :: 13 :: cur) :: codec_from [] r' else rev (c :: cur) :: codec_from [] r
        | [] => [rev (c :: cur)]
        end
      else codec_from (c :: cur) r
  end.
Definition codec_lines (s : str) : list str := codec_from [] s.
(* iterating over a binary stream *)
Fixpoint bytes_from (cur : str) (s : str) : list str :=
  match s with
  | [] => match cur with [] => [] | _ => [rev cur] end
  | c :: r => if c =? 10 then rev (c :: cur) :: bytes_from [] r else bytes_from (c :: cur) r
  end.
Definition byte_lines (s : str) : list str := bytes_from [] s.

(* what an opened stream gives: the lines of a text, or bytes objects *)
Inductive lines_in := TextLines (ls : list str) | ByteLines (ls : list str).

Section Files.
  Variable dv : Z -> option Z.
  Variable content : str -> option str.     (* None: there is no such file *)
  Variable stdin : str.

  Definition os_read (s : stream) : option exn :=
    match s with
    | PlainFile n _ | BZ2File n _ | GzipFile n _ => match content n with Some _ => None | None => Some OSError end
    | _ => None
    end.
  Definition text_in (n : str) : str := match content n with Some c => c | None => [] end.
  (* BZ2File and GzipFile are binary streams whatever the mode *)
  Definition stream_lines (s : stream) : lines_in :=
    match s with
    | PlainFile n mode => if mem (u1 "b") mode then ByteLines (byte_lines (text_in n)) else TextLines (file_lines (text_in n))
    | BZ2File n _ | GzipFile n _ => ByteLines (byte_lines (text_in n))
    | Stdin => TextLines (file_lines stdin)
    | Stdout => TextLines []
    end.
  (* sopen(name, mode='r') and the lines of the stream *)
  Definition open_read (name : str) : res lines_in :=
    do hs <- snd (sopen false (fun _ => true) os_read name (u "r") (Some (u "utf8")));
    Ok (stream_lines (snd hs)).

  (* kanjidic.py:96-110  __init__ on file names.  All the files are opened
     first; reduce of no files raises TypeError.  bytes.startswith('#') raises
     TypeError.  The standard input named twice is not modelled. *)
  Fixpoint parse_chain (streams : list lines_in) (self : dict str (dict str value)) : res (dict str (dict str value)) :=
    match streams with
    | [] => Ok self
    | TextLines ls :: r => do self <- parse_kanjidic dv ls self; parse_chain r self
    | ByteLines [] :: r => parse_chain r self
    | ByteLines (_ :: _) :: _ => Raise TypeError
    end.
  Definition kanjidic_files (names : list str) : res (dict str (dict str value)) :=
    match names with
    | [] => Raise TypeError
    | _ => do streams <- mapM open_read names; parse_chain streams []
    end.

  (* tatoeba.py:53-84  load_file on a file name; csv.reader raises csv.Error
     when its source gives bytes *)
  Definition csv_source (l : lines_in) : source :=
    match l with
    | TextLines ls => mksource ls None
    | ByteLines [] => mksource [] None
    | ByteLines (_ :: _) => mksource [] (Some CsvError)
    end.
  Definition load_path (name : str) : rows_of :=
    match open_read name with
    | Ok l => load_file (csv_source l)
    | Raise e => ([], Raise e)
    end.

  (* place.py:211-233  _from_line on a bytes object: int() takes bytes, the
     constructor does not; bytes.split(':') raises TypeError *)
  Definition byte_space (c : char) : bool := ((9 <=? c) && (c <=? 13)) || (c =? 32).
  Definition byte_words (line : str) : list str :=
    filter (fun w => match w with [] => false | _ => true end)
      (split_on 32 (map (fun c => if byte_space c then 32 else c) line)).
  Definition from_line_bytes (line : str) : exn :=
    match byte_words line with
    | [depth; _; _] | [depth; _; _; _] =>
        match py_int ascii_dv 10 depth with Some _ => TypeError | None => ValueError end
    | _ => ValueError
    end.
  (* place.py:68-106  from_file on a file name *)
  Definition place_path (h : list place) (name : str) : res (list place * addr) :=
    do l <- open_read name;
    match l with
    | TextLines ls => from_file dv h ls
    | ByteLines [] => Raise StopIteration
    | ByteLines (line :: _) => Raise (from_line_bytes line)
    end.

  (* radkdict.py:22-23, 39-40  RadkDict(), zhuyin_table.py:17-20, 33, 43, 53:
     open(cjkdata.get_resource(..)) in text mode; [name] is the resource *)
  Definition open_text (name : str) : res (list str) :=
    match content name with Some c => Ok (file_lines c) | None => Raise OSError end.
  Definition radk_path (name : str) : res radkdict := do ls <- open_text name; parse_radkfile dv ls.
  Definition zhuyin_path (name : str) : res (dict str str) := do ls <- open_text name; zhuyin_to_pinyin_table ls.
  Definition pinyin_path (name : str) : res (dict str str) := do ls <- open_text name; pinyin_to_zhuyin_table ls.
  Definition all_pinyin_path (name : str) : res (list str) := do ls <- open_text name; get_all_pinyin ls.
  (* pinyin_table.py:42-52  codecs.open *)
  Definition table_path (name : str) : res (dict str (list str)) :=
    match content name with Some c => load_table (codec_lines c) [] | None => Raise OSError end.
End Files.

(** ** Writing *)
Section Dump.
  Variable repr : str -> str.
  Variable linesep : str.                   (* os.linesep *)
  Definition out_text (s : str) : str := flat_map (fun c => if c =? 10 then linesep else [c]) s.
  (* place.py:63-66  dump on a file name, every name being writable: the files
     afterwards, what goes to the standard output, and the outcome.  Opening a
     file for writing empties it; print() of a text to a binary stream raises
     TypeError *)
  Definition dump_path (fuel : nat) (h : list place) (self : addr) (disk : dict str str) (name : str)
      : dict str str * str * res unit :=
    match snd (sopen false (fun _ => true) (fun _ => None) name (u "w") (Some (u "utf8"))) with
    | Raise e => (disk, [], Raise e)
    | Ok (_, s) =>
        match s with
        | BZ2File n _ | GzipFile n _ =>
            (dset n [] disk, [], match walk fuel h self with Ok [] => Ok tt | Ok (_ :: _) => Raise TypeError | Raise e => Raise e end)
        | PlainFile n _ =>
            match dump repr fuel h self with
            | Ok text => (dset n (out_text text) disk, [], Ok tt)
            | Raise e => (dset n [] disk, [], Raise e)
            end
        | Stdin | Stdout =>
            match dump repr fuel h self with
            | Ok text => (disk, out_text text, Ok tt)
            | Raise e => (disk, [], Raise e)
            end
        end
    end.
End Dump.

(** ** The standard streams *)
(* the standard input and output are the streams 0 and 1; any other name opens
   a new stream (common.py:58-72) *)
Definition sopen_id (name mode : str) (w : streams) : streams * nat :=
  match snd (sopen false (fun _ => true) (fun _ => None) name mode (Some (u "utf8"))) with
  | Ok (_, Stdin) => (w, 0%nat)
  | Ok (_, Stdout) => (w, 1%nat)
  | _ => open_new w
  end.
(* with sopen(name, mode) as stream: body (place.py:64, 70, tatoeba.py:76-81) *)
Definition with_sopen {A} (name mode : str) (body : nat -> streams -> streams * res A) (w : streams) : streams * res A :=
  let '(w, i) := sopen_id name mode w in with_stmt (StreamContext i) body w.
