(* Python2_model.v -- the readers and the writer of files of
   /repo/cjktools/resources under Python 2.7, which setup.py:43, .travis.yml and
   tox.ini name as supported.  A stream that open, BZ2File or GzipFile gives
   then yields bytes, cut at line feeds; the stream readers of codecs decode
   UTF-8 and cut with unicode.splitlines.  A wide build, with the characters of
   PyText.v as white space and [dv] as its digits.  Of malformed bytes only
   those are accepted that Python 3 accepts (Python 2 also decodes surrogates);
   the theorems are about files in UTF-8.  The lines of a stream are the same
   whether it is a str or a unicode constant they are compared with, the
   constants being ASCII. *)
From Verif Require Import Base PyStr PyText PyFmt Maps_model Common_model Csv_model Tatoeba_model Kanjidic_model Radk_model Pinyin_model Place_model Files_model Encoding_model.

Section Python2.
  Variable dv : Z -> option Z.
  Variable disk : str -> option (list Z).
  Variable stdin : list Z.
  Variable given : str -> nat.

  (* the bytes a stream gives; those of a compressed file after decompression *)
  Definition stream_bytes (s : stream) : list Z :=
    match s with
    | PlainFile n _ | BZ2File n _ | GzipFile n _ => bytes_in disk n
    | Stdin => stdin
    | Stdout => []
    end.
  (* common.py:52-56, 72  streamhandler(stream), and its lines *)
  Definition handled (name : str) (h : handler) (b : list Z) : source :=
    match h with
    | Reader _ => utf8_source given name b
    | Identity | Writer _ => mksource (byte_lines b) None
    end.
  (* common.py:30-72  sopen(name, mode='r', encoding) *)
  Definition open2 (name : str) (encoding : option str) : res source :=
    do hs <- snd (sopen true (fun _ => true) (os_read disk) name (u "r") encoding);
    Ok (handled name (fst hs) (stream_bytes (snd hs))).
  Definition utf8_name : option str := Some (u "utf8").

  (* kanjidic.py:96-110 *)
  Fixpoint chain2 (streams : list source) (self : dict str (dict str value)) : res (dict str (dict str value)) :=
    match streams with
    | [] => Ok self
    | s :: r => do self <- over (fun ls => parse_kanjidic dv ls self) s; chain2 r self
    end.
  Definition kanjidic2 (names : list str) : res (dict str (dict str value)) :=
    match names with
    | [] => Raise TypeError
    | _ => do streams <- mapM (fun n => open2 n utf8_name) names; chain2 streams []
    end.

  (* place.py:68-106 *)
  Definition place2 (h : list place) (name : str) : res (list place * addr) :=
    do s <- open2 name utf8_name;
    match lines s, failure s with [], Some e => Raise e | _, _ => over (from_file dv h) s end.

  (* common.py:75-85  stream_codec of what the builtin open gives
     (radkdict.py:22-23, 39-40, zhuyin_table.py:17-24) *)
  Definition coded2 (name : str) : res source :=
    match disk name with
    | Some b => Ok (handled name (fst (stream_codec true (PlainFile name (u "r")))) b)
    | None => Raise OSError
    end.
  Definition radk2 (name : str) : res radkdict := do s <- coded2 name; over (parse_radkfile dv) s.
  Definition zhuyin2 (name : str) : res (dict str str) := do s <- coded2 name; over zhuyin_to_pinyin_table s.
  Definition pinyin2 (name : str) : res (dict str str) := do s <- coded2 name; over pinyin_to_zhuyin_table s.
  Definition all_pinyin2 (name : str) : res (list str) := do s <- coded2 name; over get_all_pinyin s.

  (* tatoeba.py:68-84  the columns of a row are decoded when the row is given *)
  Definition decode_col (col : str) : res str := match utf8 col with (t, true) => Ok t | (_, false) => Raise UnicodeError end.
  Fixpoint decode_rows (rows : list (list str)) (o : res unit) : list (list str) * res unit :=
    match rows with
    | [] => ([], o)
    | row :: r =>
        match mapM decode_col row with
        | Ok row => let (rows, o) := decode_rows r o in (row :: rows, o)
        | Raise e => ([], Raise e)
        end
    end.
  (* tatoeba.py:53-84  load_file on a file name *)
  Definition load2 (name : str) : rows_of :=
    match open2 name None with
    | Ok s => let (rows, o) := load_file s in decode_rows rows o
    | Raise e => ([], Raise e)
    end.
End Python2.

(* CPython's UTF-8 encoder *)
Definition code_bytes (c : char) : list Z :=
  if c <? 128 then [c]
  else if c <? 2048 then [Z.lor 192 (Z.shiftr c 6); Z.lor 128 (Z.land c 63)]
  else if c <? 65536 then [Z.lor 224 (Z.shiftr c 12); Z.lor 128 (Z.land (Z.shiftr c 6) 63); Z.lor 128 (Z.land c 63)]
  else [Z.lor 240 (Z.shiftr c 18); Z.lor 128 (Z.land (Z.shiftr c 12) 63); Z.lor 128 (Z.land (Z.shiftr c 6) 63); Z.lor 128 (Z.land c 63)].
Definition utf8_encode (s : str) : list Z := flat_map code_bytes s.

(* place.py:63-66  dump on a file name, every name being writable.  The stream
   writer encodes each piece that print gives it; lines end as [linesep] in a
   plain file (a stream of Windows in text mode) and in a line feed in another.
   The file afterwards, what goes to the standard output, and the outcome; Python 2
   encodes surrogates too. *)
Definition dump2 (repr : str -> str) (linesep : str) (fuel : nat) (h : list place) (self : addr) (disk : dict str (list Z)) (name : str)
    : dict str (list Z) * list Z * res unit :=
  match snd (sopen true (fun _ => true) (fun _ => None) name (u "w") (Some (u "utf8"))) with
  | Raise e => (disk, [], Raise e)
  | Ok (_, s) =>
      match dump repr fuel h self with
      | Raise e => (match s with PlainFile n _ | BZ2File n _ | GzipFile n _ => dset n [] disk | _ => disk end, [], Raise e)
      | Ok text =>
          match s with
          | PlainFile n _ => (dset n (utf8_encode (out_text linesep text)) disk, [], Ok tt)
          | BZ2File n _ | GzipFile n _ => (dset n (utf8_encode text) disk, [], Ok tt)
          | Stdin | Stdout => (disk, utf8_encode (out_text linesep text), Ok tt)
          end
      end
  end.
