(* Encoding_model.v -- from the bytes of files to the readers of
   /repo/cjktools/resources.  Python 3: sopen hands its encoding argument to
   nobody (common.py:48-56, 69), so that a stream it opens, like one of the
   builtin open (radkdict.py:23, zhuyin_table.py:18), decodes by the locale;
   codecs.open (pinyin_table.py:44, kanji_list.py:27) decodes UTF-8.  A decoder
   takes bytes to the characters before the first malformed sequence, and says
   whether it reached the end.  The bytes of a compressed file are those after
   decompression. *)
From Verif Require Import Base PyStr PyText PyFmt Maps_model Scripts_model Common_model Csv_model Tatoeba_model Kanjidic_model Radk_model Pinyin_model Place_model Misc_model Files_model.

(** ** Decoders *)
Definition push (c : char) (r : str * bool) : str * bool := (c :: fst r, snd r).
Definition cont (b : Z) : bool := (128 <=? b) && (b <=? 191).
Definition second3 (b0 b1 : Z) : bool :=
  if b0 =? 224 then (160 <=? b1) && (b1 <=? 191) else if b0 =? 237 then (128 <=? b1) && (b1 <=? 159) else cont b1.
Definition second4 (b0 b1 : Z) : bool :=
  if b0 =? 240 then (144 <=? b1) && (b1 <=? 191) else if b0 =? 244 then (128 <=? b1) && (b1 <=? 143) else cont b1.
(* CPython's strict UTF-8 decoder *)
Fixpoint utf8 (b : list Z) : str * bool :=
  match b with
  | [] => ([], true)
  | b0 :: r0 =>
      if b0 <? 128 then push b0 (utf8 r0)
      else if b0 <? 194 then ([], false)
      else if b0 <? 224 then
        match r0 with
        | b1 :: r => if cont b1 then push ((b0 - 192) * 64 + (b1 - 128)) (utf8 r) else ([], false)
        | _ => ([], false)
        end
      else if b0 <? 240 then
        match r0 with
        | b1 :: b2 :: r =>
            if second3 b0 b1 && cont b2 then push ((b0 - 224) * 4096 + (b1 - 128) * 64 + (b2 - 128)) (utf8 r) else ([], false)
        | _ => ([], false)
        end
      else if b0 <? 245 then
        match r0 with
        | b1 :: b2 :: b3 :: r =>
            if second4 b0 b1 && cont b2 && cont b3 then
              push ((b0 - 240) * 262144 + (b1 - 128) * 4096 + (b2 - 128) * 64 + (b3 - 128)) (utf8 r)
            else ([], false)
        | _ => ([], false)
        end
      else ([], false)
  end.
Definition latin1 (b : list Z) : str * bool := (b, true).
Fixpoint ascii (b : list Z) : str * bool :=
  match b with [] => ([], true) | c :: r => if c <? 128 then push c (ascii r) else ([], false) end.

(** ** Streams *)
Inductive stream_in := TextIn (s : source) | BytesIn (ls : list str).
Definition finished (l : str) : bool := match rev l with c :: _ => c =? 10 | [] => false end.
Definition ended (f : option exn) : res unit := match f with Some e => Raise e | None => Ok tt end.
(* a loop over the lines of a stream which then fails, or not *)
Definition over {A} (parse : list str -> res A) (s : source) : res A :=
  do r <- parse (lines s); do _ <- ended (failure s); Ok r.

Section Encoding.
  Variable dv : Z -> option Z.
  Variable disk : str -> option (list Z).
  Variable stdin : source.
  Variable locale : list Z -> str * bool.     (* the decoder of the locale's encoding *)
  (* how many whole lines of a file come through before the error, which depends
     on the sizes of the buffers *)
  Variable given : str -> nat.

  Definition text_source (name : str) (b : list Z) : source :=
    match locale b with
    | (t, true) => mksource (file_lines t) None
    | (t, false) => mksource (firstn (given name) (filter finished (file_lines t))) (Some UnicodeError)
    end.
  Definition bytes_in (n : str) : list Z := match disk n with Some b => b | None => [] end.
  (* common.py:28-72  sopen(name, mode='r') *)
  Definition open_bytes (name : str) : res stream_in :=
    do hs <- snd (sopen false (fun _ => true) (os_read disk) name (u "r") (Some (u "utf8")));
    Ok (match snd hs with
        | PlainFile n mode => if mem (u1 "b") mode then BytesIn (byte_lines (bytes_in n)) else TextIn (text_source n (bytes_in n))
        | BZ2File n _ | GzipFile n _ => BytesIn (byte_lines (bytes_in n))
        | Stdin => TextIn stdin
        | Stdout => TextIn (mksource [] None)
        end).

  (* kanjidic.py:96-110  __init__ *)
  Fixpoint chain_bytes (streams : list stream_in) (self : dict str (dict str value)) : res (dict str (dict str value)) :=
    match streams with
    | [] => Ok self
    | TextIn s :: r => do self <- over (fun ls => parse_kanjidic dv ls self) s; chain_bytes r self
    | BytesIn [] :: r => chain_bytes r self
    | BytesIn (_ :: _) :: _ => Raise TypeError
    end.
  Definition kanjidic_bytes (names : list str) : res (dict str (dict str value)) :=
    match names with
    | [] => Raise TypeError
    | _ => do streams <- mapM open_bytes names; chain_bytes streams []
    end.
  (* tatoeba.py:53-84  load_file *)
  Definition load_bytes (name : str) : rows_of :=
    match open_bytes name with
    | Ok (TextIn s) => load_file s
    | Ok (BytesIn ls) => load_file (csv_source (ByteLines ls))
    | Raise e => ([], Raise e)
    end.
  (* place.py:68-106  from_file; next() of a stream that fails at once raises
     its error *)
  Definition place_bytes (h : list place) (name : str) : res (list place * addr) :=
    do l <- open_bytes name;
    match l with
    | TextIn s => match lines s, failure s with [], Some e => Raise e | _, _ => over (from_file dv h) s end
    | BytesIn [] => Raise StopIteration
    | BytesIn (line :: _) => Raise (from_line_bytes line)
    end.
  (* radkdict.py:22-23, 39-40, zhuyin_table.py:17-20, 33, 43, 53  the builtin open *)
  Definition open_default (name : str) : res source :=
    match disk name with Some b => Ok (text_source name b) | None => Raise OSError end.
  Definition radk_bytes (name : str) : res radkdict := do s <- open_default name; over (parse_radkfile dv) s.
  Definition zhuyin_bytes (name : str) : res (dict str str) := do s <- open_default name; over zhuyin_to_pinyin_table s.
  Definition pinyin_bytes (name : str) : res (dict str str) := do s <- open_default name; over pinyin_to_zhuyin_table s.
  Definition all_pinyin_bytes (name : str) : res (list str) := do s <- open_default name; over get_all_pinyin s.

  (* pinyin_table.py:42-52  codecs.open(f, 'r', 'utf8'), line by line *)
  Definition utf8_source (name : str) (b : list Z) : source :=
    match utf8 b with
    | (t, true) => mksource (codec_lines t) None
    | (t, false) => mksource (firstn (given name) (codec_lines t)) (Some UnicodeError)
    end.
  Definition table_bytes (name : str) : res (dict str (list str)) :=
    match disk name with Some b => over (fun ls => load_table ls []) (utf8_source name b) | None => Raise OSError end.
End Encoding.

(* kanji_list.py:27-28  codecs.open(f, 'r', 'utf8') and read() *)
Definition utf8_contents (disk : str -> option (list Z)) (f : str) : res str :=
  match disk f with
  | None => Raise OSError
  | Some b => match utf8 b with (t, true) => Ok t | (_, false) => Raise UnicodeError end
  end.

(** ** Writing *)
(* place.py:63-66  dump on a file name, with the locale's encoder; a text that
   cannot be encoded leaves [torn] in the file *)
Definition dump_bytes (repr : str -> str) (linesep : str) (encode : str -> option (list Z)) (torn : list Z)
    (fuel : nat) (h : list place) (self : addr) (disk : dict str (list Z)) (name : str) : dict str (list Z) * res unit :=
  match dump_path repr linesep fuel h self [] name with
  | (files, _, Ok tt) =>
      match dget name files with
      | None => (disk, Ok tt)
      | Some text => match encode text with Some b => (dset name b disk, Ok tt) | None => (dset name torn disk, Raise UnicodeError) end
      end
  | (_, _, Raise e) => (dset name torn disk, Raise e)
  end.
