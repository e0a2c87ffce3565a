(* DictBytes_model.v -- dictionary files, from their bytes to
   /repo/cjktools/resources/auto_format.py and split_by_codes.py, under both
   Pythons.  The dictionary is opened with the builtin open, as README.md:60-64
   and split_by_codes.py:19 have it, or by a program that calls
   cjktools.common.sopen. *)
From Verif Require Import Base PyStr PyText Maps_model Regex Common_model Csv_model Bilingual_model DictFormat_model SplitCodes_model Files_model Encoding_model Python2_model.

(* next(lines) on a stream that fails at once raises its error; otherwise the
   lines that come are used before a later error is met *)
Definition run_lines {A} (h : heap) (run : heap -> list str -> heap * res A) (s : source) : heap * res A :=
  match lines s, failure s with
  | [], Some e => (h, Raise e)
  | ls, f => let '(h, o) := run h ls in (h, do a <- o; do _ <- ended f; Ok a)
  end.
Definition opened {A} (h : heap) (run : heap -> list str -> heap * res A) (s : res source) : heap * res A :=
  match s with Ok s => run_lines h run s | Raise e => (h, Raise e) end.

(** ** Python 3 *)
Section Python3.
  Variable disk : str -> option (list Z).
  Variable stdin : source.
  Variable locale : list Z -> str * bool.
  Variable given : str -> nat.
  (* README.md:60-63, auto_format.py:29-36 *)
  Definition dict_open (h : heap) (name : str) : heap * res (dict str addr) :=
    opened h load_dictionary (open_default disk locale given name).
  (* split_by_codes.py:16-47 on a file name *)
  Definition coded_open (h : heap) (name : str) : heap * res (dict str (dict str addr)) :=
    opened h load_coded_dictionary (open_default disk locale given name).
  (* load_dictionary(sopen(name)): a text pattern does not match bytes
     (dict_format.py:96-97) *)
  Definition dict_sopen (h : heap) (name : str) : heap * res (dict str addr) :=
    match open_bytes disk stdin locale given name with
    | Ok (TextIn s) => run_lines h load_dictionary s
    | Ok (BytesIn []) => (h, Raise StopIteration)
    | Ok (BytesIn (_ :: _)) => (h, Raise TypeError)
    | Raise e => (h, Raise e)
    end.
End Python3.

(** ** Python 2 *)
Definition all_ascii (s : str) : bool := forallb (fun c => c <? 128) s.
(* bytes.replace of unicode constants decodes the bytes as ASCII *)
Definition replace2 (s : str) : res str := if all_ascii s then Ok (no_spaces s) else Raise UnicodeError.
(* dict_format.py:99-118  parse_line on bytes.  The patterns match as they do on
   text, byte by byte; the senses stay bytes; the constants are unicode
   (dict_format.py:14), so that bytes put into a message are decoded as ASCII *)
Definition parse_line2 (f : format) (entry_line : str) : res parsed :=
  match match_ (line_pattern f) entry_line with
  | None => Raise (if all_ascii entry_line then FormatError else UnicodeError)
  | Some m =>
      match group (u "word") m with
      | None => Raise AttributeError
      | Some w =>
          do word <- replace2 w;
          do reading <- replace2 (match group (u "reading") m with Some (c :: r) => c :: r | _ => word end);
          match group (u "senses") m with
          | None => Raise TypeError
          | Some sense_line =>
              match map sense_of (finditer (sense_pattern f) sense_line) with
              | [] => Raise FormatError
              | senses => Ok (word, ([reading], senses))
              end
          end
      end
  end.
(* auto_format.py:29-36 *)
Definition load_dictionary2 (h : heap) (istream : list str) : heap * res (dict str addr) :=
  match istream with
  | [] => (h, Raise StopIteration)
  | header :: lines =>
      match detect_format header with
      | Raise e => (h, Raise e)
      | Ok f => parse_lines (parse_line2 f) h [] lines
      end
  end.
(* split_by_codes.py:23-47; the pattern and the codes are bytes there *)
Definition load_coded2 (h : heap) (istream : list str) : heap * res (dict str (dict str addr)) :=
  match istream with
  | [] => (h, Raise StopIteration)
  | header :: lines =>
      match detect_format header with
      | Raise e => (h, Raise e)
      | Ok f => load_lines (parse_line2 f) h [] [] lines
      end
  end.
Section Python2.
  Variable disk : str -> option (list Z).
  Variable stdin : list Z.
  Variable given : str -> nat.
  (* the builtin open gives bytes *)
  Definition open_plain2 (name : str) : res source :=
    match disk name with Some b => Ok (mksource (byte_lines b) None) | None => Raise OSError end.
  (* README.md:60-63 *)
  Definition dict_open2 (h : heap) (name : str) : heap * res (dict str addr) := opened h load_dictionary2 (open_plain2 name).
  (* split_by_codes.py:16-47 *)
  Definition coded_open2 (h : heap) (name : str) : heap * res (dict str (dict str addr)) := opened h load_coded2 (open_plain2 name).
  (* load_dictionary(sopen(name)): decoded *)
  Definition dict_sopen2 (h : heap) (name : str) : heap * res (dict str addr) :=
    opened h load_dictionary (open2 disk stdin given name utf8_name).
End Python2.
