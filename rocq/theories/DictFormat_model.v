(* DictFormat_model.v -- model of /repo/cjktools/resources/dict_format.py and
   /repo/cjktools/resources/auto_format.py *)
From Verif Require Import Base PyStr Maps_model Bilingual_model Regex.

(* dict_format.py:82-94  RegexFormat *)
Record format := {
  name : str; header_pattern : re; line_pattern : re; sense_pattern : re }.

(* dict_format.py:96-97  match_header.  The abstract class's match_header and
   parse_line (dict_format.py:46-51, dict_format.py:53-55) raise
   NotYetImplementedError; RegexFormat overrides both. *)
Definition match_header (f : format) (header_line : str) : bool :=
  match match_ (header_pattern f) header_line with Some _ => true | None => false end.

(* s.replace(' ', '') *)
Definition no_spaces (s : str) : str := filter (notc (u1 " ")) s.

(** what DictionaryEntry is called with: word, readings, senses *)
Definition parsed : Type := list Z * (list (list Z) * list (list Z)).

(* match.groupdict()['sense'] for each match; the group takes part in every
   match of the known patterns, [None] would be appended otherwise *)
Definition sense_of (m : pos * pos) : str :=
  match group (u "sense") (snd m) with Some t => t | None => [] end.

(* dict_format.py:99-118  parse_line, up to the construction of the entry *)
Definition parse_line (f : format) (entry_line : str) : res parsed :=
  match match_ (line_pattern f) entry_line with
  | None => Raise FormatError
  | Some m =>
      match group (u "word") m with
      | None => Raise AttributeError
      | Some w =>
          let word := no_spaces w in
          let reading := no_spaces (match group (u "reading") m with
                                    | Some (c :: r) => c :: r
                                    | _ => word
                                    end) in
          match group (u "senses") m with
          | None => Raise TypeError
          | Some sense_line =>
              match map sense_of (finditer (sense_pattern f) sense_line) with
              | [] => Raise FormatError
              | senses => Ok (word, ([reading], senses))
              end
          end
      end
  end.

(* auto_format.py:51-76  known_formats, one component of each pattern per line *)
Definition edict : format := {|
  name := u "edict";
  (* ^.？？？.*$ *)
  header_pattern := Seqs [Bol; Chr dot; Lit (u "？？？"); Star (Chr dot); Eol];
  line_pattern := Seqs [
    Bol; Grp (u "word") (Plus (Chr (notc (u1 " ")))); Chr (isc (u1 " "));
    Opt (Seqs [Chr (isc (u1 "[")); Grp (u "reading") (Plus (Chr (notc (u1 "]")))); Lit (u "] ")]);
    Grp (u "senses") (Star (Chr dot)); Eol];
  sense_pattern := Seqs [Chr (isc (u1 "/")); Grp (u "sense") (Plus (Chr (notc (u1 "/"))))] |}.

Definition jc_kdic : format := {|
  name := u "jc_kdic";
  header_pattern := Seqs [Bol; Lit (u "FORMAT jc_kdic"); Eol];
  line_pattern := Seqs [
    Bol; Grp (u "word") (Plus (Chr (notc (u1 " ")))); Lit (u " [");
    Grp (u "reading") (Plus (Chr (notc (u1 "]")))); Chr (isc (u1 "]")); Chr (isc 9);
    Grp (u "senses") (Star (Chr dot)); Eol];
  sense_pattern := Seqs [Grp (u "sense") (Plus (Chr (notc (u1 "，")))); Opt (Chr (isc (u1 "，")))] |}.

(* the class of auto_format.py:68 (６ is missing there) *)
Definition sense_digits : str := u "１２３４５７８９０".
Definition sense_digit : Z -> bool := oneof sense_digits.
Definition cj_kdic : format := {|
  name := u "cj_kdic";
  header_pattern := Seqs [Bol; Lit (u "FORMAT cj_kdic"); Eol];
  line_pattern := Seqs [
    Bol; Grp (u "word") (Plus (Chr (notc 9))); Chr (isc 9);
    Grp (u "reading") (Plus (Chr (notc (u1 "\")))); Lit (u "\n");
    Grp (u "senses") (Star (Chr dot)); Eol];
  sense_pattern := Seqs [
    Opt (Seqs [Plus (Chr sense_digit); Chr (isc (u1 "．"))]);
    Grp (u "sense") (Plus (Chr (notc (u1 "\")))); Opt (Lit (u "\n"))] |}.

Definition cedict : format := {|
  name := u "cedict";
  (* ^# CEDICT.*$ *)
  header_pattern := Seqs [Bol; Lit (u "# CEDICT"); Star (Chr dot); Eol];
  line_pattern := Seqs [
    Bol; Plus (Chr (notc (u1 " "))); Chr (isc (u1 " "));
    Grp (u "word") (Plus (Chr (notc (u1 " ")))); Chr (isc (u1 " "));
    Opt (Seqs [Chr (isc (u1 "[")); Grp (u "reading") (Plus (Chr (notc (u1 "]")))); Chr (isc (u1 "]"))]);
    Grp (u "senses") (Star (Chr dot))];
  sense_pattern := Seqs [Chr (isc (u1 "/")); Grp (u "sense") (Plus (Chr (notc (u1 "/"))))] |}.

Definition known_formats : list format := [edict; jc_kdic; cj_kdic; cedict].

(* auto_format.py:16-26 *)
Fixpoint detect_format_in (fs : list format) (header : str) : res format :=
  match fs with
  | [] => Raise UnknownFormatError
  | f :: r => if match_header f header then Ok f else detect_format_in r header
  end.
Definition detect_format (header : str) : res format := detect_format_in known_formats header.

(* DictionaryEntry(word, [reading], senses) on fresh lists *)
Definition build_entry (h : heap) (p : parsed) : heap * res addr :=
  let '(w, (rs, ss)) := p in
  let '(h, r) := new_list h rs in
  let '(h, s) := new_list h ss in
  new_entry h w r s.

(* dict_format.py:57-71  parse_dictionary *)
Fixpoint parse_lines (parse : list Z -> res parsed) (h : heap) (b : dict str addr) (lines : list str)
  : heap * res (dict str addr) :=
  match lines with
  | [] => (h, Ok b)
  | line :: r =>
      match parse line with
      | Raise e => (h, Raise e)
      | Ok p =>
          match build_entry h p with
          | (h, Raise e) => (h, Raise e)
          | (h, Ok entry) =>
              let w := word (entry_at h entry) in
              match dget w b with
              | Some old =>
                  match entry_update h old entry with
                  | (h, Raise e) => (h, Raise e)
                  | (h, Ok _) => parse_lines parse h b r
                  end
              | None => parse_lines parse h (dset w entry b) r
              end
          end
      end
  end.
Definition parse_dictionary (f : format) (h : heap) (lines : list str) : heap * res (dict str addr) :=
  parse_lines (parse_line f) h [] lines.

(* dict_format.py:73-79  iter_entries: the entries produced when the generator
   is run to the end, and how it ends *)
Fixpoint iter_lines (parse : list Z -> res parsed) (h : heap) (lines : list str) : heap * (list addr * res unit) :=
  match lines with
  | [] => (h, ([], Ok tt))
  | line :: r =>
      match parse line with
      | Raise e => (h, ([], Raise e))
      | Ok p =>
          match build_entry h p with
          | (h, Raise e) => (h, ([], Raise e))
          | (h, Ok entry) => let '(h, (es, o)) := iter_lines parse h r in (h, (entry :: es, o))
          end
      end
  end.

(* auto_format.py:29-36 *)
Definition load_dictionary (h : heap) (istream : list str) : heap * res (dict str addr) :=
  match istream with
  | [] => (h, Raise StopIteration)
  | header :: lines =>
      match detect_format header with
      | Raise e => (h, Raise e)
      | Ok f => parse_dictionary f h lines
      end
  end.
(* auto_format.py:39-46: the header is consumed at the call; the entries come
   from the generator *)
Definition iter_entries (h : heap) (istream : list str) : heap * (list addr * res unit) :=
  match istream with
  | [] => (h, ([], Raise StopIteration))
  | header :: lines =>
      match detect_format header with
      | Raise e => (h, ([], Raise e))
      | Ok f => iter_lines (parse_line f) h lines
      end
  end.
