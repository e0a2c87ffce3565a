(* SplitCodes_model.v -- model of /repo/cjktools/resources/split_by_codes.py *)
From Verif Require Import Base PyStr PyText Maps_model Bilingual_model Regex DictFormat_model.

(* split_by_codes.py:62-65  _code_pattern: \(([a-zA-Z0-9,-]+)\) *)
Definition code_char (c : Z) : bool :=
  ((97 <=? c) && (c <=? 122)) || ((65 <=? c) && (c <=? 90)) || ((48 <=? c) && (c <=? 57)) || (c =? 44) || (c =? 45).
Definition code_pattern : re :=
  Seqs [Chr (isc (u1 "(")); Grp (u "1") (Plus (Chr code_char)); Chr (isc (u1 ")"))].

(* split_by_codes.py:68-79  _known_codes *)
Definition known_codes : list str := 
  [u "Buddh"; u "MA"; u "X"; u "abbr"; u "adj"; u "adj-f"; u "adj-i"; u "adj-na"; u "adj-no";
   u "adj-pn"; u "adj-t"; u "adv"; u "adv-n"; u "adv-to"; u "arch"; u "ateji"; u "aux";
   u "aux-adj"; u "aux-v"; u "chn"; u "col"; u "comp"; u "conj"; u "ctr"; u "derog"; u "eK";
   u "ek"; u "exp"; u "fam"; u "fem"; u "food"; u "geom"; u "gikun"; u "gram"; u "hon"; u "hum";
   u "iK"; u "id"; u "int"; u "io"; u "iv"; u "ling"; u "m-sl"; u "male"; u "male-sl"; u "math";
   u "mil"; u "n"; u "n-adv"; u "n-pref"; u "n-suf"; u "n-t"; u "ng"; u "num"; u "oK"; u "obs";
   u "obsc"; u "ok"; u "on-mim"; u "physics"; u "pn"; u "poet"; u "pol"; u "pref"; u "prt";
   u "rare"; u "sens"; u "sl"; u "suf"; u "uK"; u "uk"; u "v1"; u "v5"; u "v5aru"; u "v5b";
   u "v5g"; u "v5k"; u "v5k-s"; u "v5m"; u "v5n"; u "v5r"; u "v5r-i"; u "v5s"; u "v5t"; u "v5u";
   u "v5u-s"; u "v5uru"; u "v5z"; u "vi"; u "vk"; u "vn"; u "vs"; u "vs-i"; u "vs-s"; u "vt";
   u "vulg"; u "vz"; u "s"; u "p"; u "u"; u "g"; u "f"; u "m"; u "h"; u "pr"; u "co"; u "st"].

(* pattern.findall with one group *)
Definition findall1 (r : re) (s : str) : list str :=
  map (fun m => match group (u "1") (snd m) with Some t => t | None => [] end) (finditer r s).

(* split_by_codes.py:82-90  get_codes; the set as a list without duplicates *)
Definition get_codes (sense : str) : list str :=
  supdate [] (filter (fun code => mem code known_codes)
                (flat_map (split_on (u1 ",")) (findall1 code_pattern sense))).

(* split_by_codes.py:37-39, 56-58  the union over the senses *)
Definition codes_of (senses : list str) : list str :=
  fold_left (fun codes sense => supdate codes (get_codes sense)) senses [].

(* split_by_codes.py:16-47  load_coded_dictionary, on the lines of the stream.
   Opening a path and closing it again are left out.  [for code in codes] runs
   in the order of the list; the order only affects the order of the keys. *)
Fixpoint load_lines (parse : list Z -> res parsed) (h : heap) (word_to_entry : dict str addr)
    (coded_dict : dict str (dict str addr)) (lines : list str) : heap * res (dict str (dict str addr)) :=
  match lines with
  | [] => (h, Ok coded_dict)
  | line :: r =>
      match parse line with
      | Raise e => (h, Raise e)
      | Ok p =>
          match build_entry h p with
          | (h, Raise e) => (h, Raise e)
          | (h, Ok entry) =>
              let w := word (entry_at h entry) in
              let '(h, o, entry, word_to_entry) :=
                match dget w word_to_entry with
                | Some e => let '(h, o) := entry_update h e entry in (h, o, e, word_to_entry)
                | None => (h, Ok tt, entry, dset w entry word_to_entry)
                end in
              match o with
              | Raise e => (h, Raise e)
              | Ok _ =>
                  let codes := codes_of (list_at h (senses (entry_at h entry))) in
                  let coded_dict := fold_left (fun d code =>
                    dset code (dset w entry (match dget code d with Some m => m | None => [] end)) d) codes coded_dict in
                  load_lines parse h word_to_entry coded_dict r
              end
          end
      end
  end.
Definition load_coded_dictionary (h : heap) (istream : list str) : heap * res (dict str (dict str addr)) :=
  match istream with
  | [] => (h, Raise StopIteration)
  | header :: lines =>
      match detect_format header with
      | Raise e => (h, Raise e)
      | Ok f => load_lines (parse_line f) h [] [] lines
      end
  end.

(* split_by_codes.py:50-59  iter_coded_entries, run to the end.  The function is
   a generator: a StopIteration raised inside it (by [next(lines)] on an empty
   stream, auto_format.py:45) becomes a RuntimeError (PEP 479) *)
Definition in_generator (o : res unit) : res unit :=
  match o with Raise StopIteration => Raise RuntimeError | _ => o end.
Definition iter_coded_entries (h : heap) (istream : list str) : heap * (list (addr * list str) * res unit) :=
  let '(h, (es, o)) := iter_entries h istream in
  (h, (map (fun e => (e, codes_of (list_at h (senses (entry_at h e))))) es, in_generator o)).
