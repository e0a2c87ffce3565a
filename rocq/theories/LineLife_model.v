(* LineLife_model.v -- the readers of /repo/cjktools/resources that take lines,
   one line after the other, over the streams of FileLife_model: radkdict.py,
   zhuyin_table.py, pinyin_table.py, auto_format.py, split_by_codes.py,
   place.py.  Python 3. *)
From Verif Require Import Base PyStr PyText PyFmt Rose Maps_model Common_model Files_model Encoding_model FileLife_model.
From Verif Require Import Radk_model Pinyin_model Bilingual_model DictFormat_model SplitCodes_model Place_model.

(** ** Loops over a stream *)
(* for line in stream: body; what the body did before it raised remains.  [n] is
   at least the number of lines left *)
Fixpoint each_line {S} (n : nat) (i : nat) (body : line_in -> S -> S * res unit) (s : S) (w : world) : world * S * res unit :=
  match next_line i w with
  | (w, Raise e) => (w, s, Raise e)
  | (w, Ok None) => (w, s, Ok tt)
  | (w, Ok (Some l)) =>
      match n with
      | O => (w, s, Raise RecursionError)
      | S n => match body l s with (s, Ok _) => each_line n i body s w | (s, Raise e) => (w, s, Raise e) end
      end
  end.
(* lines = iter(stream); head(next(lines)); for line in lines: body *)
Definition head_then {S T} (i : nat) (head : line_in -> S -> S * res T) (body : T -> line_in -> S -> S * res unit) (s : S) (w : world)
    : world * S * res unit :=
  match next_line i w with
  | (w, Raise e) => (w, s, Raise e)
  | (w, Ok None) => (w, s, Raise StopIteration)
  | (w, Ok (Some l)) =>
      match head l s with
      | (s, Raise e) => (w, s, Raise e)
      | (s, Ok t) => each_line (left_in i w) i (body t) s w
      end
  end.
(* a loop over texts; what bytes do is given apart *)
Definition on_text {S} (bytes : exn) (step : str -> S -> S * res unit) (l : line_in) (s : S) : S * res unit :=
  match l with TextLine t => step t s | BytesLine _ => (s, Raise bytes) end.
Definition keeping {S} (step : str -> S -> res S) (l : str) (s : S) : S * res unit :=
  match step l s with Ok s => (s, Ok tt) | Raise e => (s, Raise e) end.

Section LineLife.
  Variable disk : str -> res stream_in.      (* opening a file *)
  Variable dv : Z -> option Z.

  (* open(name), codecs.open(name, 'r', 'utf8') *)
  Definition open_plain (name : str) (w : world) : world * res nat :=
    match disk name with
    | Raise e => (w, Raise e)
    | Ok s => let i := length (rest w) in (mkworld (i :: live w) (rest w ++ [s]) (log w ++ [Opened i name]), Ok i)
    end.
  (* common.py:87-106  with get_stream_context(default, istream) as istream;
     split_by_codes.py:18-23 *)
  Definition with_source {X} (bad : exn -> X) (src : source_of) (body : nat -> world -> world * X) (w : world) : world * X :=
    match src with
    | FileLife_model.Path name =>
        match open_plain name w with
        | (w, Raise e) => (w, bad e)
        | (w, Ok i) => let '(w, x) := body i w in (shut i w, x)
        end
    | Buffer i => body i w
    end.

  (** ** radkdict.py *)
  Definition radk_state : Type := option (list Z) * dict (option (list Z)) (list char) * dict (option (list Z)) Z.
  (* radkdict.py:56-74, one line; bytes.startswith('#') raises TypeError *)
  Definition radk_line (line : str) (s : radk_state) : res radk_state :=
    let '(current_radical, rtk, rts) := s in
    let line := rstrip line in
    if startswith (u "#") line then Ok s
    else if startswith (u "$") line then
      let parts := split_ws line in
      if mem (length parts) [3%nat; 4%nat] then
        match parts with
        | dollar :: current_radical :: stroke_count :: _ =>
            match py_int dv 10 stroke_count with
            | Some z => Ok (Some current_radical, rtk, dset (Some current_radical) z rts)
            | None => Raise ValueError
            end
        | _ => Raise ValueError
        end
      else Raise PlainException
    else Ok (current_radical, dextend current_radical (strip line) rtk, rts).
  (* radkdict.py:76-79 *)
  Definition radk_done (s : radk_state) : res radkdict :=
    let '(_, rtk, rts) := s in
    let self := dupdate [] (invert_mapping rtk) in
    match map_dict (fun (s : unit) v => (s, Ok v)) tt [self] 0%nat true with
    | (_, st, Ok a) => Ok {| items := fetch [] st a; radical_to_kanji := rtk; radical_to_stroke_count := rts |}
    | (_, _, Raise e) => Raise e
    end.
  (* radkdict.py:34-40  RadkDict(istream) *)
  Definition radk_life (src : source_of) (w : world) : world * res radkdict :=
    with_source (@Raise radkdict) src (fun i w =>
      let '(w, s, o) := each_line (left_in i w) i (on_text TypeError (keeping radk_line)) (None, [], []) w in
      (w, do _ <- o; radk_done s)) w.

  (** ** zhuyin_table.py *)
  (* zhuyin_table.py:23-28 with one turn of the loop over it: parse_lines is a
     generator, which is asked for one item at a time *)
  Definition pair_line {S} (body : S -> str -> str -> S) (line : str) (s : S) : res S :=
    if starts_hash line then Ok s
    else match split_ws (rstrip line) with [zhuyin; pinyin] => Ok (body s zhuyin pinyin) | _ => Raise ValueError end.
  Definition pairs_life {S} (body : S -> str -> str -> S) (s : S) (src : source_of) (w : world) : world * res S :=
    with_source (@Raise S) src (fun i w =>
      let '(w, s, o) := each_line (left_in i w) i (on_text TypeError (keeping (pair_line body))) s w in
      (w, do _ <- o; Ok s)) w.
  (* zhuyin_table.py:31-38, 41-48, 51-59, 76-86 *)
  Definition zhuyin_life : source_of -> world -> world * res (dict str str) :=
    pairs_life (fun table zhuyin pinyin => dset zhuyin pinyin table) [].
  Definition pinyin_life : source_of -> world -> world * res (dict str str) :=
    pairs_life (fun table zhuyin pinyin => dset pinyin zhuyin table) [].
  Definition all_pinyin_life : source_of -> world -> world * res (list str) :=
    pairs_life (fun all_pinyin zhuyin pinyin => all_pinyin ++ [pinyin]) [u "r"].
  (* zhuyin_table.py:62-73 *)
  Definition pinyin_pattern_life (src : source_of) (w : world) : world * res str :=
    let '(w, r) := all_pinyin_life src w in
    (w, do all_pinyin <- r; Ok (u "(" ++ join (u "|") (sorted_len all_pinyin) ++ u ")([0-5]?)")).
  Definition zhuyin_pattern_life (src : source_of) (w : world) : world * res str :=
    let '(w, r) := pairs_life (fun all_pinyin zhuyin pinyin => all_pinyin ++ [pinyin]) [] src w in
    (w, do all_pinyin <- r; Ok (u "(" ++ join (u "|") all_pinyin ++ u ")[0-4]?")).

  (** ** pinyin_table.py:42-51  the table of hanzi *)
  Definition table_line (line : str) (table : dict str (list str)) : res (dict str (list str)) :=
    if starts_hash line then Ok table
    else match split_ws (rstrip line) with
         | [] => Raise IndexError
         | hanzi :: readings => Ok (dset hanzi readings table)
         end.
  Definition table_life (name : str) (w : world) : world * res (dict str (list str)) :=
    with_source (@Raise (dict str (list str))) (FileLife_model.Path name) (fun i w =>
      let '(w, s, o) := each_line (left_in i w) i (on_text TypeError (keeping table_line)) [] w in
      (w, do _ <- o; Ok s)) w.

  (** ** Dictionaries.  A pattern for texts does not match bytes: TypeError *)
  Definition header_line {S} (l : line_in) (s : S) : S * res format :=
    match l with TextLine t => (s, detect_format t) | BytesLine _ => (s, Raise TypeError) end.
  (* dict_format.py:62-69, one line *)
  Definition dict_line (f : format) (line : str) (s : heap * dict str addr) : heap * dict str addr * res unit :=
    let '(h, b) := s in
    match parse_line f line with
    | Raise e => (h, b, Raise e)
    | Ok p =>
        match build_entry h p with
        | (h, Raise e) => (h, b, Raise e)
        | (h, Ok entry) =>
            let w := word (entry_at h entry) in
            match dget w b with
            | Some old => let '(h, o) := entry_update h old entry in (h, b, o)
            | None => (h, dset w entry b, Ok tt)
            end
        end
    end.
  (* auto_format.py:29-36  load_dictionary(istream) *)
  Definition dictionary_life (h : heap) (i : nat) (w : world) : world * heap * res (dict str addr) :=
    let '(w, (h, b), o) := head_then i header_line (fun f => on_text TypeError (dict_line f)) (h, []) w in
    (w, h, do _ <- o; Ok b).
  (* split_by_codes.py:26-45, one line *)
  Definition coded_line (f : format) (line : str) (s : heap * dict str addr * dict str (dict str addr))
      : heap * dict str addr * dict str (dict str addr) * res unit :=
    let '(h, word_to_entry, coded_dict) := s in
    match parse_line f line with
    | Raise e => (h, word_to_entry, coded_dict, Raise e)
    | Ok p =>
        match build_entry h p with
        | (h, Raise e) => (h, word_to_entry, coded_dict, Raise e)
        | (h, Ok entry) =>
            let w := word (entry_at h entry) in
            let '(h, o, entry, word_to_entry) :=
              match dget w word_to_entry with
              | Some e => let '(h, o) := entry_update h e entry in (h, o, e, word_to_entry)
              | None => (h, Ok tt, entry, dset w entry word_to_entry)
              end in
            match o with
            | Raise e => (h, word_to_entry, coded_dict, Raise e)
            | Ok _ =>
                let codes := codes_of (list_at h (senses (entry_at h entry))) in
                (h, word_to_entry, fold_left (fun d code =>
                  dset code (dset w entry (match dget code d with Some m => m | None => [] end)) d) codes coded_dict, Ok tt)
            end
        end
    end.
  (* split_by_codes.py:16-47  load_coded_dictionary(file_or_stream) *)
  Definition coded_life (h : heap) (src : source_of) (w : world) : world * (heap * res (dict str (dict str addr))) :=
    with_source (fun e => (h, Raise e)) src (fun i w =>
      let '(w, (h, _, coded_dict), o) := head_then i header_line (fun f => on_text TypeError (coded_line f)) (h, [], []) w in
      (w, (h, do _ <- o; Ok coded_dict))) w.

  (** ** place.py *)
  Definition place_state : Type := list place * (list addr * Z * addr).
  (* place.py:79-103, one line *)
  Definition place_line (line : str) (s : place_state) : res place_state :=
    let '(h, (path, last_depth, last_node)) := s in
    do r <- from_line dv line;
    let '(depth, p) := r in
    let node := length h in
    let h := h ++ [p] in
    do path <- (if depth =? last_depth + 1 then Ok (path ++ [last_node])
                else if depth =? last_depth then Ok path
                else if depth <? last_depth then Ok (but_last (last_depth - depth) path)
                else Raise PlainException);
    match pop_last path with
    | None => Raise IndexError
    | Some (parent, _) => Ok (append h parent node, (path, depth, node))
    end.
  (* place.py:73-79, the first line *)
  Definition root_line (l : line_in) (s : place_state) : place_state * res unit :=
    match l with
    | TextLine line =>
        match from_line dv line with
        | Raise e => (s, Raise e)
        | Ok (depth, p) =>
            if negb (depth =? 0) then (s, Raise PlainException)
            else let h := fst s in ((h ++ [p], ([length h], depth, length h)), Ok tt)
        end
    | BytesLine line => (s, Raise (from_line_bytes line))
    end.
  (* place.py:68-106  from_file(filename); the places made by a call that fails
     are forgotten *)
  Definition place_life (h : list place) (name : str) (w : world) : world * res (list place * addr) :=
    match open_file disk name w with
    | (w, Raise e) => (w, Raise e)
    | (w, Ok i) =>
        if is_live i w then
          let '(w, (h', _), o) := head_then i root_line (fun _ => on_text TypeError (keeping place_line)) (h, ([], 0, O)) w in
          (shut i w, do _ <- o; Ok (h', length h))
        else (w, Raise ValueError)
    end.

  (** ** Entries one at a time *)
  (* auto_format.py:39-46, dict_format.py:73-79: the generator iter_entries
     returns, over the stream [i]; None once it is over *)
  Definition entries_next (i : nat) (g : option format) (h : heap) (w : world) : world * option format * heap * res (option addr) :=
    match g with
    | None => (w, None, h, Ok None)
    | Some f =>
        match next_line i w with
        | (w, Raise e) => (w, None, h, Raise e)
        | (w, Ok None) => (w, None, h, Ok None)
        | (w, Ok (Some (BytesLine _))) => (w, None, h, Raise TypeError)
        | (w, Ok (Some (TextLine line))) =>
            match parse_line f line with
            | Raise e => (w, None, h, Raise e)
            | Ok p =>
                match build_entry h p with
                | (h, Raise e) => (w, None, h, Raise e)
                | (h, Ok entry) => (w, Some f, h, Ok (Some entry))
                end
            end
        end
    end.
  (* who takes the next line of a stream: the caller, or the generator *)
  Inductive turn := Mine | Entry.
  Inductive taken := Line (r : res (option line_in)) | Got (r : res (option addr)).
  Fixpoint run_entries (turns : list turn) (i : nat) (g : option format) (h : heap) (w : world)
      : world * option format * heap * list taken :=
    match turns with
    | [] => (w, g, h, [])
    | Mine :: ts =>
        let '(w, o) := next_line i w in
        let '(w, g, h, outs) := run_entries ts i g h w in (w, g, h, Line o :: outs)
    | Entry :: ts =>
        let '(w, g, h, o) := entries_next i g h w in
        let '(w, g, h, outs) := run_entries ts i g h w in (w, g, h, Got o :: outs)
    end.
End LineLife.
