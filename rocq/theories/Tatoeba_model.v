(* Tatoeba_model.v -- model of the readers of /repo/cjktools/resources/tatoeba.py
   (lines 29-411 and 514-671).

   A source is what load_file (Csv_model) makes of it: the rows it yields and
   how it ends.  [dv] gives Unicode digit values for int(), [strptime] is
   datetime.strptime with the fixed format, [lower] is str.lower; [filter_row]
   is the method meant to be overridden (tatoeba.py:264-265, False by default).  The
   containers given as languages / sentence_ids are lists.  __repr__ and the
   Mapping methods derived from __getitem__, __iter__ and __len__ are in
   Corpus_model.v.  Attributes that have not been assigned yet are None.  The abstract
   TatoebaReader.__init__ (tatoeba.py:49-51) is never called. *)
From Verif Require Import Base PyText PyFmt Csv_model Tanaka_model.

Definition rows_of : Type := (list (list str) * res unit)%type.

Section Tatoeba.
  Variable dv : Z -> option Z.
  Definition int_ (s : str) : res Z := of_option ValueError (py_int dv 10 s).

  (* ---------------------------------------------------------------- *)
  (** ** TatoebaSentenceReader *)
  Section Sentences.
    Variable date : Type.
    Variable strptime : str -> res date.
    Variable filter_row : list str -> bool.
    Definition info : Type := (option str * option date * option date)%type.

    (* tatoeba.py:240-242 *)
    Record tables := mktables { language_dict : dict str (list Z); sentence_dict : dict Z str; detailed_info_dict : option (dict Z info) }.
    (* tatoeba.py:112-114, 182-187  the attributes; the getter sentences gives sentences_src *)
    Record reader := mkreader { languages : option (list str); sentences_src : str; loaded : option tables }.

    (* tatoeba.py:254-262  parse_date *)
    Definition parse_date (dtstr : str) : res (option date) :=
      if eqb dtstr (u "\N") || eqb dtstr (u "0000-00-00 00:00:00") then Ok None else rmap Some (strptime dtstr).

    (* tatoeba.py:214-237, one row *)
    Definition add_id (lang : str) (i : Z) (d : dict str (list Z)) : dict str (list Z) :=
      dset lang (sadd i (match dget lang d with Some s => s | None => [] end)) d.
    Definition read_row (langs : option (list str)) (row : list str) (t : tables) : res tables :=
      if filter_row row then Ok t
      else
        match firstn 3 row with
        | [sent_id; lang; text] =>
            if (match langs with Some ls => negb (mem lang ls) | None => false end) then Ok t
            else
              do sent_id <- int_ sent_id;
              let ld := add_id lang sent_id (language_dict t) in
              let sd := dset sent_id text (sentence_dict t) in
              match detailed_info_dict t with
              | None => Ok (mktables ld sd None)
              | Some dd =>
                  match firstn 3 (skipn 3 row) with
                  | [uname; d_added; d_modified] =>
                      let uname := if eqb uname (u "\N") then None else Some uname in
                      do d_added <- parse_date d_added;
                      do d_modified <- parse_date d_modified;
                      Ok (mktables ld sd (Some (dset sent_id (uname, d_added, d_modified) dd)))
                  | _ => Raise ValueError
                  end
              end
        | _ => Raise ValueError
        end.
    Fixpoint read_rows (langs : option (list str)) (rows : list (list str)) (t : tables) : res tables :=
      match rows with [] => Ok t | row :: r => do t <- read_row langs row t; read_rows langs r t end.
    (* tatoeba.py:193-242  the body of the setter after its first line *)
    Definition read_sentences (langs : option (list str)) (src : rows_of) : res tables :=
      match src with
      | ([], Raise e) => Raise e
      | ([], Ok _) => Raise StopIteration
      | (first_row :: rows, o) =>
          do detailed <- (if Nat.eqb (length first_row) 3 then Ok false
                          else if Nat.eqb (length first_row) 6 then Ok true else Raise InvalidFileError);
          do t <- read_rows langs (first_row :: rows) (mktables [] [] (if detailed then Some [] else None));
          do _ <- o;
          Ok t
      end.
    (* tatoeba.py:189-242  sentences setter; [name] is the source's representation *)
    Definition set_sentences (r : reader) (name : str) (src : rows_of) : reader * res unit :=
      match read_sentences (languages r) src with
      | Ok t => (mkreader (languages r) name (Some t), Ok tt)
      | Raise e => (mkreader (languages r) name (loaded r), Raise e)
      end.
    (* tatoeba.py:112-114  __init__ *)
    Definition new_sentences (langs : option (list str)) (name : str) (src : rows_of) : res reader :=
      let (r, o) := set_sentences (mkreader langs [] None) name src in do _ <- o; Ok r.

    Definition tables_of (r : reader) : res tables := of_option AttributeError (loaded r).
    (* tatoeba.py:116-134  language *)
    Fixpoint find_lang (i : Z) (d : dict str (list Z)) : res str :=
      match d with [] => Raise InvalidIDError | (l, s) :: r => if mem i s then Ok l else find_lang i r end.
    Definition language (r : reader) (i : Z) : res str := do t <- tables_of r; find_lang i (language_dict t).
    (* tatoeba.py:136-150, 34-35  sentence, __getitem__ *)
    Definition getitem (r : reader) (i : Z) : res str := do t <- tables_of r; dgetitem (sentence_dict t) i.
    Definition sentence (r : reader) (i : Z) : res str :=
      match getitem r i with Raise KeyError => Raise InvalidIDError | x => x end.
    (* tatoeba.py:152-180  details *)
    Definition details (r : reader) (i : Z) : res info :=
      do t <- tables_of r;
      match detailed_info_dict t with
      | None => Raise MissingDataError
      | Some dd => match dget i dd with Some x => Ok x | None => Raise InvalidIDError end
      end.
    (* tatoeba.py:243-248  sentence_ids; 37-41 __iter__, __len__ *)
    Definition sentence_ids (r : reader) : res (list Z) := do t <- tables_of r; Ok (dkeys (sentence_dict t)).
  End Sentences.

  (* ---------------------------------------------------------------- *)
  (** ** TatoebaLinksReader *)
  (* tatoeba.py:292-295, 328-330, 376-377, 396-401  the attributes and their getters
     (links, sentence_ids_filter, sentence_id_subset); _sentence_id_subset makes a set *)
  Record lreader := mklreader { subset : option (list Z); filter_sent : bool; filter_trans : bool; filter_str : str;
                                links_src : str; ldicts : option (dict Z nat * dict nat (list Z)) }.
  Record lstate := mklstate { link_dict : dict Z nat; group_dict : dict nat (list Z); nodes : nat }.

  (* tatoeba.py:344-346  two integers *)
  Definition link_row (row : list str) : res (Z * Z) :=
    match row with
    | [a; b] => match int_ a, int_ b with Ok x, Ok y => Ok (x, y) | _, _ => Raise InvalidFileError end
    | _ => Raise InvalidFileError
    end.
  (* tatoeba.py:349-353  (with the subset a Python set) *)
  Definition skipped (s : option (list Z)) (fs ft : bool) (p : Z * Z) : bool :=
    let absent x := match s with Some ids => negb (mem x ids) | None => true end in
    (fs && absent (fst p)) || (ft && absent (snd p)).
  (* tatoeba.py:358-371 *)
  Definition add_link (p : Z * Z) (st : lstate) : lstate :=
    let (sent_id, trans_id) := p in
    let '(node_id, new_ids, n) :=
      match dget sent_id (link_dict st) with
      | Some node => (node, [trans_id], nodes st)
      | None =>
          match dget trans_id (link_dict st) with
          | Some node => (node, [sent_id], nodes st)
          | None => (nodes st, set_of [trans_id; sent_id], S (nodes st))
          end
      end in
    let g := match dget node_id (group_dict st) with Some s => s | None => [] end in
    mklstate (fold_left (fun d k => dset k node_id d) new_ids (link_dict st)) (dset node_id (supdate g new_ids) (group_dict st)) n.
  (* tatoeba.py:338-371 *)
  Fixpoint read_links (s : option (list Z)) (fs ft : bool) (rows : list (list str)) (st : lstate) : res lstate :=
    match rows with
    | [] => Ok st
    | row :: r =>
        do p <- link_row row;
        read_links s fs ft r (if skipped s fs ft p then st else add_link p st)
    end.
  (* tatoeba.py:332-374  links setter *)
  Definition set_links (r : lreader) (name : str) (src : rows_of) : lreader * res unit :=
    let set d := mklreader (subset r) (filter_sent r) (filter_trans r) (filter_str r) name d in
    match (do st <- read_links (subset r) (filter_sent r) (filter_trans r) (fst src) (mklstate [] [] 0); do _ <- snd src; Ok st) with
    | Ok st => (set (Some (link_dict st, group_dict st)), Ok tt)
    | Raise e => (set (ldicts r), Raise e)
    end.
  (* tatoeba.py:379-394  _sentence_ids_filter: the two flags and the stored name *)
  Variable lower : str -> str.
  Definition filter_values : dict str (bool * bool) :=
    [(u "sent_id", (true, false)); (u "trans_id", (false, true)); (u "both", (true, true))].
  Definition ids_filter (s : option (list Z)) (valstr : str) : res (bool * bool * str) :=
    let valstr := lower valstr in
    match dget valstr filter_values with
    | None => Raise ValueError
    | Some v => Ok (match s with None => (false, false) | Some _ => v end, valstr)
    end.
  (* tatoeba.py:292-295  __init__: whether the source was read, and the reader *)
  Definition new_links (name : str) (src : rows_of) (ids : option (list Z)) (flt : str) : bool * res lreader :=
    match ids_filter (option_map (fun l => set_of l) ids) flt with
    | Raise e => (false, Raise e)
    | Ok (fs, ft, v) =>
        let (r, o) := set_links (mklreader (option_map (fun l => set_of l) ids) fs ft v [] None) name src in
        (true, do _ <- o; Ok r)
    end.
  (* tatoeba.py:407-408  __getitem__ *)
  Definition lgetitem (r : lreader) (i : Z) : res (list Z) :=
    do d <- of_option AttributeError (ldicts r);
    do n <- dgetitem (fst d) i;
    dgetitem (snd d) n.
  (* tatoeba.py:297-316  group *)
  Definition group (r : lreader) (i : Z) : res (list Z) :=
    match lgetitem r i with Raise KeyError => Raise InvalidIDError | x => x end.
  (* tatoeba.py:318-326  groups *)
  Definition groups (r : lreader) : res (list (list Z)) :=
    do d <- of_option AttributeError (ldicts r); Ok (map snd (snd d)).

  (* ---------------------------------------------------------------- *)
  (** ** TatoebaIndexReader *)
  (* tatoeba.py:523-538, 561-563, 661-663  the attributes and their getters *)
  Record ireader := mkireader { isubset : option (list Z); iedict : option (dict str (list str)); indices_src : str;
                                idicts : option (dict Z (list word) * dict Z Z) }.
  (* tatoeba.py:575-587, one row; the parsed words are adjusted in place *)
  Definition index_row (s : option (list Z)) (edict : option (dict str (list str))) (row : list str)
      (d : dict Z (list word) * dict Z Z) : res (dict Z (list word) * dict Z Z) :=
    match row with
    | [sent_id; meaning_id; text] =>
        do sent_id <- int_ sent_id;
        do meaning_id <- int_ meaning_id;
        if (match s with Some ids => negb (mem sent_id ids) | None => false end) then Ok d
        else
          do ws <- parse_sentence dv text;
          let (ws, o) := adjust_details edict ws in
          do _ <- o;
          Ok (dset sent_id ws (fst d), dset sent_id meaning_id (snd d))
    | _ => Raise ValueError
    end.
  Fixpoint index_rows (s : option (list Z)) (edict : option (dict str (list str))) (rows : list (list str))
      (d : dict Z (list word) * dict Z Z) : res (dict Z (list word) * dict Z Z) :=
    match rows with [] => Ok d | row :: r => do d <- index_row s edict row d; index_rows s edict r d end.
  (* tatoeba.py:565-590  jpn_indices setter *)
  Definition set_indices (r : ireader) (name : str) (src : rows_of) : ireader * res unit :=
    match (do d <- index_rows (isubset r) (iedict r) (fst src) ([], []); do _ <- snd src; Ok d) with
    | Ok d => (mkireader (isubset r) (iedict r) name (Some d), Ok tt)
    | Raise e => (mkireader (isubset r) (iedict r) name (idicts r), Raise e)
    end.
  (* tatoeba.py:523-538, 665-667  __init__ *)
  Definition new_indices (name : str) (src : rows_of) (edict : option (dict str (list str))) (ids : option (list Z)) : res ireader :=
    let (r, o) := set_indices (mkireader (option_map (fun l => set_of l) ids) edict [] None) name src in do _ <- o; Ok r.
  (* tatoeba.py:540-559  link; 34-35, 669-671 __getitem__ *)
  Definition link (r : ireader) (i : Z) : res Z :=
    do d <- of_option AttributeError (idicts r);
    match dget i (snd d) with Some m => Ok m | None => Raise InvalidIDError end.
  Definition igetitem (r : ireader) (i : Z) : res (list word) :=
    do d <- of_option AttributeError (idicts r); dgetitem (fst d) i.
End Tatoeba.

Arguments mktables {date}. Arguments language_dict {date}. Arguments sentence_dict {date}. Arguments detailed_info_dict {date}.
Arguments mkreader {date}. Arguments languages {date}. Arguments sentences_src {date}. Arguments loaded {date}.
Arguments parse_date {date}. Arguments read_row dv {date}. Arguments read_rows dv {date}. Arguments read_sentences dv {date}.
Arguments set_sentences dv {date}. Arguments new_sentences dv {date}. Arguments tables_of {date}. Arguments language {date}.
Arguments getitem {date}. Arguments sentence {date}. Arguments details {date}. Arguments sentence_ids {date}.
