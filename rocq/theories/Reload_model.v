(* Reload_model.v -- corpus readers that are reloaded while others use them,
   /repo/cjktools/resources/tatoeba.py.

   A call is a program of steps on the attributes of one reader: an attribute is
   read, or it is assigned.  Between the steps of a call an arbitrary scheduler
   runs steps of the other calls; a call that gets no more steps has been struck
   by an exception from outside.  What happens between two steps touches local
   variables only.  A source is what load_file makes of it (Csv_model.v).  The
   dictionaries are never changed once they have been assigned. *)
From Verif Require Import Base PyText PyFmt Csv_model Tanaka_model Tatoeba_model.

(** ** Calls and their interleavings *)
Section Calls.
  Context {St A : Type}.
  Inductive prog :=
  | Ret (r : res A)
  | Get (k : St -> prog)
  | Set_ (f : St -> St) (k : prog).
  Definition pstep (s : St) (p : prog) : St * prog :=
    match p with
    | Ret _ => (s, p)
    | Get k => (s, k s)
    | Set_ f k => (f s, k)
    end.
  Fixpoint pput (i : nat) (p : prog) (l : list prog) : list prog :=
    match l, i with
    | [], _ => []
    | _ :: r, 0%nat => p :: r
    | x :: r, Datatypes.S i => x :: pput i p r
    end.
  Definition pturn (w : St * list prog) (i : nat) : St * list prog :=
    match nth_error (snd w) i with
    | Some p => let (s, p) := pstep (fst w) p in (s, pput i p (snd w))
    | None => w
    end.
  Definition prun (w : St * list prog) (schedule : list nat) : St * list prog := fold_left pturn schedule w.
  (** a call nothing comes in between *)
  Fixpoint alone (p : prog) (s : St) : St * res A :=
    match p with
    | Ret r => (s, r)
    | Get k => alone (k s) s
    | Set_ f k => alone k (f s)
    end.
End Calls.
Arguments prog : clear implicits.

Section Reload.
  Variable dv : Z -> option Z.

  (* ---------------------------------------------------------------- *)
  (** ** TatoebaSentenceReader *)
  Section Sentences.
    Context {date : Type}.
    Variable strptime : str -> res date.
    Variable filter_row : list str -> bool.
    Notation info := (info date).
    Notation tables := (tables date).

    (* tatoeba.py:113, 191, 240-242  the attributes; None: not assigned yet *)
    Record attrs := mkattrs { a_languages : option (list str); a_src : str; a_language_dict : option (dict str (list Z));
                              a_sentence_dict : option (dict Z str); a_detailed_info_dict : option (option (dict Z info)) }.
    Definition set_a_languages l (s : attrs) := mkattrs l (a_src s) (a_language_dict s) (a_sentence_dict s) (a_detailed_info_dict s).
    Definition set_a_src x (s : attrs) := mkattrs (a_languages s) x (a_language_dict s) (a_sentence_dict s) (a_detailed_info_dict s).
    Definition set_a_language_dict x (s : attrs) := mkattrs (a_languages s) (a_src s) (Some x) (a_sentence_dict s) (a_detailed_info_dict s).
    Definition set_a_sentence_dict x (s : attrs) := mkattrs (a_languages s) (a_src s) (a_language_dict s) (Some x) (a_detailed_info_dict s).
    Definition set_a_detailed_info_dict x (s : attrs) := mkattrs (a_languages s) (a_src s) (a_language_dict s) (a_sentence_dict s) (Some x).

    (** what is asked of the reader, and the answers *)
    Inductive question := Language (i : Z) | Sentence (i : Z) | Details (i : Z) | Ids | Source.
    Inductive call := Ask (q : question) | SetLanguages (l : option (list str)) | Reload (name : str) (src : rows_of).
    Inductive answer := Done | Text (s : str) | Info (x : info) | IdList (l : list Z).
    Notation prog := (prog attrs answer).

    (* tatoeba.py:214-237, one row; line 220 looks at self.languages twice *)
    Definition row_prog (row : list str) (t : tables) (next : tables -> prog) : prog :=
      if filter_row row then next t
      else
        match firstn 3 row with
        | [sent_id; lang; text] =>
            let keep :=
              match int_ dv sent_id with
              | Raise e => Ret (Raise e)
              | Ok sent_id =>
                  let ld := add_id lang sent_id (language_dict t) in
                  let sd := dset sent_id text (sentence_dict t) in
                  match detailed_info_dict t with
                  | None => next (mktables ld sd None)
                  | Some dd =>
                      match firstn 3 (skipn 3 row) with
                      | [uname; d_added; d_modified] =>
                          let uname := if eqb uname (u "\N") then None else Some uname in
                          match parse_date strptime d_added with
                          | Raise e => Ret (Raise e)
                          | Ok d_added =>
                              match parse_date strptime d_modified with
                              | Raise e => Ret (Raise e)
                              | Ok d_modified => next (mktables ld sd (Some (dset sent_id (uname, d_added, d_modified) dd)))
                              end
                          end
                      | _ => Ret (Raise ValueError)
                      end
                  end
              end in
            Get (fun s =>
              match a_languages s with
              | None => keep
              | Some _ =>
                  Get (fun s =>
                    match a_languages s with
                    | None => Ret (Raise TypeError)
                    | Some ls => if mem lang ls then keep else next t
                    end)
              end)
        | _ => Ret (Raise ValueError)
        end.
    Fixpoint rows_prog (rows : list (list str)) (t : tables) (next : tables -> prog) : prog :=
      match rows with
      | [] => next t
      | row :: rows => row_prog row t (fun t => rows_prog rows t next)
      end.
    (* tatoeba.py:240-242 *)
    Definition publish (t : tables) : prog :=
      Set_ (set_a_language_dict (language_dict t))
        (Set_ (set_a_sentence_dict (sentence_dict t))
          (Set_ (set_a_detailed_info_dict (detailed_info_dict t)) (Ret (Ok Done)))).
    (* tatoeba.py:189-242  sentences setter *)
    Definition reload_prog (name : str) (src : rows_of) : prog :=
      Set_ (set_a_src name)
        match src with
        | ([], Raise e) => Ret (Raise e)
        | ([], Ok _) => Ret (Raise StopIteration)
        | (first_row :: rows, o) =>
            let read detailed :=
              rows_prog (first_row :: rows) (mktables [] [] detailed)
                (fun t => match o with Ok _ => publish t | Raise e => Ret (Raise e) end) in
            if Nat.eqb (length first_row) 3 then read None
            else if Nat.eqb (length first_row) 6 then read (Some [])
            else Ret (Raise InvalidFileError)
        end.
    Definition attribute {B} (o : option B) : res B := of_option AttributeError o.
    Definition question_prog (q : question) : prog :=
      match q with
      | Language i =>                                      (* tatoeba.py:116-134 *)
          Get (fun s => Ret (do d <- attribute (a_language_dict s); rmap Text (find_lang i d)))
      | Sentence i =>                                      (* tatoeba.py:136-150, 250-252 *)
          Get (fun s => Ret (do d <- attribute (a_sentence_dict s);
                             match dget i d with Some x => Ok (Text x) | None => Raise InvalidIDError end))
      | Details i =>                                       (* tatoeba.py:172-180: two looks *)
          Get (fun s =>
            match a_detailed_info_dict s with
            | None => Ret (Raise AttributeError)
            | Some None => Ret (Raise MissingDataError)
            | Some (Some _) =>
                Get (fun s => Ret (do o <- attribute (a_detailed_info_dict s);
                                   do d <- of_option TypeError o;
                                   match dget i d with Some x => Ok (Info x) | None => Raise InvalidIDError end))
            end)
      | Ids =>                                             (* tatoeba.py:243-248, 37-41 *)
          Get (fun s => Ret (do d <- attribute (a_sentence_dict s); Ok (IdList (dkeys d))))
      | Source => Get (fun s => Ret (Ok (Text (a_src s)))) (* tatoeba.py:182-187 *)
      end.
    Definition call_prog (c : call) : prog :=
      match c with
      | Ask q => question_prog q
      | SetLanguages l => Set_ (set_a_languages l) (Ret (Ok Done))
      | Reload name src => reload_prog name src
      end.
  End Sentences.

  (* ---------------------------------------------------------------- *)
  (** ** TatoebaLinksReader; its subset and filter stay as they are *)
  Section Links.
    Variable subset_ : option (list Z).
    Variables filter_s filter_t : bool.
    (* tatoeba.py:334, 373-374 *)
    Record lattrs := mklattrs { l_src : str; l_link_dict : option (dict Z nat); l_group_dict : option (dict nat (list Z)) }.
    Inductive lcall := Group (i : Z) | Groups | Known | ReloadLinks (name : str) (src : rows_of).
    Inductive lanswer := LDone | Members (l : list Z) | AllGroups (l : list (list Z)) | Keys (l : list Z).
    (* tatoeba.py:332-374  links setter *)
    Definition links_prog (name : str) (src : rows_of) : prog lattrs lanswer :=
      Set_ (fun s => mklattrs name (l_link_dict s) (l_group_dict s))
        match (do st <- read_links dv subset_ filter_s filter_t (fst src) (mklstate [] [] 0); do _ <- snd src; Ok st) with
        | Raise e => Ret (Raise e)
        | Ok st =>
            Set_ (fun s => mklattrs (l_src s) (Some (link_dict st)) (l_group_dict s))
              (Set_ (fun s => mklattrs (l_src s) (l_link_dict s) (Some (group_dict st))) (Ret (Ok LDone)))
        end.
    Definition lcall_prog (c : lcall) : prog lattrs lanswer :=
      match c with
      | Group i =>      (* tatoeba.py:312-316, 407-408: _group_dict is read first, then _link_dict *)
          Get (fun s => match l_group_dict s with
            | None => Ret (Raise AttributeError)
            | Some g =>
                Get (fun s => match l_link_dict s with
                  | None => Ret (Raise AttributeError)
                  | Some d => Ret (match dget i d with
                                   | Some n => match dget n g with Some l => Ok (Members l) | None => Raise InvalidIDError end
                                   | None => Raise InvalidIDError
                                   end)
                  end)
            end)
      | Groups => Get (fun s => Ret (do g <- of_option AttributeError (l_group_dict s); Ok (AllGroups (map snd g))))  (* 318-326 *)
      | Known => Get (fun s => Ret (do d <- of_option AttributeError (l_link_dict s); Ok (Keys (dkeys d))))           (* 403-405, 37-41 *)
      | ReloadLinks name src => links_prog name src
      end.
  End Links.

  (* ---------------------------------------------------------------- *)
  (** ** TatoebaIndexReader; its subset and dictionary stay as they are *)
  Section Indices.
    Variable ids_ : option (list Z).
    Variable edict_ : option (dict str (list str)).
    (* tatoeba.py:567, 589-590 *)
    Record iattrs := mkiattrs { x_src : str; x_sentence_dict : option (dict Z (list word)); x_link_dict : option (dict Z Z) }.
    Inductive icall := Words (i : Z) | Link (i : Z) | ReloadIndices (name : str) (src : rows_of).
    Inductive ianswer := IDone | WordList (l : list word) | Number (i : Z).
    (* tatoeba.py:565-590  jpn_indices setter *)
    Definition indices_prog (name : str) (src : rows_of) : prog iattrs ianswer :=
      Set_ (fun s => mkiattrs name (x_sentence_dict s) (x_link_dict s))
        match (do d <- index_rows dv ids_ edict_ (fst src) ([], []); do _ <- snd src; Ok d) with
        | Raise e => Ret (Raise e)
        | Ok d =>
            Set_ (fun s => mkiattrs (x_src s) (Some (fst d)) (x_link_dict s))
              (Set_ (fun s => mkiattrs (x_src s) (x_sentence_dict s) (Some (snd d))) (Ret (Ok IDone)))
        end.
    Definition icall_prog (c : icall) : prog iattrs ianswer :=
      match c with
      | Words i => Get (fun s => Ret (do d <- of_option AttributeError (x_sentence_dict s); rmap WordList (dgetitem d i)))   (* 34-35, 669-671 *)
      | Link i =>                                                                                                           (* 540-559 *)
          Get (fun s => Ret (do d <- of_option AttributeError (x_link_dict s);
                             match dget i d with Some m => Ok (Number m) | None => Raise InvalidIDError end))
      | ReloadIndices name src => indices_prog name src
      end.
  End Indices.
End Reload.
