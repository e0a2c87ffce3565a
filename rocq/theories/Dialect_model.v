(* Dialect_model.v -- TatoebaReader.load_file with keyword arguments for csv.reader,
   /repo/cjktools/resources/tatoeba.py:53-84.  The machine and the choice of the
   settings are those of CPython's _csv.c, as in Csv_model.v; they are part of the
   trusted base.  Simplified: quoting=QUOTE_NONNUMERIC, which turns fields into
   floats, and arguments of the wrong type are not modelled; lineterminator is
   ignored by the reader and left out. *)
From Verif Require Import Base Csv_model.

Inductive style := QUOTE_MINIMAL | QUOTE_ALL | QUOTE_NONE.
(** settings that may be given: as keywords, or as attributes of a dialect.  A text is
    None or a string. *)
Record settings := mksettings {
  g_delimiter : option (option str); g_quotechar : option (option str); g_escapechar : option (option str);
  g_doublequote : option bool; g_skipinitialspace : option bool; g_strict : option bool; g_quoting : option style }.
Definition no_settings : settings := mksettings None None None None None None None.
Record dialect := mkdialect {
  delim : char; quotec : option char; escapec : option char; doublequote : bool; skipspace : bool; strict : bool; quoting : style }.

(* tatoeba.py:65-66  reader_kwargs = dict(delimiter='\t'); reader_kwargs.update(csv_kwargs) *)
Definition with_tab (kw : settings) : settings :=
  mksettings (match g_delimiter kw with Some d => Some d | None => Some (Some (u "	")) end)
    (g_quotechar kw) (g_escapechar kw) (g_doublequote kw) (g_skipinitialspace kw) (g_strict kw) (g_quoting kw).

(* _csv.c, DIALECT_GETATTR: what is not given is taken from the dialect *)
Definition pick {A} (given of_dialect : option A) : option A := match given with Some _ => given | None => of_dialect end.
Definition merge (kw dia : settings) : settings :=
  mksettings (pick (g_delimiter kw) (g_delimiter dia)) (pick (g_quotechar kw) (g_quotechar dia)) (pick (g_escapechar kw) (g_escapechar dia))
    (pick (g_doublequote kw) (g_doublequote dia)) (pick (g_skipinitialspace kw) (g_skipinitialspace dia)) (pick (g_strict kw) (g_strict dia))
    (pick (g_quoting kw) (g_quoting dia)).
(* _set_char: the character 0 stands for none *)
Definition set_char (src : option (option str)) (dflt : option char) : res (option char) :=
  match src with
  | None => Ok dflt
  | Some None => Ok None
  | Some (Some []) => Ok None
  | Some (Some [c]) => Ok (if c =? 0 then None else Some c)
  | Some (Some _) => Raise TypeError
  end.
Definition set_bool (src : option bool) (dflt : bool) : bool := match src with Some b => b | None => dflt end.
(* dialect_new *)
Definition dialect_new (s : settings) : res dialect :=
  do d <- set_char (g_delimiter s) (Some (u1 ","));
  do e <- set_char (g_escapechar s) None;
  do q <- set_char (g_quotechar s) (Some (u1 """"));
  do d <- (match d with Some d => Ok d | None => Raise TypeError end);
  let k := match g_quoting s with
           | Some k => k
           | None => match g_quotechar s with Some None => QUOTE_NONE | _ => QUOTE_MINIMAL end
           end in
  match k, q with
  | QUOTE_NONE, _ | _, Some _ =>
      Ok (mkdialect d q e (set_bool (g_doublequote s) true) (set_bool (g_skipinitialspace s) false) (set_bool (g_strict s) false) k)
  | _, None => Raise TypeError
  end.

(** ** the machine *)
Inductive dstate := D_START_RECORD | D_START_FIELD | D_ESCAPED_CHAR | D_IN_FIELD | D_IN_QUOTED_FIELD | D_ESCAPE_IN_QUOTED_FIELD
  | D_QUOTE_IN_QUOTED_FIELD | D_EAT_CRNL | D_AFTER_ESCAPED_CRNL.
Record drd := mkdrd { dst : dstate; dfield : str; dfields : list str }.
Definition d_save (s : drd) (st : dstate) : drd := mkdrd st [] (dfields s ++ [dfield s]).
Definition d_add (s : drd) (st : dstate) (c : char) : res drd :=
  if field_limit <=? Z.of_nat (length (dfield s)) then Raise CsvError else Ok (mkdrd st (dfield s ++ [c]) (dfields s)).
Definition d_to (s : drd) (st : dstate) : drd := mkdrd st (dfield s) (dfields s).
Definition d_after (c : option char) : dstate := match c with Some _ => D_EAT_CRNL | None => D_START_RECORD end.
Definition isc (o : option char) (c : char) : bool := match o with Some x => c =? x | None => false end.
Definition quotes (d : dialect) (c : char) : bool := isc (quotec d) c && match quoting d with QUOTE_NONE => false | _ => true end.

Section Machine.
  Variable d : dialect.
  Definition d_start_field (s : drd) (c : option char) : res drd :=
    if newline c then Ok (d_save s (d_after c))
    else match c with
         | None => Ok s
         | Some c =>
             if quotes d c then Ok (d_to s D_IN_QUOTED_FIELD)
             else if isc (escapec d) c then Ok (d_to s D_ESCAPED_CHAR)
             else if (c =? u1 " ") && skipspace d then Ok (d_to s D_START_FIELD)
             else if c =? delim d then Ok (d_save s D_START_FIELD)
             else d_add s D_IN_FIELD c
         end.
  Definition d_in_field (s : drd) (c : option char) : res drd :=
    if newline c then Ok (d_save s (d_after c))
    else match c with
         | None => Ok s
         | Some c =>
             if isc (escapec d) c then Ok (d_to s D_ESCAPED_CHAR)
             else if c =? delim d then Ok (d_save s D_START_FIELD)
             else d_add s D_IN_FIELD c
         end.
  (* parse_process_char *)
  Definition d_process (s : drd) (c : option char) : res drd :=
    match dst s with
    | D_START_RECORD =>
        match c with
        | None => Ok s
        | Some _ => if newline c then Ok (d_to s D_EAT_CRNL) else d_start_field s c
        end
    | D_START_FIELD => d_start_field s c
    | D_ESCAPED_CHAR =>
        match c with
        | Some x => if newline c then d_add s D_AFTER_ESCAPED_CRNL x else d_add s D_IN_FIELD x
        | None => d_add s D_IN_FIELD 10
        end
    | D_AFTER_ESCAPED_CRNL => match c with None => Ok s | Some _ => d_in_field s c end
    | D_IN_FIELD => d_in_field s c
    | D_IN_QUOTED_FIELD =>
        match c with
        | None => Ok s
        | Some c =>
            if isc (escapec d) c then Ok (d_to s D_ESCAPE_IN_QUOTED_FIELD)
            else if quotes d c then Ok (d_to s (if doublequote d then D_QUOTE_IN_QUOTED_FIELD else D_IN_FIELD))
            else d_add s D_IN_QUOTED_FIELD c
        end
    | D_ESCAPE_IN_QUOTED_FIELD => d_add s D_IN_QUOTED_FIELD (match c with Some c => c | None => 10 end)
    | D_QUOTE_IN_QUOTED_FIELD =>
        match c with
        | Some c =>
            if quotes d c then d_add s D_IN_QUOTED_FIELD c
            else if c =? delim d then Ok (d_save s D_START_FIELD)
            else if newline (Some c) then Ok (d_save s D_EAT_CRNL)
            else if strict d then Raise CsvError
            else d_add s D_IN_FIELD c
        | None => Ok (d_save s D_START_RECORD)
        end
    | D_EAT_CRNL =>
        match c with
        | Some _ => if newline c then Ok s else Raise CsvError
        | None => Ok (d_to s D_START_RECORD)
        end
    end.
  Fixpoint d_feed (s : drd) (line : str) : res drd :=
    match line with
    | [] => Ok s
    | c :: r => if c =? 0 then Raise CsvError else do s <- d_process s (Some c); d_feed s r
    end.
  Definition d_feed_line (s : drd) (line : str) : res drd := do s <- d_feed s line; d_process s None.
  Definition d_reset : drd := mkdrd D_START_RECORD [] [].
  Definition d_is_start (st : dstate) : bool := match st with D_START_RECORD => true | _ => false end.
  Definition d_is_quoted (st : dstate) : bool := match st with D_IN_QUOTED_FIELD => true | _ => false end.
  (* Reader_iternext *)
  Definition d_end (s : drd) (f : option exn) : list (list str) * res unit :=
    match f with
    | Some e => ([], Raise e)
    | None =>
        if (match dfield s with [] => false | _ => true end) || d_is_quoted (dst s)
        then if strict d then ([], Raise CsvError) else ([dfields s ++ [dfield s]], Ok tt)
        else ([], Ok tt)
    end.
  Fixpoint d_rows_from (s : drd) (ls : list str) (f : option exn) : list (list str) * res unit :=
    match ls with
    | [] => d_end s f
    | line :: r =>
        match d_feed_line s line with
        | Raise e => ([], Raise e)
        | Ok s => if d_is_start (dst s) then let (rows, o) := d_rows_from d_reset r f in (dfields s :: rows, o) else d_rows_from s r f
        end
    end.
End Machine.

(* tatoeba.py:53-84  load_file; [dia] is the argument dialect, when given: its
   attributes, or the exception that looking up its name raises *)
Definition load_file_with (kw : settings) (dia : option (res settings)) (src : source) : list (list str) * res unit :=
  match (do a <- (match dia with Some r => r | None => Ok no_settings end); dialect_new (merge (with_tab kw) a)) with
  | Ok d => d_rows_from d d_reset (lines src) (failure src)
  | Raise e => ([], Raise e)
  end.
