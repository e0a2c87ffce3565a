(* Csv_model.v -- csv.reader as /repo/cjktools/resources/tatoeba.py:53-84
   (TatoebaReader.load_file) uses it: delimiter tab, and otherwise the defaults
   of the excel dialect.  The machine is that of CPython's _csv.c (versions up
   to 3.9, the last in which the module's "from collections import Mapping"
   works); it is part of the trusted base.  A source is the list of lines its
   iterator gives and the exception it ends with, if any.  Python 2's decoding
   of the columns is in Python2_model.v. *)
From Verif Require Import Base.

Inductive cstate := START_RECORD | START_FIELD | IN_FIELD | IN_QUOTED_FIELD | QUOTE_IN_QUOTED_FIELD | EAT_CRNL.
Record rd := mkrd { state : cstate; field : str; fields : list str }.
Definition delimiter : char := 9.
Definition quotechar : char := 34.
Definition field_limit : Z := 131072.

(* parse_save_field, parse_add_char *)
Definition save_field (s : rd) (st : cstate) : rd := mkrd st [] (fields s ++ [field s]).
Definition add_char (s : rd) (st : cstate) (c : char) : res rd :=
  if field_limit <=? Z.of_nat (length (field s)) then Raise CsvError else Ok (mkrd st (field s ++ [c]) (fields s)).
Definition newline (c : option char) : bool := match c with Some c => (c =? 10) || (c =? 13) | None => true end.
(* the state after a line ends: None stands for the end of the line *)
Definition after_line (c : option char) : cstate := match c with Some _ => EAT_CRNL | None => START_RECORD end.

(* parse_process_char *)
Definition start_field (s : rd) (c : option char) : res rd :=
  if newline c then Ok (save_field s (after_line c))
  else match c with
       | None => Ok s
       | Some c =>
           if c =? quotechar then Ok (mkrd IN_QUOTED_FIELD (field s) (fields s))
           else if c =? delimiter then Ok (save_field s START_FIELD)
           else add_char s IN_FIELD c
       end.
Definition process_char (s : rd) (c : option char) : res rd :=
  match state s with
  | START_RECORD =>
      match c with
      | None => Ok s
      | Some _ => if newline c then Ok (mkrd EAT_CRNL (field s) (fields s)) else start_field s c
      end
  | START_FIELD => start_field s c
  | IN_FIELD =>
      if newline c then Ok (save_field s (after_line c))
      else match c with
           | None => Ok s
           | Some c => if c =? delimiter then Ok (save_field s START_FIELD) else add_char s IN_FIELD c
           end
  | IN_QUOTED_FIELD =>
      match c with
      | None => Ok s
      | Some c => if c =? quotechar then Ok (mkrd QUOTE_IN_QUOTED_FIELD (field s) (fields s)) else add_char s IN_QUOTED_FIELD c
      end
  | QUOTE_IN_QUOTED_FIELD =>
      match c with
      | Some c =>
          if c =? quotechar then add_char s IN_QUOTED_FIELD c
          else if c =? delimiter then Ok (save_field s START_FIELD)
          else if newline (Some c) then Ok (save_field s EAT_CRNL)
          else add_char s IN_FIELD c
      | None => Ok (save_field s START_RECORD)
      end
  | EAT_CRNL =>
      match c with
      | Some _ => if newline c then Ok s else Raise CsvError
      | None => Ok (mkrd START_RECORD (field s) (fields s))
      end
  end.
Fixpoint feed (s : rd) (line : str) : res rd :=
  match line with
  | [] => Ok s
  | c :: r => if c =? 0 then Raise CsvError else do s <- process_char s (Some c); feed s r
  end.
Definition feed_line (s : rd) (line : str) : res rd := do s <- feed s line; process_char s None.

(* Reader_iternext, called until it stops: the rows it gives and how it ends *)
Definition reset : rd := mkrd START_RECORD [] [].
Definition is_start (st : cstate) : bool := match st with START_RECORD => true | _ => false end.
Definition is_quoted (st : cstate) : bool := match st with IN_QUOTED_FIELD => true | _ => false end.
Record source := mksource { lines : list str; failure : option exn }.
Fixpoint rows_from (s : rd) (ls : list str) (f : option exn) : list (list str) * res unit :=
  match ls with
  | [] =>
      match f with
      | Some e => ([], Raise e)
      | None => if (match field s with [] => false | _ => true end) || is_quoted (state s) then ([fields s ++ [field s]], Ok tt) else ([], Ok tt)
      end
  | line :: r =>
      match feed_line s line with
      | Raise e => ([], Raise e)
      | Ok s => if is_start (state s) then let (rows, o) := rows_from reset r f in (fields s :: rows, o) else rows_from s r f
      end
  end.
(* tatoeba.py:53-84  load_file *)
Definition load_file (src : source) : list (list str) * res unit := rows_from reset (lines src) (failure src).
