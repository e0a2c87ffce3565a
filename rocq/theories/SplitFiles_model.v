(* SplitFiles_model.v -- the arguments of split_by_codes.py and the dictionary
   it returns *)
From Verif Require Import Base PyFmt Maps_model Common_model Bilingual_model DictFormat_model SplitCodes_model.

(* what load_coded_dictionary is given: a file name, or an open stream and the
   lines it will give *)
Inductive dict_source := Path (name : str) | Stream (i : nat) (lines : list str).

Section Source.
  Variable content : str -> option str.     (* the decoded text of a file *)

  (* split_by_codes.py:16-47  load_coded_dictionary: the open streams, the heap
     and the outcome.  Reading neither opens nor closes a stream. *)
  Definition load_coded_source (h : heap) (src : dict_source) (w : streams)
      : streams * res (heap * res (dict str (dict str addr))) :=
    match src with
    | Path name =>
        match content name with
        | None => (w, Raise OSError)
        | Some c =>
            let '(w, i) := open_new w in
            with_stmt (StreamContext i) (fun _ w => (w, Ok (load_coded_dictionary h (file_lines c)))) w
        end
    | Stream i lines =>
        with_stmt (NullContext i) (fun _ w => (w, Ok (load_coded_dictionary h lines))) w
    end.
End Source.

(* split_by_codes.py:50-59  iter_coded_entries on a file name, as its docstring
   has it: iter() of a str gives its characters *)
Definition iter_coded_name (h : heap) (filename : str) : heap * (list (addr * list str) * res unit) :=
  iter_coded_entries h (map (fun c => [c]) filename).

(* the result is a defaultdict(dict) (split_by_codes.py:25): d[code] stores and
   returns an empty dict for a code that is not there *)
Definition dd_getitem (code : str) (d : dict str (dict str addr)) : dict str (dict str addr) * dict str addr :=
  match dget code d with
  | Some m => (d, m)
  | None => (dset code [] d, [])
  end.
Fixpoint dd_getitems (codes : list str) (d : dict str (dict str addr)) : dict str (dict str addr) * list (dict str addr) :=
  match codes with
  | [] => (d, [])
  | c :: r => let '(d, m) := dd_getitem c d in let '(d, ms) := dd_getitems r d in (d, m :: ms)
  end.
