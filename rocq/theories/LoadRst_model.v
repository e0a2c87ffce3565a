(* LoadRst_model.v -- model of /repo/scripts/load_as_rst.py, which setup.py:29
   uses for the package's long description.

   Files hold what reading and decoding them gives.  [pandoc] is the module
   pypandoc, absent when importing it raises ImportError; [can_open] says
   whether a path can be opened for writing, [encodable] whether a text can be
   written.  The warnings are not modelled; the
   command line is in Command_model.v. *)
From Verif Require Import Base.

Inductive fnode := File (text : res str) | Directory.
Notation files := (dict (list Z) fnode) (only parsing).

Section Load.
  Variable pandoc : option (files -> str -> res str).
  Variable can_open : files -> str -> bool.
  Variable encodable : str -> bool.

  (* open(fname, 'r').read() *)
  Definition read_file (st : files) (fname : str) : res str :=
    match dget fname st with Some (File t) => t | Some Directory | None => Raise OSError end.

  (* load_as_rst.py:22-32  _fallback_load; raise_from raises its first argument *)
  Definition fallback_load (st : files) (fname : str) (strict : bool) (parent_exception : option exn) : res str :=
    match strict, parent_exception with
    | true, Some _ => Raise ImportError
    | _, _ => read_file st fname
    end.

  (* load_as_rst.py:34-44  load_text *)
  Definition load_text (st : files) (fname : str) (strict : bool) : res str :=
    match pandoc with
    | Some pypandoc_convert =>
        match pypandoc_convert st fname with
        | Raise ImportError => fallback_load st fname strict (Some ImportError)
        | Raise OSError => fallback_load st fname strict (Some OSError)
        | o => o
        end
    | None => fallback_load st fname strict (Some ImportError)
    end.

  (* load_as_rst.py:47-76  convert: the files afterwards and the outcome.
     Opening the output for writing empties it. *)
  Definition convert (st : files) (fname_in fname_out preamble : option str) (strict : bool) : files * res (option str) :=
    match fname_in with
    | None => (st, Raise ValueError)
    | Some f =>
        match dget f st with
        | None => (st, Raise OSError)
        | Some _ =>
            let text := match preamble with Some p => p | None => [] end in
            match load_text st f strict with
            | Raise e => (st, Raise e)
            | Ok loaded =>
                let text := text ++ [10] ++ loaded in
                match fname_out with
                | None => (st, Ok (Some text))
                | Some o =>
                    if can_open st o then
                      if encodable (text ++ [10]) then (dset o (File (Ok (text ++ [10]))) st, Ok None)
                      else (dset o (File (Ok [])) st, Raise UnicodeError)
                    else (st, Raise OSError)
                end
            end
        end
    end.
End Load.
