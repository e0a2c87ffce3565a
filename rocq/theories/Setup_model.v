(* Setup_model.v -- model of /repo/setup.py up to the call of setup(): the
   version file it writes, the long description, the requirements and the
   packages; and how Python reads the version file.

   [scm] is setuptools_scm: absent when importing it raises ImportError,
   otherwise the outcome of get_version().  Files hold what reading and decoding
   them gives; [pandoc], [can_open] and [encodable] are as in LoadRst_model.v.
   What setuptools does with the arguments of setup() is not modelled. *)
From Verif Require Import Base LoadRst_model Imports_model.

(* the arguments of setup() that are not fixed texts, and the packages: setup.py:49-67 *)
Record arguments := { long_description : str; install_requires : list str; listed : list (list (list Z)) }.

Definition version_file : str := u "cjktools/__version__.py".
(* setup.py:22 *)
Definition first_line : str := u "# Autogenerated by setup.py" ++ [10].
(* setup.py:23 *)
Definition second_line (version : str) : str := u "version = " ++ [34] ++ version ++ [34; 10].

Section Setup.
  Variable pandoc : option (dict (list Z) fnode -> str -> res str).
  Variable can_open : dict (list Z) fnode -> str -> bool.
  Variable encodable : str -> bool.
  Variable scm : option (res str).
  Variable python_version : version.

  (* setup.py:21-23  a text is encoded as it is written; the file is closed, and
     keeps what was written, whatever happens *)
  Definition write_version (st : files) (version : str) : files * res unit :=
    if can_open st version_file then
      if encodable first_line then
        if encodable (second_line version) then (dset version_file (File (Ok (first_line ++ second_line version))) st, Ok tt)
        else (dset version_file (File (Ok first_line)) st, Raise UnicodeError)
      else (dset version_file (File (Ok [])) st, Raise UnicodeError)
    else (st, Raise OSError).

  (* setup.py:16-26  try ... except ImportError: pass *)
  Definition record_version (st : files) : files * res unit :=
    match scm with
    | None | Some (Raise ImportError) => (st, Ok tt)
    | Some (Raise e) => (st, Raise e)
    | Some (Ok version) => write_version st version
    end.

  (* setup.py:28-67 *)
  Definition run (st : files) : files * res arguments :=
    match record_version st with
    | (st, Raise e) => (st, Raise e)
    | (st, Ok _) =>
        match convert pandoc can_open encodable st (Some (u "README.md")) None None false with
        | (st, Raise e) => (st, Raise e)
        | (st, Ok None) => (st, Raise TypeError)
        | (st, Ok (Some text)) =>
            (st, Ok {| long_description := text; install_requires := requires python_version;
                       listed := [[u "cjktools"]; [u "cjktools"; u "resources"]] |})
        end
    end.
End Setup.

(* How Python reads such a file, as far as it is made of empty lines, comments and
   assignments of double-quoted strings: the value of [name] once the module has
   run.  [None]: the text is not of this kind.  Strings written one after
   another are joined; of the backslash escapes only the backslash, the quotes, n
   and t are read, and the triple quotes are not read. *)
Fixpoint string_body (s acc : str) : option (str * str) :=
  match s with
  | [] => None
  | 34 :: t => Some (acc, t)
  | 10 :: _ | 13 :: _ | 0 :: _ => None
  | 92 :: 92 :: t => string_body t (acc ++ [92])
  | 92 :: 34 :: t => string_body t (acc ++ [34])
  | 92 :: 39 :: t => string_body t (acc ++ [39])
  | 92 :: 110 :: t => string_body t (acc ++ [10])
  | 92 :: 116 :: t => string_body t (acc ++ [9])
  | 92 :: _ => None
  | c :: t => string_body t (acc ++ [c])
  end.
Fixpoint skip_blanks (s : str) : str := match s with 32 :: t => skip_blanks t | _ => s end.
(* one string or several, to the end of the line *)
Fixpoint strings (fuel : nat) (s acc : str) : option (str * str) :=
  match fuel with
  | O => None
  | S fuel =>
      match s with
      | 34 :: 34 :: 34 :: _ => None
      | 34 :: t =>
          match string_body t [] with
          | None => None
          | Some (v, rest) =>
              match skip_blanks rest with
              | [] => Some (acc ++ v, [])
              | 10 :: rest => Some (acc ++ v, rest)
              | 35 :: rest => None
              | rest => strings fuel rest (acc ++ v)
              end
          end
      | _ => None
      end
  end.
Fixpoint skip_line (s : str) : str := match s with [] => [] | 10 :: t => t | _ :: t => skip_line t end.
Fixpoint strip_name (name s : str) : option str :=
  match name, s with
  | [], _ => Some s
  | a :: name, b :: s => if a =? b then strip_name name s else None
  | _ :: _, [] => None
  end.
Fixpoint module_value (fuel : nat) (name s : str) (now : option str) : option str :=
  match fuel with
  | O => None
  | S fuel =>
      match s with
      | [] => now
      | 10 :: t => module_value fuel name t now
      | 35 :: t => module_value fuel name (skip_line t) now
      | _ =>
          match strip_name (name ++ u " = ") s with
          | None => None
          | Some t => match strings (S (length t)) t [] with Some (v, rest) => module_value fuel name rest (Some v) | None => None end
          end
      end
  end.
Definition imported_value (name s : str) : option str := module_value (S (length s)) name s None.
