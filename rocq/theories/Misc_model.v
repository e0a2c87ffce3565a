(* Misc_model.v -- model of /repo/cjktools/resources/cjkdata.py, languages.py and
   kanji_list.py.  The environment is a dictionary of texts; which paths are
   directories, the password database, directory listings and decoded file
   contents are given from outside.  os.path is posixpath. *)
From Verif Require Import Base PyText Scripts_model Maps_model.

Definition slash (c : char) : bool := c =? u1 "/".
Definition rstrip_slash (s : str) : str := rev (lstrip_by slash (rev s)).
(* the text before the first slash, and from it on *)
Fixpoint at_slash (s : str) : str * str :=
  match s with
  | [] => ([], [])
  | c :: r => if slash c then ([], s) else let (a, b) := at_slash r in (c :: a, b)
  end.

Section CjkData.
  Variable environ : dict str str.
  Variable own_dir : option str.          (* pwd.getpwuid(os.getuid()).pw_dir; None for KeyError *)
  Variable user_dir : str -> option str.  (* pwd.getpwnam(name).pw_dir *)
  Variable isdir : str -> bool.

  (* posixpath.expanduser *)
  Definition expanduser (p : str) : str :=
    match p with
    | c :: r =>
        if c =? u1 "~" then
          let (user, rest) := at_slash r in
          match (match user with [] => (match dget (u "HOME") environ with Some h => Some h | None => own_dir end) | _ => user_dir user end) with
          | None => p
          | Some userhome => match rstrip_slash userhome ++ rest with [] => u "/" | q => q end
          end
        else p
    | [] => p
    end.
  (* posixpath.join of two *)
  Definition path_join (a b : str) : str :=
    match b with
    | c :: _ => if slash c then b else match rev a with [] => b | d :: _ => if slash d then a ++ b else a ++ u "/" ++ b end
    | [] => match rev a with [] => b | d :: _ => if slash d then a ++ b else a ++ u "/" ++ b end
    end.

  (* cjkdata.py:9-13 *)
  Definition SEARCH_PATHS : list str := [u "~/.cjkdata"; u "/usr/share/data/cjkdata"; u "/usr/local/share/data/cjkdata"].
  (* cjkdata.py:16-29  find_path *)
  Fixpoint search (l : list str) : res str :=
    match l with
    | [] => Raise MissingCJKDataError
    | p :: r => let p := expanduser p in if isdir p then Ok p else search r
    end.
  Definition find_path : res str :=
    match dget (u "CJKDATA") environ with Some p => Ok p | None => search SEARCH_PATHS end.
  (* cjkdata.py:32-34  get_resource *)
  Definition get_resource (name : str) : res str := do base <- find_path; Ok (path_join base name).

  (* kanji_list.py:19-21  get_lists *)
  Variable listdir : str -> res (list str).
  Definition get_lists : res (list str) := do f <- get_resource (u "lists/char"); listdir f.
  (* kanji_list.py:24-28  get_list; [contents] is what opening, reading and decoding a file gives *)
  Variable contents : str -> res str.
  Definition get_list (list_name : str) : res (list char) :=
    do f <- get_resource (u "lists/char/" ++ list_name);
    do text <- contents f;
    Ok (unique_kanji text).
End CjkData.

(* languages.py:13-21 *)
Definition to_one_char_code : dict str str :=
  [(u "English", u "e"); (u "Chinese", u "c"); (u "Japanese", u "j"); (u "German", u "g"); (u "French", u "f");
   (u "Spanish", u "s"); (u "Portugese", u "p")].
(* languages.py:23 *)
Definition from_one_char_code : res (dict str str) := invert_injective_mapping to_one_char_code.
(* languages.py:25-29 *)
Definition to_two_char_code : dict str str := [(u "English", u "en"); (u "Chinese", u "cn"); (u "Japanese", u "jp")].
(* languages.py:31 *)
Definition from_two_char_code : res (dict str str) := invert_injective_mapping to_two_char_code.
