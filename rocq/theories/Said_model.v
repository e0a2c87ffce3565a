(* Said_model.v -- what the remaining exceptions say: opening, caching, kana
   segments, places, trees and the data pack.  The same functions as in the other
   files with the text of each "raise" of /repo, as in Messages_model.v; labels of
   places may here be anything, which decides what '%s' % label does. *)
From Verif Require Import Base PyStr PyText Scripts_model KanaTable_model Alternations_model Common_model SmartCache_model Rose Maps_model
  Misc_model Tree_model Place_model Messages_model.

(** ** Arguments that need not be texts *)
(* what can be given for a label: a text; a tuple of hashable objects, here by the
   str() of each; another hashable object that equals no text; an object without a
   hash (a list, a Place).  [shown] is str() of the object. *)
Inductive arg := Text (s : str) | Tuple (elements : list str) | Other (shown : str) | Unhashable (shown : str).

(* (before + '%s') % a: the elements of a tuple are the arguments of the format *)
Definition percent_s (before : str) (a : arg) : told str :=
  match a with
  | Tuple [x] => Fine (before ++ x)
  | Tuple _ => Fail TypeError None
  | Text x | Other x | Unhashable x => Fine (before ++ x)
  end.

(** ** Places *)
Section Places.
  (* place.py:26-43  __init__; [repr] is repr() of the label *)
  Definition place_any (repr : arg -> str) (label : arg) (reading : option str) (aliases : option (list str)) : told place :=
    match label with
    | Text s => place_told s reading aliases
    | _ => Fail TypeError (Some (u "expected string, not " ++ repr label))
    end.

  (* place.py:126  label in next_node *)
  Definition lookup (a : arg) (d : dict str addr) : told (option (str * addr)) :=
    match a with
    | Text s => Fine (option_map (pair s) (dget s d))
    | Tuple _ | Other _ => Fine None
    | Unhashable _ => Fail TypeError None
    end.

  (* the n-th call of random.shuffle *)
  Variable shuffle : nat -> list (list str * addr) -> list (list str * addr).
  (* place.py:112-141  find_node *)
  Fixpoint find_any_loop (fuel n : nat) (h : list place) (a : arg) (frontier next_frontier : list (list str * addr)) : told found :=
    match fuel with
    | O => Fail OutOfFuel None
    | S f =>
        match frontier, next_frontier with
        | [], [] => try text <- percent_s (u "no such node ") a; Fail KeyError (Some text)
        | _, _ =>
            match pop_last frontier with
            | Some ((current_path, next_node), frontier) =>
                try hit <- lookup a (kids (Place_model.at_ h next_node));
                match hit with
                | Some (l, target_node) => Fine (Found target_node (current_path ++ [l]))
                | None =>
                    find_any_loop f n h a frontier
                      (next_frontier ++ map (fun ln => (current_path ++ [fst ln], snd ln)) (kids (Place_model.at_ h next_node)))
                end
            | None => find_any_loop f (S n) h a (shuffle n next_frontier) []
            end
        end
    end.
  Definition find_any (fuel : nat) (h : list place) (self : addr) (a : arg) : told found :=
    match a with
    | Text s => if eqb s (Place_model.label (Place_model.at_ h self)) then Fine Root else find_any_loop fuel O h a [([], self)] []
    | _ => find_any_loop fuel O h a [([], self)] []
    end.
End Places.
(* place.py:171-199  walk_with_path *)
Fixpoint with_path_told (h : list place) (path : list str) (last_depth : Z) (last_node : option addr) (w : list (Z * addr))
    : told (list (str * addr)) :=
  match w with
  | [] => Fine []
  | (depth, node) :: rest =>
      try path <- (if depth =? last_depth + 1 then
                     match last_node with Some n => Fine (path ++ [Place_model.label (Place_model.at_ h n)]) | None => Fail AttributeError None end
                   else if depth =? last_depth then Fine path
                   else if depth <? last_depth then Fine (but_last (last_depth - depth) path)
                   else Fail PlainException (Some (u "strange depth found")));
      try r <- with_path_told h path depth (Some node) rest;
      Fine ((join (u "/") path, node) :: r)
  end.
Definition walk_with_path_told (fuel : nat) (h : list place) (self : addr) : told (list (str * addr)) :=
  try w <- silent (Place_model.walk fuel h self); with_path_told h [] 0 None w.

(** ** Trees *)
(* tree.py:123-146  copy *)
Definition copy_told (fuel : nat) (h : list node) (self : addr) : told (list node * addr) :=
  if truth_opt h (parent (Tree_model.at_ h self)) then Fail PlainException (Some (u "Cannot copy from a non-root node"))
  else silent (Tree_model.copy fuel h self).
(* tree.py:148-165  prune *)
Definition prune_told (predicate : list node -> addr -> bool) (fuel : nat) (h : list node) (self : addr) : told (list node * option addr) :=
  try r <- copy_told fuel h self;
  let '(h, new_tree) := r in
  match for_postorder (prune_body predicate) fuel h tt [(new_tree, false)] with
  | (h, _, Raise e) => Fail e None
  | (h, _, Ok _) => Fine (h, if truth h new_tree || predicate h new_tree then Some new_tree else None)
  end.
(* tree.py:201-210  find_node: the label itself is the argument of the KeyError *)
Definition tree_find_told (shuffle : nat -> list addr -> list addr) (fuel : nat) (h : list node) (self : addr) (l : str) : told addr :=
  match for_breadth (find_body l) shuffle fuel O h tt [self] [] with
  | (_, _, Ok (Some n)) => Fine n
  | (_, _, Ok None) => Fail KeyError (Some l)
  | (_, _, Raise e) => Fail e None
  end.

(** ** Opening and caching *)
(* common.py:30-72  sopen *)
Definition sopen_told (py2 : bool) (codec : str -> bool) (os_open : stream -> option exn) (filename mode : str) (encoding : option str)
    : list stream * told (handler * stream) :=
  if mem (u1 "r") mode && mem (u1 "w") mode then ([], Fail PlainException (Some (u "Must be either read mode or write, but not both")))
  else let (opened, r) := sopen py2 codec os_open filename mode encoding in (opened, silent r).

(* smart_cache.py:169-181  the outer loop; with each dependency the str() of its type *)
Fixpoint check_told (set_order : list (option path) -> list (option path)) (st : fs) (target_time : Z) (dependencies : list (dependency * str)) : told bool :=
  match dependencies with
  | [] => Fine false
  | (d, type_) :: r =>
      try filenames <- match d with
                       | DepPath p => Fine [Some p]
                       | DepModule m => silent (get_module_dependencies set_order m)
                       | DepOther => Fail TypeError (Some (u "Unknown dependency type " ++ type_))
                       end;
      try newer <- silent (any_newer st target_time filenames);
      if newer then Fine true else check_told set_order st target_time r
  end.
(* smart_cache.py:155-181  needs_update *)
Definition update_needed_told (set_order : list (option path) -> list (option path)) (st : fs) (target : path) (dependencies : list (dependency * str)) : told bool :=
  match dget target st with
  | None => Fine true
  | Some f => check_told set_order st (mtime f) dependencies
  end.

(** ** Kana segments *)
(* alternations.py:56-81  canonical_segment_forms *)
Definition segment_forms_told (U : UCD) (segment : str) (left_context right_context : bool) : told (list str) :=
  match dget (script_type segment) sokuon_map with
  | None => Fail ValueError (Some (u "Unsupported script type. Segments must be hiragana or katakana"))
  | Some _ => silent (canonical_segment_forms U segment left_context right_context)
  end.
(* alternations.py:31-53  canonical_forms *)
Fixpoint candidates_told (U : UCD) (i n : nat) (segs : list str) : told (list (list str)) :=
  match segs with
  | [] => Fine []
  | seg :: r =>
      try v <- segment_forms_told U seg (0 <? i)%nat (i <? n - 1)%nat;
      try vs <- candidates_told U (S i) n r;
      Fine (v :: vs)
  end.
Definition forms_told (U : UCD) (kana_segments : list str) : told (list (list str)) :=
  try sets <- candidates_told U 0 (length kana_segments) kana_segments; Fine (product sets).

(** ** The data pack *)
Section Pack.
  Variable environ : dict str str.
  Variable own_dir : option str.
  Variable user_dir : str -> option str.
  Variable isdir : str -> bool.
  (* cjkdata.py:16-29  find_path *)
  Definition please : str :=
    u "Please install the cjk data pack in one of the default locations " ++
    u "and/or set the CJKDATA environment variable to the location of the " ++ u " data pack.".
  Fixpoint search_told (l : list str) : told str :=
    match l with
    | [] => Fail MissingCJKDataError (Some please)
    | p :: r => let p := expanduser environ own_dir user_dir p in if isdir p then Fine p else search_told r
    end.
  Definition find_path_told : told str :=
    match dget (u "CJKDATA") environ with Some p => Fine p | None => search_told SEARCH_PATHS end.
  (* cjkdata.py:32-34  get_resource *)
  Definition resource_told (name : str) : told str := try base <- find_path_told; Fine (path_join base name).
  (* kanji_list.py:19-28  get_lists, get_list *)
  Definition lists_told (listdir : str -> res (list str)) : told (list str) :=
    try f <- resource_told (u "lists/char"); silent (listdir f).
  Definition list_told (contents : str -> res str) (list_name : str) : told (list char) :=
    try f <- resource_told (u "lists/char/" ++ list_name);
    try text <- silent (contents f);
    Fine (unique_kanji text).
End Pack.
