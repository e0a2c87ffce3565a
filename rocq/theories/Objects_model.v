(* Objects_model.v -- two methods that look up attributes their objects do not have,
   whatever attributes others have given the objects or their classes:
   TreeDist.combine (/repo/cjktools/resources/tree.py:316-356) and
   DictionaryEntry.__hash__ (/repo/cjktools/resources/bilingual_dict.py:110-111). *)
From Verif Require Import Base PyText.

Section Objects.
  Variable V : Type.                          (* Python's values *)
  Variable getattr : V -> str -> res V.       (* attributes of values in general *)
  Variable text : str -> V.
  Variable show : V -> res str.               (* '%s' of a value *)
  Variable same : V -> V -> res bool.         (* the truth of a == b *)
  Variable call : V -> res V.                 (* calling a value without arguments *)
  Variable tuple : V -> res V.                (* tuple(a) *)
  Variable hash : V -> res Z.                 (* hash(a) *)

  (** an object: what its class has, with all the classes above it, and what it has
      itself (its slots that are set, and its own dictionary).  Its own come first. *)
  Record object := mkobject { of_class : dict str V; own : dict str V }.
  Definition attribute (o : object) (name : str) : res V :=
    match dget name (own o) with
    | Some v => Ok v
    | None => of_option AttributeError (dget name (of_class o))
    end.
  (** o.name = v; [slots] is None where objects have a dictionary of their own *)
  Definition set_attribute (slots : option (list str)) (o : object) (name : str) (v : V) : res object :=
    match slots with
    | Some names => if mem name names then Ok (mkobject (of_class o) (dset name v (own o))) else Raise AttributeError
    | None => Ok (mkobject (of_class o) (dset name v (own o)))
    end.
  (** many assignments; those that fail change nothing *)
  Definition set_all slots (o : object) (l : list (str * V)) : object :=
    fold_left (fun o p => match set_attribute slots o (fst p) (snd p) with Ok o' => o' | Raise _ => o end) l o.

  (* tree.py:281-285  TreeDist(root) begins with root.copy(); [rest] is what follows *)
  Definition new_dist {R} (root : V) (rest : V -> res R) : res R :=
    do m <- getattr root (u "copy"); do r <- call m; rest r.
  (* tree.py:318-320  combine; [optimized] is python -O, which drops the assertion;
     [rest] is everything from the end of line 285 and from line 322 on *)
  Definition combine_objects {R} (optimized : bool) (self rhs : object) (label : str) (rest : V -> res R) : res R :=
    do _ <- (if optimized then Ok tt
             else do a <- attribute self (u "tree"); do x <- getattr a (u "label");
                  do b <- attribute rhs (u "tree"); do y <- getattr b (u "label");
                  do e <- same x y; if e then Ok tt else Raise AssertionError);
    do a <- attribute self (u "label");
    do b <- attribute rhs (u "label");
    do s <- show a; do t <- show b;
    new_dist (text (label ++ u "(" ++ s ++ u ", " ++ t ++ u ")")) rest.

  (* bilingual_dict.py:50 *)
  Definition entry_slots : list str := [u "word"; u "readings"; u "senses"].
  (* bilingual_dict.py:52-57  a new entry; [cls] is what its class has *)
  Definition new_entry (cls : dict str V) (word readings senses : V) : object :=
    mkobject cls [(u "word", word); (u "readings", readings); (u "senses", senses)].
  (** a builtin function of one argument, called with [args] *)
  Definition builtin1 {R} (f : V -> res R) (args : list V) : res R := match args with [x] => f x | _ => Raise TypeError end.
  (* bilingual_dict.py:110-111  __hash__ *)
  Definition hash_object (self : object) : res Z :=
    do n <- attribute self (u "name");
    do r <- attribute self (u "readings"); do r' <- tuple r;
    do s <- attribute self (u "senses"); do s' <- tuple s;
    builtin1 hash [n; r'; s'].
End Objects.
