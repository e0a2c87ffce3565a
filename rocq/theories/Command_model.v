(* Command_model.v -- the command line of /repo/scripts/load_as_rst.py: the
   parser it builds with argparse (as in Python 3.10, or, where it differs, as in
   3.11.10: [late]), and its run.

   [digit] is the class backslash-d of regular expressions.  The usage and error
   messages are not modelled: the parser answers, or the program exits with a
   code. *)
From Verif Require Import Base LoadRst_model.

Inductive action := Help | Output.
(* load_as_rst.py:86-93  the option strings of the parser, in the order they are
   added, --help first by ArgumentParser itself *)
Definition option_strings : list (str * action) :=
  [(u "-h", Help); (u "--help", Help); (u "-o", Output); (u "--output", Output)].
Definition dashes : str := [45; 45].

Fixpoint starts (p s : str) : bool :=
  match p, s with
  | [], _ => true
  | c :: p, d :: s => (c =? d) && starts p s
  | _ :: _, [] => false
  end.
(** s.split('=', 1), when there is one *)
Fixpoint split_eq (s : str) : option (str * str) :=
  match s with
  | [] => None
  | c :: s => if c =? 61 then Some ([], s) else match split_eq s with Some (a, b) => Some (c :: a, b) | None => None end
  end.

Section CommandLine.
  Variable late : bool.
  Variable digit : Z -> bool.
  (** the regular expression ^-\d+$|^-\d*\.\d+$ *)
  Definition digits (s : str) : bool := match s with [] => false | _ => forallb digit s end.
  Fixpoint decimal (s : str) : bool :=
    match s with
    | [] => false
    | c :: s => (c =? 46) && digits s || digit c && decimal s
    end.
  Definition number (s : str) : bool := digits s || decimal s.
  Definition negative (s : str) : bool :=
    match s with
    | c :: s => (c =? 45) && (number s || (last s 0 =? 10) && number (removelast s))
    | [] => false
    end.

  (** what an argument is taken for: an argument, the separator, or an option
      with its name and what is attached to it *)
  Inductive tag := A | Dash | O (a : option action) (name : str) (explicit : option str).
  (* argparse: _get_option_tuples *)
  Definition option_tuples (s : str) : list tag :=
    if starts dashes s then
      let (prefix, explicit) := match split_eq s with Some (a, b) => (a, Some b) | None => (s, None) end in
      flat_map (fun na => if starts prefix (fst na) then [O (Some (snd na)) (fst na) explicit] else []) option_strings
    else
      flat_map (fun na => if eqb (fst na) (firstn 2 s) then [O (Some (snd na)) (fst na) (Some (skipn 2 s))]
                          else if starts s (fst na) then [O (Some (snd na)) (fst na) None] else []) option_strings.
  (* argparse: _parse_optional; None is the error of an ambiguous option *)
  Definition guess (s : str) : option tag :=
    match option_tuples s with
    | _ :: _ :: _ => None
    | [t] => Some t
    | [] => Some (if negative s then A else if mem 32 s then A else O None s None)
    end.
  Definition classify (s : str) : option tag :=
    match s with
    | [] => Some A
    | c :: r =>
        if negb (c =? 45) then Some A
        else match dget s option_strings with
             | Some a => Some (O (Some a) s None)
             | None =>
                 match r with
                 | [] => Some A
                 | _ :: _ =>
                     match split_eq s with
                     | Some (n, e) => match dget n option_strings with Some a => Some (O (Some a) n (Some e)) | None => guess s end
                     | None => guess s
                     end
                 end
             end
    end.
  (* argparse: _parse_known_args, its first loop *)
  Fixpoint tag_all (args : list str) : option (list (str * tag)) :=
    match args with
    | [] => Some []
    | s :: args =>
        if eqb s dashes then Some ((s, Dash) :: map (fun a => (a, A)) args)
        else match classify s, tag_all args with
             | Some t, Some l => Some ((s, t) :: l)
             | _, _ => None
             end
    end.

  (** the value of an option: argparse's _get_values used to take a -- away and
      was then left with an empty list *)
  Inductive value := Text (s : str) | EmptyList.
  Definition get_values (s : str) : value := if negb late && eqb s dashes then EmptyList else Text s.
  Inductive outcome := Parsed (input : str) (output : option value) | Exit (code : Z).
  (** -hX and the like: X is read as further flags, before help is shown *)
  Fixpoint help_chain (e : str) (rest : list (str * tag)) : Z :=
    match e with
    | [] => 2
    | c :: e =>
        match dget [45; c] option_strings, e with
        | None, _ => 2
        | Some Help, [] => 0
        | Some Help, _ => help_chain e rest
        | Some Output, [] => match rest with (_, A) :: _ => 0 | _ => 2 end
        | Some Output, _ => 0
        end
    end.
  (** the same in 3.11.10: X may not begin with a dash or follow an equals sign,
      and a flag that is none is only reported after help would be shown *)
  Fixpoint late_chain (e : str) (rest : list (str * tag)) : Z :=
    match e with
    | [] => 2
    | c :: e =>
        if c =? 45 then 2
        else match dget [45; c] option_strings, e with
             | None, _ => 0
             | Some Help, [] => 0
             | Some Help, d :: _ => if d =? 61 then 2 else late_chain e rest
             | Some Output, [] => match rest with (_, A) :: _ => 0 | _ => 2 end
             | Some Output, _ => 0
             end
    end.
  Definition flags (s e : str) (rest : list (str * tag)) : Z :=
    if late then (if nth 2 s 0 =? 61 then 2 else late_chain e rest) else help_chain e rest.
  (** the positional argument: its value and what is left *)
  Definition take_input (rest : list (str * tag)) : option (str * list (str * tag)) :=
    match rest with
    | (v, A) :: (_, Dash) :: rest => Some (v, rest)
    | (v, A) :: rest => Some (v, rest)
    | (_, Dash) :: (v, A) :: rest => Some (v, rest)
    | _ => None
    end.
  Definition is_option (t : str * tag) : bool := match snd t with O _ _ _ => true | _ => false end.
  Fixpoint drop_words (rest : list (str * tag)) : list (str * tag) :=
    match rest with
    | [] => []
    | t :: r => if is_option t then rest else drop_words r
    end.
  (* argparse: _parse_known_args, its second loop, and parse_args; [extra] says
     that some argument was not recognised *)
  Fixpoint loop (fuel : nat) (input : option str) (output : option value) (extra : bool) (rest : list (str * tag)) : outcome :=
    match fuel with
    | Datatypes.O => Exit 2
    | S fuel =>
        if existsb is_option rest then
          match rest with
          | (s, O None _ _) :: rest => loop fuel input output true rest
          | (s, O (Some Help) n None) :: rest => Exit 0
          | (s, O (Some Help) n (Some e)) :: rest => if starts dashes n then Exit 2 else Exit (flags s e rest)
          | (s, O (Some Output) n (Some e)) :: rest => loop fuel input (Some (get_values e)) extra rest
          | (s, O (Some Output) n None) :: rest =>
              match rest with (v, A) :: rest => loop fuel input (Some (get_values v)) extra rest | _ => Exit 2 end
          | _ =>
              match input, take_input rest with
              | None, Some (v, rest) => loop fuel (Some v) output extra rest
              | _, _ => loop fuel input output true (drop_words rest)
              end
          end
        else
          match input, take_input rest with
          | None, Some (v, rest) => match extra, rest with false, [] => Parsed v output | _, _ => Exit 2 end
          | None, None => Exit 2
          | Some v, _ => match extra, rest with false, [] => Parsed v output | _, _ => Exit 2 end
          end
    end.
  Definition parse_args (args : list str) : outcome :=
    match tag_all args with
    | None => Exit 2
    | Some l => loop (S (length l)) None None false l
    end.

  (** what a run of the script leaves: the files, what it printed, how it ended *)
  Inductive ending := Exited (code : Z) | Ended (r : res unit).
  (* load_as_rst.py:80-99; an empty list is no file name *)
  Definition main pandoc can_open encodable (printable : str -> bool) (st : files) (args : list str) : files * str * ending :=
    match parse_args args with
    | Exit c => (st, [], Exited c)
    | Parsed i o =>
        let name := match o with Some (Text n) => Some n | _ => None end in
        match convert pandoc can_open encodable st (Some i) name None false with
        | (st, Raise e) => (st, [], Ended (Raise e))
        | (st, Ok None) => (st, [], Ended (Ok tt))
        | (st, Ok (Some t)) =>
            if match o with Some _ => true | None => false end then (st, [], Ended (Raise TypeError))
            else if printable (t ++ [10]) then (st, t ++ [10], Ended (Ok tt)) else (st, [], Ended (Raise UnicodeError))
        end
    end.
End CommandLine.
