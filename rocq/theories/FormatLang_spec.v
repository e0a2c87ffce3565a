(* FormatLang_spec.v -- the lines each dictionary format accepts, written as a
   grammar, and what is read from them *)
From Verif Require Import Base Regex DictFormat_model DictFormat_spec.

(** the text between the separators *)
Fixpoint split_on (c : char) (s : str) : list str :=
  match s with
  | [] => [[]]
  | d :: r =>
      match split_on c r with
      | p :: ps => if d =? c then [] :: p :: ps else (d :: p) :: ps
      | [] => []
      end
  end.
Definition nonempty (s : str) : bool := match s with [] => false | _ => true end.

(** senses that each follow a slash: what precedes the first slash is dropped,
    and so are empty pieces *)
Definition slash_senses (s : str) : list str := filter nonempty (tl (split_on (u1 "/") s)).
(** senses between commas *)
Definition comma_senses (s : str) : list str := filter nonempty (split_on (u1 "，") s).

(** the number in front of a sense, if there is one and something follows it *)
Definition has_number (p : str) (n q : str) : Prop :=
  p = n ++ u "．" ++ q /\ n <> [] /\ (forall c, In c n -> In c digits /\ c <> u1 "６") /\ q <> [].
Inductive unnumbered : str -> str -> Prop :=
| Un_cut p n q : has_number p n q -> unnumbered p q
| Un_all p : (forall n q, ~ has_number p n q) -> unnumbered p p.

(** senses between "\n" (a backslash and an n): a piece ends at a backslash;
    the n after it goes with the backslash, unless the piece was empty *)
Inductive bs_senses : str -> list str -> Prop :=
| Bs_end : bs_senses [] []
| Bs_stray s xs : bs_senses s xs -> bs_senses (u "\" ++ s) xs
| Bs_last p x : item (u "\") p -> unnumbered p x -> bs_senses p [x]
| Bs_sep p x s xs : item (u "\") p -> unnumbered p x -> bs_senses s xs ->
    bs_senses (p ++ u "\n" ++ s) (x :: xs)
| Bs_odd p x s xs : item (u "\") p -> unnumbered p x -> bs_senses s xs ->
    (forall t, s <> u "n" ++ t) -> bs_senses (p ++ u "\" ++ s) (x :: xs).

(** a reading in brackets *)
Definition bracket (close r t : str) : str := u "[" ++ r ++ close ++ t.
Definition bracketed (close s : str) : Prop := exists r t, item (u "]") r /\ s = bracket close r t.

Inductive entry_line : format -> str -> parsed -> Prop :=
| L_edict_reading w r s nl :
    item (u " ") w -> item (u "]") r -> ~ In 10 s -> slash_senses s <> [] ->
    entry_line edict (w ++ u " " ++ bracket (u "] ") r s ++ newline nl) (w, ([spaceless r], slash_senses s))
| L_edict_plain w s nl :
    item (u " ") w -> ~ bracketed (u "] ") s -> ~ In 10 s -> slash_senses s <> [] ->
    entry_line edict (w ++ u " " ++ s ++ newline nl) (w, ([w], slash_senses s))
| L_jc w r s nl :
    item (u " ") w -> item (u "]") r -> ~ In 10 s -> comma_senses s <> [] ->
    entry_line jc_kdic (w ++ u " [" ++ r ++ u "]" ++ [9] ++ s ++ newline nl) (w, ([spaceless r], comma_senses s))
| L_cj w r s xs nl :
    item [9] w -> item (u "\") r -> ~ In 10 s -> bs_senses s xs -> xs <> [] ->
    entry_line cj_kdic (w ++ [9] ++ r ++ u "\n" ++ s ++ newline nl) (spaceless w, ([spaceless r], xs))
| L_cedict_reading trad w r s rest :
    item (u " ") trad -> item (u " ") w -> item (u "]") r -> ~ In 10 s -> slash_senses s <> [] ->
    (rest = [] \/ exists t, rest = 10 :: t) ->
    entry_line cedict (trad ++ u " " ++ w ++ u " " ++ bracket (u "]") r s ++ rest) (w, ([spaceless r], slash_senses s))
| L_cedict_plain trad w s rest :
    item (u " ") trad -> item (u " ") w -> ~ bracketed (u "]") (s ++ rest) -> ~ In 10 s -> slash_senses s <> [] ->
    (rest = [] \/ exists t, rest = 10 :: t) ->
    entry_line cedict (trad ++ u " " ++ w ++ u " " ++ s ++ rest) (w, ([w], slash_senses s)).
