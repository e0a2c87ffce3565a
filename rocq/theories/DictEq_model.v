(* DictEq_model.v -- == on the package's dictionaries.  RadkDict, Kanjidic, PinyinTable,
   BilingualDictionary and Place are derived from dict and define no __eq__
   (radkdict.py:26, kanjidic.py:89, pinyin_table.py:37, bilingual_dict.py:23, place.py:20),
   so dict.__eq__ applies; the readers are derived from collections.Mapping
   (tatoeba.py:29).  Values are compared by [veq], which says that a value equals itself. *)
From Verif Require Import Base Corpus_model Compare_model Rose Maps_model Place_model.

(* place.py:20  dict.__eq__ of two places: as many entries, and every entry of one is
   matched in the other, by the same object or an equal one.  A plain dictionary of
   places is a place without details; [limit] calls fit on the stack *)
Fixpoint place_eq (limit : nat) (h : list place) (a b : addr) : res bool :=
  match limit with
  | O => Raise RecursionError
  | S f =>
      if negb (Nat.eqb (length (kids (at_ h a))) (length (kids (at_ h b)))) then Ok false
      else
        (fix all (l : list (str * addr)) : res bool :=
           match l with
           | [] => Ok true
           | (k, c) :: r =>
               match dget k (kids (at_ h b)) with
               | None => Ok false
               | Some d => if Nat.eqb c d then all r else do e <- place_eq f h c d; if e then all r else Ok false
               end
           end) (kids (at_ h a))
  end.

(* the object every entry of a loaded dictionary is: entries are made one after the
   other and have no __eq__ (KanjidicEntry, kanjidic.py:60-86; DictionaryEntry,
   bilingual_dict.py:45-111), so they are compared by what they are *)
Definition entry_objects {K E} (first : nat) (d : dict K E) : dict K addr := combine (dkeys d) (seq first (length d)).
Definition entry_dict_eq {K} `{EqB K} (a b : dict K addr) : bool := dict_eq Nat.eqb a b.

Section Mixed.
  Context {K V F : Type} `{EqB K}.
  Variable veq : V -> V -> bool.
  (* a reader, a dictionary, or an object of another class, no mapping *)
  Inductive thing := Reader (id : nat) (m : mapping K V) | Dict (id : nat) (d : dict K V) | Other (f : F).
  Variable same_object : F -> F -> bool.
  Variable other_eq : F -> thing -> answer.

  (* Mapping.__eq__: NotImplemented unless the other is a Mapping; dict is registered as one *)
  Definition mapping_eq (m : mapping K V) (other : thing) : answer :=
    match other with
    | Reader _ m' => of_try (fun _ => false) (m_eq veq m m')
    | Dict _ d => of_try (fun _ => false) (do a <- m_items m; Ok (dict_eq veq (dict_of a) (dict_of d)))
    | Other _ => NotImpl
    end.
  (* dict.__eq__: NotImplemented unless the other is a dict *)
  Definition dict_dunder_eq (d : dict K V) (other : thing) : answer :=
    match other with Dict _ d' => Says (dict_eq veq d d') | _ => NotImpl end.
  Definition thing_eq (x y : thing) : answer :=
    match x with Reader _ m => mapping_eq m y | Dict _ d => dict_dunder_eq d y | Other f => other_eq f y end.
  Definition same_thing (x y : thing) : bool :=
    match x, y with
    | Reader i _, Reader j _ => Nat.eqb i j
    | Dict i _, Dict j _ => Nat.eqb i j
    | Other f, Other g => same_object f g
    | _, _ => false
    end.
  (* x == y; none of the classes is derived from another *)
  Definition equal (x y : thing) : res bool := rich (thing_eq x y) (thing_eq y x) false (same_thing x y).
End Mixed.
Arguments thing : clear implicits.
