(* Show_model.v -- the texts that objects are shown as: place.py, bilingual_dict.py,
   radkdict.py (print_radicals). *)
From Verif Require Import Base PyText PyFmt Maps_model Place_model Bilingual_model Radk_model.

(* place.py:50-58  Place.__str__, __repr__ *)
Definition place_str (p : place) : str :=
  u "<Place: " ++ label p ++ (match reading p with Some (c :: r) => u " /" ++ (c :: r) ++ u "/" | _ => [] end)
    ++ u " " ++ dec (Z.of_nat (length (kids p))) ++ u " children>".

(* bilingual_dict.py:97-105  DictionaryEntry.__str__, __repr__ *)
Definition entry_str (h : heap) (e : addr) : str :=
  u "<DictionaryEntry: " ++ word (entry_at h e) ++ u " (" ++
  dec (Z.of_nat (length (set_of (list_at h (readings (entry_at h e)))))) ++ u " readings, " ++
  dec (Z.of_nat (length (list_at h (senses (entry_at h e))))) ++ u " senses)>".

(** texts compare by their characters *)
Fixpoint str_leb (a b : str) : bool :=
  match a, b with
  | [], _ => true
  | _ :: _, [] => false
  | x :: a, y :: b => if x <? y then true else if y <? x then false else str_leb a b
  end.
Fixpoint insert_str (w : str) (l : list str) : list str :=
  match l with [] => [w] | x :: r => if str_leb w x then w :: x :: r else x :: insert_str w r end.
Definition sorted_str (l : list str) : list str := fold_right insert_str [] l.
(* radkdict.py:94-97  one line; None among the radicals cannot be sorted or joined *)
Definition radicals_line (d : radkdict) (kanji : str) : res str :=
  match kanji with
  | [c] =>
      do radicals <- dgetitem (items d) c;
      do rs <- mapM (fun r : option (list Z) => of_option TypeError r) radicals;
      Ok (kanji ++ u ": " ++ u " " ++ join (u " ") (sorted_str rs))
  | _ => Raise KeyError
  end.
(* radkdict.py:90-97  print_radicals: the lines printed, and how it ended *)
Fixpoint print_each (d : radkdict) (kanji_list : list str) : list str * res unit :=
  match kanji_list with
  | [] => ([], Ok tt)
  | k :: r => match radicals_line d k with
              | Ok l => let (ls, o) := print_each d r in (l :: ls, o)
              | Raise e => ([], Raise e)
              end
  end.
Definition print_radicals (dv : Z -> option Z) (radkfile : list str) (kanji_list : list str) : list str * res unit :=
  match parse_radkfile dv radkfile with Ok d => print_each d kanji_list | Raise e => ([], Raise e) end.
