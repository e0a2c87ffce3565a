(* Bilingual_model.v -- model of /repo/cjktools/resources/bilingual_dict.py

   List objects and entry objects live in two stores; an attribute holds the
   address of a list, so in-place extension, rebinding and aliasing are
   visible. *)
From Verif Require Import Base Maps_model.

Inductive ClashPolicy := Overwrite | Merge.   (* bilingual_dict.py:18-20 *)

(* bilingual_dict.py:30-35  __init__ keeps the format, which nothing here reads.
   bilingual_dict.py:37-42  BilingualDictionary.update: the dictionary after
   the call, and the outcome *)
Definition bd_update {K V} `{EqB K} (self rhs_dictionary : dict K V) (clash_policy : ClashPolicy)
  : dict K V * res unit :=
  match clash_policy with
  | Merge => (self, Raise NotYetImplementedError)
  | Overwrite => (dupdate self rhs_dictionary, Ok tt)
  end.

(* bilingual_dict.py:45-57  DictionaryEntry: __slots__ *)
Record entry := { word : str; readings : addr; senses : addr }.
Definition entry0 : entry := {| word := []; readings := O; senses := O |}.

Record heap := { lists : list (list str); entries : list entry }.
Definition list_at (h : heap) (a : addr) : list str := fetch [] (lists h) a.
Definition entry_at (h : heap) (e : addr) : entry := fetch entry0 (entries h) e.
Definition set_list (h : heap) (a : addr) (l : list str) : heap :=
  {| lists := put (lists h) a l; entries := entries h |}.
Definition new_list (h : heap) (l : list str) : heap * addr :=
  ({| lists := lists h ++ [l]; entries := entries h |}, length (lists h)).
Definition set_entry (h : heap) (e : addr) (x : entry) : heap :=
  {| lists := lists h; entries := put (entries h) e x |}.

(* bilingual_dict.py:52-57  __init__ with list objects already allocated *)
Definition new_entry (h : heap) (w : str) (r s : addr) : heap * res addr :=
  if Nat.eqb (length (list_at h r)) 1 || Nat.eqb (length (list_at h r)) (length (list_at h s))
  then ({| lists := lists h; entries := entries h ++ [{| word := w; readings := r; senses := s |}] |},
        Ok (length (entries h)))
  else (h, Raise AssertionError).

(* n * l *)
Fixpoint repeat_list {A} (n : nat) (l : list A) : list A :=
  match n with O => [] | S n' => l ++ repeat_list n' l end.

(* bilingual_dict.py:73-74, 77-78  padding: the attribute is rebound to a new list *)
Definition pad (h : heap) (e : addr) : heap :=
  let x := entry_at h e in
  if Nat.eqb (length (list_at h (readings x))) 1 then
    let '(h', a) := new_list h (repeat_list (length (list_at h (senses x))) (list_at h (readings x))) in
    set_entry h' e {| word := word x; readings := a; senses := senses x |}
  else h.

(* bilingual_dict.py:59-82  DictionaryEntry.update; [+=] extends the list
   object in place *)
Definition entry_update (h : heap) (self rhs_entry : addr) : heap * res unit :=
  if eqb (word (entry_at h self)) (word (entry_at h rhs_entry)) then
    let h := pad h self in
    let h := pad h rhs_entry in
    let ra := readings (entry_at h self) in
    let h := set_list h ra (list_at h ra ++ list_at h (readings (entry_at h rhs_entry))) in
    let sa := senses (entry_at h self) in
    let h := set_list h sa (list_at h sa ++ list_at h (senses (entry_at h rhs_entry))) in
    (h, Ok tt)
  else (h, Raise PlainException).

(* bilingual_dict.py:83-95  senses_by_reading, on the values of the attributes
   (the result holds fresh lists) *)
Definition senses_by_reading (rs ss : list str) : res (dict str (list str)) :=
  if (1 <? length rs)%nat then
    if Nat.eqb (length ss) (length rs) then
      Ok (fold_left (fun acc p => dextend (fst p) [snd p] acc) (combine rs ss) [])
    else Raise AssertionError
  else match rs with
       | [unique_reading] => Ok [(unique_reading, ss)]
       | _ => Raise ValueError
       end.
Definition entry_senses_by_reading (h : heap) (e : addr) : res (dict str (list str)) :=
  senses_by_reading (list_at h (readings (entry_at h e))) (list_at h (senses (entry_at h e))).

(* bilingual_dict.py:110-111  __hash__: there is no attribute [name] *)
Definition entry_hash (h : heap) (e : addr) : res Z := Raise AttributeError.
