(* Reload_spec.v -- what callers of a reader that is being reloaded may rely on.
   The answers are compared with those of readers that nobody reloads
   (Tatoeba_model.v, properties C70-C75). *)
From Verif Require Import Base PyText PyFmt Csv_model Tanaka_model Tatoeba_model Tatoeba_spec Reload_model.

(** the attributes of a reader between calls *)
Definition attrs_of {date} (r : reader date) : @attrs date :=
  mkattrs (languages r) (sentences_src r)
    (option_map language_dict (loaded r)) (option_map sentence_dict (loaded r)) (option_map detailed_info_dict (loaded r)).

(** what the reader itself answers *)
Definition ask {date} (r : reader date) (q : question) : res (@answer date) :=
  match q with
  | Language i => rmap Text (language r i)
  | Sentence i => rmap Text (sentence r i)
  | Details i => rmap Info (details r i)
  | Ids => rmap IdList (sentence_ids r)
  | Source => Ok (Text (sentences_src r))
  end.

(** the readers a caller may be shown: as it was, or loaded with one of the files *)
Definition one_of {date} (dv : Z -> option Z) (strptime : str -> res date) (filter_row : list str -> bool)
    (r0 : reader date) (calls : list call) (r : reader date) : Prop :=
  r = r0 \/ exists name src, In (Reload name src) calls /\ set_sentences dv strptime filter_row r0 name src = (r, Ok tt).

Definition is_reload (c : call) : bool := match c with Reload _ _ => true | _ => false end.
Definition sets_languages (c : call) : bool := match c with SetLanguages _ => true | _ => false end.
Definition is_lreload (c : lcall) : bool := match c with ReloadLinks _ _ => true | _ => false end.

(** the values [languages] may have *)
Definition held {date} (r0 : reader date) (calls : list call) (l : option (list str)) : Prop :=
  l = languages r0 \/ In (SetLanguages l) calls.

(** a row that one of these values lets in: its number, language and text *)
Definition let_in {date} (dv : Z -> option Z) (filter_row : list str -> bool) (r0 : reader date) (calls : list call) (i : Z) (lang text : str) : Prop :=
  exists name rows o a cols l, In (Reload name (rows, o)) calls /\ In (a :: lang :: text :: cols) rows /\
    filter_row (a :: lang :: text :: cols) = false /\ py_int dv 10 a = Some i /\ held r0 calls l /\ wants l lang.

(** the attributes of a links reader between calls *)
Definition lattrs_of (r : lreader) : lattrs := mklattrs (links_src r) (option_map fst (ldicts r)) (option_map snd (ldicts r)).
Definition lask (r : lreader) (c : lcall) : res lanswer :=
  match c with
  | Group i => rmap Members (group r i)
  | Groups => rmap AllGroups (groups r)
  | Known => do d <- of_option AttributeError (ldicts r); Ok (Keys (dkeys (fst d)))
  | ReloadLinks _ _ => Ok LDone
  end.
(** a reader with the node numbers of one file and the groups of another *)
Definition mixed (old new : lreader) : lreader :=
  mklreader (subset old) (filter_sent old) (filter_trans old) (filter_str old) (links_src new)
    (match ldicts old, ldicts new with Some (_, g), Some (d, _) => Some (d, g) | _, _ => None end).

(** the readers of links that may be shown *)
Definition lone_of (dv : Z -> option Z) (r0 : lreader) (calls : list lcall) (r : lreader) : Prop :=
  r = r0 \/ exists name src, In (ReloadLinks name src) calls /\ set_links dv r0 name src = (r, Ok tt).

(** readers of indices *)
Definition iattrs_of (r : ireader) : iattrs := mkiattrs (indices_src r) (option_map fst (idicts r)) (option_map snd (idicts r)).
Definition iask (r : ireader) (c : icall) : res ianswer :=
  match c with
  | Words i => rmap WordList (igetitem r i)
  | Link i => rmap Number (link r i)
  | ReloadIndices _ _ => Ok IDone
  end.
Definition ione_of (dv : Z -> option Z) (r0 : ireader) (calls : list icall) (r : ireader) : Prop :=
  r = r0 \/ exists name src, In (ReloadIndices name src) calls /\ set_indices dv r0 name src = (r, Ok tt).
Definition is_ireload (c : icall) : bool := match c with ReloadIndices _ _ => true | _ => false end.
