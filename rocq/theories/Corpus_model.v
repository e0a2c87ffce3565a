(* Corpus_model.v -- the dictionary interface of the Tatoeba readers
   (/repo/cjktools/resources/tatoeba.py:29-41, with the methods inherited from
   collections.Mapping), their texts, and the reading of whole files.  A source
   is a path or an object with a read method. *)
From Verif Require Import Base PyText PyFmt Csv_model Tanaka_model Tatoeba_model.

(* ------------------------------------------------------------------ *)
(** ** collections.Mapping, given __getitem__ and __iter__ *)
Record mapping (K V : Type) := mkmapping { m_getitem : K -> res V; m_iter : res (list K) }.
Arguments mkmapping {K V}. Arguments m_getitem {K V}. Arguments m_iter {K V}.
Section Mapping.
  Context {K V : Type} `{EqB K}.
  Definition is_key_error (e : exn) : bool := match e with KeyError | InvalidIDError => true | _ => false end.
  (* Mapping.__contains__ *)
  Definition m_contains (m : mapping K V) (k : K) : res bool :=
    match m_getitem m k with Ok _ => Ok true | Raise e => if is_key_error e then Ok false else Raise e end.
  (* Mapping.get *)
  Definition m_get (m : mapping K V) (k : K) (default : V) : res V :=
    match m_getitem m k with Ok v => Ok v | Raise e => if is_key_error e then Ok default else Raise e end.
  (* tatoeba.py:40-41  __len__: that of the dictionary iterated over *)
  Definition m_len (m : mapping K V) : res nat := do ks <- m_iter m; Ok (length ks).
  (* list(m.keys()), list(m.items()), list(m.values()) *)
  Definition m_keys (m : mapping K V) : res (list K) := m_iter m.
  Definition m_items (m : mapping K V) : res (list (K * V)) :=
    do ks <- m_iter m; mapM (fun k => do v <- m_getitem m k; Ok (k, v)) ks.
  Definition m_values (m : mapping K V) : res (list V) :=
    do ks <- m_iter m; mapM (m_getitem m) ks.
  (* == of dictionaries, whose values are compared by [veq] *)
  Definition dict_eq (veq : V -> V -> bool) (a b : dict K V) : bool :=
    Nat.eqb (length a) (length b) &&
    forallb (fun p => match dget (fst p) b with Some v => veq (snd p) v | None => false end) a.
  (* Mapping.__eq__ with another Mapping *)
  Definition m_eq (veq : V -> V -> bool) (m m' : mapping K V) : res bool :=
    do a <- m_items m; do b <- m_items m'; Ok (dict_eq veq (dict_of a) (dict_of b)).
End Mapping.

(** frozenset.__eq__ *)
Definition frozenset_eq (s t : list Z) : bool :=
  Nat.eqb (length s) (length t) && forallb (fun x => mem x t) s.
(** list.__eq__ *)
Fixpoint list_eq {A} (eq : A -> A -> bool) (a b : list A) : bool :=
  match a, b with [], [] => true | x :: a, y :: b => eq x y && list_eq eq a b | _, _ => false end.

(* tatoeba.py:34-41, 250-252 *)
Definition as_sentences {date} (r : reader date) : mapping Z str := mkmapping (getitem r) (sentence_ids r).
(* tatoeba.py:37-41, 403-408 *)
Definition as_links (r : lreader) : mapping Z (list Z) :=
  mkmapping (lgetitem r) (do d <- of_option AttributeError (ldicts r); Ok (dkeys (fst d))).
(* tatoeba.py:34-41, 669-671 *)
Definition as_indices (r : ireader) : mapping Z (list word) :=
  mkmapping (igetitem r) (do d <- of_option AttributeError (idicts r); Ok (dkeys (fst d))).

(* ------------------------------------------------------------------ *)
(** ** Sources *)
Inductive src := Path (name : str) | Buffer (filename : option str) (repr : str).
(* tatoeba.py:86-91  _get_src_repr *)
Definition get_src_repr (s : src) : str :=
  match s with Path n => n | Buffer (Some f) _ => f | Buffer None r => r end.
(* tatoeba.py:267-269 and 410-411  __repr__ *)
Definition sentences_repr {date} (r : reader date) : str := u "TatoebaSentenceReader(sentences='" ++ sentences_src r ++ u "')".
Definition links_repr (r : lreader) : str := u "TatoebaLinksReader(links='" ++ links_src r ++ u "')".

(* tatoeba.py:53-84  load_file on a file with the given text *)
Definition load_text_file (text : str) : rows_of := load_file (mksource (file_lines text) None).
