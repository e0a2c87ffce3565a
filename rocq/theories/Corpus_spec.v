(* Corpus_spec.v -- dictionaries as functions; how corpora are written *)
From Verif Require Import Base PyText PyFmt Csv_spec Tanaka_model Tanaka_spec Tatoeba_model Tatoeba_spec Corpus_model.

(** [m] is the finite function [f] with the keys [ks], each once *)
Definition represents {K V} (m : mapping K V) (ks : list K) (f : K -> option V) : Prop :=
  m_iter m = Ok ks /\ NoDup ks /\ (forall k, In k ks <-> f k <> None) /\
  forall k, m_getitem m k = match f k with Some v => Ok v | None => Raise KeyError end.

(** files: one row per line, fields separated by tabs *)
Definition file_of (rows : list (list str)) : str := flat_map line_of rows.
Definition sentence_row (e : Z * str * str) : list str := let '(i, l, t) := e in [dec i; l; t].
Definition link_row_of (p : Z * Z) : list str := [dec (fst p); dec (snd p)].
Definition index_row_of (e : Z * Z * list word) : list str := let '(i, m, ws) := e in [dec i; dec m; join (u " ") (map word_str ws)].
(** the file with details: \N for what is missing, dates by [strftime] *)
Definition name_text (n : option str) : str := match n with Some s => s | None => u "\N" end.
Definition date_text {date} (strftime : date -> str) (d : option date) : str := match d with Some x => strftime x | None => u "\N" end.
Definition detailed_row {date} (strftime : date -> str) (e : entry date) : list str :=
  match e_info e with
  | Some (n, a, m) => [dec (e_id e); e_lang e; e_text e; name_text n; date_text strftime a; date_text strftime m]
  | None => [dec (e_id e); e_lang e; e_text e]
  end.
Definition wanted (langs : option (list str)) (l : str) : bool := match langs with Some ls => mem l ls | None => true end.
