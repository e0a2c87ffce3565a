(* Common_spec.v -- specifications for common.py *)
From Verif Require Import Base PyStr Common_model.

(** [sub] is [l] with the elements satisfying [P] kept and all others removed *)
Inductive keeps {A} (P : A -> Prop) : list A -> list A -> Prop :=
| keeps_nil : keeps P [] []
| keeps_yes x l sub : P x -> keeps P l sub -> keeps P (x :: l) (x :: sub)
| keeps_no x l sub : ~ P x -> keeps P l sub -> keeps P (x :: l) sub.

(** a name with the given extension *)
Definition has_ext (ext name : str) : Prop := exists stem, name = stem ++ ext.

(** the stream for a file name and mode *)
Inductive chosen (name mode : str) : stream -> Prop :=
| ch_bz2 : has_ext (u ".bz2") name -> chosen name mode (BZ2File name mode)
| ch_gz : has_ext (u ".gz") name -> chosen name mode (GzipFile name mode)
| ch_in : name = u "-" -> In (u1 "r") mode -> chosen name mode Stdin
| ch_out : name = u "-" -> ~ In (u1 "r") mode -> chosen name mode Stdout
| ch_plain : ~ has_ext (u ".bz2") name -> ~ has_ext (u ".gz") name -> name <> u "-" ->
             chosen name mode (PlainFile name mode).
