(* Written_spec.v -- resource files as their authors write them *)
From Verif Require Import Base PyText Kanjidic_model Kanjidic_spec Radk_spec Files_spec Encoding_spec Python2_spec Csv_spec.

(** the file holds these lines in UTF-8, each ended in any of the usual ways *)
Definition lines_in (disk : str -> option (list Z)) (name : str) (lines : list str) : Prop :=
  exists t ps, disk name = Some (encoded t) /\ Forall scalar t /\ regular t /\ cut newline t ps /\ map fst ps = lines.
(** a character that can be part of a line *)
Definition line_char (c : Z) : Prop := scalar c /\ ~ any_break c.

(** ** Kanji dictionaries *)
Inductive item := Remark (text : str) | Entry (kanji hex : str) (fs : list field).
Inductive writes : item -> str -> Prop :=
| W_remark r : writes (Remark r) (u1 "#" :: r)
| W_entry kanji hex fs g0 body g1 : blank g0 -> blank g1 -> plain kanji -> plain hex -> hd 0 kanji <> u1 "#" -> Forall field_ok fs ->
    laid_out body (kanji :: hex :: map token fs) -> writes (Entry kanji hex fs) (g0 ++ body ++ g1).
(** numbers where numbers belong *)
Inductive sound (dv : Z -> option Z) : str -> list field -> Z -> value -> list Z -> Prop :=
| Sound hex fs jis sc scs p ps parts codes : py_int dv 16 hex = Some jis ->
    values dv (u "stroke_count") fs (sc :: scs) -> values dv (u "skip_code") fs (VStr p :: ps) ->
    p = join (u "-") parts -> parts <> [] -> Forall (fun q => ~ In (u1 "-") q) parts ->
    Forall2 (fun q z => py_int dv 10 q = Some z) parts codes -> sound dv hex fs jis sc codes.
(** what a query on the entry shows *)
Definition shows (dv : Z -> option Z) (kanji : str) (fs : list field) (jis : Z) (sc : value) (codes : list Z) (e : dict str value) : Prop :=
  dget (u "kanji") e = Some (VStr kanji) /\ dget (u "jis_code") e = Some (VInt jis) /\
  dget (u "gloss") e = Some (VList (map VStr (glosses fs))) /\
  dget (u "on_readings") e = Some (VList (map VStr (ons fs))) /\
  dget (u "kun_readings") e = Some (VList (map VStr (kuns fs))) /\
  dget (u "stroke_count") e = Some sc /\ dget (u "skip_code") e = Some (VTuple codes) /\
  (forall vs, values dv (u "frequency") fs vs -> dget (u "frequency") e = hd_error vs) /\
  (forall name vs, ~ In name reserved -> values dv name fs vs ->
     dget name e = match vs with [] => None | _ => Some (VList vs) end).

(** ** Radical dictionaries *)
Inductive ritem := Aside | Radical (r : str) (strokes : Z) | Kanji (ks : str).
Inductive rwrites (dv : Z -> option Z) : ritem -> str -> Prop :=
| RW_aside l : comment_line l -> rwrites dv Aside l
| RW_radical r n l : header_of dv l r n -> rwrites dv (Radical r n) l
| RW_kanji l : kanji_line l -> rwrites dv (Kanji (strip l)) l.
Definition no_radical (i : ritem) : Prop := match i with Radical _ _ => False | _ => True end.
(** the kanji is written somewhere between the radical and the next one *)
Definition under (is : list ritem) (r : str) (k : char) : Prop :=
  exists a n b ks c, is = a ++ Radical r n :: b ++ Kanji ks :: c /\ Forall no_radical b /\ In k ks.
Definition before_radicals (is : list ritem) (k : char) : Prop :=
  exists b ks c, is = b ++ Kanji ks :: c /\ Forall no_radical b /\ In k ks.
Definition last_strokes (is : list ritem) (r : str) (n : Z) : Prop :=
  exists a b, is = a ++ Radical r n :: b /\ forall m, ~ In (Radical r m) b.

(** ** Rows of a corpus *)
Definition cell_ok (v : str) : Prop := text_field v /\ Forall scalar v /\ fits v.
