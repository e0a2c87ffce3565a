(* Digits_spec.v -- numbers with too many digits, and where the files have numbers *)
From Verif Require Import Base PyText Kanjidic_model Radk_model Tanaka_model Tanaka_spec.

(** a text with n decimal digits among its characters *)
Inductive has_digits (dv : Z -> option Z) : str -> Z -> Prop :=
| Hd_nil : has_digits dv [] 0
| Hd_digit c s n : (exists d, dv c = Some d) -> has_digits dv s n -> has_digits dv (c :: s) (n + 1)
| Hd_other c s n : dv c = None -> has_digits dv s n -> has_digits dv (c :: s) n.
Definition too_long (dv : Z -> option Z) (limit : Z) (s : str) : Prop := 0 < limit /\ exists n, has_digits dv s n /\ limit < n.
Definition short (dv : Z -> option Z) (limit : Z) (s : str) : Prop := ~ too_long dv limit s.

(** ** the numbers in a line or row *)
(* "$ radical strokes [name]" *)
Definition strokes_in (line t : str) : Prop :=
  (exists s, rstrip line = u1 "$" :: s) /\ exists d r more, words (rstrip line) (d :: r :: t :: more) /\ (length more <= 1)%nat.
(* "depth label reading [aliases]" *)
Definition depth_in (line t : str) : Prop :=
  exists label reading more, words (rstrip line) (t :: label :: reading :: more) /\ (length more <= 1)%nat.
(* a row of a wanted language *)
Definition sentence_id_in (filter_row : list str -> bool) (langs : option (list str)) (row : list str) (t : str) : Prop :=
  filter_row row = false /\ exists lang text more, row = t :: lang :: text :: more /\ forall ls, langs = Some ls -> In lang ls.
Definition link_id_in (row : list str) (t : str) : Prop := exists a b, row = [a; b] /\ (t = a \/ t = b).
(* the number in brackets of a word *)
Definition sense_in (dv : Z -> option Z) (p t : str) : Prop :=
  exists h tr r l td d (e : bool) n, h <> [] /\ no_delim h /\ part (u1 "(") (u1 ")") tr r /\ legacy dv l /\ Tanaka_spec.digits dv t /\
    part (u1 "{") (u1 "}") td d /\ (n = [] \/ n = [10]) /\
    p = h ++ tr ++ l ++ (u1 "[" :: t ++ u "]") ++ td ++ (if e then u "~" else []) ++ n.
Definition index_number_in (dv : Z -> option Z) (ids : option (list Z)) (row : list str) (t : str) : Prop :=
  exists a b text, row = [a; b; text] /\
    (t = a \/ t = b \/
     (exists z, py_int dv 10 a = Some z /\ forall s, ids = Some s -> In z s) /\
     exists ps p, pieces text ps /\ In p ps /\ sense_in dv p t).

(** ** entries of kanjidic, before and since *)
(** what was a number is now a text *)
Inductive aged1 (dv : Z -> option Z) (limit : Z) : Kanjidic_model.value -> Kanjidic_model.value -> Prop :=
| A_same v : aged1 dv limit v v
| A_long t z : py_int dv 10 t = Some z -> too_long dv limit t -> aged1 dv limit (VInt z) (VStr t).
Inductive aged (dv : Z -> option Z) (limit : Z) : Kanjidic_model.value -> Kanjidic_model.value -> Prop :=
| A_one v v' : aged1 dv limit v v' -> aged dv limit v v'
| A_list l l' : Forall2 (aged1 dv limit) l l' -> aged dv limit (VList l) (VList l').
Definition aged_entry (dv : Z -> option Z) (limit : Z) (e e' : dict str Kanjidic_model.value) : Prop :=
  Forall2 (fun kv kv' => fst kv = fst kv' /\ aged dv limit (snd kv) (snd kv')) e e'.
Definition aged_dict (dv : Z -> option Z) (limit : Z) (d d' : dict str (dict str Kanjidic_model.value)) : Prop :=
  Forall2 (fun kv kv' => fst kv = fst kv' /\ aged_entry dv limit (snd kv) (snd kv')) d d'.

(** the same, or refused with e *)
Definition same_or {A} (e : exn) (before now : res A) : Prop := now = before \/ now = Raise e.

(** refused exactly when one of the numbers is too long, otherwise the same *)
Definition limited {A} (e : exn) (dv : Z -> option Z) (limit : Z) (number : str -> Prop) (before now : res A) : Prop :=
  same_or e before now /\
  ((forall t, number t -> short dv limit t) -> now = before) /\
  (forall x, before = Ok x ->
     (now = Ok x <-> forall t, number t -> short dv limit t) /\
     (now = Raise e <-> ~ forall t, number t -> short dv limit t)).
(** a sense of more digits than can be written *)
Definition huge_sense (limit : Z) (w : word) : Prop := 0 < limit /\ exists n, sense w = Some n /\ 10 ^ limit <= Z.abs n.
