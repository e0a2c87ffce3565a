(* Pinyin_spec.v -- rows of a table, longest syllables, segmentations, tones *)
From Verif Require Import Base PyText.

(** the rows of a table file: comments are left out *)
Definition comment_row (line : str) : Prop := exists r, line = u1 "#" :: r.
Inductive rows : list str -> list (list str) -> Prop :=
| Rows_nil : rows [] []
| Rows_comment line lines rs : comment_row line -> rows lines rs -> rows (line :: lines) rs
| Rows_row line lines ws rs : ~ comment_row line -> words line ws -> rows lines rs -> rows (line :: lines) (ws :: rs).
(** two columns everywhere *)
Definition two_columns (rs : list (list str)) (ps : list (str * str)) : Prop := rs = map (fun p => [fst p; snd p]) ps.
(** the partner in the last row for a key *)
Definition last_for {K V} (l : list (K * V)) (k : K) (v : V) : Prop :=
  exists p q, l = p ++ (k, v) :: q /\ ~ In k (map fst q).

(** lower case, no spaces, ü for v *)
Definition standard (lower : str -> str) (s : str) : str :=
  flat_map (fun c => if c =? u1 " " then [] else if c =? u1 "v" then u "ü" else [c]) (lower s).

(** lower-casing leaves normal forms alone *)
Definition steady (lower : str -> str) : Prop := forall s, lower (standard lower s) = standard lower s.

Definition prefix (w s : str) : Prop := exists r, s = w ++ r.
Definition longest (syls : list str) (s w : str) : Prop :=
  In w syls /\ prefix w s /\ forall v, In v syls -> prefix v s -> (length v <= length w)%nat.
Definition no_syllable (syls : list str) (s : str) : Prop := forall w, In w syls -> ~ prefix w s.
(** a tone digit, if there is one, and what follows *)
Inductive tone : str -> Z -> str -> Prop :=
| Tone_digit z s : 0 <= z <= 5 -> tone ((48 + z) :: s) z s
| Tone_none s : ~ (48 <= hd 0 s <= 53) -> tone s 0 s.
Definition spoken (w : str) : str := if eqb w (u "r") then u "er" else w.
Inductive segments (syls : list str) : str -> list (str * Z) -> Prop :=
| Seg_nil : segments syls [] []
| Seg_syl w t z r l : longest syls (w ++ t) w -> tone t z r -> segments syls r l -> segments syls (w ++ t) ((spoken w, z) :: l)
| Seg_hash s l : no_syllable syls (u1 "#" :: s) -> segments syls s l -> segments syls (u1 "#" :: s) (([], 0) :: l)
| Seg_skip c s l : c <> u1 "#" -> no_syllable syls (c :: s) -> segments syls s l -> segments syls (c :: s) l.
(** the segmentation of the claim: everything but syllables is skipped *)
Inductive claimed (syls : list str) : str -> list (str * Z) -> Prop :=
| Cl_nil : claimed syls [] []
| Cl_syl w t z r l : longest syls (w ++ t) w -> tone t z r -> claimed syls r l -> claimed syls (w ++ t) ((spoken w, z) :: l)
| Cl_skip c s l : no_syllable syls (c :: s) -> claimed syls s l -> claimed syls (c :: s) l.

(** syllables written with tone digits *)
Definition numbered (l : list (str * Z)) : str := flat_map (fun p => fst p ++ [48 + snd p]) l.
Definition no_digit (w : str) : Prop := forall c, In c w -> ~ (48 <= c <= 53).

(** written entirely with syllables and optional tones *)
Inductive pinyin_text (syls : list str) : str -> Prop :=
| Pinyin_end : pinyin_text syls []
| Pinyin_plain w s : In w syls -> pinyin_text syls s -> pinyin_text syls (w ++ s)
| Pinyin_toned w z s : In w syls -> 0 <= z <= 5 -> pinyin_text syls s -> pinyin_text syls (w ++ (48 + z) :: s).

(** tone marks *)
Definition marks : list (char * str) :=
  [(u1 "a", u "āáǎà"); (u1 "e", u "ēéěè"); (u1 "i", u "īíǐì"); (u1 "o", u "ōóǒò"); (u1 "u", u "ūúǔù"); (u1 "ü", u "ǖǘǚǜ")].
Definition vowel (c : char) : Prop := In c (map fst marks).
Definition mark (z : Z) (v : char) : char :=
  if (z =? 0) || (z =? 5) then v else match dget v marks with Some row => nth (Z.to_nat (z - 1)) row v | None => v end.
Definition unmark (c : char) : char :=
  match find (fun e => mem c (snd e)) marks with Some e => fst e | None => c end.
Definition marked (c : char) : bool := existsb (fun e => mem c (snd e)) marks.
(** how the tone is written: on the first vowel after the first letter *)
Inductive toned (z : Z) : str -> str -> Prop :=
| Toned_none c r : Forall (fun d => ~ vowel d) r -> toned z (c :: r) (c :: r)
| Toned_one c p v q : Forall (fun d => ~ vowel d) p -> vowel v -> toned z (c :: p ++ v :: q) (c :: p ++ mark z v :: q).
Definition flat (w : str) : Prop := Forall (fun c => marked c = false) w.
(** equal but for one place at most *)
Definition one_change (w o : str) : Prop := w = o \/ exists p c d q, w = p ++ c :: q /\ o = p ++ d :: q.

(** the first reading of a character, itself when it is not in the table *)
Inductive reading (es : list (str * list str)) (c : char) : str -> Prop :=
| Reading_known r rs : last_for es [c] (r :: rs) -> reading es c r
| Reading_other : ~ In [c] (map fst es) -> reading es c [c].
(** every row has a character *)
Definition entries_of (rs : list (list str)) (es : list (str * list str)) : Prop := rs = map (fun e => fst e :: snd e) es.
