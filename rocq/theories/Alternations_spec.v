(* Alternations_spec.v -- specification for alternations.py *)
From Verif Require Import Base Scripts_model Scripts_spec KanaTable_spec.

Definition is_kana (c : char) : Prop := in_script Hiragana c \/ in_script Katakana c.

(** ** Voicing: written out, unvoiced kana above voiced kana *)
Definition dakuten_rows : list (char * char) := Eval compute in
  combine (u "かきくけこさしすせそたちつてとはひふへほカキクケコサシスセソタチツテトハヒフヘホ")
          (u "がぎぐげござじずぜぞだぢづでどばびぶべぼガギグゲゴザジズゼゾダヂヅデドバビブベボ").
Definition handakuten_rows : list (char * char) := Eval compute in
  combine (u "はひふへほハヒフヘホ") (u "ぱぴぷぺぽパピプペポ").

(** the voiced versions of a kana, dakuten first *)
Definition voiced_forms (c : char) : list char :=
  map snd (filter (fun p => fst p =? c) (dakuten_rows ++ handakuten_rows)).

(** ** Canonical forms *)
(** the small tsu of each script and the kana it can stand for *)
Definition small_tsu (sc : Script) : option char :=
  match sc with Hiragana => Some 0x3063 | Katakana => Some 0x30C3 | _ => None end.
Definition geminable (sc : Script) : str :=
  match sc with
  | Hiragana => u "いちりきつく"
  | Katakana => u "イチリキツク"
  | _ => []
  end.

(** undoing the euphonic change at the end of [seg], whose first kana is of
    script [sc] *)
Definition restores (sc : Script) (seg x : str) : Prop :=
  exists c pre t k, seg = (c :: pre) ++ [t] /\ small_tsu sc = Some t /\ In k (geminable sc) /\ x = (c :: pre) ++ [k].

(** undoing sequential voicing of the first kana *)
Definition devoices (x y : str) : Prop :=
  exists v b r, x = v :: r /\ y = b :: r /\ (In (v, b) dakuten_pairs \/ In (v, b) handakuten_pairs).

Definition candidate (left right : bool) (seg x : str) : Prop :=
  exists c r sc, seg = c :: r /\ in_script sc c /\ (sc = Hiragana \/ sc = Katakana) /\
  exists y, (y = seg \/ (right = true /\ restores sc seg y)) /\ (x = y \/ (left = true /\ devoices y x)).

(** the two voiced kana the library cannot devoice *)
Definition vu (c : char) : Prop := c = 0x3094 \/ c = 0x30F4.

(** position-wise candidates of a sequence *)
Definition canonical_sequence (segs t : list str) : Prop :=
  length t = length segs /\
  forall i seg x, nth_error segs i = Some seg -> nth_error t i = Some x ->
    candidate (0 <? i)%nat (i <? length segs - 1)%nat seg x.

(** ** Surface forms *)
(** last kana of the first segment becomes small tsu *)
Definition geminates (seg x : str) : Prop :=
  exists c pre k sc t, seg = (c :: pre) ++ [k] /\ in_script sc c /\ small_tsu sc = Some t /\ x = (c :: pre) ++ [t].
Definition voices (seg x : str) : Prop :=
  exists c r v, seg = c :: r /\ x = v :: r /\ In v (voiced_forms c).
Definition surface_sequence (r t : list str) : Prop :=
  length t = length r /\
  forall i seg x, nth_error r i = Some seg -> nth_error t i = Some x ->
    x = seg \/ (i = O /\ geminates seg x) \/ (i <> O /\ voices seg x).

Definition kana_segment (seg : str) : Prop := exists c r, seg = c :: r /\ is_kana c.

(** ** Repetition marks *)
(** [expands s out]: position i of [out] is the nearest character of [s] at or
    before i that is not a repetition mark *)
Definition expands (mark : char) (s out : str) : Prop :=
  length out = length s /\
  forall i, (i < length s)%nat -> exists j c, (j <= i)%nat /\ nth_error s j = Some c /\ c <> mark /\
    (forall k, (j < k <= i)%nat -> nth_error s k = Some mark) /\ nth_error out i = Some c.

(** ** Long vowels *)
Definition hira_vowel (k v : char) : Prop := (exists c, coords k c v) \/ (k = 0x308F /\ v = 0x3042).
(** the vowel of a kana, in the script of the kana *)
Definition kana_vowel (k v : char) : Prop :=
  (in_script Hiragana k /\ hira_vowel k v) \/
  (in_script Katakana k /\ exists v', v = v' + 96 /\ hira_vowel (k - 96) v').
(** the mark at position i directly follows the kana [p] *)
Definition mark_after (s : str) (i : nat) (p : char) : Prop :=
  exists j, i = S j /\ nth_error s j = Some p /\ is_kana p /\ nth_error s i = Some 0x30FC.
