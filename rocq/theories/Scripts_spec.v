(* Scripts_spec.v -- what scripts.py is supposed to do, stated without
   reference to the model's helpers. *)
From Verif Require Import Base Scripts_model.

(** [between a c b]: a <= c <= b *)
Definition between (a c b : Z) : Prop := a <= c <= b.

(** The documented code-point band of each script. *)
Definition in_script (sc : Script) (c : char) : Prop :=
  match sc with
  | Ascii        => between 0x21 c 0xff
  | Hiragana     => between 0x3041 c 0x3096
  | Katakana     => between 0x30a1 c 0x30f6
  | Kanji        => between 0x4e00 c 0x9fa5
  | FullAscii    => between 0xff01 c 0xff5f
  | HalfKatakana => between 0xff61 c 0xff9f
  | Unknown      => ~ between 0x21 c 0xff /\ ~ between 0x3041 c 0x3096 /\ ~ between 0x30a1 c 0x30f6 /\
                    ~ between 0x4e00 c 0x9fa5 /\ ~ between 0xff01 c 0xff5f /\ ~ between 0xff61 c 0xff9f
  end.

(** Two strings agree position by position through a relation. *)
Definition pointwise (R : char -> char -> Prop) (s t : str) : Prop := Forall2 R s t.

Definition hira_to_kata (c d : char) : Prop :=
  (in_script Hiragana c /\ d = c + 96) \/ (~ in_script Hiragana c /\ d = c).
Definition kata_to_hira (c d : char) : Prop :=
  (in_script Katakana c /\ d = c - 96) \/ (~ in_script Katakana c /\ d = c).

(** What normalize_ascii is documented to do with one character. *)
Definition full_to_ascii (c d : char) : Prop :=
  (between 0xff01 c 0xff5e /\ d = c - 0xfee0)
  \/ (c = 0x3000 /\ d = 0x20) \/ (c = 0x3001 /\ d = 0x2c) \/ (c = 0x3002 /\ d = 0x2e)
  \/ (~ between 0xff01 c 0xff5e /\ c <> 0x3000 /\ c <> 0x3001 /\ c <> 0x3002 /\ d = c).

(** The half-width katakana block and its full-width counterparts, in code
    point order from U+FF61 (Unicode compatibility decompositions). *)
Definition half_width_counterparts : str := Eval compute in
  [0x3002; 0x300C; 0x300D; 0x3001; 0x30FB;                              (* ideographic punctuation *)
   0x30F2; 0x30A1; 0x30A3; 0x30A5; 0x30A7; 0x30A9; 0x30E3; 0x30E5; 0x30E7; 0x30C3; 0x30FC;
   0x30A2; 0x30A4; 0x30A6; 0x30A8; 0x30AA;                              (* a i u e o *)
   0x30AB; 0x30AD; 0x30AF; 0x30B1; 0x30B3;                              (* ka .. *)
   0x30B5; 0x30B7; 0x30B9; 0x30BB; 0x30BD;                              (* sa .. *)
   0x30BF; 0x30C1; 0x30C4; 0x30C6; 0x30C8;                              (* ta .. *)
   0x30CA; 0x30CB; 0x30CC; 0x30CD; 0x30CE;                              (* na .. *)
   0x30CF; 0x30D2; 0x30D5; 0x30D8; 0x30DB;                              (* ha .. *)
   0x30DE; 0x30DF; 0x30E0; 0x30E1; 0x30E2;                              (* ma .. *)
   0x30E4; 0x30E6; 0x30E8;                                              (* ya .. *)
   0x30E9; 0x30EA; 0x30EB; 0x30EC; 0x30ED;                              (* ra .. *)
   0x30EF; 0x30F3; 0x309B; 0x309C].                                     (* wa, n, voicing marks *)

Definition half_to_full (c d : char) : Prop :=
  (in_script HalfKatakana c /\ nth_error half_width_counterparts (Z.to_nat (c - 0xff61)) = Some d)
  \/ (~ in_script HalfKatakana c /\ d = c).

(** The segmentations script_boundaries may return. *)
Definition segment_ok (seg : str) : Prop :=
  exists sc c r, seg = c :: r /\ in_script sc c /\
                 Forall (fun x => in_script sc x \/ x = 0x30FC) r.

Definition must_split (left right : str) : Prop :=
  exists sc c r d q, left = c :: r /\ right = d :: q /\ in_script sc c /\
                     ~ in_script sc d /\ d <> 0x30FC.

Inductive chain_split : list str -> Prop :=
| chain_nil : chain_split []
| chain_one s : chain_split [s]
| chain_cons s t l : must_split s t -> chain_split (t :: l) -> chain_split (s :: t :: l).

Definition segmentation (s : str) (segs : list str) : Prop :=
  concat segs = s /\ Forall segment_ok segs /\ chain_split segs.

(** Sign of the lexicographic comparison of code points. *)
Inductive lex_lt : str -> str -> Prop :=
| lex_nil c s : lex_lt [] (c :: s)
| lex_head c d s t : c < d -> lex_lt (c :: s) (d :: t)
| lex_tail c s t : lex_lt s t -> lex_lt (c :: s) (c :: t).
