(* Messages_spec.v -- what is wrong with a file, and what should be said about it *)
From Verif Require Import Base PyText PyFmt Regex DictFormat_model DictFormat_spec FormatLang_spec Kanjidic_model Kanjidic_spec KanjidicLang_spec
  Tanaka_model Tanaka_spec.

(** ** Places *)
(** three or four words, the first of them a number *)
Definition depth_of (dv : Z -> option Z) (l : str) (d : Z) : Prop :=
  exists w a b rest, words l (w :: a :: b :: rest) /\ (length rest <= 1)%nat /\ py_int dv 10 w = Some d.
(** the line [l] cannot follow the lines [pre] *)
Inductive place_culprit (dv : Z -> option Z) (file : str) : list str -> str -> exn -> str -> Prop :=
| Pc_words pre l ws : words l ws -> length ws <> 3%nat -> length ws <> 4%nat ->
    place_culprit dv file pre l ValueError (u "Can't parse line " ++ l)
| Pc_root l d : depth_of dv l d -> d <> 0 ->
    place_culprit dv file [] l PlainException (u "file " ++ file ++ u " should start with a root node")
| Pc_depth pre l0 l d0 d n : depth_of dv l0 d0 -> depth_of dv l d -> d0 + 1 < d -> n = Z.of_nat (length pre) + 2 ->
    place_culprit dv file (pre ++ [l0]) l PlainException (u "Strange depth found " ++ file ++ u " (line " ++ dec n ++ u ")").

(** ** Dictionaries *)
(** lines with a word and a place for the senses, whether there are any or not *)
Inductive shaped : format -> str -> str -> str -> Prop :=
| Sh_edict_reading w r s nl : item (u " ") w -> item (u "]") r -> ~ In 10 s ->
    shaped edict (w ++ u " " ++ bracket (u "] ") r s ++ newline nl) w s
| Sh_edict_plain w s nl : item (u " ") w -> ~ bracketed (u "] ") s -> ~ In 10 s ->
    shaped edict (w ++ u " " ++ s ++ newline nl) w s
| Sh_jc w r s nl : item (u " ") w -> item (u "]") r -> ~ In 10 s ->
    shaped jc_kdic (w ++ u " [" ++ r ++ u "]" ++ [9] ++ s ++ newline nl) w s
| Sh_cj w r s nl : item [9] w -> item (u "\") r -> ~ In 10 s ->
    shaped cj_kdic (w ++ [9] ++ r ++ u "\n" ++ s ++ newline nl) w s
| Sh_cedict_reading trad w r s rest : item (u " ") trad -> item (u " ") w -> item (u "]") r -> ~ In 10 s ->
    (rest = [] \/ exists t, rest = 10 :: t) ->
    shaped cedict (trad ++ u " " ++ w ++ u " " ++ bracket (u "]") r s ++ rest) w s
| Sh_cedict_plain trad w s rest : item (u " ") trad -> item (u " ") w -> ~ bracketed (u "]") (s ++ rest) -> ~ In 10 s ->
    (rest = [] \/ exists t, rest = 10 :: t) ->
    shaped cedict (trad ++ u " " ++ w ++ u " " ++ s ++ rest) w s.
Inductive senseless : format -> str -> Prop :=
| Se_edict s : slash_senses s = [] -> senseless edict s
| Se_cedict s : slash_senses s = [] -> senseless cedict s
| Se_jc s : comma_senses s = [] -> senseless jc_kdic s
| Se_cj s : bs_senses s [] -> senseless cj_kdic s.
Inductive entry_culprit (f : format) (l : str) : str -> Prop :=
| Ec_bad : (forall w s, ~ shaped f l w s) -> entry_culprit f l (u "Bad line: " ++ l)
| Ec_senses w s : shaped f l w s -> senseless f s -> entry_culprit f l (u "No senses for word: " ++ spaceless w).

(** ** Kanjidic *)
Inductive kanjidic_culprit (dv : Z -> option Z) (l : str) : str -> Prop :=
| Kc_segment kanji hex jis fs t ts : ~ comment l -> segments (strip l) (kanji :: hex :: map token fs ++ t :: ts) ->
    py_int dv 16 hex = Some jis -> Forall field_like fs -> bad t PlainException ->
    kanjidic_culprit dv l (u "Unknown segment " ++ t).

(** ** Sentences *)
(** the first piece that is no word *)
Inductive word_culprit (dv : Z -> option Z) (text : str) : str -> Prop :=
| Wc_word ps p qs ws : pieces text (ps ++ p :: qs) -> Forall2 (written dv) ps ws -> (forall w, ~ written dv p w) ->
    word_culprit dv text (u "Failed to interpret word " ++ p ++ u " in sentence " ++ text).
