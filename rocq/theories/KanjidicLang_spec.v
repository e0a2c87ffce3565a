(* KanjidicLang_spec.v -- the meaning of an arbitrary kanjidic line *)
From Verif Require Import Base PyText Scripts_model Scripts_spec Kanjidic_model Kanjidic_spec.

(** ** Segments that are no field *)
Definition kana (c : Z) : Prop := in_script Katakana c \/ in_script Hiragana c.
Inductive bad : str -> exn -> Prop :=
| Bad_hyphen : bad (u "-") IndexError
| Bad_after c t : ~ kana c -> bad (u1 "-" :: c :: t) PlainException
| Bad_first c t : ~ in_script Ascii c -> ~ kana c -> bad (c :: t) PlainException.

(** the parts of a skip code *)
Definition parted (p : str) (parts : list str) : Prop :=
  p = join (u "-") parts /\ parts <> [] /\ Forall (fun q => ~ In (u1 "-") q) parts.

(** ** Accepted lines, by their segments, and their entries *)
Inductive accepted (dv : Z -> option Z) : list str -> dict str value -> Prop :=
| Accepted kanji hex fs jis sc scs p ps parts codes e :
    Forall field_like fs -> py_int dv 16 hex = Some jis ->
    values dv (u "stroke_count") fs (sc :: scs) -> values dv (u "skip_code") fs (VStr p :: ps) ->
    parted p parts -> Forall2 (fun q z => py_int dv 10 q = Some z) parts codes ->
    dget (u "kanji") e = Some (VStr kanji) -> dget (u "jis_code") e = Some (VInt jis) ->
    dget (u "gloss") e = Some (VList (map VStr (glosses fs))) ->
    dget (u "on_readings") e = Some (VList (map VStr (ons fs))) ->
    dget (u "kun_readings") e = Some (VList (map VStr (kuns fs))) ->
    dget (u "stroke_count") e = Some sc -> dget (u "skip_code") e = Some (VTuple codes) ->
    (forall vs, values dv (u "frequency") fs vs -> dget (u "frequency") e = hd_error vs) ->
    (forall name vs, ~ In name reserved -> values dv name fs vs ->
       dget name e = match vs with [] => None | _ => Some (VList vs) end) ->
    accepted dv (kanji :: hex :: map token fs) e.

(** ** Refused lines, with the error *)
Inductive refused (dv : Z -> option Z) : list str -> exn -> Prop :=
| Ref_short ts : (length ts < 2)%nat -> refused dv ts IndexError
| Ref_code kanji hex ts : py_int dv 16 hex = None -> refused dv (kanji :: hex :: ts) ValueError
| Ref_segment kanji hex jis fs t ts x : py_int dv 16 hex = Some jis -> Forall field_like fs -> bad t x ->
    refused dv (kanji :: hex :: map token fs ++ t :: ts) x
| Ref_strokes kanji hex jis fs : py_int dv 16 hex = Some jis -> Forall field_like fs ->
    values dv (u "stroke_count") fs [] -> refused dv (kanji :: hex :: map token fs) KeyError
| Ref_no_skip kanji hex jis fs sc scs : py_int dv 16 hex = Some jis -> Forall field_like fs ->
    values dv (u "stroke_count") fs (sc :: scs) -> values dv (u "skip_code") fs [] ->
    refused dv (kanji :: hex :: map token fs) KeyError
| Ref_number kanji hex jis fs sc scs z zs : py_int dv 16 hex = Some jis -> Forall field_like fs ->
    values dv (u "stroke_count") fs (sc :: scs) -> values dv (u "skip_code") fs (VInt z :: zs) ->
    refused dv (kanji :: hex :: map token fs) AttributeError
| Ref_part kanji hex jis fs sc scs p ps parts : py_int dv 16 hex = Some jis -> Forall field_like fs ->
    values dv (u "stroke_count") fs (sc :: scs) -> values dv (u "skip_code") fs (VStr p :: ps) ->
    parted p parts -> Exists (fun q => py_int dv 10 q = None) parts ->
    refused dv (kanji :: hex :: map token fs) ValueError.
