(* KanaTable_spec.v -- specification for kana_table.py *)
From Verif Require Import Base KanaTable_model.

(** The syllabary: one line per consonant, columns in vowel order. *)
Definition syllabary : list str := Eval compute in
  [ u "あいうえお"; u "かきくけこ"; u "がぎぐげご"; u "さしすせそ"; u "ざじずぜぞ";
    u "たちつてと"; u "だぢづでど"; u "なにぬねの"; u "はひふへほ"; u "ばびぶべぼ";
    u "ぱぴぷぺぽ"; u "まみむめも"; u "らりるれろ" ].

(** [coords k c v]: kana [k] is on the line headed by [c], in the column of [v]. *)
Definition coords (k c v : char) : Prop :=
  exists row i, In row syllabary /\ nth_error row 0 = Some c /\
                nth_error row i = Some k /\ nth_error (u "あいうえお") i = Some v.

(** Kana whose canonical decomposition is a base kana and a (semi-)voicing
    mark, written as (composed, base); these are all characters of Unicode
    whose decomposition contains U+3099 (first list) or U+309A (second). *)
Definition dakuten_pairs : list (char * char) := Eval compute in
  combine (u "がぎぐげござじずぜぞだぢづでどばびぶべぼゔゞガギグゲゴザジズゼゾダヂヅデドバビブベボヴヾヷヸヹヺ")
          (u "かきくけこさしすせそたちつてとはひふへほうゝカキクケコサシスセソタチツテトハヒフヘホウヽワヰヱヲ").
Definition handakuten_pairs : list (char * char) := Eval compute in
  combine (u "ぱぴぷぺぽパピプペポ") (u "はひふへほハヒフヘホ").

(** What the theorems assume about the Unicode character database. *)
Record ucd_ok (U : UCD) : Prop := {
  ucd_nonempty : forall c, decomp U c <> [];
  ucd_dakuten : forall c b, In (c, b) dakuten_pairs -> decomp U c = [b; 0x3099] /\ ccc U b = 0;
  ucd_handakuten : forall c b, In (c, b) handakuten_pairs -> decomp U c = [b; 0x309a] /\ ccc U b = 0;
  ucd_other : forall c, ~ In c (map fst dakuten_pairs) -> ~ In c (map fst handakuten_pairs) ->
              c <> 0x3099 -> c <> 0x309a ->
              ~ In 0x3099 (decomp U c) /\ ~ In 0x309a (decomp U c);
  ucd_marks : decomp U 0x3099 = [0x3099] /\ decomp U 0x309a = [0x309a] /\
              ccc U 0x3099 = 8 /\ ccc U 0x309a = 8
}.

(** A database satisfying the assumptions (so they are consistent). *)
Definition kana_ucd : UCD := {|
  decomp := fun c =>
    match dget c dakuten_pairs with
    | Some b => [b; 0x3099]
    | None => match dget c handakuten_pairs with Some b => [b; 0x309a] | None => [c] end
    end;
  ccc := fun c => if (c =? 0x3099) || (c =? 0x309a) then 8 else 0 |}.
