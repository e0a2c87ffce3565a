(* Kanjidic_spec.v -- what a kanjidic line means, independently of the parser *)
From Verif Require Import Base PyText Scripts_model Scripts_spec Kanjidic_model.

(** ** The segments of an arbitrary text *)
Definition word_char (c : Z) : Prop := c <> u1 " " /\ c <> u1 "{".
(** the text after an opening brace is not closed on its line *)
Definition unclosed (s : str) : Prop := forall g q, s = g ++ u1 "}" :: q -> In 10 g.
Inductive segments : str -> list str -> Prop :=
| Sg_nil : segments [] []
| Sg_blank s ts : segments s ts -> segments (u1 " " :: s) ts
| Sg_word w s ts : w <> [] -> Forall word_char w -> (match s with c :: _ => ~ word_char c | [] => True end) ->
    segments s ts -> segments (w ++ s) (w :: ts)
| Sg_gloss g s ts : ~ In (u1 "}") g -> ~ In 10 g -> segments s ts ->
    segments (u1 "{" :: g ++ u1 "}" :: s) ((u1 "{" :: g ++ [u1 "}"]) :: ts)
| Sg_open s ts : unclosed s -> segments s ts -> segments (u1 "{" :: s) ts.

(** ** Well-formed lines *)
Inductive field :=
| Gloss (g : str)
| On (r : str)
| Kun (r : str)
| Code (c : char) (v : str)
| Marker (one : bool).

Definition token (f : field) : str :=
  match f with
  | Gloss g => u "{" ++ g ++ u "}"
  | On r | Kun r => r
  | Code c v => c :: v
  | Marker b => if b then u "T1" else u "T2"
  end.
(** no white space, no opening brace *)
Definition plain (s : str) : Prop := s <> [] /\ forall c, In c s -> is_space c = false /\ c <> u1 "{".
(** possibly after a hyphen *)
Definition begins_in (sc : Script) (r : str) : Prop :=
  exists c t, (r = c :: t \/ r = u1 "-" :: c :: t) /\ in_script sc c.
Definition field_ok (f : field) : Prop :=
  match f with
  | Gloss g => ~ In (u1 "}") g /\ ~ In 10 g
  | On r => plain r /\ begins_in Katakana r
  | Kun r => plain r /\ begins_in Hiragana r
  | Code c v => plain (c :: v) /\ in_script Ascii c /\ c <> u1 "-" /\ c :: v <> u "T1" /\ c :: v <> u "T2"
  | Marker _ => True
  end.

(** what a segment must be to be read as a field, whatever else is in the line *)
Definition field_like (f : field) : Prop :=
  match f with
  | Gloss g => ~ In (u1 "}") g /\ ~ In 10 g
  | On r => begins_in Katakana r
  | Kun r => begins_in Hiragana r
  | Code c v => in_script Ascii c /\ c <> u1 "{" /\ c <> u1 "-" /\ c :: v <> u "T1" /\ c :: v <> u "T2"
  | Marker _ => True
  end.

(** tokens separated by blanks; a gloss needs none around it *)
Definition braced (t : str) : Prop := exists q, t = u1 "{" :: q.
Inductive laid_out : str -> list str -> Prop :=
| L_one t : laid_out t [t]
| L_cons t gap s t' ts : (forall c, In c gap -> c = u1 " ") -> laid_out s (t' :: ts) ->
    (gap <> [] \/ braced t \/ braced t') -> laid_out (t ++ gap ++ s) (t :: t' :: ts).

(** ** What an entry holds *)
Definition documented : list (char * str) :=
  [(u1 "B", u "radical_index"); (u1 "C", u "classical_radical_index"); (u1 "D", u "dictionary_code");
   (u1 "E", u "henshall_code"); (u1 "F", u "frequency"); (u1 "G", u "jyouyou_grade");
   (u1 "H", u "halpern_index"); (u1 "I", u "spahn_code"); (u1 "K", u "gakken_code");
   (u1 "L", u "heisig_code"); (u1 "M", u "morohashi_index"); (u1 "N", u "nelson_index");
   (u1 "O", u "oneill_code"); (u1 "P", u "skip_code"); (u1 "Q", u "four_corner_code");
   (u1 "S", u "stroke_count"); (u1 "U", u "unicode"); (u1 "V", u "new_nelson_index");
   (u1 "W", u "korean_reading"); (u1 "X", u "cross_references"); (u1 "Y", u "pinyin_reading");
   (u1 "Z", u "misclassified_as")].
(** the attribute a code is filed under *)
Definition filed (c : char) (name : str) : Prop :=
  In (c, name) documented \/ (name = [c] /\ forall n, ~ In (c, n) documented).

(** integers are stored as such, everything else as text *)
Definition reads_as (dv : Z -> option Z) (t : str) (v : value) : Prop :=
  match py_int dv 10 t with Some z => v = VInt z | None => v = VStr t end.

Fixpoint glosses (fs : list field) : list str :=
  match fs with Gloss g :: r => g :: glosses r | _ :: r => glosses r | [] => [] end.
Fixpoint ons (fs : list field) : list str :=
  match fs with On g :: r => g :: ons r | _ :: r => ons r | [] => [] end.
Fixpoint kuns (fs : list field) : list str :=
  match fs with Kun g :: r => g :: kuns r | _ :: r => kuns r | [] => [] end.
(** the values filed under a name, in line order *)
Inductive values (dv : Z -> option Z) (name : str) : list field -> list value -> Prop :=
| V_nil : values dv name [] []
| V_here c t v fs vs : filed c name -> reads_as dv t v -> values dv name fs vs ->
    values dv name (Code c t :: fs) (v :: vs)
| V_other f fs vs : (forall c t, f = Code c t -> ~ filed c name) -> values dv name fs vs ->
    values dv name (f :: fs) vs.

Definition reserved : list str :=
  [u "kanji"; u "gloss"; u "on_readings"; u "kun_readings"; u "jis_code"; u "stroke_count"; u "frequency"; u "skip_code"].

(** ** Readings *)
(** the text before the first dot, hyphens left out *)
Definition stem (r t : str) : Prop :=
  exists h, h = filter (fun c => negb (c =? u1 "-")) r /\ ~ In (u1 ".") t /\ (h = t \/ exists x, h = t ++ u1 "." :: x).
Definition dots (r : str) : nat := count_occ Z.eq_dec r (u1 ".").

(** ** Files *)
Definition comment (line : str) : Prop := exists r, line = u1 "#" :: r.
Definition has_kanji (e : dict str value) (k : str) : Prop := dget (u "kanji") e = Some (VStr k).
