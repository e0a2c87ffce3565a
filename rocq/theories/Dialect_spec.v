(* Dialect_spec.v -- which settings apply, and how rows are written under them *)
From Verif Require Import Base PyText Csv_model Csv_spec Dialect_model.

(** given, else of the dialect, else the default *)
Inductive chosen {A} : option A -> option A -> A -> A -> Prop :=
| Ch_given a o x : chosen (Some a) o x a
| Ch_dialect a x : chosen None (Some a) x a
| Ch_default x : chosen None None x x.
(** a setting that is one character, or none *)
Inductive char_text : option str -> option char -> Prop :=
| Ct_none : char_text None None
| Ct_empty : char_text (Some []) None
| Ct_nul : char_text (Some [0]) None
| Ct_char c : c <> 0 -> char_text (Some [c]) (Some c).
(** the settings of a reader: the delimiter is a tab unless it is given, whatever the dialect says *)
Definition settled (kw dia : settings) (d : dialect) : Prop :=
  (exists t, chosen (g_delimiter kw) None (Some (u "	")) t /\ char_text t (Some (delim d))) /\
  (exists t, chosen (g_quotechar kw) (g_quotechar dia) (Some (u """")) t /\ char_text t (quotec d)) /\
  (exists t, chosen (g_escapechar kw) (g_escapechar dia) None t /\ char_text t (escapec d)) /\
  chosen (g_doublequote kw) (g_doublequote dia) true (doublequote d) /\
  chosen (g_skipinitialspace kw) (g_skipinitialspace dia) false (skipspace d) /\
  chosen (g_strict kw) (g_strict dia) false (strict d) /\
  (exists k, chosen (g_quotechar kw) (g_quotechar dia) (Some (u """")) k /\
     chosen (g_quoting kw) (g_quoting dia) (match k with None => QUOTE_NONE | Some _ => QUOTE_MINIMAL end) (quoting d)) /\
  (quoting d = QUOTE_NONE \/ quotec d <> None).

(** ** how fields can be written *)
(** a quotation mark that counts as one *)
Definition is_quote (d : dialect) (c : char) : Prop := quotec d = Some c /\ quoting d <> QUOTE_NONE.
Definition ends_line (c : char) : Prop := c = 10 \/ c = 13.
Definition special (d : dialect) (c : char) : Prop := c = delim d \/ escapec d = Some c \/ ends_line c \/ c = 0.
(** without quotation marks: special characters behind the escape character *)
Inductive open_text (d : dialect) : str -> str -> Prop :=
| O_nil : open_text d [] []
| O_char c t v : ~ special d c -> open_text d t v -> open_text d (c :: t) (c :: v)
| O_escaped e c t v : escapec d = Some e -> c <> 0 -> open_text d t v -> open_text d (e :: c :: t) (c :: v).
(** between quotation marks *)
Inductive quoted_text (d : dialect) : str -> str -> Prop :=
| Q_nil : quoted_text d [] []
| Q_char c t v : c <> 0 -> escapec d <> Some c -> ~ is_quote d c -> quoted_text d t v -> quoted_text d (c :: t) (c :: v)
| Q_doubled q t v : is_quote d q -> escapec d <> Some q -> doublequote d = true -> quoted_text d t v -> quoted_text d (q :: q :: t) (q :: v)
| Q_escaped e c t v : escapec d = Some e -> c <> 0 -> quoted_text d t v -> quoted_text d (e :: c :: t) (c :: v).
Inductive written (d : dialect) : str -> str -> Prop :=
| W_open t v : open_text d t v -> ~ is_quote d (hd 0 t) -> (skipspace d = true -> hd 0 t <> u1 " " \/ escapec d = Some (u1 " ")) -> written d t v
| W_quoted q t v : is_quote d q -> escapec d <> Some q -> quoted_text d t v -> written d (q :: t ++ [q]) v
| W_spaces t v : skipspace d = true -> ~ is_quote d (u1 " ") -> escapec d <> Some (u1 " ") -> written d t v -> written d (u1 " " :: t) v.
(** settings under which rows can be told apart *)
Definition sane (d : dialect) : Prop :=
  ~ ends_line (delim d) /\ delim d <> 0 /\ escapec d <> Some (delim d) /\ ~ is_quote d (delim d) /\ (skipspace d = true -> delim d <> u1 " ") /\
  (forall c, escapec d = Some c -> ~ ends_line c /\ c <> 0) /\ (forall c, is_quote d c -> ~ ends_line c /\ c <> 0).
Definition row_text (d : dialect) (t : str) (row : list str) : Prop :=
  exists cells, Forall2 (written d) cells row /\ cells <> [] /\ cells <> [[]] /\ t = join [delim d] cells ++ [10].

(** leading spaces dropped, if they are to be *)
Fixpoint unspaced (s : str) : str := match s with c :: r => if c =? u1 " " then unspaced r else s | [] => [] end.
Definition lead (d : dialect) (s : str) : str := if skipspace d then unspaced s else s.
(** the settings with strict or quoting exchanged *)
Definition with_strict (b : bool) (d : dialect) : dialect := mkdialect (delim d) (quotec d) (escapec d) (doublequote d) (skipspace d) b (quoting d).
Definition with_quoting (k : style) (d : dialect) : dialect := mkdialect (delim d) (quotec d) (escapec d) (doublequote d) (skipspace d) (strict d) k.
(** cut short by a csv.Error, or the same *)
Definition cut_short (before now : list (list str) * res unit) : Prop :=
  now = before \/ snd now = Raise CsvError /\ exists more, fst before = fst now ++ more.
