(* CsvLang_spec.v -- which sources the csv reader of /repo/cjktools/resources/tatoeba.py:53-84
   reads, and as which rows: a grammar of whole sources, with quoted fields that
   run over several lines *)
From Verif Require Import Base PyText Csv_spec.

(** a source is read as its characters with the ends of its lines marked *)
Notation tok := (option Z) (only parsing).
Definition toks (ls : list str) : list tok := flat_map (fun l => map Some l ++ [None]) ls.
Definition quote : char := u1 """".
Definition line_break (c : char) : Prop := c = 10 \/ c = 13.

(** the text between the quotes of a field: quotes are doubled, ends of lines vanish *)
Inductive inside : list tok -> str -> Prop :=
| In_nil : inside [] []
| In_char c b v : c <> quote -> c <> 0 -> inside b v -> inside (Some c :: b) (c :: v)
| In_quote b v : inside b v -> inside (Some quote :: Some quote :: b) (quote :: v)
| In_end b v : inside b v -> inside (None :: b) v.
(** fields, and the beginnings of fields, of any length *)
Inductive growing : list tok -> str -> Prop :=
| Grow_plain v : Forall plain_char v -> hd 0 v <> quote -> growing (map Some v) v
| Grow_quoted b v : inside b v -> growing (Some quote :: b) v
| Grow_after b v t : inside b v -> Forall plain_char t -> hd 0 t <> quote ->
    growing (Some quote :: b ++ Some quote :: map Some t) (v ++ t).
Inductive field : list tok -> str -> Prop :=
| Field_plain v : Forall plain_char v -> hd 0 v <> quote -> short v -> field (map Some v) v
| Field_quoted b v t : inside b v -> Forall plain_char t -> hd 0 t <> quote -> short (v ++ t) ->
    field (Some quote :: b ++ Some quote :: map Some t) (v ++ t).
(** fields each followed by a tab; fields separated by tabs *)
Definition tabbed (fs : list (list tok)) : list tok := flat_map (fun f => f ++ [Some 9]) fs.

(** one row: fields, line breaks, the end of the line; a blank line is an empty row *)
Inductive record : list tok -> list str -> Prop :=
| Record_blank e : Forall line_break e -> record (map Some e ++ [None]) []
| Record_row fs row f v e : Forall2 field fs row -> field f v -> tabbed fs ++ f <> [] -> Forall line_break e ->
    record (tabbed fs ++ f ++ map Some e ++ [None]) (row ++ [v]).
(** the source ends inside quotes *)
Inductive unclosed : list tok -> list str -> Prop :=
| Unclosed fs row b v : Forall2 field fs row -> inside b v -> short v -> unclosed (tabbed fs ++ Some quote :: b) (row ++ [v]).
(** what the reader does not get past: a NUL, a character after a line break, a
    field longer than the limit *)
Inductive viable : list tok -> Prop :=
| Viable_field fs row g v : Forall2 field fs row -> growing g v -> short v -> viable (tabbed fs ++ g)
| Viable_break fs row f v e : Forall2 field fs row -> field f v -> Forall line_break e -> viable (tabbed fs ++ f ++ map Some e).
Inductive stuck : list tok -> Prop :=
| Stuck_nul p r : viable p -> stuck (p ++ Some 0 :: r)
| Stuck_after fs row f v e c r : Forall2 field fs row -> field f v -> Forall line_break e -> e <> [] -> ~ line_break c ->
    stuck (tabbed fs ++ f ++ map Some e ++ Some c :: r)
| Stuck_long fs row g v r : Forall2 field fs row -> growing g v -> ~ short v -> stuck (tabbed fs ++ g ++ r).

(** the rows of a source which ends with the exception [f], if any *)
Definition ending (f : option exn) : res unit := match f with Some e => Raise e | None => Ok tt end.
Inductive reads (f : option exn) : list tok -> list (list str) -> res unit -> Prop :=
| Reads_end : reads f [] [] (ending f)
| Reads_record t row ts rows o : record t row -> reads f ts rows o -> reads f (t ++ ts) (row :: rows) o
| Reads_unclosed t row : unclosed t row -> reads f t (match f with None => [row] | Some _ => [] end) (ending f)
| Reads_stuck t : stuck t -> reads f t [] (Raise CsvError).
