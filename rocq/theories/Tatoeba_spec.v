(* Tatoeba_spec.v -- what the readers should hold *)
From Verif Require Import Base PyText Tanaka_model Tanaka_spec Tatoeba_model.

(** ** Sentences: the entries described by the rows *)
Record entry (date : Type) := mkentry { e_id : Z; e_lang : str; e_text : str; e_info : option (info date) }.
Arguments mkentry {date}. Arguments e_id {date}. Arguments e_lang {date}. Arguments e_text {date}. Arguments e_info {date}.

Definition is_date {date} (strptime : str -> res date) (s : str) (o : option date) : Prop :=
  ((s = u "\N" \/ s = u "0000-00-00 00:00:00") /\ o = None) \/
  (s <> u "\N" /\ s <> u "0000-00-00 00:00:00" /\ exists x, strptime s = Ok x /\ o = Some x).
Definition is_name (s : str) (o : option str) : Prop := (s = u "\N" /\ o = None) \/ (s <> u "\N" /\ o = Some s).
(** the information in the columns after the third *)
Definition is_info {date} (strptime : str -> res date) (detailed : bool) (cols : list str) (o : option (info date)) : Prop :=
  if detailed then
    exists n a m rest n' a' m', cols = n :: a :: m :: rest /\ o = Some (n', a', m') /\
      is_name n n' /\ is_date strptime a a' /\ is_date strptime m m'
  else o = None.
Definition wants (langs : option (list str)) (l : str) : Prop := match langs with Some ls => In l ls | None => True end.
Inductive entries {date} (dv : Z -> option Z) (strptime : str -> res date) (filter_row : list str -> bool) (langs : option (list str)) (detailed : bool) :
    list (list str) -> list (entry date) -> Prop :=
| Entries_nil : entries dv strptime filter_row langs detailed [] []
| Entries_filtered row rows es : filter_row row = true -> entries dv strptime filter_row langs detailed rows es ->
    entries dv strptime filter_row langs detailed (row :: rows) es
| Entries_other_language i l t cols rows es : filter_row (i :: l :: t :: cols) = false -> ~ wants langs l ->
    entries dv strptime filter_row langs detailed rows es -> entries dv strptime filter_row langs detailed ((i :: l :: t :: cols) :: rows) es
| Entries_row i l t cols rows es n o : filter_row (i :: l :: t :: cols) = false -> wants langs l -> py_int dv 10 i = Some n ->
    is_info strptime detailed cols o ->
    entries dv strptime filter_row langs detailed rows es ->
    entries dv strptime filter_row langs detailed ((i :: l :: t :: cols) :: rows) (mkentry n l t o :: es).
(** the last entry for an id *)
Definition last_entry {date} (es : list (entry date)) (i : Z) (e : entry date) : Prop :=
  exists a b, es = a ++ e :: b /\ e_id e = i /\ Forall (fun x => e_id x <> i) b.
Definition known {date} (es : list (entry date)) (i : Z) : Prop := exists e, In e es /\ e_id e = i.
(** the language of the first row whose language has the id *)
Definition has_id {date} (es : list (entry date)) (i : Z) (l : str) : Prop := exists e, In e es /\ e_lang e = l /\ e_id e = i.
Definition first_language {date} (es : list (entry date)) (i : Z) (l : str) : Prop :=
  exists a e b, es = a ++ e :: b /\ e_lang e = l /\ has_id es i l /\ forall x, In x a -> ~ has_id es i (e_lang x).
(** the number of columns of the first row *)
Definition columns (rows : list (list str)) (n : nat) : Prop := exists row rest, rows = row :: rest /\ length row = n.

(** ** Links: connectedness *)
Definition endpoint (ps : list (Z * Z)) (x : Z) : Prop := exists p, In p ps /\ (fst p = x \/ snd p = x).
Inductive connected (ps : list (Z * Z)) : Z -> Z -> Prop :=
| Conn_refl x : endpoint ps x -> connected ps x x
| Conn_step x y : In (x, y) ps -> connected ps x y
| Conn_sym x y : connected ps x y -> connected ps y x
| Conn_trans x y z : connected ps x y -> connected ps y z -> connected ps x z.
(** a link between two sentences known before it but not connected by the links before it *)
Definition bridge (ps : list (Z * Z)) : Prop :=
  exists a x y b, ps = a ++ (x, y) :: b /\ endpoint a x /\ endpoint a y /\ ~ connected a x y.
(** rows of two numbers *)
Definition link_rows (dv : Z -> option Z) : list (list str) -> list (Z * Z) -> Prop :=
  Forall2 (fun row p => exists a b, row = [a; b] /\ py_int dv 10 a = Some (fst p) /\ py_int dv 10 b = Some (snd p)).
Definition partition (gs : list (list Z)) : Prop :=
  Forall (fun g => g <> []) gs /\
  forall n m g h x, nth_error gs n = Some g -> nth_error gs m = Some h -> In x g -> In x h -> n = m.
(** the links kept by a filter *)
Definition keeps (name : str) (ids : list Z) (p : Z * Z) : bool :=
  if eqb name (u "sent_id") then mem (fst p) ids
  else if eqb name (u "trans_id") then mem (snd p) ids
  else mem (fst p) ids && mem (snd p) ids.
Definition used (name : str) (ids : option (list Z)) (ps : list (Z * Z)) : list (Z * Z) :=
  match ids with Some l => filter (keeps name l) ps | None => ps end.
Definition filter_name (name : str) : Prop := name = u "sent_id" \/ name = u "trans_id" \/ name = u "both".

(** ** Indices *)
Record ientry := mkientry { i_id : Z; i_link : Z; i_words : list word }.
Inductive ientries (dv : Z -> option Z) (ids : option (list Z)) (edict : option (dict str (list str))) : list (list str) -> list ientry -> Prop :=
| Ientries_nil : ientries dv ids edict [] []
| Ientries_out a b t rows es n m : py_int dv 10 a = Some n -> py_int dv 10 b = Some m -> (exists l, ids = Some l /\ ~ In n l) ->
    ientries dv ids edict rows es -> ientries dv ids edict ([a; b; t] :: rows) es
| Ientries_in a b t rows es n m ps ws ws' : py_int dv 10 a = Some n -> py_int dv 10 b = Some m -> (forall l, ids = Some l -> In n l) ->
    pieces t ps -> Forall2 (written dv) ps ws -> adjust_details edict ws = (ws', Ok tt) ->
    ientries dv ids edict rows es -> ientries dv ids edict ([a; b; t] :: rows) (mkientry n m ws' :: es).
Definition last_ientry (es : list ientry) (i : Z) (e : ientry) : Prop :=
  exists a b, es = a ++ e :: b /\ i_id e = i /\ Forall (fun x => i_id x <> i) b.
