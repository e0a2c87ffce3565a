(* Radk_spec.v -- what a radkfile means *)
From Verif Require Import Base PyText Bilingual_spec.

(** trailing white space is not looked at *)
Definition begins (c : char) (line : str) : Prop := exists r, rstrip line = c :: r.
Definition comment_line (line : str) : Prop := begins (u1 "#") line.
Definition radical_line (line : str) : Prop := begins (u1 "$") line.
Definition kanji_line (line : str) : Prop := ~ comment_line line /\ ~ radical_line line.

(** a well-formed radical line: "$ radical strokes [image]" *)
Definition header_of (dv : Z -> option Z) (line : str) (r : str) (n : Z) : Prop :=
  radical_line line /\
  exists d t more, words (rstrip line) (d :: r :: t :: more) /\ (length more <= 1)%nat /\ py_int dv 10 t = Some n.

(** the radical in force after some lines *)
Inductive in_force (dv : Z -> option Z) : list str -> option str -> Prop :=
| IF_none a : (forall l, In l a -> ~ radical_line l) -> in_force dv a None
| IF_some a l r n b : header_of dv l r n -> (forall x, In x b -> ~ radical_line x) -> in_force dv (a ++ l :: b) (Some r).

(** [blocks seen lines bs]: the kanji lines of [lines], which follow [seen], in
    order, each as its governing radical and its text *)
Inductive blocks (dv : Z -> option Z) : list str -> list str -> list (option str * str) -> Prop :=
| B_nil seen : blocks dv seen [] []
| B_kanji seen line lines r bs : kanji_line line -> in_force dv seen r -> blocks dv (seen ++ [line]) lines bs ->
    blocks dv seen (line :: lines) ((r, strip line) :: bs)
| B_other seen line lines bs : ~ kanji_line line -> blocks dv (seen ++ [line]) lines bs ->
    blocks dv seen (line :: lines) bs.
(** everything written under a radical *)
Definition written (bs : list (option str * str)) (r : option str) : str :=
  flat_map (fun b => if eqb (fst b) r then snd b else []) bs.
(** the stroke count given by the last line for a radical *)
Definition strokes (dv : Z -> option Z) (lines : list str) (r : option str) (n : Z) : Prop :=
  exists a l b q, r = Some q /\ lines = a ++ l :: b /\ header_of dv l q n /\ forall l' m, In l' b -> ~ header_of dv l' q m.
(** how a radical line can be wrong *)
Definition bad_line (dv : Z -> option Z) (line : str) (e : exn) : Prop :=
  radical_line line /\ exists ws, words (rstrip line) ws /\
  ((length ws <> 3%nat /\ length ws <> 4%nat /\ e = PlainException) \/
   ((length ws = 3%nat \/ length ws = 4%nat) /\ e = ValueError /\ exists t, nth_error ws 2 = Some t /\ py_int dv 10 t = None)).
