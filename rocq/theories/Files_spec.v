(* Files_spec.v -- lines and files, independently of the readers *)
From Verif Require Import Base PyText.

(** ** Lines of a text: bodies and ends *)
Definition exotic (c : Z) : Prop := In c [11; 12; 28; 29; 30; 133; 8232; 8233].
Definition newline (c : Z) : Prop := c = 10 \/ c = 13.
Definition any_break (c : Z) : Prop := newline c \/ exotic c.
(** [e] ends a line when [r] follows *)
Inductive ends (brk : Z -> Prop) : str -> str -> Prop :=
| End_crlf r : ends brk [13; 10] r
| End_one c r : brk c -> (c = 13 -> forall q, r <> 10 :: q) -> ends brk [c] r.
Inductive cut (brk : Z -> Prop) : str -> list (str * str) -> Prop :=
| Cut_nil : cut brk [] []
| Cut_last l : l <> [] -> Forall (fun c => ~ brk c) l -> cut brk l [(l, [])]
| Cut_line l e r ps : Forall (fun c => ~ brk c) l -> ends brk e r -> cut brk r ps -> cut brk (l ++ e ++ r) ((l, e) :: ps).
(** text mode: every end is turned into a line feed *)
Definition fed (p : str * str) : str := fst p ++ match snd p with [] => [] | _ => [10] end.
Definition kept (p : str * str) : str := fst p ++ snd p.

(** the same lines, whatever their ends *)
Definition same_lines (c c' : str) : Prop :=
  exists ps ps', cut newline c ps /\ cut newline c' ps' /\ map fst ps = map fst ps'.
(** ... and whether the last one has an end *)
Definition same_fed (c c' : str) : Prop :=
  exists ps ps', cut newline c ps /\ cut newline c' ps' /\ map fst ps = map fst ps' /\
    Forall2 (fun p p' => snd p = [] <-> snd p' = []) ps ps'.

(** ** Names *)
Definition compressed (name : str) : Prop := (exists p, name = p ++ u ".gz") \/ (exists p, name = p ++ u ".bz2").
Definition ordinary (name : str) : Prop := ~ compressed name /\ name <> u "-".
Definition line_separator (s : str) : Prop := s = [10] \/ s = [13; 10] \/ s = [13].

(** ** Words of bytes *)
Definition byte_blank (c : Z) : Prop := In c [9; 10; 11; 12; 13; 32].
Definition byte_word (w : str) : Prop := w <> [] /\ Forall (fun c => ~ byte_blank c) w.
