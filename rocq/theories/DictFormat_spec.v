(* DictFormat_spec.v -- how dictionary files are written, and what loading
   them should give *)
From Verif Require Import Base Maps_model Bilingual_model Bilingual_spec DictFormat_model.

Definition newline (nl : bool) : str := if nl then [10] else [].
Definition free (cs : str) (s : str) : Prop := forall c, In c cs -> ~ In c s.
Definition spaceless (s : str) : str := filter (fun c => negb (c =? 32)) s.
Definition item (cs : str) (s : str) : Prop := s <> [] /\ free cs s.

(** "/a/b" and "/a/b/" *)
Definition slashes (ss : list str) (closed : bool) : str :=
  concat (map (fun s => u "/" ++ s) ss) ++ (if closed then u "/" else []).
(** "a<sep>b" and "a<sep>b<sep>" *)
Fixpoint separated (sep : str) (ss : list str) (closed : bool) : str :=
  match ss with
  | [] => []
  | [s] => s ++ (if closed then sep else [])
  | s :: r => s ++ sep ++ separated sep r closed
  end.

Definition edict_line (w : str) (reading : option str) (ss : list str) (closed nl : bool) : str :=
  w ++ u " " ++ match reading with Some r => u "[" ++ r ++ u "] " | None => [] end ++ slashes ss closed ++ newline nl.
Definition jc_line (w r : str) (ss : list str) (closed nl : bool) : str :=
  w ++ u " [" ++ r ++ u "]" ++ [9] ++ separated (u "，") ss closed ++ newline nl.
Definition cj_line (w r : str) (ss : list str) (closed nl : bool) : str :=
  w ++ [9] ++ r ++ u "\n" ++ separated (u "\n") ss closed ++ newline nl.
Definition cedict_line (trad w : str) (reading : option str) (gap : bool) (ss : list str) (closed nl : bool) : str :=
  trad ++ u " " ++ w ++ u " " ++ match reading with Some r => u "[" ++ r ++ u "]" | None => [] end ++
  (if gap then u " " else []) ++ slashes ss closed ++ newline nl.

Definition reading_or (w : str) (reading : option str) : str :=
  match reading with Some r => spaceless r | None => w end.

(** numbered senses: full-width digits and a full-width stop *)
Definition digits : str := u "０１２３４５６７８９".
Definition numbered (x : option str * str) : str :=
  match fst x with Some n => n ++ u "．" ++ snd x | None => snd x end.
(** text that does not itself look numbered *)
Definition plain (s : str) : Prop :=
  forall n t, s = n ++ u "．" ++ t -> n <> [] -> exists c, In c n /\ ~ In c digits.

(** headers *)
Inductive header : format -> str -> Prop :=
| H_edict c t nl : c <> 10 -> ~ In 10 t -> header edict (c :: u "？？？" ++ t ++ newline nl)
| H_jc nl : header jc_kdic (u "FORMAT jc_kdic" ++ newline nl)
| H_cj nl : header cj_kdic (u "FORMAT cj_kdic" ++ newline nl)
| H_cedict t nl : ~ In 10 t -> header cedict (u "# CEDICT" ++ t ++ newline nl).

(** the pairs collected for a word *)
Definition pairs_for (w : str) (ps : list parsed) : list (str * str) :=
  flat_map (fun p => if eqb (fst p) w then pairs_of (fst (snd p)) (snd (snd p)) else []) ps.
Definition sound (p : parsed) : Prop := valid_entry (fst (snd p)) (snd (snd p)).
