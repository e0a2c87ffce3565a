(* SplitCodes_spec.v -- codes in senses *)
From Verif Require Import Base PyText Maps_model Bilingual_model Bilingual_spec DictFormat_model DictFormat_spec SplitCodes_model.

Definition letter_digit (c : Z) : Prop :=
  u1 "a" <= c <= u1 "z" \/ u1 "A" <= c <= u1 "Z" \/ u1 "0" <= c <= u1 "9".
Definition group_char (c : Z) : Prop := letter_digit c \/ c = u1 "," \/ c = u1 "-".

(** [c] is one of the comma-separated parts of [g] *)
Definition part (c g : str) : Prop :=
  ~ In (u1 ",") c /\
  exists a b, g = a ++ c ++ b /\ (a = [] \/ exists a', a = a' ++ u ",") /\ (b = [] \/ exists b', b = u "," ++ b').

(** the codes of EDICT, and of JMdict name entries *)
Definition code_table : str := u "
Buddh MA X abbr adj adj-f adj-i adj-na adj-no adj-pn adj-t adv adv-n adv-to arch ateji aux aux-adj
aux-v chn col comp conj ctr derog eK ek exp fam fem food geom gikun gram hon hum iK id int io iv
ling m-sl male male-sl math mil n n-adv n-pref n-suf n-t ng num oK obs obsc ok on-mim physics pn
poet pol pref prt rare sens sl suf uK uk v1 v5 v5aru v5b v5g v5k v5k-s v5m v5n v5r v5r-i v5s v5t v5u
v5u-s v5uru v5z vi vk vn vs vs-i vs-s vt vulg vz s p u g f m h pr co st".
Definition known_code (c : str) : Prop := In c (split_ws code_table).

(** a sense carries a code *)
Definition carries (sense code : str) : Prop :=
  known_code code /\
  exists x g y, sense = x ++ u "(" ++ g ++ u ")" ++ y /\ g <> [] /\ (forall c, In c g -> group_char c) /\ part code g.

(** [d[c][w]] *)
Definition lookup2 (c w : str) (d : dict str (dict str addr)) : option addr :=
  match dget c d with Some m => dget w m | None => None end.
(** some line for [w] has a sense carrying [c] *)
Definition carried (ps : list parsed) (w c : str) : Prop :=
  exists p s, In p ps /\ fst p = w /\ In s (snd (snd p)) /\ carries s c.
(** [d.get(c, {})] *)
Definition words_of (d : dict str (dict str addr)) (c : str) : dict str addr := match dget c d with Some m => m | None => [] end.
