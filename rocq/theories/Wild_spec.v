(* Wild_spec.v -- segmentation by a list of expressions, in their order *)
From Verif Require Import Base Regex RegexSyntax RegexSem Pinyin_spec.

(** the groups of a tree, with or without names *)
Fixpoint group_count (r : rx) : nat :=
  match r with Last b => group_count_br b | Or b r => group_count_br b + group_count r end
with group_count_br (b : br) : nat :=
  match b with Nil => 0 | Cons a _ b => group_count_atom a + group_count_br b end
with group_count_atom (a : atom) : nat :=
  match a with
  | AGrp NonCap r => group_count r
  | AGrp _ r => S (group_count r)
  | _ => 0
  end.

(** the groups in the order of their brackets, each with its name if it has one *)
Fixpoint brackets (r : rx) : list (option (list Z)) :=
  match r with Last b => brackets_br b | Or b r => brackets_br b ++ brackets r end
with brackets_br (b : br) : list (option (list Z)) :=
  match b with Nil => [] | Cons a _ b => brackets_atom a ++ brackets_br b end
with brackets_atom (a : atom) : list (option (list Z)) :=
  match a with
  | AGrp NonCap r => brackets r
  | AGrp Cap r => None :: brackets r
  | AGrp (Named n) r => Some n :: brackets r
  | _ => []
  end.
(** no two groups of the same name *)
Definition names_differ (ts : list rx) : Prop :=
  forall i j n, nth_error (flat_map brackets ts) i = Some (Some n) -> nth_error (flat_map brackets ts) j = Some (Some n) -> i = j.
Definition counts (ts : list rx) : nat := fold_right (fun t n => group_count t + n)%nat O ts.
(** a tree and how it is written *)
Definition written (t : rx) (w : list Z) : Prop := ok t = true /\ show t = w.
(** the texts of length n, n-1, ..., each time in the order of the list *)
Fixpoint longest_first (n : nat) (l : list (list Z)) : list (list Z) :=
  filter (fun w => (length w =? n)%nat) l ++ match n with O => [] | S n => longest_first n l end.

(** the first expression of the list that can be matched here, and the text that it
    prefers *)
Definition first_way (rs : list re) (b l w : list Z) : Prop :=
  exists p r q m, rs = p ++ r :: q /\ (forall x, In x p -> forall t, ~ Matches x (mkpos b l []) t) /\
    hd_error (runs r (mkpos b l [])) = Some m /\ l = w ++ rest m.
Definition no_way (rs : list re) (b l : list Z) : Prop := forall x, In x rs -> forall t, ~ Matches x (mkpos b l []) t.
(** from left to right, [b] being what has been read, the last character first *)
Inductive spelled (rs : list re) : list Z -> list Z -> list (list Z * Z) -> Prop :=
| Sp_take b w t z d r l : first_way rs b (w ++ t) w -> tone t z r -> t = d ++ r -> (w ++ d <> []) ->
    spelled rs (rev d ++ rev w ++ b) r l -> spelled rs b (w ++ t) ((spoken w, z) :: l)
| Sp_empty b c q l : first_way rs b (c :: q) [] -> ~ (48 <= c <= 53) -> spelled rs (c :: b) q l ->
    spelled rs b (c :: q) (([], 0) :: l)
| Sp_empty_end b : first_way rs b [] [] -> spelled rs b [] [([], 0)]
| Sp_hash b q l : no_way rs b (u1 "#" :: q) -> spelled rs (u1 "#" :: b) q l -> spelled rs b (u1 "#" :: q) (([], 0) :: l)
| Sp_skip b c q l : c <> u1 "#" -> no_way rs b (c :: q) -> spelled rs (c :: b) q l -> spelled rs b (c :: q) l
| Sp_end b : no_way rs b [] -> spelled rs b [] [].
(** something to be found at the start: one of the expressions, or # *)
Definition begins (rs : list re) (b l : list Z) : Prop :=
  (exists r t, In r rs /\ Matches r (mkpos b l []) t) \/ exists q, l = u1 "#" :: q.
