(* RegexSem.v -- specification of regular expression matching, independent of
   the continuation engine of Regex.v. *)
From Verif Require Import Base Regex.

(** ** which ways of matching there are *)
Inductive Matches : re -> pos -> pos -> Prop :=
| M_eps s : Matches Eps s s
| M_chr (p : Z -> bool) b c q cs : p c = true -> Matches (Chr p) (mkpos b (c :: q) cs) (mkpos (c :: b) q cs)
| M_seq a b s t w : Matches a s t -> Matches b t w -> Matches (Seq a b) s w
| M_left a b s t : Matches a s t -> Matches (Alt a b) s t
| M_right a b s t : Matches b s t -> Matches (Alt a b) s t
| M_stop r s : Matches (Star r) s s
| M_more r s t w : Matches r s t -> Matches (Star r) t w -> Matches (Star r) s w
| M_lstop r s : Matches (Lazy r) s s
| M_lmore r s t w : Matches r s t -> Matches (Lazy r) t w -> Matches (Lazy r) s w
| M_grp n r s t : Matches r s t -> Matches (Grp n r) s (capture n s t)
| M_bol q cs : Matches Bol (mkpos [] q cs) (mkpos [] q cs)
| M_eol b cs : Matches Eol (mkpos b [] cs) (mkpos b [] cs)
| M_eoln b cs : Matches Eol (mkpos b [10] cs) (mkpos b [10] cs)
| M_behind (p : Z -> bool) c b q cs : p c = true -> Matches (Behind p) (mkpos (c :: b) q cs) (mkpos (c :: b) q cs).

(** ** in which order Python prefers them: the left branch of an alternation
    first, one more iteration first for a greedy star, none first for a lazy one *)
Definition shorter (t s : pos) : bool := (length (rest t) <? length (rest s))%nat.
Fixpoint stars (f : pos -> list pos) (lazy : bool) (fuel : nat) (s : pos) : list pos :=
  match fuel with
  | O => []
  | S n =>
      let more := flat_map (fun t => if shorter t s then stars f lazy n t else []) (f s) in
      if lazy then s :: more else more ++ [s]
  end.
Fixpoint runs (r : re) (s : pos) : list pos :=
  match r with
  | Eps => [s]
  | Chr p => match rest s with c :: q => if p c then [mkpos (c :: before s) q (caps s)] else [] | [] => [] end
  | Seq a b => flat_map (runs b) (runs a s)
  | Alt a b => runs a s ++ runs b s
  | Star r => stars (runs r) false (S (length (rest s))) s
  | Lazy r => stars (runs r) true (S (length (rest s))) s
  | Grp n r => map (capture n s) (runs r s)
  | Bol => match before s with [] => [s] | _ => [] end
  | Eol => match rest s with [] => [s] | [c] => if c =? 10 then [s] else [] | _ => [] end
  | Behind p => match before s with c :: _ => if p c then [s] else [] | [] => [] end
  end.

(** ** patterns that may match nothing, and patterns none of whose repeated
    parts may *)
Fixpoint nullable (r : re) : bool :=
  match r with
  | Eps | Star _ | Lazy _ | Bol | Eol | Behind _ => true
  | Chr _ => false
  | Seq a b => nullable a && nullable b
  | Alt a b => nullable a || nullable b
  | Grp _ r => nullable r
  end.
Fixpoint solid (r : re) : bool :=
  match r with
  | Seq a b | Alt a b => solid a && solid b
  | Star r | Lazy r => negb (nullable r) && solid r
  | Grp _ r => solid r
  | _ => true
  end.

(** ** the matches found by a scan from left to right, for a pattern that does
    not match the empty text: the preferred match at the first position that
    has one, and so on from its end *)
Inductive Finds (r : re) : list Z -> list Z -> list (pos * pos) -> Prop :=
| F_end b : Finds r b [] []
| F_skip b c q ms : (forall t, ~ Matches r (mkpos b (c :: q) []) t) -> Finds r (c :: b) q ms -> Finds r b (c :: q) ms
| F_take b l m ms : hd_error (runs r (mkpos b l [])) = Some m -> Finds r (before m) (rest m) ms ->
    Finds r b l ((mkpos b l [], m) :: ms).

(** ** the same result up to groups that nobody reads *)
Definition kept (keep : list Z -> bool) (cs : list (list Z * list Z)) := filter (fun c => keep (fst c)) cs.
Definition same_pos (keep : list Z -> bool) (s t : pos) : Prop :=
  before s = before t /\ rest s = rest t /\ kept keep (caps s) = kept keep (caps t).
Definition same_opt (keep : list Z -> bool) (a b : option pos) : Prop :=
  match a, b with Some s, Some t => same_pos keep s t | None, None => True | _, _ => False end.
Definition same_re (keep : list Z -> bool) (a b : re) : Prop :=
  forall k k', (forall s t, same_pos keep s t -> same_opt keep (k s) (k' t)) ->
  forall s t, same_pos keep s t -> same_opt keep (mtch a k s) (mtch b k' t).
