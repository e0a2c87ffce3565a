(* CountAsk_spec.v -- counting the nodes of a tree, from the leaves up *)
From Verif Require Import Base Rose Maps_model Tree_model Tree_spec.

(** what a node says: its label and attributes *)
Definition said : Type := str * dict akey value.
(** a node with its count, and its count with those of its children *)
Definition tallied (p : said * Z * Z) : said :=
  let '(d, c, z) := p in (fst d, dset (KStr (u "cum_count")) (VNum z) (dset (KStr (u "count")) (VNum c) (snd d))).
(** ... and its share of a total *)
Definition rated (total : Z) (p : said * Z * Z) : said :=
  (fst (tallied p), dset (KStr (u "freq")) (VQuot (snd p) total) (snd (tallied p))).
Definition count_of (t : rose (said * Z * Z)) : Z := snd (fst (root t)).
Definition cum_of (t : rose (said * Z * Z)) : Z := snd (root t).

Section Counted.
  Variable S : Type.
  (** asked of a node: the nodes above it as they were, and what is below it already counted *)
  Variable ask : S -> list said -> rose said -> S * res Z.
  Fixpoint counted (up : list said) (t : rose said) (s : S) : S * res (rose (said * Z * Z)) :=
    match t with
    | Rose x ks =>
        match fold_right (fun k acc => match acc with
                                       | (s, Ok l) => match counted (up ++ [x]) k s with
                                                      | (s, Ok t) => (s, Ok (t :: l))
                                                      | (s, Raise e) => (s, Raise e)
                                                      end
                                       | (s, Raise e) => (s, Raise e)
                                       end) (s, Ok []) ks with
        | (s, Raise e) => (s, Raise e)
        | (s, Ok l) => match ask s up (Rose x (map (rosemap tallied) l)) with
                       | (s, Raise e) => (s, Raise e)
                       | (s, Ok c) => (s, Ok (Rose (x, c, c + sumZ (map count_of l)) l))
                       end
        end
    end.
End Counted.
(** asking a list of questions until an answer is an exception *)
Section AskAll.
  Context {S X Y : Type}.
  Variable g : S -> X -> S.
  Variable ans : X -> res Y.
  Fixpoint ask_each (l : list X) (s : S) : S * option exn :=
    match l with
    | [] => (s, None)
    | x :: l => match ans x with Raise e => (g s x, Some e) | Ok _ => ask_each l (g s x) end
    end.
End AskAll.
(** every node with those above it *)
Fixpoint placed {A} (up : list A) (t : rose A) : rose (list A * A) :=
  match t with Rose x ks => Rose (up, x) (map (placed (up ++ [x])) ks) end.
(** children before parents, last children first *)
Fixpoint leaves_up {A} (t : rose A) : list A :=
  match t with Rose x ks => fold_right (fun k l => l ++ leaves_up k) [] ks ++ [x] end.
(** the sum of [f] over a tree, and a tree with these sums as its counts *)
Section Sums.
  Variable f : said -> Z.
  Fixpoint over (t : rose said) : Z := match t with Rose x ks => f x + sumZ (map over ks) end.
  Fixpoint summed (t : rose said) : rose (said * Z * Z) :=
    match t with Rose x ks => Rose (x, f x + sumZ (map over ks), f x + sumZ (map over ks) + sumZ (map over ks)) (map summed ks) end.
End Sums.
