(* Place_spec.v -- what trees of places are, and what can be written to a file *)
From Verif Require Import Base PyText PyFmt Rose Maps_model Place_model.

(** the tree below a place: the addresses reached through the dictionaries, in
    order.  A place contained in itself has none; a place contained in two
    places occurs twice. *)
Inductive tree_at (h : list place) : rose addr -> Prop :=
| Tree_at a ks : map root ks = dvals (kids (at_ h a)) -> Forall (tree_at h) ks -> tree_at h (Rose a ks).
(** every place is filed under its own label, once *)
Definition keyed (h : list place) (t : rose addr) : Prop :=
  forall a, In a (nodes t) ->
    NoDup (dkeys (kids (at_ h a))) /\ forall k c, In (k, c) (kids (at_ h a)) -> k = label (at_ h c).

(** [reach h a d b]: b is d levels below a *)
Inductive reach (h : list place) (a : addr) : Z -> addr -> Prop :=
| Reach_root : reach h a 0 a
| Reach_kid d b c : reach h a d b -> In c (dvals (kids (at_ h b))) -> reach h a (d + 1) c.

(** the labels above each node *)
Fixpoint labelled (h : list place) (above : list str) (t : rose addr) : list (str * addr) :=
  match t with Rose a ks => (join (u "/") above, a) :: flat_map (labelled h (above ++ [label (at_ h a)])) ks end.

(** following labels downwards *)
Inductive path_to (h : list place) : addr -> list str -> addr -> Prop :=
| Path_nil a : path_to h a [] a
| Path_cons a k c p b : dget k (kids (at_ h a)) = Some c -> path_to h c p b -> path_to h a (k :: p) b.

(** what the file format can hold *)
Definition word (s : str) : Prop := s <> [] /\ solid s.
Definition storable (p : place) : Prop :=
  word (label p) /\ match reading p with Some r => word r /\ r <> u "None" | None => True end /\ aliases p = None.
Definition details (h : list place) (a : addr) : str * option str * option (list str) :=
  (label (at_ h a), reading (at_ h a), aliases (at_ h a)).
(** depths that can follow a line of depth [d] *)
Inductive steps : Z -> list Z -> Prop :=
| Steps_nil d : steps d []
| Steps_cons d e ds : 0 <= e <= d + 1 -> steps e ds -> steps d (e :: ds).
(** how the columns of a line are meant *)
Definition reading_word (r : str) (o : option str) : Prop := r = u "None" /\ o = None \/ r <> u "None" /\ o = Some r.
Definition aliases_word (rest : list str) (o : option (list str)) : Prop :=
  rest = [] /\ o = None \/ exists xs, xs <> [] /\ Forall (fun x => ~ In (u1 ":") x) xs /\ rest = [join (u ":") xs] /\ o = Some xs.
