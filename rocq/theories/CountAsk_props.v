(* CountAsk_props.v -- property C135 *)
From Verif Require Import Base Rose Maps_model Tree_model Tree_spec Tree_proofs PruneAsk_spec CountAsk_model CountAsk_spec CountAsk_proofs.

(** ** C135.  TreeDist with a count method that keeps a state, looks at the node,
    at what is below it (already counted) and above it (not yet), or raises. *)
Theorem C135_dist S count_method ask h t fuel s :
  (forall s h up t, chain h (root t) (up ++ [root t]) -> tree_at h t -> count_method s h (root t) = ask s (map (details h) up) (rosemap (details h) t)) ->
  keyed h t -> truth_opt h (parent (at_ h (root t))) = false -> (2 * rsize t < fuel)%nat ->
  match counted S ask [] (rosemap (details h) t) s with
  | (s', Raise e) => dist_ask S count_method fuel h (root t) s = (s', Raise e)
  | (s', Ok T) =>
      if cum_of T =? 0 then dist_ask S count_method fuel h (root t) s = (s', Raise ZeroDivisionError)
      else exists h' t', dist_ask S count_method fuel h (root t) s = (s', Ok (h', root t')) /\ linked h' None t' /\
        rosemap (details h') t' = rosemap (rated (cum_of T)) T /\
        (forall a, In a (nodes t') -> (length h <= a)%nat) /\ (forall a, (a < length h)%nat -> at_ h' a = at_ h a)
  end.
Proof. exact (fun L => dist_ask_ok S count_method ask L h t fuel s). Qed.
Print Assumptions C135_dist.

(** a method that looks at the node and those above it is asked about each node
    until it raises; the nodes and their order stay as they were *)
Theorem C135_asked {S} (g : S -> list said * said -> S) (ans : list said * said -> res Z) t s :
  match counted S (fun s up t => (g s (up, root t), ans (up, root t))) [] t s, ask_each g ans (leaves_up (placed [] t)) s with
  | (s', Ok T), (s'', o) => s' = s'' /\ o = None /\ rosemap (fun p => fst (fst p)) T = t
  | (s', Raise e), (s'', o) => s' = s'' /\ o = Some e
  end.
Proof. exact (counted_order g ans t [] s). Qed.
Print Assumptions C135_asked.
(** about each node once *)
Theorem C135_once {A} (t : rose A) : Permutation (leaves_up t) (nodes t).
Proof. exact (leaves_up_perm t). Qed.
Print Assumptions C135_once.

(** a method that adds up the counts of the children, which are there when it is
    asked, leaves the sum over its subtree in the count of every node *)
Theorem C135_sums f h t fuel : keyed h t -> truth_opt h (parent (at_ h (root t))) = false -> (2 * rsize t < fuel)%nat ->
  let T := rosemap (details h) t in let total := over f T + sumZ (map (over f) (branches T)) in
  if total =? 0 then dist_ask unit (with_children f) fuel h (root t) tt = (tt, Raise ZeroDivisionError)
  else exists h' t', dist_ask unit (with_children f) fuel h (root t) tt = (tt, Ok (h', root t')) /\ linked h' None t' /\
    rosemap (details h') t' = rosemap (rated total) (summed f T) /\
    (forall a, In a (nodes t') -> (length h <= a)%nat) /\ (forall a, (a < length h)%nat -> at_ h' a = at_ h a).
Proof.
  intros K P B T; pose proof (dist_ask_ok unit (with_children f) (ask_sum f) (with_children_looks f) h t fuel tt K P B) as X.
  fold T in X; rewrite counted_sum in X; destruct T as [x ks]; exact X.
Qed.
Print Assumptions C135_sums.
(** the method is not asked about a tree that cannot be copied *)
Theorem C135_not_root S count_method h a fuel s : truth_opt h (parent (at_ h a)) = true ->
  dist_ask S count_method fuel h a s = (s, Raise PlainException).
Proof. intros T; unfold dist_ask; rewrite copy_raises by exact T; reflexivity. Qed.
Print Assumptions C135_not_root.
(** with a method that only looks at the node this is the TreeDist of C62 *)
Theorem C135_same cm fuel h a : dist_ask unit (fun s h a => (s, cm (at_ h a))) fuel h a tt = (tt, tree_dist cm fuel h a).
Proof. exact (dist_ask_pure cm fuel h a). Qed.
Print Assumptions C135_same.

(** a - (b - (d), c): d is worth 5, c 3, a and b nothing *)
Definition worth (d : said) : Z := if eqb (fst d) (u "d") then 5 else if eqb (fst d) (u "c") then 3 else 0.
Definition named (l : str) : node := {| label := l; children := []; attrib := []; parent := None |}.
Definition four : list node := add_child (add_child (add_child [named (u "a"); named (u "b"); named (u "c"); named (u "d")] 0 1) 0 2) 1 3.
Example C135_case : keyed four (Rose 0%nat [Rose 1%nat [Rose 3%nat []]; Rose 2%nat []]).
Proof.
  repeat first [apply Forall_nil | apply Forall_cons | apply Keyed; [vm_compute; lia|apply nodupb_NoDup; vm_compute; reflexivity|reflexivity|]].
Qed.
Example C135_case_sums : match dist_ask unit (with_children worth) 20 four 0 tt with
  | (_, Ok (h, r)) => map (fun a => (label (at_ h a), map (fun k => dget (KStr k) (attrib (at_ h a))) [u "count"; u "cum_count"; u "freq"])) (seq 4 4) =
      [(u "a", [Some (VNum 8); Some (VNum 16); Some (VQuot 16 16)]); (u "b", [Some (VNum 5); Some (VNum 10); Some (VQuot 10 16)]);
       (u "c", [Some (VNum 3); Some (VNum 3); Some (VQuot 3 16)]); (u "d", [Some (VNum 5); Some (VNum 5); Some (VQuot 5 16)])]
  | _ => False
  end.
Proof. vm_compute; reflexivity. Qed.
(** the calls of a method that numbers them, and of one that refuses b *)
Example C135_case_asked : let run ans := let '(s, r) := dist_ask (list str) (fun s h a => (s ++ [label (at_ h a)], ans (label (at_ h a)) s)) 20 four 0 [] in (s, rmap snd r) in
  run (fun _ s => Ok (Z.of_nat (length s))) = ([u "c"; u "d"; u "b"; u "a"], Ok 4%nat) /\
  run (fun l s => if eqb l (u "b") then Raise ValueError else Ok 1) = ([u "c"; u "d"; u "b"], Raise ValueError) /\
  run (fun _ _ => Ok 0) = ([u "c"; u "d"; u "b"; u "a"], Raise ZeroDivisionError).
Proof. vm_compute; repeat split. Qed.
(** a method with a state, looking at the labels of the node and of those above it, meets the premise *)
Example C135_case_premise : forall s h up t, chain h (root t) (up ++ [root t]) -> tree_at h t ->
  (S s, Ok (Z.of_nat s + Z.of_nat (length (label (at_ h (root t))))) : res Z) =
  (fun s (up : list said) (t : rose said) => (S s, Ok (Z.of_nat s + Z.of_nat (length (fst (root t)))))) s (map (details h) up) (rosemap (details h) t).
Proof. intros s h up [a ks] _ _; reflexivity. Qed.
