From Verif Require Import Base PyText Rose Maps_model Tree_model Tree_spec Tree_proofs.
From Coq Require Import Permutation Sorted.

(** C54: every node once (as often as the tree has it), in a valid order *)
Theorem C54_preorder h fuel t : tree_at h t -> (rsize t < fuel)%nat ->
  exists ns, walk_preorder fuel h (root t) = Ok ns /\ Permutation ns (nodes t) /\ parents_first h ns.
Proof. exact (walk_preorder_ok h fuel t). Qed.
Print Assumptions C54_preorder.
Theorem C54_postorder h fuel t : tree_at h t -> (2 * rsize t < fuel)%nat ->
  exists ns, walk_postorder fuel h (root t) = Ok ns /\ Permutation ns (nodes t) /\ children_first h ns.
Proof. exact (walk_postorder_ok h fuel t). Qed.
Print Assumptions C54_postorder.
Theorem C54_breadth_first shuffle h fuel t : (forall n l, Permutation l (shuffle n l)) -> tree_at h t -> (rsize t < fuel)%nat ->
  exists ps, walk_breadth_first shuffle fuel h (root t) = Ok (map snd ps) /\ Permutation ps (pre 0 t) /\ StronglySorted Z.le (map fst ps).
Proof. exact (walk_breadth_ok shuffle h fuel t). Qed.
Print Assumptions C54_breadth_first.
(** the nodes of a tree are those that can be reached *)
Theorem C54_nodes h t d b : tree_at h t -> (In (d, b) (pre 0 t) <-> reach h (root t) d b).
Proof. exact (pre_reach h t d b). Qed.
Print Assumptions C54_nodes.

(** C55 *)
Theorem C55_consistent h : built h -> consistent h.
Proof. exact (fun B => good_consistent h (built_good h B)). Qed.
Print Assumptions C55_consistent.
Theorem C55_filed_by_label h p k c : built h -> In (k, c) (children (at_ h p)) -> k = label (at_ h c).
Proof. exact (fun B I => proj1 (proj2 (proj1 (proj2 (built_good h B)) p k c I))). Qed.
Print Assumptions C55_filed_by_label.
Theorem C55_unlink h c : built h -> (c < length h)%nat -> exists h', unlink h c = (h', Ok tt) /\ length h' = length h /\
  parent (at_ h' c) = None /\ (forall p k, ~ In (k, c) (children (at_ h' p))) /\ (forall b, label (at_ h' b) = label (at_ h b)) /\
  (forall b, b <> c -> parent (at_ h' b) = parent (at_ h b)) /\
  (forall b k a, a <> c -> (In (k, a) (children (at_ h' b)) <-> In (k, a) (children (at_ h b)))).
Proof.
  exact (fun B L => match good_unlink h c (built_good h B) L with ex_intro _ h' (conj E (conj _ R)) => ex_intro _ h' (conj E R) end).
Qed.
Print Assumptions C55_unlink.

(** C56: del_child takes the child out, but leaves it its parent *)
Theorem C56_removed_partial h p c : built h -> (c < length h)%nat -> parent (at_ h c) = Some p ->
  exists h', del_child h p c = (h', Ok tt) /\ forall k, ~ In (k, c) (children (at_ h' p)).
Proof.
  exact (fun B L P => match del_child_ok h p c (built_good h B) L P with ex_intro _ h' (conj E (conj N _)) => ex_intro _ h' (conj E N) end).
Qed.
Print Assumptions C56_removed_partial.
Theorem C56_parent_refuted h p c h' r : built h -> (c < length h)%nat -> parent (at_ h c) = Some p -> del_child h p c = (h', r) ->
  parent (at_ h' c) = Some p.
Proof.
  exact (fun B L P E => match del_child_ok h p c (built_good h B) L P with
    | ex_intro _ h2 (conj E2 (conj _ Q)) =>
        eq_ind h2 (fun g => parent (at_ g c) = Some p) Q h' (f_equal fst (eq_trans (eq_sym E2) E)) end).
Qed.
Print Assumptions C56_parent_refuted.
Theorem C56_not_a_child h p c : ~ In (label (at_ h c)) (dkeys (children (at_ h p))) -> del_child h p c = (h, Raise KeyError).
Proof. exact (del_child_raises h p c). Qed.
Print Assumptions C56_not_a_child.

(** C57 *)
Theorem C57_copy h t fuel : keyed h t -> truth_opt h (parent (at_ h (root t))) = false -> (rsize t < fuel)%nat ->
  exists h' t', copy fuel h (root t) = Ok (h', root t') /\ linked h' None t' /\ keyed h' t' /\ rosemap (details h') t' = rosemap (details h) t /\
    NoDup (nodes t') /\ (forall a, In a (nodes t') -> (length h <= a)%nat) /\ (forall a, (a < length h)%nat -> at_ h' a = at_ h a) /\
    length h' = (length h + rsize t)%nat.
Proof. exact (copy_ok h t fuel). Qed.
Print Assumptions C57_copy.
(** [veq] is == of attribute values; a dictionary takes a value to equal itself *)
Theorem C57_equal veq h t fuel : (forall v, veq v v = true) -> keyed h t -> truth_opt h (parent (at_ h (root t))) = false -> (rsize t < fuel)%nat ->
  (forall a, In a (nodes t) -> NoDup (dkeys (attrib (at_ h a)))) ->
  exists h' b, copy fuel h (root t) = Ok (h', b) /\ node_eq veq fuel h' (root t) b = Ok true.
Proof. exact (copy_equal veq h t fuel). Qed.
Print Assumptions C57_equal.
Theorem C57_not_a_root h a fuel : truth_opt h (parent (at_ h a)) = true -> copy fuel h a = Raise PlainException.
Proof. exact (copy_raises h a fuel). Qed.
Print Assumptions C57_not_a_root.

(** C58: for every predicate of a node's label, attributes and children *)
Theorem C58_prune pred h t fuel : keyed h t -> truth_opt h (parent (at_ h (root t))) = false -> (2 * rsize t < fuel)%nat ->
  exists h' r, prune (fun h a => pred (details h a) (children (at_ h a))) fuel h (root t) = Ok (h', r) /\ (forall a, (a < length h)%nat -> at_ h' a = at_ h a) /\
    if viable (fun d => pred d []) (rosemap (details h) t) then
      exists t', r = Some (root t') /\ linked h' None t' /\ rosemap (details h') t' = keep (fun d => pred d []) (rosemap (details h) t) /\ forall a, In a (nodes t') -> (length h <= a)%nat
    else r = None.
Proof. exact (prune_any pred h t fuel). Qed.
Print Assumptions C58_prune.
(** what [keep] keeps: the nodes on a branch that ends in a node of which p holds *)
Theorem C58_kept {A} (p : A -> bool) t b : viable p t = true ->
  (In b (nodes (keep p t)) <-> exists l c r, branch t (l ++ b :: r) /\ last (b :: r) b = c /\ p c = true).
Proof. exact (keep_nodes p t b). Qed.
Print Assumptions C58_kept.

(** C59 *)
Theorem C59_find_node shuffle h t l fuel : (forall n q, Permutation q (shuffle n q)) -> tree_at h t -> (rsize t < fuel)%nat ->
  (exists n d, find_node shuffle fuel h (root t) l = Ok n /\ reach h (root t) d n /\ label (at_ h n) = l /\
     forall e m, reach h (root t) e m -> label (at_ h m) = l -> d <= e) \/
  (find_node shuffle fuel h (root t) l = Raise KeyError /\ forall e m, reach h (root t) e m -> label (at_ h m) <> l).
Proof. exact (find_node_ok shuffle h t l fuel). Qed.
Print Assumptions C59_find_node.

(** C60 *)
Theorem C60_same f h n : path_from_root f h n = get_ancestors f h n.
Proof. exact (path_is_ancestors f h n). Qed.
Print Assumptions C60_same.
Theorem C60_path h t l n fuel : linked h None t -> branch t (l ++ [n]) -> (length l < fuel)%nat ->
  get_ancestors fuel h n = Ok (l ++ [n]).
Proof. exact (ancestors_ok h t l n fuel). Qed.
Print Assumptions C60_path.
Theorem C60_get_path h t l n par : linked h par t -> branch t (l ++ [n]) ->
  get_path h (root t) (map (fun a => label (at_ h a)) (tl (l ++ [n]))) = Ok n.
Proof. exact (branch_get_path h t l n par). Qed.
Print Assumptions C60_get_path.
Theorem C60_labels h a p b : get_path h a p = Ok b <-> path_to h a p b.
Proof. exact (get_path_iff h p a b). Qed.
Print Assumptions C60_labels.
Theorem C60_KeyError h a p : get_path h a p = Raise KeyError <-> ~ exists b, path_to h a p b.
Proof. exact (get_path_KeyError h a p). Qed.
Print Assumptions C60_KeyError.
(** as a text.  Missing: the empty path, labels with a slash, an empty first label. *)
Theorem C60_text_partial h a k p : p <> [] -> Forall (fun l => ~ In (u1 "/") l) p -> hd [] p <> [] ->
  get_path_text h a (repeat (u1 "/") k ++ join (u "/") p) = get_path h a p.
Proof. exact (get_path_text_ok h a k p). Qed.
Print Assumptions C60_text_partial.
(** the text path of the root asks for a child with an empty label *)
Theorem C60_text_root_refuted h a k : get_path_text h a (repeat (u1 "/") k) = dgetitem (children (at_ h a)) [].
Proof. exact (get_path_text_root h a k). Qed.
Print Assumptions C60_text_root_refuted.

(** C61: no index is ever built *)
Theorem C61_build_index_refuted label_of fuel h a : exists e, build_index label_of (S fuel) h a = Raise e /\ (e = KeyError \/ e = ValueError).
Proof. exact (build_index_raises label_of fuel h a). Qed.
Print Assumptions C61_build_index_refuted.

(** C62: what is computed, for every count of a node's label, attributes and
    number of children: a node's count plus those of its direct children *)
Theorem C62_counts_partial cm h t fuel : keyed h t -> truth_opt h (parent (at_ h (root t))) = false -> (2 * rsize t < fuel)%nat ->
  let total := cum cm (rosemap (details h) t) in
  if total =? 0 then tree_dist (by_node cm) fuel h (root t) = Raise ZeroDivisionError
  else exists h' t', tree_dist (by_node cm) fuel h (root t) = Ok (h', root t') /\ linked h' None t' /\
    rosemap (details h') t' = annotated cm total (rosemap (details h) t) /\
    (forall a, In a (nodes t') -> (length h <= a)%nat) /\ (forall a, (a < length h)%nat -> at_ h' a = at_ h a).
Proof. exact (tree_dist_ok cm h t fuel). Qed.
Print Assumptions C62_counts_partial.
(** this is the sum over the subtree exactly when the counts two levels down
    and deeper add up to nothing *)
Theorem C62_cumulative_refuted cm t : cum cm t = whole cm t <-> sumZ (map (whole cm) (flat_map branches (branches t))) = 0.
Proof. exact (cum_whole cm t). Qed.
Print Assumptions C62_cumulative_refuted.

(** the premises can be met: a - (b - (d), c) *)
Definition t0 : rose addr := Rose 0%nat [Rose 1%nat [Rose 3%nat []]; Rose 2%nat []].
Definition mk (l : str) : node := {| label := l; children := []; attrib := [(KStr (u "n"), VNum 1)]; parent := None |}.
Definition h00 : list node := [mk (u "a"); mk (u "b"); mk (u "c"); mk (u "d")].
Definition h0 : list node := add_child (add_child (add_child h00 0 1) 0 2) 1 3.
Example C55_case : built h0.
Proof.
  unfold h0; do 3 (apply Built_add; [|vm_compute; lia|vm_compute; lia|reflexivity|vm_compute; intuition discriminate]).
  change h00 with (((([] ++ [mk (u "a")]) ++ [mk (u "b")]) ++ [mk (u "c")]) ++ [mk (u "d")]); repeat apply Built_new; apply Built_nil.
Qed.
Ltac nodup := apply nodupb_NoDup; vm_compute; reflexivity.
Ltac tree := first [apply Forall_nil | apply Forall_cons; tree
  | apply Keyed; [vm_compute; lia|nodup|reflexivity|tree] | apply Linked; [reflexivity|nodup|reflexivity|tree]].
Example C57_case : keyed h0 t0.
Proof. unfold t0; tree. Qed.
Example C60_case : linked h0 None t0.
Proof. unfold t0; tree. Qed.
Example C54_case : tree_at h0 t0 /\ walk_preorder 20 h0 0 = Ok [0; 2; 1; 3]%nat /\ walk_postorder 20 h0 0 = Ok [2; 3; 1; 0]%nat /\
  walk_breadth_first (fun _ l => rev l) 20 h0 0 = Ok [0; 1; 2; 3]%nat.
Proof. split; [exact (keyed_tree h0 t0 C57_case)|vm_compute; repeat split; reflexivity]. Qed.
Example C60_case_path : branch t0 [0; 1; 3]%nat /\ path_from_root 9 h0 3 = Ok [0; 1; 3]%nat /\ get_path_text h0 0 (u "/b/d") = Ok 3%nat /\ get_path h0 0 [u "b"; u "x"] = Raise KeyError.
Proof.
  split; [|vm_compute; repeat split; reflexivity].
  apply (Branch_down 0%nat _ (Rose 1%nat [Rose 3%nat []])); [left; reflexivity|].
  apply (Branch_down 1%nat _ (Rose 3%nat [])); [left; reflexivity|apply (Branch_end (Rose 3%nat []))].
Qed.
Example C58_case :
  let named (l : str) (d : str * dict akey value) (_ : dict str addr) := eqb (fst d) l in
  (exists h', prune (fun h a => named (u "c") (details h a) (children (at_ h a))) 20 h0 0 = Ok (h', Some 4%nat) /\ walk_preorder 9 h' 4 = Ok [4; 6]%nat) /\
  (exists h', prune (fun h a => named (u "x") (details h a) (children (at_ h a))) 20 h0 0 = Ok (h', None)).
Proof. split; eexists; [split|]; vm_compute; reflexivity. Qed.
Example C62_case : let one (_ : str) (_ : dict akey value) (_ : nat) := 1 in
  cum one (rosemap (details h0) t0) = 3 /\ whole one (rosemap (details h0) t0) = 4 /\
  tree_dist (by_node (fun _ _ n => Z.of_nat n)) 9 (firstn 1 h00) 0 = Raise ZeroDivisionError.
Proof. vm_compute; repeat split; reflexivity. Qed.
(** taken out of its parent, 1 still has it as its parent; 3 is not a child of 0 *)
Example C56_case : (1 < length h0)%nat /\ parent (at_ h0 1) = Some 0%nat /\ children (at_ h0 0) = [(u "b", 1%nat); (u "c", 2%nat)] /\
  children (at_ (fst (del_child h0 0 1)) 0) = [(u "c", 2%nat)] /\ parent (at_ (fst (del_child h0 0 1)) 1) = Some 0%nat /\ del_child h0 0 3 = (h0, Raise KeyError).
Proof. vm_compute; repeat split; lia. Qed.
(** two nodes with the label d, one under b and one under the root: the nearer *)
Example C59_case : let h := add_child (h0 ++ [mk (u "d")]) 0 4 in let t := Rose 0%nat [Rose 1%nat [Rose 3%nat []]; Rose 2%nat []; Rose 4%nat []] in
  tree_at h t /\ find_node (fun _ l => rev l) 20 h 0 (u "d") = Ok 4%nat /\ find_node (fun _ l => l) 20 h0 0 (u "d") = Ok 3%nat /\
  find_node (fun _ l => l) 20 h 0 (u "x") = Raise KeyError.
Proof. cbv zeta; split; [apply keyed_tree; tree|vm_compute; repeat split]. Qed.
(** a node without such attributes, and one that looks like a sequence of three *)
Example C61_case : build_index (fun _ => Ok (u "l")) 20 h0 0 = Raise KeyError /\
  build_index (fun _ => Ok (u "l")) 20 [{| label := u "a"; children := []; attrib := [(KInt 0, VNum 1); (KInt 1, VNum 1); (KInt 2, VNum 1)]; parent := None |}] 0 = Raise ValueError.
Proof. vm_compute; repeat split. Qed.
