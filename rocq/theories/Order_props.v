(* Order_props.v -- C137: dictionaries that are equal but list their entries in
   different orders (as they do in Python 2, or when filled in another order). *)
From Verif Require Import Base Tatoeba_model Rose Maps_model Maps_spec Tree_model Tree_spec Tree_proofs TreeEq_spec Order_spec Order_proofs.
From Coq Require Import Permutation.

(** what [equal_dicts] means: the same entries in some order *)
Theorem C137_equal_is_reordered {K V} `{EqB K} (d e : dict K V) : NoDup (dkeys d) -> (equal_dicts d e <-> Permutation d e).
Proof. exact (fun N => conj (equal_perm d e) (perm_equal d e N)). Qed.
Print Assumptions C137_equal_is_reordered.

(** ** maps.py *)
Theorem C137_is_injective {K V} `{EqB K} `{EqB V} (d e : dict K V) : equal_dicts d e -> is_injective d = is_injective e.
Proof. exact (is_injective_order d e). Qed.
Print Assumptions C137_is_injective.
Theorem C137_invert_injective {K V} `{EqB K} `{EqB V} (d e : dict K V) : equal_dicts d e ->
  both equal_dicts (invert_injective_mapping d) (invert_injective_mapping e).
Proof. exact (invert_injective_order d e). Qed.
Print Assumptions C137_invert_injective.
(** the lists of an inverted map hold the same keys, as often *)
Theorem C137_invert {K V} `{EqB K} `{EqB V} (d e : dict K (list V)) : equal_dicts d e ->
  keyed_alike (@Permutation K) (invert_mapping d) (invert_mapping e).
Proof. exact (invert_order d e). Qed.
Print Assumptions C137_invert.
(** but in another order: equal dictionaries have inverses that are not equal *)
Theorem C137_invert_refuted : exists d e : dict Z (list Z), equal_dicts d e /\ ~ dict_eq (invert_mapping d) (invert_mapping e).
Proof.
  exists [(1, [5]); (2, [5])], [(2, [5]); (1, [5])]; split.
  - apply perm_equal; [apply nodupb_NoDup; reflexivity|apply perm_swap].
  - intros E; specialize (E 5); vm_compute in E; discriminate E.
Qed.
Print Assumptions C137_invert_refuted.
Theorem C137_multi_dict {K V} `{EqB K} (l m : list (K * V)) : Permutation l m ->
  keyed_alike (@Permutation V) (multi_dict l) (multi_dict m).
Proof. exact (multi_order l m). Qed.
Print Assumptions C137_multi_dict.
(** the arguments, too, may come in any order *)
Theorem C137_merge_dicts {K V} `{EqB K} `{EqB V} (heap : list (list V)) (args args' : list (dict K addr)) :
  Forall (fun d => Forall (fun it => (snd it < length heap)%nat) d) args -> permuted equal_dicts args args' ->
  let '(hp, un) := merge_dicts heap args in let '(hp', un') := merge_dicts heap args' in
  keyed_alike (fun r r' => forall x, In x (fetch [] hp r) <-> In x (fetch [] hp' r')) un un'.
Proof. exact (merge_order heap args args'). Qed.
Print Assumptions C137_merge_dicts.
Theorem C137_map_dict {K W} `{EqB K} (f : W -> res W) (st sv : list (dict K W)) a b ip ip' :
  (a < length st)%nat -> (b < length sv)%nat -> equal_dicts (fetch [] st a) (fetch [] sv b) ->
  let '(_, st', r) := map_dict (fun (s : unit) v => (s, f v)) tt st a ip in
  let '(_, sv', r') := map_dict (fun (s : unit) v => (s, f v)) tt sv b ip' in
  both_or_neither (fun x y => equal_dicts (fetch [] st' x) (fetch [] sv' y)) r r'.
Proof. exact (map_dict_order f st sv a b ip ip'). Qed.
Print Assumptions C137_map_dict.
(** which exception is raised, and what has been changed by then, depends on the order *)
Theorem C137_map_dict_refuted : exists (f : Z -> res Z) (d e : dict Z Z) st' sv' x y, equal_dicts d e /\
  map_dict (fun (s : unit) v => (s, f v)) tt [d] 0%nat true = (tt, [st'], Raise x) /\
  map_dict (fun (s : unit) v => (s, f v)) tt [e] 0%nat true = (tt, [sv'], Raise y) /\ x <> y /\ ~ dict_eq st' sv'.
Proof.
  exists (fun v => if v =? 0 then Raise KeyError else if v =? 1 then Raise ValueError else Ok (v * 2)),
    [(1, 5); (2, 0); (3, 1)], [(3, 1); (2, 0); (1, 5)], [(1, 10); (2, 0); (3, 1)], [(3, 1); (2, 0); (1, 5)], KeyError, ValueError.
  split; [apply perm_equal; [apply nodupb_NoDup; reflexivity|apply (Permutation_rev [(1, 5); (2, 0); (3, 1)])]|].
  split; [reflexivity|split; [reflexivity|split; [discriminate|]]]; intros E; specialize (E 1); discriminate E.
Qed.
Print Assumptions C137_map_dict_refuted.
Theorem C137_chain_mapping {V} `{EqB V} (st sv : list (dict V V)) a0 rest b0 rest' :
  Forall (fun a => (a < length st)%nat) (a0 :: rest) -> Forall (fun a => (a < length sv)%nat) (b0 :: rest') ->
  equal_dicts (fetch [] st a0) (fetch [] sv b0) -> Forall2 (fun a b => dict_eq (fetch [] st a) (fetch [] sv b)) rest rest' ->
  let '(st', r) := chain_mapping st (a0 :: rest) in let '(sv', r') := chain_mapping sv (b0 :: rest') in
  both (fun x y => equal_dicts (fetch [] st' x) (fetch [] sv' y)) r r'.
Proof. exact (chain_order st sv a0 rest b0 rest'). Qed.
Print Assumptions C137_chain_mapping.

(** ** tree.py.  [t] in [h] and [t'] in [h'] are the same tree up to the order
    of children and of attributes; [sh] and [sh'] are any shuffles. *)
Theorem C137_walks h t h' t' : rsame same_details (rosemap (details h) t) (rosemap (details h') t') -> forall fuel fuel' sh sh',
  (forall n l, Permutation l (sh n l)) -> (forall n l, Permutation l (sh' n l)) ->
  tree_at h t -> tree_at h' t' -> (2 * rsize t < fuel)%nat -> (2 * rsize t < fuel')%nat ->
  let alike_nodes := permuted (fun a b => same_details (details h a) (details h' b)) in
  both alike_nodes (walk_preorder fuel h (root t)) (walk_preorder fuel' h' (root t')) /\
  both alike_nodes (walk_postorder fuel h (root t)) (walk_postorder fuel' h' (root t')) /\
  both alike_nodes (walk_breadth_first sh fuel h (root t)) (walk_breadth_first sh' fuel' h' (root t')).
Proof. exact (walks_order h t h' t'). Qed.
Print Assumptions C137_walks.
(** find_node: found in both, at the same depth, or in neither *)
Theorem C137_find_node h t h' t' : rsame same_details (rosemap (details h) t) (rosemap (details h') t') -> forall l fuel fuel' sh sh',
  (forall n q, Permutation q (sh n q)) -> (forall n q, Permutation q (sh' n q)) ->
  tree_at h t -> tree_at h' t' -> (rsize t < fuel)%nat -> (rsize t < fuel')%nat ->
  both (fun a b => label (at_ h a) = l /\ label (at_ h' b) = l /\ exists d, reach h (root t) d a /\ reach h' (root t') d b)
    (find_node sh fuel h (root t) l) (find_node sh' fuel' h' (root t') l).
Proof. exact (find_order h t h' t'). Qed.
Print Assumptions C137_find_node.
Theorem C137_copy h t h' t' : rsame same_details (rosemap (details h) t) (rosemap (details h') t') -> forall fuel fuel',
  keyed h t -> keyed h' t' -> truth_opt h (parent (at_ h (root t))) = false -> truth_opt h' (parent (at_ h' (root t'))) = false ->
  (rsize t < fuel)%nat -> (rsize t < fuel')%nat ->
  both (fun r r' => exists u u', root u = snd r /\ root u' = snd r' /\ linked (fst r) None u /\ linked (fst r') None u' /\
          rsame same_details (rosemap (details (fst r)) u) (rosemap (details (fst r')) u'))
    (copy fuel h (root t)) (copy fuel' h' (root t')).
Proof. exact (copy_order h t h' t'). Qed.
Print Assumptions C137_copy.
(** prune, for predicates that do not look at the order of the attributes *)
Theorem C137_prune h t h' t' : rsame same_details (rosemap (details h) t) (rosemap (details h') t') ->
  forall (pred : str * dict akey value -> dict str addr -> bool) fuel fuel', (forall x y c, same_details x y -> pred x c = pred y c) ->
  keyed h t -> keyed h' t' -> truth_opt h (parent (at_ h (root t))) = false -> truth_opt h' (parent (at_ h' (root t'))) = false ->
  (2 * rsize t < fuel)%nat -> (2 * rsize t < fuel')%nat ->
  both (fun r r' => match snd r, snd r' with
                    | None, None => True
                    | Some a, Some b => exists u u', root u = a /\ root u' = b /\ linked (fst r) None u /\ linked (fst r') None u' /\
                        rsame same_details (rosemap (details (fst r)) u) (rosemap (details (fst r')) u')
                    | _, _ => False
                    end)
    (prune (fun h a => pred (details h a) (children (at_ h a))) fuel h (root t))
    (prune (fun h a => pred (details h a) (children (at_ h a))) fuel' h' (root t')).
Proof. exact (prune_order h t h' t'). Qed.
Print Assumptions C137_prune.
(** TreeDist, for counts that do not depend on the order of the attributes *)
Theorem C137_tree_dist cm : (forall l d e n, dict_eq d e -> cm l d n = cm l e n) -> forall h t fuel h' t' fuel',
  keyed h t -> keyed h' t' -> truth_opt h (parent (at_ h (root t))) = false -> truth_opt h' (parent (at_ h' (root t'))) = false ->
  (2 * rsize t < fuel)%nat -> (2 * rsize t' < fuel')%nat ->
  rsame same_details (rosemap (details h) t) (rosemap (details h') t') ->
  both (fun r r' => exists u u', root u = snd r /\ root u' = snd r' /\ linked (fst r) None u /\ linked (fst r') None u' /\
          rsame same_details (rosemap (details (fst r)) u) (rosemap (details (fst r')) u'))
    (tree_dist (fun n => Ok (cm (label n) (attrib n) (length (children n)))) fuel h (root t))
    (tree_dist (fun n => Ok (cm (label n) (attrib n) (length (children n)))) fuel' h' (root t')).
Proof. exact (tree_dist_order cm). Qed.
Print Assumptions C137_tree_dist.
(** and == tells such trees to be equal *)
Theorem C137_equal_trees veq h t t' fuel : (forall v, veq v v = true) -> keyed h t -> keyed h t' ->
  (forall a, In a (nodes t) \/ In a (nodes t') -> NoDup (dkeys (attrib (at_ h a)))) -> (rsize t < fuel)%nat ->
  rsame same_details (rosemap (details h) t) (rosemap (details h) t') -> node_eq veq fuel h (root t) (root t') = Ok true.
Proof. exact (node_eq_order veq h t t' fuel). Qed.
Print Assumptions C137_equal_trees.

(** two orders of one tree: a - (b - (d: 1), c - (d: 2)) *)
Definition nd (l : str) (n : Z) (ks : dict str addr) (p : option addr) : node :=
  {| label := l; children := ks; attrib := [(KStr (u "n"), VNum n)]; parent := p |}.
Definition both_orders : list node :=
  [nd (u "a") 0 [(u "b", 1%nat); (u "c", 2%nat)] None; nd (u "b") 0 [(u "d", 3%nat)] (Some 0%nat); nd (u "c") 0 [(u "d", 4%nat)] (Some 0%nat);
   nd (u "d") 1 [] (Some 1%nat); nd (u "d") 2 [] (Some 2%nat);
   nd (u "a") 0 [(u "c", 7%nat); (u "b", 6%nat)] None; nd (u "b") 0 [(u "d", 8%nat)] (Some 5%nat); nd (u "c") 0 [(u "d", 9%nat)] (Some 5%nat);
   nd (u "d") 1 [] (Some 6%nat); nd (u "d") 2 [] (Some 7%nat)].
Definition t1 : rose addr := Rose 0%nat [Rose 1%nat [Rose 3%nat []]; Rose 2%nat [Rose 4%nat []]].
Definition t2 : rose addr := Rose 5%nat [Rose 7%nat [Rose 9%nat []]; Rose 6%nat [Rose 8%nat []]].
Lemma both_orders_same : rsame same_details (rosemap (details both_orders) t1) (rosemap (details both_orders) t2).
Proof.
  assert (Q : forall x, same_details x x) by (intros x; split; [reflexivity|intros k; reflexivity]).
  assert (R0 : forall x, rsame same_details (Rose x []) (Rose x [])) by (intros x; apply RSame with (js' := []); [apply Q|constructor|constructor]).
  assert (R1 : forall x y, rsame same_details (Rose x [Rose y []]) (Rose x [Rose y []]))
    by (intros x y; apply RSame with (js' := [Rose y []]); [apply Q|apply Permutation_refl|repeat constructor; apply R0]).
  unfold t1, t2; cbn [rosemap map]; eapply RSame; [apply Q|apply perm_swap|].
  constructor; [apply R1|constructor; [apply R1|constructor]].
Qed.
Lemma both_orders_keyed : keyed both_orders t1 /\ keyed both_orders t2.
Proof.
  split; unfold t1, t2; repeat match goal with
    | |- keyed _ _ => apply Keyed; [vm_compute; lia|apply nodupb_NoDup; reflexivity|reflexivity|]
    | |- Forall _ _ => constructor
    end.
Qed.
Example C137_case_premises :
  rsame same_details (rosemap (details both_orders) t1) (rosemap (details both_orders) t2) /\ keyed both_orders t1 /\ keyed both_orders t2 /\
  truth_opt both_orders (parent (at_ both_orders (root t1))) = false /\ truth_opt both_orders (parent (at_ both_orders (root t2))) = false.
Proof. split; [exact both_orders_same|destruct both_orders_keyed as [A B]; split; [exact A|split; [exact B|split; reflexivity]]]. Qed.
(** the node that find_node returns can differ in equal trees, with no shuffling at all *)
Theorem C137_found_refuted : exists h t t' a b, rsame same_details (rosemap (details h) t) (rosemap (details h) t') /\ keyed h t /\ keyed h t' /\
  node_eq value_eqb 20 h (root t) (root t') = Ok true /\
  find_node (fun _ l => l) 20 h (root t) (u "d") = Ok a /\ find_node (fun _ l => l) 20 h (root t') (u "d") = Ok b /\
  ~ same_details (details h a) (details h b).
Proof.
  exists both_orders, t1, t2, 3%nat, 9%nat; split; [exact both_orders_same|destruct both_orders_keyed as [A B]; split; [exact A|split; [exact B|]]].
  split; [vm_compute; reflexivity|split; [vm_compute; reflexivity|split; [vm_compute; reflexivity|]]].
  intros [_ E]; specialize (E (KStr (u "n"))); vm_compute in E; discriminate E.
Qed.
Print Assumptions C137_found_refuted.
Example C137_case_trees :
  walk_preorder 20 both_orders 0%nat = Ok [0; 2; 4; 1; 3]%nat /\ walk_preorder 20 both_orders 5%nat = Ok [5; 6; 8; 7; 9]%nat /\
  rmap snd (tree_dist (fun n => Ok (Z.of_nat (length (children n)))) 20 both_orders 0%nat) = Ok 10%nat.
Proof. vm_compute; repeat split. Qed.

(** ** tatoeba.py: language(i) searches a dictionary from languages to sets of ids *)
Theorem C137_language i (d e : dict str (list Z)) :
  permuted (fun p q => fst p = fst q /\ forall i, In i (snd p) <-> In i (snd q)) d e ->
  both (fun l m => (exists s, In (l, s) d /\ In i s) /\ (exists s, In (m, s) d /\ In i s)) (find_lang i d) (find_lang i e).
Proof. exact (find_lang_order i d e). Qed.
Print Assumptions C137_language.
Theorem C137_one_language i (d e : dict str (list Z)) :
  permuted (fun p q => fst p = fst q /\ forall i, In i (snd p) <-> In i (snd q)) d e ->
  (forall l s m s', In (l, s) d -> In (m, s') d -> In i s -> In i s' -> l = m) -> find_lang i d = find_lang i e.
Proof. exact (find_lang_order_one i d e). Qed.
Print Assumptions C137_one_language.
(** an id listed under two languages has a language that depends on the order *)
Theorem C137_language_refuted : exists i (d e : dict str (list Z)) l m, equal_dicts d e /\ find_lang i d = Ok l /\ find_lang i e = Ok m /\ l <> m.
Proof.
  exists 1, [(u "jpn", [1; 2]); (u "eng", [3; 1])], [(u "eng", [3; 1]); (u "jpn", [1; 2])], (u "jpn"), (u "eng"); split.
  - apply perm_equal; [apply nodupb_NoDup; reflexivity|apply perm_swap].
  - split; [reflexivity|split; [reflexivity|discriminate]].
Qed.
Print Assumptions C137_language_refuted.

Example C137_case_maps :
  let d := [(1, 5); (2, 6)] in let e := [(2, 6); (1, 5)] in
  equal_dicts d e /\ invert_injective_mapping d = Ok [(5, 1); (6, 2)] /\ invert_injective_mapping e = Ok [(6, 2); (5, 1)] /\
  chain_mapping [d; [(5, 7); (6, 8)]] [0; 1]%nat = ([d; [(5, 7); (6, 8)]; [(1, 7); (2, 8)]], Ok 2%nat) /\
  chain_mapping [e; [(6, 8); (5, 7)]] [0; 1]%nat = ([e; [(6, 8); (5, 7)]; [(2, 8); (1, 7)]], Ok 2%nat).
Proof. split; [apply perm_equal; [apply nodupb_NoDup; reflexivity|apply perm_swap]|vm_compute; repeat split]. Qed.
Example C137_case_merge :
  permuted equal_dicts [[(1, 0%nat); (2, 1%nat)]; [(2, 0%nat)]] [[(2, 0%nat)]; [(2, 1%nat); (1, 0%nat)]] /\
  merge_dicts [[7; 8]; [9]] [[(1, 0%nat); (2, 1%nat)]; [(2, 0%nat)]] = ([[7; 8]; [9]; [7; 8]; [9; 7; 8]], [(1, 2%nat); (2, 3%nat)]) /\
  merge_dicts [[7; 8]; [9]] [[(2, 0%nat)]; [(2, 1%nat); (1, 0%nat)]] = ([[7; 8]; [9]; [7; 8; 9]; [7; 8]], [(2, 2%nat); (1, 3%nat)]).
Proof.
  split; [|vm_compute; repeat split].
  eexists; split; [apply perm_swap|]; constructor; [|constructor; [|constructor]]; apply perm_equal;
    try (apply nodupb_NoDup; reflexivity); [apply perm_swap|apply Permutation_refl].
Qed.
