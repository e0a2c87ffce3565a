(* Layout_props.v -- C84, C85, C89 *)
From Verif Require Import Base PyText PyFmt Rose Maps_model Maps_proofs Tree_model Tree_spec Tree_proofs Layout_model Layout_spec Layout_proofs Show_proofs.

(** C84 *)
Theorem C84_drawing method h name t limit : tree_at h t -> (forall n, In n (nodes t) -> method h n = Ok (name n)) -> (height t <= limit)%nat ->
  layout method limit h (root t) = (draw (rosemap name t), Ok tt).
Proof. exact (layout_ok method h name t limit). Qed.
Print Assumptions C84_drawing.
Theorem C84_too_deep method h name t limit : tree_at h t -> (forall n, In n (nodes t) -> method h n = Ok (name n)) -> (limit < height t)%nat ->
  snd (layout method limit h (root t)) = Raise RecursionError.
Proof. exact (layout_deep method h name t limit). Qed.
Print Assumptions C84_too_deep.
(** one line for every node, parents before children, ending in the node's text *)
Theorem C84_lines t : Forall2 (fun line x => exists p, line = p ++ x) (draw t) (nodes t).
Proof. exact (draw_lines t). Qed.
Print Assumptions C84_lines.
(** the drawing determines the tree: labels, shape and order *)
Theorem C84_readable t t' : draw t = draw t' -> t = t'.
Proof. exact (draw_inj t t'). Qed.
Print Assumptions C84_readable.
Theorem C84_labels h h' t t' limit : tree_at h t -> tree_at h' t' -> (height t <= limit)%nat -> (height t' <= limit)%nat ->
  layout default_method limit h (root t) = layout default_method limit h' (root t') <->
  rosemap (fun n => label (at_ h n)) t = rosemap (fun n => label (at_ h' n)) t'.
Proof.
  intros T T' L L'; rewrite (layout_ok default_method h (fun n => label (at_ h n)) t), (layout_ok default_method h' (fun n => label (at_ h' n)) t') by (assumption || reflexivity).
  split; [intros E; injection E as E; apply draw_inj, E|intros ->; reflexivity].
Qed.
Print Assumptions C84_labels.
(** TreeDist.layout: every node is shown with its label and its frequency; a node without one stops the drawing *)
Theorem C84_frequencies fixed h t shown limit : tree_at h t ->
  (forall n, In n (nodes t) -> exists v, dget (KStr (u "freq")) (attrib (at_ h n)) = Some v /\ fixed v = Ok (shown n)) -> (height t <= limit)%nat ->
  dist_layout fixed limit h (root t) = (draw (rosemap (fun n => label (at_ h n) ++ u1 " " :: shown n) t), Ok tt).
Proof.
  intros T F L. apply (layout_ok _ h _ t limit T); [|exact L]. intros n I. destruct (F n I) as (v & D & X). unfold dgetitem. rewrite D. cbn [of_option bind]. rewrite X. reflexivity.
Qed.
Print Assumptions C84_frequencies.
Theorem C84_no_frequency fixed h n limit : dget (KStr (u "freq")) (attrib (at_ h n)) = None -> dist_layout fixed limit h n = ([], Raise KeyError).
Proof. intro D. unfold dist_layout, layout, print_node, dgetitem. rewrite D. reflexivity. Qed.
Print Assumptions C84_no_frequency.
Definition small : list node :=
  [{| label := u "root"; children := [(u "a", 1%nat); (u "b", 2%nat)]; attrib := []; parent := None |};
   {| label := u "a"; children := [(u "c", 3%nat)]; attrib := []; parent := Some 0%nat |};
   {| label := u "b"; children := []; attrib := []; parent := Some 0%nat |};
   {| label := u "c"; children := []; attrib := []; parent := Some 1%nat |}].
Example C84_case : layout default_method 3 small 0 = ([u "root"; u "├─ a"; u "│  └─ c"; u "└─ b"], Ok tt) /\
  tree_at small (Rose 0%nat [Rose 1%nat [Rose 3%nat []]; Rose 2%nat []]) /\ height (Rose 0%nat [Rose 1%nat [Rose 3%nat []]; Rose 2%nat []]) = 3%nat.
Proof. split; [vm_compute; reflexivity|split; [|reflexivity]]; repeat (constructor; try reflexivity). Qed.
Example C84_dist : dist_layout (fun v => match v with VQuot a b => Ok (dec a ++ u "/" ++ dec b) | _ => Raise TypeError end) 2
    [{| label := u "r"; children := [(u "k", 1%nat)]; attrib := [(KStr (u "freq"), VQuot 1 1)]; parent := None |};
     {| label := u "k"; children := []; attrib := []; parent := Some 0%nat |}] 0 = ([u "r 1/1"], Raise KeyError).
Proof. vm_compute; reflexivity. Qed.

(** C85: they never return *)
Theorem C85_combine_refuted : forall l r f name, combine l r f name = Raise AttributeError.
Proof. reflexivity. Qed.
Print Assumptions C85_combine_refuted.
(** calls: as many positional arguments as there are parameters at most, and keywords only for the others *)
Theorem C85_arguments params positional keywords :
  (bind_args params positional keywords = Ok tt <->
   (positional <= length params)%nat /\ forall k, In k keywords -> exists i, (positional <= i)%nat /\ nth_error params i = Some k) /\
  (bind_args params positional keywords <> Ok tt -> bind_args params positional keywords = Raise TypeError).
Proof.
  unfold bind_args. destruct (Nat.ltb_spec (length params) positional) as [L|L]; [split; [split; [discriminate | intros [X _]; lia] | reflexivity]|].
  destruct (forallb _ _) eqn:F; (split; [|reflexivity || (intro X; elim X; reflexivity)]).
  - split; [|reflexivity]. intros _. split; [exact L|]. intros k I. rewrite forallb_forall in F. apply F in I. apply mem_In in I.
    apply In_nth_error in I. destruct I as [i I]. exists (positional + i)%nat. split; [lia|]. rewrite <- I.
    rewrite <- (firstn_skipn positional params) at 1. rewrite nth_error_app2; rewrite firstn_length_le by exact L; [f_equal; lia | lia].
  - split; [discriminate|]. intros [_ H]. exfalso. apply Bool.diff_true_false. rewrite <- F. symmetry. apply forallb_forall. intros k I. apply mem_In. destruct (H k I) as (i & G & N).
    apply (nth_error_In _ (i - positional)). rewrite <- N. rewrite <- (firstn_skipn positional params) at 2.
    rewrite nth_error_app2; rewrite firstn_length_le by exact L; [reflexivity | lia].
Qed.
Print Assumptions C85_arguments.
Theorem C85_union_refuted : forall limit l r, (exists e, union limit l r = Raise e) /\ (exists e, diff limit l r = Raise e).
Proof. intros limit l r; split; [destruct (union_raises limit l r) as [e [E _]]|]; eexists; [exact E|reflexivity]. Qed.
(** which error: the two keywords are not parameters, unless the stack is full *)
Theorem C85_errors : forall limit l r, union (S limit) l r = Raise TypeError /\ diff limit l r = Raise TypeError /\ union 0 l r = Raise RecursionError.
Proof. repeat split. Qed.
Print Assumptions C85_errors.
Print Assumptions C85_union_refuted.

(** C89: attributes through the node *)
Theorem C89_set h n k v : (n < length h)%nat -> let h' := node_setitem h n k v in
  length h' = length h /\ (forall m, m <> n -> at_ h' m = at_ h m) /\
  label (at_ h' n) = label (at_ h n) /\ children (at_ h' n) = children (at_ h n) /\ parent (at_ h' n) = parent (at_ h n) /\
  node_getitem h' n k = Ok v /\ node_contains h' n k = true /\
  (forall j, j <> k -> node_getitem h' n j = node_getitem h n j /\ node_contains h' n j = node_contains h n j).
Proof.
  intros L; cbv zeta; unfold node_setitem, node_getitem, node_contains, dgetitem.
  split; [apply length_put|split; [intros m N; apply at_put_other; auto|]]; rewrite at_put_same by exact L; cbn [label children parent set_attrib attrib].
  repeat split; try (rewrite dget_dset_same; reflexivity).
  - apply dmem_In, In_key_dget; eexists; apply dget_dset_same.
  - rewrite dget_dset_other by congruence; reflexivity.
  - unfold dmem; rewrite dget_dset_other by congruence; reflexivity.
Qed.
Print Assumptions C89_set.
Theorem C89_contains h n k : node_contains h n k = true <-> exists v, node_getitem h n k = Ok v.
Proof.
  unfold node_contains, node_getitem, dgetitem, dmem; destruct (dget k _) as [v|]; cbn [of_option]; split; try discriminate; eauto.
  intros [v X]; discriminate.
Qed.
Print Assumptions C89_contains.
Theorem C89_delete h n k : (n < length h)%nat -> NoDup (dkeys (attrib (at_ h n))) ->
  if node_contains h n k
  then exists h', node_delitem h n k = (h', Ok tt) /\ node_contains h' n k = false /\ (forall m, m <> n -> at_ h' m = at_ h m) /\
       children (at_ h' n) = children (at_ h n) /\ (forall j, j <> k -> node_getitem h' n j = node_getitem h n j)
  else node_delitem h n k = (h, Raise KeyError).
Proof.
  intros L ND; unfold node_contains, node_delitem, node_getitem, dgetitem, dmem; destruct (dget k (attrib (at_ h n))) as [v|] eqn:G; [|reflexivity].
  eexists; split; [reflexivity|]; rewrite at_put_same by exact L; cbn [attrib set_attrib children].
  split; [rewrite dget_ddel, eqb_refl by exact ND; reflexivity|split; [intros m N; apply at_put_other; auto|split; [reflexivity|]]].
  intros j N; rewrite dget_ddel, (eqb_neq _ _ N) by exact ND; reflexivity.
Qed.
Print Assumptions C89_delete.
Theorem C89_shown n m : node_str n = node_str m -> label n = label m /\ length (children n) = length (children m).
Proof.
  unfold node_str; intros E; apply shown_count in E; [|exists [32], 40; split; [reflexivity|not_numeral]]; destruct E as [E F]; split; [exact E|lia].
Qed.
Print Assumptions C89_shown.
Example C89_case : let h := node_setitem small 1 (KStr (u "x")) (VNum 3) in
  node_getitem h 1 (KStr (u "x")) = Ok (VNum 3) /\ node_contains h 2 (KStr (u "x")) = false /\ node_delitem h 2 (KStr (u "x")) = (h, Raise KeyError) /\
  node_contains (fst (node_delitem h 1 (KStr (u "x")))) 1 (KStr (u "x")) = false /\ node_str (at_ small 0) = u "<TreeNode: root (2 children)>".
Proof. cbv zeta; repeat split; vm_compute; reflexivity. Qed.
