(* Share_props.v -- property C114 *)
From Verif Require Import Base PyText Rose Maps_model Tree_model Tree_spec Layout_model TreeFrame_spec Share_model Share_spec Share_proofs Share2_proofs.

(** ** C114.  Nodes refer to dictionaries, and the caller may hand one in. *)
(** a program that hands in no dictionary of its own keeps every node's
    dictionaries apart, and sees what Tree_model.v says: there, nodes contain
    their dictionaries *)
Theorem C114_program : forall ops w, sound w -> owned w ->
  sound (s_program w ops) /\ owned (s_program w ops) /\ view (s_program w ops) = program (view w) ops.
Proof. exact s_program_ok. Qed.
Print Assumptions C114_program.
(** the constructor: what the new node shows, and what the older ones show *)
Theorem C114_new : forall w l c a p w' n, sound w -> make w l c a p = (w', n) ->
  sound w' /\ n = length (objs w) /\
  view w' = view w ++ [{| label := l; children := match c with Some d => kid_dict w d | None => [] end;
                          attrib := match a with Some d => att_dict w d | None => [] end; parent := p |}].
Proof. intros w l c a p w' n S0 E. destruct (make_ok _ _ _ _ _ _ _ S0 E) as (A & B & C & _). auto. Qed.
Print Assumptions C114_new.
(** it keeps a dictionary it is given when that is not empty, and makes a new one
    otherwise *)
Theorem C114_keeps : forall w l c a p w' n, sound w -> make w l c a p = (w', n) ->
  (forall d, c = Some d -> kid_dict w d <> [] -> holds_kids w' n d) /\
  (forall d, a = Some d -> att_dict w d <> [] -> holds_atts w' n d) /\
  (match c with Some d => kid_dict w d = [] | None => True end -> holds_kids w' n (length (kid_dicts w))) /\
  (match a with Some d => att_dict w d = [] | None => True end -> holds_atts w' n (length (att_dicts w))) /\
  (forall b d, (b < length (objs w))%nat -> holds_kids w' b d <-> holds_kids w b d) /\
  (forall b d, (b < length (objs w))%nat -> holds_atts w' b d <-> holds_atts w b d).
Proof.
  intros w l c a p w' n S0 E. destruct (make_holds _ _ _ _ _ _ _ S0 E) as (A & B & C & D & F & G).
  split; [exact A|]. split; [exact B|]. split; [destruct c; [exact C | intros _; apply C; reflexivity]|].
  split; [destruct a; [exact D | intros _; apply D; reflexivity]|]. auto.
Qed.
Print Assumptions C114_keeps.
(** so an assignment to that dictionary shows in the node only if something was in
    it when the node was made *)
Theorem C114_assigned_later : forall w d l a p w' n x, sound w -> (d < length (kid_dicts w))%nat -> make w l (Some d) a p = (w', n) ->
  children (seen (put_kids w' d x) n) = match kid_dict w d with [] => [] | _ => x end.
Proof. exact kept_dict. Qed.
Print Assumptions C114_assigned_later.
(** a change to a dictionary, by the caller, shows in exactly the nodes that hold it *)
Theorem C114_assigned : forall w d x b, sound w -> (d < length (kid_dicts w))%nat ->
  (holds_kids w b d -> seen (put_kids w d x) b = set_children (seen w b) x) /\ (~ holds_kids w b d -> seen (put_kids w d x) b = seen w b).
Proof. exact put_kids_exact. Qed.
Print Assumptions C114_assigned.
Theorem C114_assigned_attrib : forall w d x b, sound w -> (d < length (att_dicts w))%nat ->
  (holds_atts w b d -> seen (put_atts w d x) b = set_attrib (seen w b) x) /\ (~ holds_atts w b d -> seen (put_atts w d x) b = seen w b).
Proof. exact put_atts_exact. Qed.
Print Assumptions C114_assigned_attrib.
(** a change by a method shows in exactly the nodes that share the dictionary *)
Theorem C114_add_child : forall w p c b, sound w -> (p < length (objs w))%nat -> (c < length (objs w))%nat ->
  let w' := s_add_child w p c in
  label (seen w' b) = label (seen w b) /\ attrib (seen w' b) = attrib (seen w b) /\
  (share_kids w p b -> children (seen w' b) = dset (label (seen w c)) c (children (seen w p))) /\
  (~ share_kids w p b -> children (seen w' b) = children (seen w b)) /\
  parent (seen w' b) = if Nat.eqb c b then Some p else parent (seen w b).
Proof. exact add_child_exact. Qed.
Print Assumptions C114_add_child.
Theorem C114_setitem : forall w a k v b, sound w ->
  (share_atts w a b -> seen (s_setitem w a k v) b = set_attrib (seen w b) (dset k v (attrib (seen w a)))) /\
  (~ share_atts w a b -> seen (s_setitem w a k v) b = seen w b).
Proof. intros w a k v b S0. exact (with_atts_exact w a (dset k v (attrib (seen w a))) b S0). Qed.
Print Assumptions C114_setitem.
(** copies, pruned copies and distributions are right whatever the original
    shares: they change no dictionary of it and share nothing themselves *)
Theorem C114_copy : forall fuel w self, sound w ->
  match s_copy fuel w self with
  | Ok (w', r) => copy fuel (view w) self = Ok (view w', r) /\ sound w' /\ leaves w w'
  | Raise e => copy fuel (view w) self = Raise e
  end.
Proof. exact copy_shared. Qed.
Print Assumptions C114_copy.
Theorem C114_prune : forall predicate fuel w self, sound w -> dicts w ->
  match s_prune predicate fuel w self with
  | Ok (w', r) => prune predicate fuel (view w) self = Ok (view w', r) /\ sound w' /\ leaves w w'
  | Raise e => prune predicate fuel (view w) self = Raise e
  end.
Proof. exact prune_shared. Qed.
Print Assumptions C114_prune.
Theorem C114_dist : forall cm fuel w self, sound w -> dicts w ->
  match s_tree_dist cm fuel w self with
  | Ok (w', r) => tree_dist cm fuel (view w) self = Ok (view w', r) /\ sound w' /\ leaves w w'
  | Raise e => tree_dist cm fuel (view w) self = Raise e
  end.
Proof. exact tree_dist_shared. Qed.
Print Assumptions C114_dist.
(** "upwards to a unique parent": two nodes given the same dictionary both get a
    child that is added to one of them *)
Theorem C114_unique_parent_refuted : forall w d l1 a1 p1 w1 x l2 a2 p2 w2 y c, sound w -> kid_dict w d <> [] -> (c < length (objs w))%nat ->
  make w l1 (Some d) a1 p1 = (w1, x) -> make w1 l2 (Some d) a2 p2 = (w2, y) ->
  x <> y /\ dget (label (seen w c)) (children (seen (s_add_child w2 x c) y)) = Some c /\ parent (seen (s_add_child w2 x c) c) = Some x.
Proof. exact two_parents. Qed.
Print Assumptions C114_unique_parent_refuted.
(** "links ... upwards": the constructor does not tell the children it is given
    about their parent, and unlinking one of them does nothing *)
Theorem C114_given_children_refuted : forall w d l a p w' n k c, sound w -> make w l (Some d) a p = (w', n) -> In (k, c) (kid_dict w d) ->
  (c < length (objs w))%nat -> parent (seen w c) = None ->
  In (k, c) (children (seen w' n)) /\ parent (seen w' c) = None /\
  exists w'', s_unlink w' c = (w'', Ok tt) /\ In (k, c) (children (seen w'' n)).
Proof. exact given_children. Qed.
Print Assumptions C114_given_children_refuted.

(** a dictionary with node b in it is given to x and y; c is added to x *)
Definition world0 : world := s_program nothing [New (u "b") []; New (u "c") [(KStr (u "n"), VNum 1)]].
Example C114_start : sound nothing /\ owned nothing.
Proof. split; [intros a n; destruct a; discriminate | intros a b n m _ _; destruct a; discriminate]. Qed.
Example C114_world0 : sound world0 /\ owned world0 /\ length (objs world0) = 2%nat.
Proof. destruct C114_start as [A B]. destruct (C114_program [New (u "b") []; New (u "c") [(KStr (u "n"), VNum 1)]] nothing A B) as (C & D & _). auto. Qed.
Definition world1 : world * addr := new_kids world0 [(u "b", 0%nat)].
Definition world2 : world * addr := make (fst world1) (u "x") (Some (snd world1)) None None.
Definition world3 : world * addr := make (fst world2) (u "y") (Some (snd world1)) None None.
Example C114_case : snd world2 = 2%nat /\ snd world3 = 3%nat /\
  children (seen (s_add_child (fst world3) 2 1) 3) = [(u "b", 0%nat); (u "c", 1%nat)] /\
  parent (seen (s_add_child (fst world3) 2 1) 1) = Some 2%nat /\
  walk_preorder 9 (view (s_add_child (fst world3) 2 1)) 3 = Ok [3; 1; 0]%nat /\
  path_from_root 9 (view (s_add_child (fst world3) 2 1)) 1 = Ok [2; 1]%nat.
Proof. vm_compute. repeat split; reflexivity. Qed.
Example C114_copy_case : exists w' r, s_copy 9 (s_add_child (fst world3) 2 1) 3 = Ok (w', r) /\ length (objs w') = 7%nat /\
  s_children (nth 4 (objs w') {| s_label := []; s_children := 0; s_attrib := 0; s_parent := None |}) <>
  s_children (nth 3 (objs w') {| s_label := []; s_children := 0; s_attrib := 0; s_parent := None |}).
Proof. eexists _, _. split; [vm_compute; reflexivity|]. split; [reflexivity | vm_compute; discriminate]. Qed.
Example C114_prune_case : exists w', s_prune (fun h a => eqb (label (at_ h a)) (u "c")) 20 (s_add_child (fst world3) 2 1) 3 = Ok (w', Some 4%nat) /\
  children (seen w' 4) = [(u "c", 6%nat)] /\ children (seen w' 3) = [(u "b", 0%nat); (u "c", 1%nat)].
Proof. eexists. split; [vm_compute; reflexivity|]. vm_compute. split; reflexivity. Qed.
Example C114_case_dicts : dicts (s_add_child (fst world3) 2 1).
Proof.
  assert (F : Forall (fun d => NoDup (dkeys d)) (kid_dicts (s_add_child (fst world3) 2 1))).
  { vm_compute; repeat constructor; cbn [In]; intuition discriminate. }
  intros d; unfold kid_dict, fetch; destruct (nth_in_or_default d (kid_dicts (s_add_child (fst world3) 2 1)) []) as [I|E]; [|rewrite E; constructor].
  exact (proj1 (Forall_forall _ _) F _ I).
Qed.
