(* TreeFrame_props.v -- property C98 *)
From Verif Require Import Base PyText Rose Maps_model Tree_model Tree_spec Tree_proofs Layout_model TreeFrame_spec TreeFrame_proofs.

(** ** C98.  A tree and its copy do not influence each other, whatever a program
    does next.  Nodes made after the copy are numbered from [length h'] on. *)
(** a program that works on the copy (and on nodes it makes) leaves every older
    node as it was before copying *)
Theorem C98_original_kept : forall fuel h self h' r ops, copy fuel h self = Ok (h', r) ->
  works_on (fun a => (length h <= a)%nat) ops -> forall a, (a < length h)%nat -> at_ (program h' ops) a = at_ h a.
Proof. exact original_kept. Qed.
Print Assumptions C98_original_kept.
(** a program that works on older nodes (and on nodes it makes) leaves the copy
    as it was made *)
Theorem C98_copy_kept : forall fuel h self h' r ops, parents_exist h -> copy fuel h self = Ok (h', r) ->
  works_on (fun a => (a < length h)%nat \/ (length h' <= a)%nat) ops ->
  forall a, (length h <= a < length h')%nat -> at_ (program h' ops) a = at_ h' a.
Proof. exact copy_kept. Qed.
Print Assumptions C98_copy_kept.
(** in general: the nodes outside a set that contains the parents of its members
    and all new nodes *)
Theorem C98_frame : forall h (R : addr -> Prop) ops a,
  (forall a p, R a -> parent (at_ h a) = Some p -> R p) -> (forall a, (length h <= a)%nat -> R a) ->
  works_on R ops -> ~ R a -> at_ (program h ops) a = at_ h a.
Proof. exact frame_any. Qed.
Print Assumptions C98_frame.
(** TreeDist.copy: the same tree of labels and attributes on new nodes *)
Theorem C98_dist_copy : forall h t fuel, keyed h t -> truth_opt h (parent (at_ h (root t))) = false -> (rsize t < fuel)%nat ->
  exists h' t', dist_copy fuel h (mkdist (root t)) = Ok (h', mkdist (root t')) /\ linked h' None t' /\ keyed h' t' /\
    rosemap (details h') t' = rosemap (details h) t /\ NoDup (nodes t') /\ (forall a, In a (nodes t') -> (length h <= a)%nat) /\
    (forall a, (a < length h)%nat -> at_ h' a = at_ h a).
Proof. exact dist_copy_ok. Qed.
Print Assumptions C98_dist_copy.
Theorem C98_dist_copy_not_a_root : forall h a fuel, truth_opt h (parent (at_ h a)) = true -> dist_copy fuel h (mkdist a) = Raise PlainException.
Proof. exact dist_copy_raises. Qed.
Print Assumptions C98_dist_copy_not_a_root.

(** a - (b): the copy gets a child and loses b, which becomes a root with a new attribute *)
Definition pair0 : list node :=
  [{| label := u "a"; children := [(u "b", 1%nat)]; attrib := []; parent := None |};
   {| label := u "b"; children := []; attrib := [(KStr (u "n"), VNum 1)]; parent := Some 0%nat |}].
Definition changes : list op := [New (u "c") []; AddChild 2 4; Unlink 3; SetItem 3 (KStr (u "n")) (VNum 2)]%nat.
Example C98_case : exists h', copy 5 pair0 0 = Ok (h', 2%nat) /\ length h' = 4%nat /\
  works_on (fun a => (length pair0 <= a)%nat) changes /\
  map label (program h' changes) = [u "a"; u "b"; u "a"; u "b"; u "c"] /\
  map children (program h' changes) = [[(u "b", 1%nat)]; []; [(u "c", 4%nat)]; []; []] /\
  map parent (program h' changes) = [None; Some 0%nat; None; None; Some 2%nat].
Proof.
  eexists; split; [vm_compute; reflexivity|]. split; [reflexivity|]. split; [|vm_compute; repeat split; reflexivity].
  intros o a I J; cbn [length pair0]; unfold changes in I; cbn [In] in I;
    repeat (destruct I as [<- | I]; [cbn [names In] in J; lia|]); destruct I.
Qed.
Example C98_case_parents : parents_exist pair0.
Proof. intros [|[|a]] p; cbn; try discriminate; [|destruct a; discriminate]. intro X; injection X as <-; repeat constructor. Qed.
