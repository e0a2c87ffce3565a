From Verif Require Import Base PyText PyFmt Rose Maps_model Place_model Place_spec Place_proofs.
From Coq Require Import Permutation.

(** C49: trees of storable places survive, for every repr(), in any store.
    Missing: aliases, empty labels and readings, a reading "None". *)
Theorem C49_roundtrip_partial repr dv h t fuel h0 : ascii_digits dv ->
  tree_at h t -> keyed h t -> (forall a, In a (nodes t) -> storable (at_ h a)) -> (rsize t < fuel)%nat ->
  exists text h' t', dump repr fuel h (root t) = Ok text /\ from_file dv h0 (file_lines text) = Ok (h', root t') /\
    tree_at h' t' /\ keyed h' t' /\ rosemap (details h') t' = rosemap (details h) t /\
    NoDup (nodes t') /\ (forall b, In b (nodes t') -> (length h0 <= b)%nat) /\ forall b, (b < length h0)%nat -> at_ h' b = at_ h0 b.
Proof. exact (fun D => roundtrip repr dv D h t fuel h0). Qed.
Print Assumptions C49_roundtrip_partial.

(** a place with aliases never comes back with them *)
Theorem C49_aliases_refuted repr dv h b fuel h0 text h' a x r :
  (forall s, (length s + 2 <= length (repr s))%nat) -> (forall s, no_break (repr s)) ->
  kids (at_ h b) = [] -> word (label (at_ h b)) -> word (show_reading (reading (at_ h b))) -> aliases (at_ h b) = Some (x :: r) ->
  dump repr (S (S fuel)) h b = Ok text -> from_file dv h0 (file_lines text) = Ok (h', a) -> aliases (at_ h' a) <> aliases (at_ h b).
Proof. exact (root_aliases_lost repr dv h b fuel h0 text h' a x r). Qed.
Print Assumptions C49_aliases_refuted.

(** exactly the files that load *)
Theorem C49_accepts dv h lines : (exists r, from_file dv h lines = Ok r) <->
  exists ds, Forall2 (fun line d => exists p, from_line dv line = Ok (d, p)) lines (0 :: ds) /\ steps 0 ds.
Proof. exact (from_file_total dv h lines). Qed.
Print Assumptions C49_accepts.
(** the reasons for refusing: an empty file is not reported as a bad one *)
Theorem C49_refuses dv h lines e : from_file dv h lines = Raise e -> lines = [] /\ e = StopIteration \/ lines <> [] /\ (e = ValueError \/ e = PlainException \/ e = IndexError).
Proof. exact (from_file_refuses dv h lines e). Qed.
Print Assumptions C49_refuses.

(** C50 *)
Theorem C50_walk h fuel t : tree_at h t -> (rsize t < fuel)%nat ->
  walk fuel h (root t) = Ok (pre 0 t) /\ forall d b, In (d, b) (pre 0 t) <-> reach h (root t) d b.
Proof. exact (fun T B => conj (walk_ok h fuel t T B) (fun d b => pre_reach h t d b T)). Qed.
Print Assumptions C50_walk.
(** in a tree proper, every node comes once *)
Theorem C50_once h fuel t ps : tree_at h t -> (rsize t < fuel)%nat -> NoDup (nodes t) -> walk fuel h (root t) = Ok ps ->
  NoDup (map snd ps) /\ forall b, In b (map snd ps) <-> exists d, reach h (root t) d b.
Proof. exact (walk_once h fuel t ps). Qed.
Print Assumptions C50_once.

(** C51 *)
Theorem C51_walk_with_path h fuel t : tree_at h t -> (rsize t < fuel)%nat ->
  walk_with_path fuel h (root t) = Ok (labelled h [] t) /\ map snd (labelled h [] t) = nodes t.
Proof. exact (fun T B => conj (walk_with_path_ok h fuel t T B) (labelled_nodes h t [])). Qed.
Print Assumptions C51_walk_with_path.
Theorem C51_find_all h fuel t l : tree_at h t -> (rsize t < fuel)%nat ->
  exists r, find_all fuel h (root t) l = Ok r /\ r = filter (fun pn => eqb (label (at_ h (snd pn))) l) (labelled h [] t).
Proof. exact (find_all_ok h fuel t l). Qed.
Print Assumptions C51_find_all.

(** C52: whatever the shuffles *)
Theorem C52_find_node shuffle h t l fuel : (forall n q, Permutation q (shuffle n q)) -> tree_at h t -> keyed h t ->
  l <> label (at_ h (root t)) -> (2 * rsize t + 1 < fuel)%nat ->
  (exists b p, find_node shuffle fuel h (root t) l = Ok (Found b p) /\ path_to h (root t) p b /\ label (at_ h b) = l /\
     forall d c, reach h (root t) d c -> label (at_ h c) = l -> Z.of_nat (length p) <= d) \/
  (find_node shuffle fuel h (root t) l = Raise KeyError /\ forall d c, reach h (root t) d c -> label (at_ h c) <> l).
Proof. exact (find_node_ok shuffle h t l fuel). Qed.
Print Assumptions C52_find_node.

(** C53: with any white space after the line (a line end, say).  Missing:
    aliases, empty labels and readings, a reading "None". *)
Theorem C53_line_partial repr dv p d g : ascii_digits dv -> blank g -> storable p ->
  from_line dv (to_line repr p d ++ g) = Ok (d, set_kids p []).
Proof. exact (fun D => line_ok repr dv D p d g). Qed.
Print Assumptions C53_line_partial.
Theorem C53_aliases_refuted repr dv p d g x r e q : blank g -> (forall s, (length s + 2 <= length (repr s))%nat) ->
  word (label p) -> word (show_reading (reading p)) -> aliases p = Some (x :: r) ->
  from_line dv (to_line repr p d ++ g) = Ok (e, q) -> aliases q <> aliases p.
Proof. exact (aliases_lost repr dv p d g x r e q). Qed.
Print Assumptions C53_aliases_refuted.
Definition mk l r a : place := {| label := l; reading := r; aliases := a; kids := [] |}.
Theorem C53_details_refuted repr dv : ascii_digits dv ->
  from_line dv (to_line repr (mk [] None None) 0) = Raise ValueError /\
  from_line dv (to_line repr (mk (u "a") (Some (u "None")) None) 0) = Ok (0, mk (u "a") None None) /\
  from_line dv (to_line repr (mk (u "a") None (Some [])) 0) = Ok (0, mk (u "a") None None) /\
  from_line dv (to_line repr (mk (u "a") (Some []) None) 0) = Raise ValueError.
Proof. exact (details_lost repr dv). Qed.
Print Assumptions C53_details_refuted.
(** the details of a place: no spaces, in any of them *)
Theorem C53_allowed l r al :
  (exists p, place_new l r al = Ok p) <-> ~ In 32 l /\ (forall x, r = Some x -> ~ In 32 x) /\ (forall xs x, al = Some xs -> In x xs -> ~ In 32 x).
Proof.
  unfold place_new. destruct (mem 32 l) eqn:L; [split; [intros [p P]; discriminate | intros [N _]; apply mem_In in L; contradiction]|].
  destruct (match r with Some r => mem 32 r | None => false end) eqn:R.
  { split; [intros [p P]; discriminate | intros (_ & N & _)]. destruct r as [x|]; [|discriminate]. elim (N x eq_refl). apply mem_In, R. }
  destruct (match al with Some l => mem 32 (concat l) | None => false end) eqn:A; cbn [orb].
  { split; [intros [p P]; discriminate | intros (_ & _ & N)]. destruct al as [xs|]; [|discriminate]. apply mem_In, in_concat in A.
    destruct A as (x & I & J). elim (N xs x eq_refl I J). }
  split; [intros _ | eexists; reflexivity]. split; [apply mem_false, L|]. split.
  - intros x ->. apply mem_false, R.
  - intros xs x -> I J. apply mem_false in A. apply A, in_concat. eauto.
Qed.
Print Assumptions C53_allowed.
Theorem C53_not_allowed l r al e : place_new l r al = Raise e -> e = ValueError.
Proof. unfold place_new. destruct (_ || _); congruence. Qed.
Print Assumptions C53_not_allowed.

(** what any line is read as: the columns are words, the third may be "None",
    and a fourth gives aliases between colons *)
Theorem C53_read dv line d p : from_line dv line = Ok (d, p) <->
  exists dw r rest, words line (dw :: label p :: r :: rest) /\ py_int dv 10 dw = Some d /\
    reading_word r (reading p) /\ aliases_word rest (aliases p) /\ kids p = [].
Proof. exact (from_line_read dv line d p). Qed.
Print Assumptions C53_read.
Example C53_case_read : exists p, from_line ascii_dv (u "3 a None x::y") = Ok (3, p) /\ aliases p = Some [u "x"; []; u "y"] /\ reading p = None.
Proof. eexists; split; [vm_compute; reflexivity|split; reflexivity]. Qed.

(** the cases *)
Definition ex_heap : list place :=
  [{| label := u "Australia"; reading := None; aliases := None; kids := [(u "Melbourne", 1%nat); (u "Sydney", 2%nat)] |};
   {| label := u "Melbourne"; reading := Some (u "メルボルン"); aliases := None; kids := [(u "Collingwood", 3%nat); (u "St_Kilda", 4%nat)] |};
   mk (u "Sydney") None None; mk (u "Collingwood") None None; mk (u "St_Kilda") None None].
Definition ex_tree : rose addr := Rose 0%nat [Rose 1%nat [Rose 3%nat []; Rose 4%nat []]; Rose 2%nat []].
Example ex_tree_at : tree_at ex_heap ex_tree.
Proof. repeat (constructor; [reflexivity|]; repeat (apply Forall_nil || apply Forall_cons)). Qed.
Example C50_case : walk 9 ex_heap 0%nat = Ok [(0, 0%nat); (1, 1%nat); (2, 3%nat); (2, 4%nat); (1, 2%nat)].
Proof. reflexivity. Qed.
Example C49_case : forall repr, dump repr 9 ex_heap 0%nat = Ok (u "0 Australia None
1 Melbourne メルボルン
2 Collingwood None
2 St_Kilda None
1 Sydney None
").
Proof. intros repr; vm_compute; reflexivity. Qed.
Example C51_case : walk_with_path 9 ex_heap 0%nat =
  Ok [(u "", 0); (u "Australia", 1); (u "Australia/Melbourne", 3); (u "Australia/Melbourne", 4); (u "Australia", 2)]%nat.
Proof. vm_compute; reflexivity. Qed.
Example C52_case : find_node (fun _ q => q) 20 ex_heap 0%nat (u "St_Kilda") = Ok (Found 4%nat [u "Melbourne"; u "St_Kilda"]).
Proof. vm_compute; reflexivity. Qed.
Example C53_case : from_line ascii_dv (u "12 a b x:y") = Ok (12, mk (u "a") (Some (u "b")) (Some [u "x"; u "y"])).
Proof. vm_compute; reflexivity. Qed.
