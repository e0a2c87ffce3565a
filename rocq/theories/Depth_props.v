(* Depth_props.v -- C144. *)
From Verif Require Import Base PyStr Rose Maps_model Tree_model Tree_spec Tree_proofs TreeEq_spec TreeEq_proofs Layout_model Layout_spec Layout_proofs Depth_spec Depth_proofs.

(** C144: [limit] calls fit on the stack.  What has been printed when drawing a tree
    fails: the drawing up to the first node, parents before children, that the method
    refuses, or up to and with the first that is [limit] levels down *)
Theorem C144_drawn method h t limit : tree_at h t ->
  layout method limit h (root t) =
  stopped (Z.of_nat limit) (fun n => match method h n with Ok _ => None | Raise e => Some e end)
    (draw (rosemap (fun n => match method h n with Ok s => s | Raise _ => [] end) t)) (pre 0 t).
Proof. exact (layout_stopped method h t limit). Qed.
Print Assumptions C144_drawn.
Theorem C144_printed method h t limit : tree_at h t -> exists left_out,
  draw (rosemap (fun n => match method h n with Ok s => s | Raise _ => [] end) t) = fst (layout method limit h (root t)) ++ left_out /\
  (snd (layout method limit h (root t)) = Ok tt -> left_out = []).
Proof.
  intro T. rewrite (C144_drawn method h t limit T). set (tr := fun n : addr => match method h n with Ok _ => None | Raise e => Some e end).
  assert (L : length (draw (rosemap (fun n => match method h n with Ok s => s | Raise _ => [] end) t)) = length (pre 0 t)) by (rewrite draw_length, rosemap_rsize, pre_length; reflexivity).
  revert L. generalize (pre 0 t). generalize (draw (rosemap (fun n => match method h n with Ok s => s | Raise _ => [] end) t)).
  induction l as [|x l IH]; intros [|[d n] ns] L; try discriminate L; cbn [stopped]; [exists []; split; reflexivity|].
  destruct (tr n); [exists (x :: l); split; [reflexivity|discriminate]|]. destruct (d =? Z.of_nat limit); [exists l; split; [reflexivity|discriminate]|].
  destruct (IH ns) as (o & O & P); [cbn in L; lia|]. exists o. destruct (stopped (Z.of_nat limit) tr l ns) as [ls r]. cbn [fst snd app] in *. split; [f_equal; exact O|exact P].
Qed.
Print Assumptions C144_printed.

(** Comparing: an answer within the limit is the right answer *)
Theorem C144_answers veq h t t' limit e : (forall v, veq v v = true) -> keyed h t -> keyed h t' ->
  (forall a, In a (nodes t) \/ In a (nodes t') -> NoDup (dkeys (attrib (at_ h a)))) ->
  node_eq veq limit h (root t) (root t') = Ok e -> (e = true <-> alike veq h t t').
Proof.
  intros R K K' W E. destruct (node_eq_alike veq R (S (rsize t) + limit) h t t' K K' W ltac:(lia)) as (x & X & A).
  pose proof (node_eq_mono veq h limit (S (rsize t) + limit) (root t) (root t') e ltac:(lia) E) as X'. rewrite X in X'. injection X' as ->. exact A.
Qed.
Print Assumptions C144_answers.
Theorem C144_errors veq h a b limit e : node_eq veq limit h a b = Raise e -> e = RecursionError.
Proof. exact (node_eq_error veq h limit a b e). Qed.
Print Assumptions C144_errors.
(** there is one if either tree has no more levels than the limit *)
Theorem C144_enough veq h t t' limit : tree_at h t -> tree_at h t' -> (height t <= limit \/ height t' <= limit)%nat ->
  exists e, node_eq veq limit h (root t) (root t') = Ok e.
Proof. exact (node_eq_enough veq h limit t t'). Qed.
Print Assumptions C144_enough.
(** and equal trees without a node in common need as much *)
Theorem C144_equal veq h t t' limit : (forall v, veq v v = true) -> keyed h t -> keyed h t' ->
  (forall a, In a (nodes t) \/ In a (nodes t') -> NoDup (dkeys (attrib (at_ h a)))) -> alike veq h t t' -> apart t t' ->
  node_eq veq limit h (root t) (root t') = if (height t <=? limit)%nat then Ok true else Raise RecursionError.
Proof.
  intros R K K' W A D. destruct (Nat.leb_spec (height t) limit) as [L|L].
  - destruct (C144_enough veq h t t' limit (keyed_tree h t K) (keyed_tree h t' K') (or_introl L)) as [e E]. rewrite E.
    apply (C144_answers veq h t t' limit e R K K' W E) in A. rewrite A. reflexivity.
  - destruct (node_eq veq limit h (root t) (root t')) as [e|e] eqn:E; [|rewrite (C144_errors _ _ _ _ _ _ E); reflexivity].
    pose proof (proj2 (C144_answers veq h t t' limit e R K K' W E) A) as ->.
    pose proof (node_eq_true_height veq h limit t t' (keyed_tree h t K) (keyed_tree h t' K') D E). lia.
Qed.
Print Assumptions C144_equal.
(** A tree compared with itself needs one call: its children are the same objects *)
Theorem C144_itself veq h a limit : (forall v, veq v v = true) -> NoDup (dkeys (attrib (at_ h a))) -> NoDup (dkeys (children (at_ h a))) ->
  node_eq veq (S limit) h a a = Ok true.
Proof.
  intros R N C. cbn [node_eq]. rewrite eqb_refl. cbn [negb].
  rewrite (proj2 (attrib_iff veq _ _ N N)) by (intro k; destruct (dget k _); [apply R|exact I]). cbn [negb]. rewrite Nat.eqb_refl. cbn [negb].
  assert (G : forall k c, In (k, c) (children (at_ h a)) -> dget k (children (at_ h a)) = Some c) by (intros k c; apply In_dget, C).
  match goal with |- ?F _ = _ => set (all := F) end.
  enough (X : forall l, (forall k c, In (k, c) l -> dget k (children (at_ h a)) = Some c) -> all l = Ok true) by (apply X, G).
  induction l as [|[k c] l IH]; intro Q; [reflexivity|]. unfold all; fold all. rewrite (Q k c (or_introl eq_refl)), Nat.eqb_refl. apply IH. intros; apply Q; right; assumption.
Qed.
Print Assumptions C144_itself.
(** A tree of any depth can be copied, and compared with its copy only within the limit *)
Theorem C144_copy veq h t fuel limit : (forall v, veq v v = true) -> keyed h t -> truth_opt h (parent (at_ h (root t))) = false -> (rsize t < fuel)%nat ->
  (forall a, In a (nodes t) -> NoDup (dkeys (attrib (at_ h a)))) ->
  exists h' b, copy fuel h (root t) = Ok (h', b) /\ node_eq veq limit h' (root t) b = if (height t <=? limit)%nat then Ok true else Raise RecursionError.
Proof.
  intros R K T B W. destruct (copy_ok h t fuel K T B) as (h' & t' & E & _ & K' & D & _ & New & O & L).
  exists h', (root t'). split; [exact E|].
  assert (Q : forall a, In a (nodes t) -> at_ h' a = at_ h a) by (intros a I; apply O, (keyed_range h t K a I)).
  assert (Kh : keyed h' t) by (apply (keyed_frame h); [lia|exact Q|exact K]).
  assert (W' : forall a, In a (nodes t) \/ In a (nodes t') -> NoDup (dkeys (attrib (at_ h' a)))).
  { intros a [I|I]; [rewrite Q by exact I; apply W, I|].
    assert (J : In (details h' a) (nodes (rosemap (details h') t'))) by (rewrite rosemap_nodes; apply in_map, I).
    rewrite D, rosemap_nodes in J. apply in_map_iff in J. destruct J as (b & Eb & Ib). unfold details in Eb. injection Eb as _ <-. apply W, Ib. }
  apply (C144_equal veq h' t t' limit R Kh K' W').
  - destruct (node_eq_alike veq R fuel h' t t' Kh K' W' B) as (e & Ee & A). apply A.
    destruct (copy_equal veq h t fuel R K T B W) as (h2 & b & E2 & Q2). rewrite E in E2. injection E2 as <- <-. rewrite Ee in Q2. injection Q2 as ->. reflexivity.
  - intros n I J. apply New in J. pose proof (keyed_range h t K n I). lia.
Qed.
Print Assumptions C144_copy.

(** ** cases: chains of any length *)
Definition link (n i : nat) : node :=
  {| label := [Z.of_nat i]; children := if (i <? n)%nat then [([Z.of_nat (S i)], S i)] else []; attrib := []; parent := match i with O => None | S j => Some j end |}.
Definition chain (n : nat) : list node := map (link n) (seq 0 (S n)).
Fixpoint hanging (i k : nat) : rose addr := Rose i match k with O => [] | S k => [hanging (S i) k] end.
Lemma chain_at n i : (i <= n)%nat -> at_ (chain n) i = link n i.
Proof. intro L. unfold at_, fetch, chain. rewrite (nth_indep _ _ (link n 0)) by (rewrite map_length, seq_length; lia). rewrite map_nth, seq_nth by lia. reflexivity. Qed.
Lemma chain_keyed n k : forall i, (i + k = n)%nat -> keyed (chain n) (hanging i k).
Proof.
  induction k as [|k IH]; intros i E; cbn [hanging]; constructor; try (unfold chain; rewrite map_length, seq_length; lia).
  - rewrite chain_at by lia. cbn [children link]. replace (i <? n)%nat with false by (symmetry; apply Nat.ltb_ge; lia). constructor.
  - rewrite chain_at by lia. cbn [children link]. replace (i <? n)%nat with false by (symmetry; apply Nat.ltb_ge; lia). reflexivity.
  - constructor.
  - rewrite chain_at by lia. cbn [children link]. replace (i <? n)%nat with true by (symmetry; apply Nat.ltb_lt; lia). constructor; [intros []|constructor].
  - rewrite chain_at by lia. cbn [children link]. replace (i <? n)%nat with true by (symmetry; apply Nat.ltb_lt; lia). cbn [map].
    assert (R : root (hanging (S i) k) = S i) by (destruct k; reflexivity). rewrite R, chain_at by lia. reflexivity.
  - constructor; [apply IH; lia|constructor].
Qed.
Lemma chain_height k : forall i, height (hanging i k) = S k.
Proof. induction k as [|k IH]; intro i; [reflexivity|]. cbn [hanging height map]. rewrite IH. cbn [list_max fold_right]. lia. Qed.
(** Whatever the limit, some tree has a copy that it cannot be compared with *)
Theorem C144_no_limit_is_enough veq limit : (forall v, veq v v = true) -> exists h t fuel h' b, keyed h t /\
  copy fuel h (root t) = Ok (h', b) /\ node_eq veq limit h' (root t) b = Raise RecursionError.
Proof.
  intro R. pose proof (chain_keyed limit limit 0 eq_refl) as K.
  destruct (C144_copy veq (chain limit) (hanging 0 limit) (S (rsize (hanging 0 limit))) limit R K) as (h' & b & E & Q); try lia.
  - assert (X : root (hanging 0 limit) = O) by (destruct limit; reflexivity). rewrite X, chain_at by lia. reflexivity.
  - intros a I. pose proof (keyed_range _ _ K a I) as L. unfold chain in L. rewrite map_length, seq_length in L. rewrite chain_at by lia. constructor.
  - exists (chain limit), (hanging 0 limit), (S (rsize (hanging 0 limit))), h', b. split; [exact K|]. split; [exact E|]. rewrite Q, chain_height.
    replace (S limit <=? limit)%nat with false by (symmetry; apply Nat.leb_gt; lia). reflexivity.
Qed.
Print Assumptions C144_no_limit_is_enough.
Definition bush : list node :=
  [{| label := u "r"; children := [(u "a", 1%nat); (u "b", 2%nat)]; attrib := []; parent := None |};
   {| label := u "a"; children := []; attrib := []; parent := Some 0%nat |};
   {| label := u "b"; children := [(u "c", 3%nat)]; attrib := []; parent := Some 0%nat |};
   {| label := u "c"; children := [(u "d", 4%nat)]; attrib := []; parent := Some 2%nat |};
   {| label := u "d"; children := []; attrib := []; parent := Some 3%nat |}].
Definition fussy (h : list node) (n : addr) : res str := if Nat.eqb n 2 then Raise KeyError else Ok (label (at_ h n)).
Example C144_case_drawn : tree_at bush (Rose 0 [Rose 1 []; Rose 2 [Rose 3 [Rose 4 []]]])%nat /\
  layout default_method 2 bush 0 = ([u "r"; u "├─ a"; u "└─ b"; u "   └─ c"], Raise RecursionError) /\
  layout default_method 1 bush 0 = ([u "r"; u "├─ a"], Raise RecursionError) /\
  layout fussy 9 bush 0 = ([u "r"; u "├─ a"], Raise KeyError).
Proof. split; [repeat (constructor; try reflexivity)|]. vm_compute. repeat split. Qed.
Definition twins : list node := chain 3 ++ map (fun n => {| label := label n; children := map (fun kv => (fst kv, snd kv + 4)%nat) (children n); attrib := []; parent := None |}) (chain 3).
Definition twin : rose addr := (Rose 4 [Rose 5 [Rose 6 [Rose 7 []]]])%nat.
Ltac nodup := apply nodupb_NoDup; vm_compute; reflexivity.
Ltac tree := first [apply Forall_nil | apply Forall_cons; tree | apply Keyed; [vm_compute; lia|nodup|reflexivity|tree]].
Example C144_case_equal : keyed twins (hanging 0 3) /\ keyed twins twin /\ apart (hanging 0 3) twin /\
  node_eq value_eqb 4 twins 0 4 = Ok true /\ node_eq value_eqb 3 twins 0 4 = Raise RecursionError /\ node_eq value_eqb 3 twins 0 5 = Ok false /\ node_eq value_eqb 1 twins 0 0 = Ok true.
Proof.
  split; [tree|]. split; [tree|]. split; [|vm_compute; repeat split].
  intros n I J. cbn in I, J. decompose [or] I; decompose [or] J; subst; try contradiction; discriminate.
Qed.
