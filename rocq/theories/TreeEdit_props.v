(* TreeEdit_props.v -- C125: loops that change the tree they walk over *)
From Verif Require Import Base PyText Rose Maps_model TreeEdit_model TreeEdit_spec TreeEdit_proofs TreeEdit_proofs2 TreeEdit_proofs3.
From Verif Require Tree_model Tree_spec Tree_proofs Tree_props Place_model Place_spec Place_proofs.
From Coq Require Import Permutation Sorted.

Import Tree_model Tree_spec.
(** C125: whatever the body does, a walk in preorder visits the nodes of one
    finite tree, parents first: below each node stands what was below it just
    after its own visit.  A walk that is stopped, by the body or by an
    exception, has visited a beginning of one. *)
Theorem C125_preorder_visits {S A} (body : list node -> S -> addr -> list node * S * res (option A)) fuel h s a h' s' log r :
  for_preorder (logged body) fuel h (s, []) [a] = (h', (s', log), r) ->
  exists t rest, root t = a /\ map (fun v => (who v, snd v)) (visits 0 t) = log ++ rest /\ (r = Ok None -> rest = []).
Proof.
  intros E; apply for_preorder_noted in E; destruct E as [g [E ->]].
  apply gpre_visits in E; destruct E as [F [L [rest [Hd [V [-> [_ Dn]]]]]]].
  destruct F as [|[d t] [|? ?]]; try discriminate; cbn [heads map fst snd] in Hd; injection Hd as -> <-.
  cbn [fv flat_map fst snd app] in V; rewrite app_nil_r in V; exists t, (map bare rest); split; [reflexivity|split].
  - change (fun v : Z * addr * list addr => (who v, snd v)) with bare; rewrite V, map_app; reflexivity.
  - intros X; destruct (Dn X) as [-> _]; reflexivity.
Qed.
Print Assumptions C125_preorder_visits.

(** a body that changes only what is below the node it is at: when no node is
    visited twice, the walk is that of the tree as it is left *)
Theorem C125_preorder_current {S A} (body : list node -> S -> addr -> list node * S * res (option A)) fuel h s a h' s' log :
  (forall h s n h' s' r m, body h s n = (h', s', r) -> m <> n -> below h' m = below h m) ->
  for_preorder (logged body) fuel h (s, []) [a] = (h', (s', log), Ok None) -> NoDup (map fst log) ->
  walk_preorder fuel h' a = Ok (map fst log).
Proof.
  intros B E N; apply for_preorder_noted in E; destruct E as [g [E ->]].
  rewrite map_map in N |- *; change (fun x : Z * addr * list addr => fst (bare x)) with who in N |- *.
  pose proof (gpre_visits _ _ _ _ _ _ _ _ _ _ _ E) as [F [L [rest [Hd [V [EL [_ Dn]]]]]]].
  destruct (Dn eq_refl) as [-> Len]; rewrite app_nil_r in V; cbn [app] in EL; rewrite <- EL in V, Len; clear Dn EL.
  destruct F as [|[d t] [|? ?]]; try discriminate; cbn [heads map fst snd] in Hd; injection Hd as -> <-.
  cbn [fv flat_map fst snd app] in V; rewrite app_nil_r in V; subst g.
  rewrite visits_who; apply walk_preorder_of; [|unfold rsize; rewrite <- (visits_who t 0), map_length; exact Len].
  apply (gtree_visits TK h' t 0); eapply gpre_local; [|exact E|intros v []|exact N].
  intros h0 s0 d n h1 s1 r m X NE; unfold TK; rewrite (B _ _ _ _ _ _ m X NE); reflexivity.
Qed.
Print Assumptions C125_preorder_current.

(** a body that leaves what is below the nodes still to come: the walk is that
    of the tree as it was.  [I] is anything that holds along the way. *)
Theorem C125_preorder_past {S A} (body : list node -> S -> addr -> list node * S * res (option A)) (I : list addr -> list node -> S -> Prop)
    fuel h s a h' s' log r ns :
  walk_preorder fuel h a = Ok ns -> I [] h s ->
  (forall past n rest h s h' s' r, ns = past ++ n :: rest -> I past h s -> body h s n = (h', s', r) ->
     I (past ++ [n]) h' s' /\ (forall m, In m (n :: rest) -> below h' m = below h m)) ->
  for_preorder (logged body) fuel h (s, []) [a] = (h', (s', log), r) ->
  exists rest, ns = map fst log ++ rest /\ I (map fst log) h' s' /\ (r = Ok None /\ rest = [] \/ r <> Ok None /\ exists past n rest h s, ns = past ++ n :: rest /\ I past h s /\ snd (body h s n) = r).
Proof.
  intros W Ih B E; apply walk_preorder_gpre in W; destruct W as [t [<- [G [-> Len]]]].
  apply for_preorder_noted in E; destruct E as [g [E ->]].
  change [(0, root t)] with (heads [(0, t)]) in E.
  apply (gpre_past TK _ I (nodes t)) with (past := []) in E.
  - destruct E as [L [rest [-> [EL [IL Dn]]]]]; cbn [app fn flat_map snd] in *; rewrite app_nil_r in EL.
    rewrite map_map; exists rest; split; [exact EL|split; [exact IL|]].
    destruct Dn as [Dn|[NR [p [n [q [x [y [_ X]]]]]]]]; [left; exact Dn | right; split; [exact NR | exists p, n, q, x, y; exact X]].
  - intros past n rest h0 s0 d h1 s1 r1 En I0 Bn; destruct (B _ _ _ _ _ _ _ _ En I0 Bn) as [I1 C]; split; [exact I1|].
    intros m Jm; unfold TK; rewrite (C m Jm); reflexivity.
  - exact Ih.
  - cbn [app fn flat_map snd]; rewrite app_nil_r; reflexivity.
  - constructor; [exact G | constructor].
  - cbn [fn flat_map snd]; rewrite app_nil_r; exact Len.
Qed.
Print Assumptions C125_preorder_past.

(** unlinking each node as it is visited visits the whole tree and takes it
    apart: no node keeps a parent or a child *)
Theorem C125_unlink_all h t fuel h' seen log r : linked h None t -> NoDup (nodes t) -> (forall m, In m (nodes t) -> (m < length h)%nat) -> (rsize t < fuel)%nat ->
  for_preorder (logged unlinking) fuel h ([], []) [root t] = (h', (seen, log), r) ->
  r = Ok None /\ walk_preorder fuel h (root t) = Ok seen /\ Permutation seen (nodes t) /\
  (forall m, In m (nodes t) -> parent (at_ h' m) = None /\ children (at_ h' m) = []).
Proof.
  intros L N Rg Len E; destruct (Tree_proofs.walk_preorder_ok h fuel t (linked_tree h t None L) Len) as [ns [W [P F]]].
  assert (Nn : NoDup ns) by (apply (Permutation_NoDup (Permutation_sym P)); exact N).
  assert (J : forall m, In m ns <-> In m (nodes t)) by (intros m; split; apply Permutation_in; [exact P | apply Permutation_sym; exact P]).
  assert (H0 : half h ns [] h []).
  { constructor; [reflexivity| | | | |intros m []].
    - intros m I; apply Rg, J, I.
    - intros m I; apply J in I; exact (proj1 (linked_nodes h t None L m I)).
    - intros m p I Pm; apply J in I; destruct (proj1 (proj2 (linked_nodes h t None L m I))) as [[_ X]|[q [Iq [Pq X]]]]; [congruence|].
      assert (q = p) as -> by congruence; split; [apply J; exact Iq | exact X].
    - intros p k c I D; apply J in I; destruct (proj2 (proj2 (linked_nodes h t None L p I)) k c D) as [Jc X]; split; [apply J; exact Jc | exact X]. }
  assert (B : forall past n rest h1 s h2 s' r, ns = past ++ n :: rest -> half h ns past h1 s -> unlinking h1 s n = (h2, s', r) ->
    (half h ns (past ++ [n]) h2 s' /\ (forall m, In m (n :: rest) -> below h2 m = below h1 m)) /\ r = Ok None).
  { intros past n rest h1 s h2 s' r0 En Hf U; destruct (half_step h ns Nn F past n rest h1 s En Hf) as [h3 [U' [Hf' C]]].
    rewrite U' in U; injection U as <- <- <-; split; [split; assumption | reflexivity]. }
  eapply (C125_preorder_past unlinking (fun past h1 s => half h ns past h1 s)) in E; [|exact W|exact H0|].
  2:{ intros; eapply proj1, B; eassumption. }
  destruct E as [rest [En [Hf D]]].
  assert (D' : r = Ok None /\ rest = []).
  { destruct D as [D|[NR [past [n [q [h1 [s [En' [Hf' X]]]]]]]]]; [exact D|exfalso].
    destruct (half_step h ns Nn F past n q h1 s En' Hf') as [h3 [U' _]]; rewrite U' in X; apply NR; symmetry; exact X. }
  destruct D' as [-> ->]; rewrite app_nil_r in En; rewrite <- En in Hf; split; [reflexivity|].
  rewrite (hf_seen _ _ _ _ _ Hf); split; [exact W|split; [exact P|]].
  intros m I; apply (half_done h ns h' seen Hf), J, I.
Qed.
Print Assumptions C125_unlink_all.

(** a body that only removes: the walk visits some of the nodes, in the order
    of the walk of the unchanged tree, and it ends *)
Theorem C125_preorder_removals {S A} (body : list node -> S -> addr -> list node * S * res (option A)) fuel h s a h' s' log r ns :
  walk_preorder fuel h a = Ok ns ->
  (forall h s n h' s' r m, body h s n = (h', s', r) -> thinned (below h' m) (below h m)) ->
  for_preorder (logged body) fuel h (s, []) [a] = (h', (s', log), r) ->
  thinned (map fst log) ns /\ (r = Raise OutOfFuel -> exists h s n, snd (body h s n) = Raise OutOfFuel).
Proof.
  intros W B E; apply walk_preorder_gpre in W; destruct W as [t [<- [G [-> Len]]]].
  apply for_preorder_noted in E; destruct E as [g [E ->]].
  change [(0, root t)] with (heads [(0, t)]) in E.
  apply gpre_removals in E.
  - destruct E as [L [-> [T Fu]]]; cbn [app fn flat_map snd] in *; rewrite app_nil_r in T; rewrite map_map.
    split; [exact T|]; intros X; destruct (Fu X) as [x [y [d [n Z]]]]; exists x, y, n; exact Z.
  - intros h0 s0 d n h1 s1 r1 m Bn; apply thinned_rev, (B _ _ _ _ _ _ m Bn).
  - constructor; [exact G | constructor].
  - cbn [fn flat_map snd]; rewrite app_nil_r; exact Len.
Qed.
Print Assumptions C125_preorder_removals.

(** a body that leaves something below every node it visits: the walk never
    ends.  [Q] says which nodes the body meets. *)
Theorem C125_preorder_endless {S A} (body : list node -> S -> addr -> list node * S * res (option A)) (Q : list node -> addr -> Prop) :
  (forall h s n h' s' r, Q h n -> body h s n = (h', s', r) ->
     r = Ok None /\ below h' n <> [] /\ (forall m, Q h m -> Q h' m) /\ (forall m, In m (below h' n) -> Q h' m)) ->
  forall fuel h s a, Q h a -> snd (for_preorder body fuel h s [a]) = Raise OutOfFuel.
Proof.
  intros B fuel h s a Qa; rewrite (for_preorder_gpre _ _ _ _ _ [(0, a)]) by reflexivity.
  apply (gpre_endless TK _ Q); [|discriminate|constructor; [exact Qa | constructor]].
  intros h0 s0 d n h1 s1 r1 Qn Bn; destruct (B _ _ _ _ _ _ Qn Bn) as [R [K [Q1 Q2]]]; split; [exact R|split; [|split; [exact Q1|]]].
  - unfold TK; intros X; apply K; rewrite <- (rev_involutive (below h1 n)), X; reflexivity.
  - intros m I; apply Q2; unfold TK in I; apply in_rev; exact I.
Qed.
Print Assumptions C125_preorder_endless.

(** children first: changes below the node itself, below the nodes already
    visited and below its ancestors do not matter *)
Theorem C125_postorder_past {S A} (body : list node -> S -> addr -> list node * S * res (option A)) (I : list addr -> list node -> S -> Prop)
    fuel h s a h' s' log r ns :
  walk_postorder fuel h a = Ok ns -> NoDup ns -> I [] h s ->
  (forall past n rest h1 s h' s' r, ns = past ++ n :: rest -> I past h1 s -> body h1 s n = (h', s', r) ->
     I (past ++ [n]) h' s' /\ (forall m, In m rest -> below h' m <> below h1 m -> exists d, reach h m d n)) ->
  for_postorder (logged body) fuel h (s, []) [(a, false)] = (h', (s', log), r) ->
  exists rest, ns = map fst log ++ rest /\ I (map fst log) h' s' /\
    (r = Ok None /\ rest = [] \/ r <> Ok None /\ exists past n rest h s, ns = past ++ n :: rest /\ I past h s /\ snd (body h s n) = r).
Proof.
  intros W N Ih B E; apply walk_postorder_gpost in W; destruct W as [t [<- [G [-> Len]]]].
  rewrite for_postorder_gpost in E; cbn [rev app] in E; change [(root t, false)] with (map ihead [(t, false)]) in E.
  apply (gpost_past TK _ I h (post t)) with (past := []) in E.
  - destruct E as [L [rest [-> [EL [IL Dn]]]]]; cbn [app plist flat_map yields fst snd] in *; rewrite app_nil_r in EL.
    exists rest; split; [exact EL|split; [exact IL | exact Dn]].
  - intros past n rest h1 s1 h2 s2 r1 En I0 Bn; destruct (B _ _ _ _ _ _ _ _ En I0 Bn) as [I1 C]; split; [exact I1|].
    intros m Jm X; destruct (C m Jm) as [d R]; [intros Y; apply X; unfold TK; rewrite Y; reflexivity|].
    clear - R; induction R as [|d b c R IH J]; [constructor|]; apply (Greach_kid _ _ _ b); [exact IH|]; unfold TK; apply in_rev; rewrite rev_involutive; exact J.
  - exact N.
  - exact Ih.
  - cbn [app plist flat_map yields fst snd]; rewrite app_nil_r; reflexivity.
  - intros u [X|[]]; injection X as <-; split; [exact G | reflexivity].
  - unfold pcost, list_sum; cbn [map fold_right icost fst snd]; lia.
Qed.
Print Assumptions C125_postorder_past.
Theorem C125_postorder_removals {S A} (body : list node -> S -> addr -> list node * S * res (option A)) fuel h s a h' s' log r ns :
  walk_postorder fuel h a = Ok ns ->
  (forall h s n h' s' r m, body h s n = (h', s', r) -> thinned (below h' m) (below h m)) ->
  for_postorder (logged body) fuel h (s, []) [(a, false)] = (h', (s', log), r) ->
  thinned (map fst log) ns /\ (r = Raise OutOfFuel -> exists h s n, snd (body h s n) = Raise OutOfFuel).
Proof.
  intros W B E; apply walk_postorder_gpost in W; destruct W as [t [<- [G [-> Len]]]].
  rewrite for_postorder_gpost in E; cbn [rev app] in E; change [(root t, false)] with (map ihead [(t, false)]) in E.
  apply (gpost_removals TK) in E.
  - destruct E as [L [-> [T Fu]]]; cbn [app plist flat_map yields fst snd] in *; rewrite app_nil_r in T; split; [exact T | exact Fu].
  - intros h0 s0 n h1 s1 r1 m Bn; apply thinned_rev, (B _ _ _ _ _ _ m Bn).
  - intros u [X|[]]; injection X as <-; exact G.
  - unfold pcost, list_sum; cbn [map fold_right icost fst snd]; lia.
Qed.
Print Assumptions C125_postorder_removals.

(** breadth first, for every shuffle: the nodes of one finite tree, level by
    level; below each node stands what was below it just after its visit *)
Theorem C125_breadth_visits {S A} (body : list node -> S -> addr -> list node * S * res (option A)) shuffle fuel h s a h' s' log r :
  (forall k l, Permutation (shuffle k l) l) ->
  for_breadth (logged body) shuffle fuel O h (s, []) [a] [] = (h', (s', log), r) ->
  exists t vs rest, root t = a /\ Permutation (vs ++ rest) (visits 0 t) /\ log = map (fun v => (who v, snd v)) vs /\
    StronglySorted (fun v w => fst (fst v) <= fst (fst w)) (vs ++ rest) /\ (r = Ok None -> rest = []).
Proof.
  intros Sh E; apply (breadth_visits body shuffle Sh) with (d := 0) in E; [|discriminate].
  destruct E as [Ff [Fn [ps [rest [Rf [Rn [P [-> [Ss [_ Dn]]]]]]]]]].
  destruct Fn; [|discriminate]; destruct Ff as [|t [|? ?]]; try discriminate; cbn [map] in Rf; injection Rf as <-.
  cbn [flat_map app] in P; rewrite !app_nil_r in P; exists t, ps, rest; repeat split; assumption.
Qed.
Print Assumptions C125_breadth_visits.
Theorem C125_breadth_removals {S A} (body : list node -> S -> addr -> list node * S * res (option A)) shuffle fuel h s t h' s' log r :
  (forall k l, Permutation (shuffle k l) l) -> tree_at h t -> (rsize t < fuel)%nat ->
  (forall h s n h' s' r m, body h s n = (h', s', r) -> thinned (below h' m) (below h m)) ->
  for_breadth (logged body) shuffle fuel O h (s, []) [root t] [] = (h', (s', log), r) ->
  (exists rest, Permutation (map fst log ++ rest) (nodes t)) /\ (r = Raise OutOfFuel -> exists h s n, snd (body h s n) = Raise OutOfFuel).
Proof.
  intros Sh T Len B E.
  assert (G : gtree FK h t).
  { clear - T; induction t as [x ks IH] using rose_rec_ind; inversion T; subst; constructor; [symmetry; assumption|].
    rewrite Forall_forall in *; intros k I; apply IH, H2, I; exact I. }
  apply (breadth_removals body shuffle Sh B fuel O h s [] [t] []) in E.
  - destruct E as [L [rest [-> [P Fu]]]]; cbn [flat_map app] in P; rewrite !app_nil_r in P; split; [exists rest; exact P | exact Fu].
  - constructor; [exact G | constructor].
  - constructor.
  - unfold fsize, rsize in *; cbn [flat_map length]; rewrite app_nil_r; lia.
Qed.
Print Assumptions C125_breadth_removals.
Theorem C125_breadth_endless {S A} (body : list node -> S -> addr -> list node * S * res (option A)) shuffle :
  (forall k l, Permutation (shuffle k l) l) ->
  forall Q : list node -> addr -> Prop,
  (forall h s n h' s' r, Q h n -> body h s n = (h', s', r) ->
     r = Ok None /\ below h' n <> [] /\ (forall m, Q h m -> Q h' m) /\ (forall m, In m (below h' n) -> Q h' m)) ->
  forall fuel h s a, Q h a -> snd (for_breadth body shuffle fuel O h s [a] []) = Raise OutOfFuel.
Proof. intros Sh Q B fuel h s a Qa; apply (breadth_endless body shuffle Sh Q B); [discriminate | constructor; [exact Qa | constructor] | constructor]. Qed.
Print Assumptions C125_breadth_endless.

(** a node taken out of the tree before its turn is visited all the same *)
Definition take_out (h : list node) (s : unit) (n : addr) : list node * unit * res (option unit) :=
  if Nat.eqb n 2 then (fst (unlink h 1%nat), s, Ok None) else (h, s, Ok None).
Theorem C125_in_the_tree_refuted : exists h h' log,
  for_preorder (logged take_out) 20 h (tt, []) [0%nat] = (h', (tt, log), Ok None) /\ map fst log = [0; 2; 1; 3]%nat /\
  ~ exists d, reach h' 0%nat d 1%nat.
Proof.
  exists Tree_props.h0; eexists _, _; split; [vm_compute; reflexivity|split; [reflexivity|]].
  intros [d R]; assert (X : forall d b, reach (fst (unlink Tree_props.h0 1)) 0%nat d b -> b = 0%nat \/ b = 2%nat).
  { clear; intros d b R; induction R as [|d b c R [-> | ->] J]; [left; reflexivity | vm_compute in J; destruct J as [<-|[]]; right; reflexivity | vm_compute in J; destruct J]. }
  destruct (X d 1%nat R); discriminate.
Qed.
Print Assumptions C125_in_the_tree_refuted.

(** the walk of a place: the same, with the depths *)
Theorem C125_place_visits {S A} (body : list Place_model.place -> S -> Z -> addr -> list Place_model.place * S * res (option A)) fuel h s a h' s' log r :
  for_walk (logged_place body) fuel h (s, []) [(0, a)] = (h', (s', log), r) ->
  exists t rest, root t = a /\ visits 0 t = log ++ rest /\ (r = Ok None -> rest = []).
Proof.
  intros E; rewrite for_walk_gpre in E; cbn [rev app] in E.
  change (logged_place body) with (gnoted inside body) in E.
  apply gpre_visits in E; destruct E as [F [L [rest [Hd [V [-> [_ Dn]]]]]]].
  destruct F as [|[d t] [|? ?]]; try discriminate; cbn [heads map fst snd] in Hd; injection Hd as -> <-.
  cbn [fv flat_map fst snd app] in V; rewrite app_nil_r in V; exists t, rest; split; [reflexivity|split; [exact V|]].
  intros X; destruct (Dn X) as [-> _]; reflexivity.
Qed.
Print Assumptions C125_place_visits.
Theorem C125_place_removals {S A} (body : list Place_model.place -> S -> Z -> addr -> list Place_model.place * S * res (option A)) fuel h s t h' s' log r :
  Place_spec.tree_at h t -> (rsize t < fuel)%nat ->
  (forall h s d n h' s' r m, body h s d n = (h', s', r) -> thinned (inside h' m) (inside h m)) ->
  for_walk (logged_place body) fuel h (s, []) [(0, root t)] = (h', (s', log), r) ->
  thinned (map who log) (nodes t) /\ (r = Raise OutOfFuel -> exists h s d n, snd (body h s d n) = Raise OutOfFuel).
Proof.
  intros T Len B E; rewrite for_walk_gpre in E; cbn [rev app] in E.
  assert (G : gtree inside h t).
  { clear - T; induction t as [x ks IH] using rose_rec_ind; inversion T; subst; constructor; [symmetry; assumption|].
    rewrite Forall_forall in *; intros k I; apply IH, H2, I; exact I. }
  change (logged_place body) with (gnoted inside body) in E; change [(0, root t)] with (heads [(0, t)]) in E.
  apply gpre_removals in E.
  - destruct E as [L [-> [X Fu]]]; cbn [app fn flat_map snd] in *; rewrite app_nil_r in X; split; [exact X | exact Fu].
  - exact B.
  - constructor; [exact G | constructor].
  - cbn [fn flat_map snd]; rewrite app_nil_r; exact Len.
Qed.
Print Assumptions C125_place_removals.
Theorem C125_place_endless {S A} (body : list Place_model.place -> S -> Z -> addr -> list Place_model.place * S * res (option A)) (Q : list Place_model.place -> addr -> Prop) :
  (forall h s d n h' s' r, Q h n -> body h s d n = (h', s', r) ->
     r = Ok None /\ inside h' n <> [] /\ (forall m, Q h m -> Q h' m) /\ (forall m, In m (inside h' n) -> Q h' m)) ->
  forall fuel h s a, Q h a -> snd (for_walk body fuel h s [(0, a)]) = Raise OutOfFuel.
Proof. intros B fuel h s a Qa; rewrite for_walk_gpre; apply (gpre_endless inside _ Q); [exact B | discriminate | constructor; [exact Qa | constructor]]. Qed.
Print Assumptions C125_place_endless.

(** paths: whatever the body does short of relabelling, each place comes with
    the labels of the places above it in the tree that is visited *)
Theorem C125_place_paths {S A} (body : list Place_model.place -> S -> str -> addr -> list Place_model.place * S * res (option A)) fuel h s a h' s' log r :
  (forall h s p n h' s' r m, body h s p n = (h', s', r) -> Place_model.label (Place_model.at_ h' m) = Place_model.label (Place_model.at_ h m)) ->
  for_paths (logged_path body) fuel h (s, []) [] 0 None [(0, a)] = (h', (s', log), r) ->
  exists t rest rest', root t = a /\ map (fun v => (who v, snd v)) (visits 0 t) = map (fun v => (snd (fst v), snd v)) log ++ rest /\
    Place_spec.labelled h [] t = map fst log ++ rest' /\ (r = Ok None -> rest = [] /\ rest' = []).
Proof.
  intros B E; apply (for_paths_visits body B h) in E; [|reflexivity].
  destruct E as [F [L [rest [T [Hd [V [-> [EL [W Dn]]]]]]]]].
  destruct F as [|[d t] [|? ?]]; try discriminate; cbn [heads map fst snd rev app] in Hd; injection Hd as -> <-.
  cbn [fv flat_map fst snd app] in V; rewrite app_nil_r in V.
  pose proof (Place_proofs.with_path_ok h t) as P; rewrite <- visits_pre, V, map_app in P.
  pose proof (with_path_prefix h _ _ _ _ _ _ P) as Q; rewrite W in Q; injection Q as Q.
  exists t, (map bare rest), (skipn (length (map fst L)) (Place_spec.labelled h [] t)); split; [reflexivity|split; [|split]].
  - change (fun v : Z * addr * list addr => (who v, snd v)) with bare; rewrite V, map_app, EL; reflexivity.
  - cbn [app]; change (map fst T) with (map text_node T); rewrite Q; symmetry; apply firstn_skipn.
  - intros X; rewrite (Dn X) in V, P |- *; cbn [map] in P; rewrite app_nil_r in P; split; [reflexivity|].
    rewrite W in P; injection P as P; rewrite <- P, map_length.
    apply skipn_all2; rewrite map_length; apply (f_equal (@length _)) in EL; rewrite !map_length in EL; lia.
Qed.
Print Assumptions C125_place_paths.
(** the "strange depth found" of walk_with_path is never raised *)
Theorem C125_place_depths {S A} (body : list Place_model.place -> S -> str -> addr -> list Place_model.place * S * res (option A)) fuel h s a :
  (forall h s p n, exists h' s' o, body h s p n = (h', s', Ok o)) ->
  (exists o, snd (for_paths body fuel h s [] 0 None [(0, a)]) = Ok o) \/ snd (for_paths body fuel h s [] 0 None [(0, a)]) = Raise OutOfFuel.
Proof.
  intros B; apply for_paths_fine; [exact B | | |].
  - intros _ d n [X|[]]; injection X as <- _; reflexivity.
  - intros d n [X|[]]; injection X as <- _; lia.
  - cbn; constructor; constructor.
Qed.
Print Assumptions C125_place_depths.

(** the premises can be met: a - (b - (d), c) *)
Example C125_case_unlink : exists h' log,
  for_preorder (logged unlinking) 20 Tree_props.h0 ([], []) [0%nat] = (h', ([0; 2; 1; 3]%nat, log), Ok None) /\
  log = [(0, [2; 1]); (2, []); (1, [3]); (3, [])]%nat /\ map (fun m => below h' m) [0; 1; 2; 3]%nat = [[]; []; []; []].
Proof. eexists _, _; split; [vm_compute; reflexivity | split; vm_compute; reflexivity]. Qed.
Example C125_case_linked : linked Tree_props.h0 None Tree_props.t0 /\ NoDup (nodes Tree_props.t0) /\
  forall m, In m (nodes Tree_props.t0) -> (m < length Tree_props.h0)%nat.
Proof.
  split; [exact Tree_props.C60_case|split; [apply nodupb_NoDup; vm_compute; reflexivity|]].
  intros m; vm_compute; intuition lia.
Qed.
(** adding a child to the node visited: a leaf labelled "e" below every node
    that has no child *)
Definition sprout (h : list node) (s : unit) (n : addr) : list node * unit * res (option unit) :=
  if truth h n || (12 <? length h)%nat then (h, s, Ok None)
  else (add_child (h ++ [Tree_props.mk (u "e")]) n (length h), s, Ok None).
Example C125_case_current : exists h' log,
  for_preorder (logged sprout) 20 Tree_props.h0 (tt, []) [0%nat] = (h', (tt, log), Ok None) /\ NoDup (map fst log) /\
  map fst log = [0; 2; 4; 5; 6; 7; 8; 9; 10; 11; 12; 1; 3]%nat /\ walk_preorder 20 h' 0%nat = Ok (map fst log).
Proof.
  eexists _, _; split; [vm_compute; reflexivity|split; [apply nodupb_NoDup; vm_compute; reflexivity|split; vm_compute; reflexivity]].
Qed.
Example C125_case_postorder : walk_postorder 20 Tree_props.h0 0%nat = Ok [2; 3; 1; 0]%nat /\ NoDup [2; 3; 1; 0]%nat /\
  exists h' log, for_postorder (logged unlinking) 20 Tree_props.h0 ([], []) [(0%nat, false)] = (h', ([2; 3; 1; 0]%nat, log), Ok None).
Proof.
  split; [vm_compute; reflexivity|split; [apply nodupb_NoDup; vm_compute; reflexivity|]].
  eexists _, _; vm_compute; reflexivity.
Qed.
(** a new child in the place of the children of every node visited *)
Definition forever (h : list node) (s : unit) (n : addr) : list node * unit * res (option unit) :=
  (put (h ++ [Tree_props.mk (u "x")]) n (set_children (at_ h n) [(u "x", length h)]), s, Ok None).
Example C125_case_endless h s a : (a < length h)%nat -> forall fuel, snd (for_preorder forever fuel h s [a]) = Raise OutOfFuel.
Proof.
  intros L fuel; refine (C125_preorder_endless forever (fun h n => (n < length h)%nat) _ fuel h s a L).
  clear; intros h s n h' s' r L E; unfold forever in E; injection E as <- <- <-; split; [reflexivity|].
  rewrite !Maps_proofs.length_put, app_length; unfold below; rewrite Tree_proofs.at_put_same by (rewrite app_length; lia).
  cbn [length set_children children dvals map snd]; split; [discriminate|split; [intros m; lia|]].
  intros m [<-|[]]; lia.
Qed.
Example C125_case_removals : forall h s n h' s' r m, unlinking h s n = (h', s', r) -> thinned (below h' m) (below h m).
Proof.
  assert (D : forall (d : dict str addr) k, thinned (dvals (ddel k d)) (dvals d)).
  { intros d k; induction d as [|[k' v] d IH]; [constructor|]; cbn [ddel]; destruct (eqb k k').
    - cbn [dvals map snd]; constructor; apply thinned_refl.
    - cbn [dvals map snd]; constructor; exact IH. }
  assert (P : forall h n x m, thinned (dvals (children x)) (below h n) -> thinned (below (put h n x) m) (below h m)).
  { intros h n x m T; destruct (Nat.eq_dec n m) as [<-|E].
    - destruct (Nat.lt_ge_cases n (length h)) as [L|L].
      + unfold below at 1; rewrite Tree_proofs.at_put_same by exact L; exact T.
      + unfold below, at_, Maps_model.fetch; rewrite !nth_overflow by (rewrite ?Maps_proofs.length_put; exact L); apply thinned_refl.
    - unfold below at 1; rewrite Tree_proofs.at_put_other by exact E; apply thinned_refl. }
  intros h s n h' s' r m E; unfold unlinking, unlink in E.
  assert (U : forall h1, thinned (below (put h1 n (set_parent (at_ h1 n) None)) m) (below h1 m)) by (intros h1; apply P; apply thinned_refl).
  destruct (parent (at_ h n)) as [p|]; [destruct (truth h p); [destruct (dget (label (at_ h n)) (children (at_ h p)))|]|]; injection E as <- _ _; try apply U.
  - eapply thinned_trans; [apply U|]; apply P; apply D.
  - apply thinned_refl.
Qed.
Example C125_case_sprout : forall h s n h' s' r m, sprout h s n = (h', s', r) -> m <> n -> below h' m = below h m.
Proof.
  intros h s n h' s' r m E D; unfold sprout in E; destruct (truth h n || (12 <? length h)%nat); injection E as <- _ _; [reflexivity|].
  assert (B : below (h ++ [Tree_props.mk (u "e")]) m = below h m).
  { unfold below, at_, Maps_model.fetch; destruct (Nat.lt_trichotomy m (length h)) as [L|[->|L]].
    - rewrite app_nth1 by exact L; reflexivity.
    - rewrite app_nth2 by lia; rewrite Nat.sub_diag; cbn [nth]; rewrite nth_overflow by lia; reflexivity.
    - rewrite !nth_overflow by (rewrite ?app_length; cbn [length]; lia); reflexivity. }
  rewrite <- B; unfold add_child; set (h1 := h ++ [Tree_props.mk (u "e")]).
  set (h2 := put h1 n (set_children (at_ h1 n) (dset (label (at_ h1 (length h))) (length h) (children (at_ h1 n))))).
  assert (B2 : below h2 m = below h1 m) by (unfold below, h2; rewrite Tree_proofs.at_put_other by congruence; reflexivity).
  rewrite <- B2; destruct (Nat.eq_dec (length h) m) as [<-|D'].
  - unfold below; rewrite Tree_proofs.at_put_same by (unfold h2, h1; rewrite Maps_proofs.length_put, app_length; cbn; lia); reflexivity.
  - unfold below; rewrite Tree_proofs.at_put_other by exact D'; reflexivity.
Qed.
(** places: emptying each place as it is visited *)
Definition p0 : list Place_model.place :=
  let mk l k := {| Place_model.label := l; Place_model.reading := None; Place_model.aliases := None; Place_model.kids := k |} in
  [mk (u "r") [(u "a", 1%nat); (u "b", 2%nat)]; mk (u "a") [(u "c", 3%nat)]; mk (u "b") []; mk (u "c") []].
Definition emptied (h : list Place_model.place) (s : unit) (p : str) (n : addr) : list Place_model.place * unit * res (option unit) :=
  if Nat.eqb n 0 then (h, s, Ok None) else (put h n (Place_model.set_kids (Place_model.at_ h n) []), s, Ok None).
Example C125_case_places : exists h' log,
  for_paths (logged_path emptied) 20 p0 (tt, []) [] 0 None [(0, 0%nat)] = (h', (tt, log), Ok None) /\
  map fst log = [(u "", 0%nat); (u "r", 1%nat); (u "r", 2%nat)].
Proof. eexists _, _; split; vm_compute; reflexivity. Qed.
