(* PruneAsk_props.v -- C134: what prune asks its predicate, and what it makes of the answers *)
From Verif Require Import Base PyText Rose Maps_model Maps_proofs Tree_model Tree_spec Tree_proofs PruneAsk_model PruneAsk_spec PruneAsk_proofs.

(** ** C134.  A predicate that looks at a node and at the nodes above it, keeps a state
    of its own, and may raise: prune leaves the tree itself alone, and gives a new
    tree of what the answers leave, or what the predicate raised *)
Theorem C134_prune S predicate pred h t fuel s : (forall s h a l, chain h a l -> predicate s h a = pred s (map (details h) l)) ->
  keyed h t -> truth_opt h (parent (at_ h (root t))) = false -> (2 * rsize t < fuel)%nat ->
  match asked_twice S _ pred (rosemap (details h) t) s with
  | (s', Ok o) => exists h' r, prune_ask S predicate fuel h (root t) s = (s', Ok (h', r)) /\ (forall a, (a < length h)%nat -> at_ h' a = at_ h a) /\
      match o with
      | Some T => exists t', r = Some (root t') /\ linked h' None t' /\ rosemap (details h') t' = T /\ forall a, In a (nodes t') -> (length h <= a)%nat
      | None => r = None
      end
  | (s', Raise e) => prune_ask S predicate fuel h (root t) s = (s', Raise e)
  end.
Proof. exact (prune_ask_ok S predicate pred h t fuel s). Qed.
Print Assumptions C134_prune.
(** where the answers do not depend on the state, the questions are, in order: the
    nodes none of whose descendants satisfies the predicate, last children first and
    children before parents; and the top once more, unless something is left below it.
    They end with the first answer that is an exception.  What is left are the nodes
    that satisfy the predicate and those above them. *)
Theorem C134_asked S A (g : S -> list A -> S) ans d t s : let yes := answered ans in
  asked_twice S A (fun s l => (g s l, ans l)) t s =
  match ask_all g ans (bare yes (pathed [] t) ++ if existsb (viable yes) (branches (pathed [] t)) then [] else [[root t]]) s with
  | (s, None) => (s, Ok (if viable yes (pathed [] t) then Some (rosemap (fun l => last l d) (keep yes (pathed [] t))) else None))
  | (s, Some e) => (s, Raise e)
  end.
Proof. exact (asked_twice_answers S A g ans d t s). Qed.
Print Assumptions C134_asked.
(** [pathed] pairs the nodes with their branches, and nothing else *)
Theorem C134_pathed A d (t : rose A) : rosemap (fun l => last l d) (pathed [] t) = t /\ forall l, In l (nodes (pathed [] t)) <-> branch t l.
Proof.
  assert (G : forall t up, rosemap (fun l => last l d) (pathed up t) = t /\ forall l, In l (nodes (pathed up t)) <-> exists m, l = up ++ m /\ branch t m).
  { clear t; induction t as [x ks IH] using rose_rec_ind; intros up; rewrite Forall_forall in IH; split.
    - cbn [pathed rosemap]; rewrite last_last; f_equal; rewrite map_map; rewrite <- (map_id ks) at 2; apply map_ext_in; intros k I; apply (IH k I).
    - intros l; cbn [pathed nodes In]; split.
      + intros [<-|I]; [exists [x]; split; [reflexivity|apply (Branch_end (Rose x ks))]|].
        apply in_flat_map in I; destruct I as [k' [I J]]; apply in_map_iff in I; destruct I as [k [<- I]].
        apply (IH k I) in J; destruct J as [m [-> B]]; exists (x :: m); rewrite <- app_assoc; split; [reflexivity|apply (Branch_down x ks k); assumption].
      + intros [m [-> B]]; inversion B as [t E1|y ks0 k m0 I B0 E1]; subst; [left; reflexivity|right].
        apply in_flat_map; exists (pathed (up ++ [x]) k); split; [apply in_map, I|]; apply (IH k I); exists m0; rewrite <- app_assoc; split; [reflexivity|exact B0]. }
  destruct (G t []) as [E M]; split; [exact E|]; intros l; rewrite M; split; [intros [m [-> B]]; exact B|intros B; exists l; split; [reflexivity|exact B]].
Qed.
Print Assumptions C134_pathed.
(** which nodes are asked about: those below which the predicate never holds *)
Theorem C134_bare A (b : A -> bool) t x :
  In x (bare b t) <-> exists k, subtree t k /\ root k = x /\ forall y, In y (flat_map nodes (branches k)) -> b y = false.
Proof.
  induction t as [a ks IH] using rose_rec_ind; cbn [bare]; rewrite Forall_forall in IH.
  assert (KIDS : forall ks, In x (fold_right (fun k l => l ++ bare b k) [] ks) <-> exists k, In k ks /\ In x (bare b k)).
  { clear; induction ks as [|k ks IHk]; cbn [fold_right]; [split; [intros []|intros [k [[] _]]]|].
    rewrite in_app_iff, IHk; split; [intros [[k' [I J]]|J]; [exists k'; split; [right; exact I|exact J]|exists k; split; [left; reflexivity|exact J]]|].
    intros [k' [[->|I] J]]; [right; exact J|left; exists k'; split; assumption]. }
  assert (NONE : existsb (viable b) ks = false <-> forall y, In y (flat_map nodes ks) -> b y = false).
  { unfold viable; rewrite <- existsb_flat_map; generalize (flat_map nodes ks) as l; induction l as [|y l IHl]; cbn [existsb]; [split; [intros _ y []|reflexivity]|].
    rewrite orb_false_iff, IHl; split; [intros [E F] z [<-|I]; [exact E|apply F, I]|intros F; split; [apply F; left; reflexivity|intros z I; apply F; right; exact I]]. }
  rewrite in_app_iff, KIDS; split.
  - intros [[k [I J]]|J].
    + apply (IH k I) in J; destruct J as [t [Su [R F]]]; exists t; split; [apply (Sub_down a ks k); assumption|split; assumption].
    + destruct (existsb (viable b) ks) eqn:E; [destruct J|destruct J as [<-|[]]]; exists (Rose a ks); split; [constructor|split; [reflexivity|]]; apply NONE; reflexivity.
  - intros [t [Su [R F]]]; inversion Su as [t0 E0|a0 ks0 k t0 I Su0]; subst.
    + right; cbn [branches] in F; apply NONE in F; rewrite F; left; reflexivity.
    + left; exists k; split; [exact I|]; apply (IH k I); exists t; split; [exact Su0|split; [reflexivity|exact F]].
Qed.
Print Assumptions C134_bare.
(** the nodes above are those that get_ancestors and path give *)
Theorem C134_ancestors h a l fuel : chain h a l -> (length l <= fuel)%nat -> get_ancestors fuel h a = Ok l /\ path_from_root fuel h a = Ok l.
Proof.
  intros C B; rewrite path_is_ancestors.
  assert (G : forall a l, chain h a l -> forall fuel r, (length l <= fuel)%nat -> ancestors_loop fuel h (r ++ [a]) a = Ok (r ++ rev l)).
  { clear; induction 1 as [a P|a p l P C IH]; intros fuel r B.
    - destruct fuel as [|f]; [cbn in B; lia|]; cbn [ancestors_loop]; rewrite P; reflexivity.
    - rewrite app_length in B; cbn [length] in B; destruct fuel as [|f]; [lia|]; cbn [ancestors_loop]; rewrite P, (IH f (r ++ [a])) by lia.
      rewrite rev_app_distr, <- app_assoc; reflexivity. }
  pose proof (G a l C fuel [] B) as E; cbn [app] in E; unfold get_ancestors; rewrite E; cbn [rmap]; rewrite rev_involutive; split; reflexivity.
Qed.
Print Assumptions C134_ancestors.
(** predicates that neither keep a state nor raise: this is prune as in C58 *)
Theorem C134_same p fuel h a : prune_ask unit (fun s h n => (s, Ok (p h n))) fuel h a tt = (tt, prune p fuel h a).
Proof. exact (prune_ask_same p fuel h a). Qed.
Print Assumptions C134_same.

(** a - (b - (d), c): a predicate that records the labels it was asked about, and holds
    of nodes three deep *)
Definition asking (ans : list str -> res bool) (s : list (list str)) (h : list node) (a : addr) : list (list str) * res bool :=
  match get_ancestors 9 h a with
  | Ok l => let p := map (fun b => label (at_ h b)) l in (s ++ [p], ans p)
  | Raise e => (s, Raise e)
  end.
Definition an (l : str) : node := {| label := l; children := []; attrib := []; parent := None |}.
Definition abcd : list node := add_child (add_child (add_child [an (u "a"); an (u "b"); an (u "c"); an (u "d")] 0 1) 0 2) 1 3.
Example C134_case : keyed abcd (Rose 0%nat [Rose 1%nat [Rose 3%nat []]; Rose 2%nat []]).
Proof.
  repeat first [apply Forall_nil | apply Forall_cons | apply Keyed; [vm_compute; lia|apply nodupb_NoDup; vm_compute; reflexivity|reflexivity|]].
Qed.
Example C134_case_asked : let run ans := let '(s, r) := prune_ask _ (asking ans) 20 abcd 0 [] in (s, rmap (fun x => match snd x with Some n => walk_preorder 9 (fst x) n | None => Ok [] end) r) in
  run (fun p => Ok (length p =? 3)%nat) = ([[u "a"; u "c"]; [u "a"; u "b"; u "d"]], Ok (Ok [4; 5; 7]%nat)) /\
  run (fun p => Ok false) = ([[u "a"; u "c"]; [u "a"; u "b"; u "d"]; [u "a"; u "b"]; [u "a"]; [u "a"]], Ok (Ok [])) /\
  run (fun p => if (length p =? 3)%nat then Raise ValueError else Ok true) = ([[u "a"; u "c"]; [u "a"; u "b"; u "d"]], Raise ValueError).
Proof. vm_compute; repeat split. Qed.
(** the top is asked about twice, and the second answer is what counts *)
Example C134_case_twice : let nth s (h : list node) (a : addr) := (S s, Ok (s =? 4)%nat : res bool) in
  let '(s, r) := prune_ask nat nth 20 abcd 0 0%nat in s = 5%nat /\ rmap snd r = Ok (Some 4%nat).
Proof. vm_compute; repeat split. Qed.
(** a predicate that counts its calls and looks at the label meets the premise *)
Example C134_case_premise : forall s h a l, chain h a l ->
  (S s, Ok (eqb (label (at_ h a)) (u "d")) : res bool) = (S s, Ok (eqb (fst (last (map (details h) l) ([], []))) (u "d"))).
Proof.
  intros s h a l C; assert (E : exists l0, l = l0 ++ [a]) by (destruct C as [a T|a p l T C]; [exists []|exists l]; reflexivity).
  destruct E as [l0 ->]; rewrite map_app; cbn [map]; rewrite last_last; reflexivity.
Qed.
