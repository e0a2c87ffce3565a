(* Said_props.v -- C139: what the remaining exceptions say *)
From Verif Require Import Base PyStr PyText Scripts_model Scripts_spec KanaTable_model Alternations_model Alternations_spec Alternations_proofs
  Common_model SmartCache_model SmartCache_spec SmartCache_proofs Rose Maps_model
  Misc_model Misc_spec Misc_proofs Tree_model Place_model Place_spec Place_proofs Messages_model Messages_proofs Said_model Said_spec Said_proofs Place_props.
From Verif Require Tree_spec Tree_proofs.
From Coq Require Import Permutation.

(** The functions with texts are those of the other files: dropping the texts gives
    the same results, streams and exceptions. *)
Theorem C139_same : forall U,
  (forall shuffle fuel h a s, forget (find_any shuffle fuel h a (Text s)) = Place_model.find_node shuffle fuel h a s) /\
  (forall repr s r al, forget (place_any repr (Text s) r al) = place_new s r al) /\
  (forall fuel h a, forget (walk_with_path_told fuel h a) = walk_with_path fuel h a) /\
  (forall fuel h a, forget (copy_told fuel h a) = Tree_model.copy fuel h a) /\
  (forall p fuel h a, forget (prune_told p fuel h a) = Tree_model.prune p fuel h a) /\
  (forall shuffle fuel h a l, forget (tree_find_told shuffle fuel h a l) = Tree_model.find_node shuffle fuel h a l) /\
  (forall py2 codec os name mode enc,
     (fst (sopen_told py2 codec os name mode enc), forget (snd (sopen_told py2 codec os name mode enc))) = sopen py2 codec os name mode enc) /\
  (forall so st target deps, forget (update_needed_told so st target deps) = needs_update so st target (map fst deps)) /\
  (forall s l r, forget (segment_forms_told U s l r) = canonical_segment_forms U s l r) /\
  (forall segs, forget (forms_told U segs) = canonical_forms U segs) /\
  (forall environ own user isdir, forget (find_path_told environ own user isdir) = find_path environ own user isdir) /\
  (forall environ own user isdir name, forget (resource_told environ own user isdir name) = get_resource environ own user isdir name) /\
  (forall environ own user isdir ls, forget (lists_told environ own user isdir ls) = get_lists environ own user isdir ls) /\
  (forall environ own user isdir c name, forget (list_told environ own user isdir c name) = get_list environ own user isdir c name).
Proof.
  intros U; split; [exact forget_find|].
  split; [intros repr s r al; apply forget_place|].
  split. { intros fuel h a; unfold walk_with_path_told, walk_with_path; rewrite forget_try, forget_silent.
           destruct (walk fuel h a); [apply forget_with_path|reflexivity]. }
  split; [exact forget_copy|]. split; [exact forget_prune|]. split; [exact forget_tree_find|]. split; [exact forget_sopen|].
  split. { intros so st target deps; unfold update_needed_told, needs_update; destruct (dget target st); [apply forget_check|reflexivity]. }
  split; [exact (forget_segment U)|]. split; [exact (forget_forms U)|]. split; [exact forget_find_path|]. split; [exact forget_resource|].
  split; [exact forget_lists|exact forget_list].
Qed.
Print Assumptions C139_same.

(** Place.find_node of a text complains exactly when no place of the tree has that
    label, and names it. *)
Theorem C139_find_text shuffle h t l fuel : (forall n q, Permutation q (shuffle n q)) -> tree_at h t -> keyed h t -> (2 * rsize t + 1 < fuel)%nat ->
  forall e m, find_any shuffle fuel h (root t) (Text l) = Fail e m <->
    unknown_label h t l /\ e = KeyError /\ m = Some (u "no such node " ++ l).
Proof.
  intros Sh T K F e m.
  assert (R : forall d c, reach h (root t) d c -> In c (nodes t)) by (intros d c; apply reach_in, T).
  assert (R' : forall c, In c (nodes t) -> exists d, reach h (root t) d c).
  { intros c I; rewrite <- (pre_nodes t 0) in I; apply in_map_iff in I as [[d c'] [E I]]; cbn in E; subst c'.
    exists d; apply (pre_reach h t d c T), I. }
  pose proof (forget_find shuffle fuel h (root t) l) as G.
  destruct (eqb_spec l (Place_model.label (Place_model.at_ h (root t)))) as [E|NE].
  - assert (X : find_any shuffle fuel h (root t) (Text l) = Fine Root) by (unfold find_any; rewrite <- E, eqb_refl; reflexivity).
    rewrite X; split; [discriminate|]; intros [N _]; exfalso; apply (N (root t)); [|symmetry; exact E].
    apply (R 0), Reach_root.
  - destruct (find_node_ok shuffle h t l fuel Sh T K NE F) as [[b [p [O [P [L _]]]]]|[O N]]; rewrite O in G.
    + destruct (find_any shuffle fuel h (root t) (Text l)) as [x|x y]; [|discriminate]; split; [discriminate|].
      intros [Un _]; exfalso; apply (Un b); [|exact L].
      apply (R (0 + Z.of_nat (length p))), (path_reach h _ p b P), Reach_root.
    + destruct (find_any shuffle fuel h (root t) (Text l)) as [x|x y] eqn:Q; [discriminate|]; cbn [forget] in G; injection G as ->.
      unfold find_any in Q; destruct (eqb_spec l (Place_model.label (Place_model.at_ h (root t)))); [congruence|]; apply find_loop_said in Q as [[X _]|[_ ->]]; [discriminate|].
      split; [intros X; injection X as <- <-; repeat split; intros c I; destruct (R' c I) as [d D]; exact (N d c D)|].
      intros [_ [-> ->]]; reflexivity.
Qed.
Print Assumptions C139_find_text.

(** Of another label: it is never found, but only for some is that said.  The
    elements of a tuple become the arguments of the format, so a tuple of one is
    named by its element and any other tuple is a TypeError; so is a label that
    cannot be a key. *)
Theorem C139_find_other shuffle h t fuel : (forall n q, Permutation q (shuffle n q)) -> tree_at h t -> keyed h t -> (2 * rsize t + 1 < fuel)%nat ->
  (forall s, find_any shuffle fuel h (root t) (Other s) = Fail KeyError (Some (u "no such node " ++ s))) /\
  (forall s, find_any shuffle fuel h (root t) (Tuple [s]) = Fail KeyError (Some (u "no such node " ++ s))) /\
  (forall l, length l <> 1%nat -> find_any shuffle fuel h (root t) (Tuple l) = Fail TypeError None) /\
  (forall s, find_any shuffle fuel h (root t) (Unhashable s) = Fail TypeError None).
Proof.
  intros Sh T K F.
  assert (G : forall a, no_text a -> find_any shuffle fuel h (root t) a = absent a).
  { intros a N; destruct (unused h (Place_model.label (Place_model.at_ h (root t)))) as [s [NE D]].
    assert (X : find_any shuffle fuel h (root t) a = find_any_loop shuffle fuel O h a [([], root t)] []) by (destruct a; [destruct N|reflexivity|reflexivity|destruct N]).
    rewrite X, (find_loop_other shuffle fuel O h a s _ _ N D).
    destruct (find_node_ok shuffle h t s fuel Sh T K NE F) as [[b [p [O _]]]|[O _]]; unfold Place_model.find_node in O;
      destruct (eqb s (Place_model.label (Place_model.at_ h (root t)))); try discriminate; rewrite O; reflexivity. }
  repeat split; intros.
  - apply (G (Other s)); exact I.
  - apply (G (Tuple [s])); exact I.
  - rewrite (G (Tuple l)) by exact I; destruct l as [|x [|y l]]; [reflexivity|cbn in H; congruence|reflexivity].
  - destruct fuel as [|f]; [lia|]; reflexivity.
Qed.
Print Assumptions C139_find_other.
(** so it is not true that every label that is not there is a KeyError, in any tree *)
Theorem C139_find_key_error_refuted shuffle h t fuel : (forall n q, Permutation q (shuffle n q)) -> tree_at h t -> keyed h t -> (2 * rsize t + 1 < fuel)%nat ->
  ~ forall a, not_text a -> exists m, find_any shuffle fuel h (root t) a = Fail KeyError m.
Proof.
  intros Sh T K F H; destruct (C139_find_other shuffle h t fuel Sh T K F) as [_ [_ [G _]]].
  destruct (H (Tuple [u "a"; u "b"])) as [m E]; [intros s; discriminate|].
  rewrite G in E; [discriminate|]; cbn; lia.
Qed.
Print Assumptions C139_find_key_error_refuted.

(** A place is made exactly of a label that is a text, without spaces; what else is
    given as a label is shown. *)
Theorem C139_place repr a r al :
  (forall p, place_any repr a r al = Fine p <->
     exists s, a = Text s /\ spaceless s r al /\ p = {| Place_model.label := s; reading := r; aliases := al; kids := [] |}) /\
  (forall s, a = Text s -> ~ spaceless s r al -> place_any repr a r al = Fail ValueError (Some (u "no spaces allowed in place details"))) /\
  (not_text a -> place_any repr a r al = Fail TypeError (Some (u "expected string, not " ++ repr a))).
Proof.
  assert (G : forall s, (mem 32 s || match r with Some r => mem 32 r | None => false end || match al with Some l => mem 32 (concat l) | None => false end) = false
    <-> spaceless s r al).
  { intros s; unfold spaceless; rewrite !orb_false_iff; rewrite <- !not_true_iff_false; rewrite mem_In.
    split.
    - intros [[A B] C]; repeat split; [exact A|intros x ->; rewrite mem_In in B; exact B|].
      intros l x -> I X; apply C; rewrite mem_In; apply in_concat; exists x; split; assumption.
    - intros [A [B C]]; repeat split; [exact A|destruct r as [x|]; [rewrite mem_In; apply B; reflexivity|discriminate]|].
      destruct al as [l|]; [|discriminate]; rewrite mem_In; intros X; apply in_concat in X as [x [I X]]; exact (C l x eq_refl I X). }
  assert (P : forall s, (spaceless s r al -> place_any repr (Text s) r al = Fine {| Place_model.label := s; reading := r; aliases := al; kids := [] |}) /\
    (~ spaceless s r al -> place_any repr (Text s) r al = Fail ValueError (Some (u "no spaces allowed in place details")))).
  { intros s; rewrite <- G; unfold place_any, place_told, place_new; destruct (_ || _); split; intros H; try reflexivity; congruence. }
  split; [|split].
  - intros p; split.
    + destruct a as [s|l|s|s]; try discriminate.
      intros E; exists s; split; [reflexivity|].
      assert (Sp : spaceless s r al).
      { rewrite <- G; unfold place_any, place_told, place_new in E; destruct (_ || _); [discriminate|reflexivity]. }
      split; [exact Sp|]; rewrite (proj1 (P s) Sp) in E; injection E as <-; reflexivity.
    + intros [s [-> [Sp ->]]]; apply P, Sp.
  - intros s -> N; apply P, N.
  - intros N; destruct a as [s|l|s|s]; [destruct (N s eq_refl)| | |]; reflexivity.
Qed.
Print Assumptions C139_place.

(** Place.walk_with_path never finds a strange depth, in any store: also where
    places hold each other, or one place twice. *)
Theorem C139_depths fuel h a : (exists r, walk_with_path_told fuel h a = Fine r) \/ walk_with_path_told fuel h a = Fail OutOfFuel None.
Proof.
  destruct (walk_with_path_fine h fuel a) as [[r E]|E]; unfold walk_with_path in E; unfold walk_with_path_told.
  - left; destruct (walk fuel h a) as [w|e]; [|discriminate]; cbn [bind silent tbind] in *.
    rewrite <- forget_with_path in E; destruct (with_path_told h [] 0 None w) as [q|x y]; [exists q; reflexivity|discriminate].
  - right; destruct (walk fuel h a) as [w|e] eqn:W; cbn [bind silent tbind] in *; [|injection E as ->; reflexivity].
    exfalso; destruct (walk_with_path_fine h fuel a) as [[r E']|E']; unfold walk_with_path in E'; rewrite W in E'; cbn [bind] in E'; [congruence|].
    assert (N : forall w path ld ln, with_path h path ld ln w <> Raise OutOfFuel).
    { clear; induction w as [|[d n] w IH]; intros path ld ln; cbn [with_path]; [discriminate|].
      destruct (d =? ld + 1); [destruct ln as [x|]; [|discriminate]|destruct (d =? ld); [|destruct (d <? ld); [|discriminate]]]; cbn [bind];
      match goal with |- rmap _ (with_path h ?p d ?l w) <> _ => specialize (IH p d l); destruct (with_path h p d l w); cbn [rmap bind]; congruence end. }
    exact (N w [] 0 None E').
Qed.
Print Assumptions C139_depths.

(** A tree is refused for copying (and so for pruning) exactly below a node that
    has children; a node below one that has none is copied. *)
Theorem C139_copy fuel h a m : copy_told fuel h a = Fail PlainException (Some m) <->
  below_something h a /\ m = u "Cannot copy from a non-root node".
Proof.
  assert (B : below_something h a <-> truth_opt h (parent (Tree_model.at_ h a)) = true).
  { unfold below_something, truth_opt, truth; destruct (parent (Tree_model.at_ h a)) as [p|]; [|split; [intros [p [E _]]; discriminate|discriminate]].
    destruct (children (Tree_model.at_ h p)) eqn:C; split; try discriminate.
    - intros [q [E N]]; injection E as <-; congruence.
    - reflexivity.
    - intros _; exists p; split; [reflexivity|rewrite C; discriminate]. }
  rewrite B; unfold copy_told; destruct (truth_opt h (parent (Tree_model.at_ h a))); split.
  - intros E; injection E as <-; split; reflexivity.
  - intros [_ ->]; reflexivity.
  - destruct (copy fuel h a); discriminate.
  - intros [X _]; discriminate.
Qed.
Print Assumptions C139_copy.
Theorem C139_prune predicate fuel h a : (below_something h a ->
    prune_told predicate fuel h a = Fail PlainException (Some (u "Cannot copy from a non-root node"))) /\
  forall e m, prune_told predicate fuel h a = Fail e (Some m) -> below_something h a.
Proof.
  split.
  - intros B; unfold prune_told; rewrite (proj2 (C139_copy fuel h a _) (conj B eq_refl)); reflexivity.
  - intros e m E; unfold prune_told in E; destruct (copy_told fuel h a) as [[h' b]|x y] eqn:C; cbn [tbind] in E.
    + destruct (for_postorder (prune_body predicate) fuel h' tt [(b, false)]) as [[h'' s] [o|e']]; discriminate.
    + injection E as -> ->; unfold copy_told in C; destruct (truth_opt h (parent (Tree_model.at_ h a))) eqn:T.
      * apply (C139_copy fuel h a m); unfold copy_told; rewrite T; injection C as _ <-; reflexivity.
      * destruct (copy fuel h a); discriminate.
Qed.
Print Assumptions C139_prune.

(** find_node of a tree raises the label that none of its nodes has. *)
Theorem C139_tree_find shuffle h t l fuel : (forall n q, Permutation q (shuffle n q)) -> Tree_spec.tree_at h t -> (rsize t < fuel)%nat ->
  forall e m, tree_find_told shuffle fuel h (root t) l = Fail e m <->
    (forall d n, Tree_spec.reach h (root t) d n -> Tree_model.label (Tree_model.at_ h n) <> l) /\ e = KeyError /\ m = Some l.
Proof.
  intros Sh T F e m. pose proof (Tree_proofs.find_node_ok shuffle h t l fuel Sh T F) as G. unfold Tree_model.find_node in G. unfold tree_find_told.
  destruct (for_breadth (find_body l) shuffle fuel 0 h tt [root t] []) as [[h' s] [[n|]|x]] eqn:X.
  - destruct G as [(n' & d & E & R & L & _)|[E _]]; [|discriminate E]. split; [discriminate|]. intros [N _]. exfalso. exact (N d n' R L).
  - destruct G as [(n' & d & E & _)|[_ N]]; [discriminate E|]. split; [intro E; injection E as <- <-; split; [exact N|split; reflexivity]|intros (_ & -> & ->); reflexivity].
  - destruct G as [(n' & d & E & _)|[E N]]; [discriminate E|]. injection E as ->.
    exfalso. exact (tree_only_fuel l shuffle _ _ _ _ _ _ _ _ _ X eq_refl).
Qed.
Print Assumptions C139_tree_find.

(** sopen refuses exactly the modes with both letters, before the encoding is
    looked up and without opening anything. *)
Theorem C139_sopen py2 codec os name mode enc opened e m : sopen_told py2 codec os name mode enc = (opened, Fail e (Some m)) <->
  In (u1 "r") mode /\ In (u1 "w") mode /\ opened = [] /\ e = PlainException /\ m = u "Must be either read mode or write, but not both".
Proof.
  unfold sopen_told; rewrite <- !mem_In; destruct (mem (u1 "r") mode), (mem (u1 "w") mode); cbn [andb].
  1: split; [intros E; injection E as <- <- <-; repeat split|intros [_ [_ [-> [-> ->]]]]; reflexivity].
  all: destruct (sopen py2 codec os name mode enc) as [o [x|x]]; split; try discriminate; intros [X [Y _]]; discriminate.
Qed.
Print Assumptions C139_sopen.

(** needs_update names the type of the first dependency it does not know, exactly
    when the target exists and everything before that dependency is older; *)
Theorem C139_update so st target deps e m : (forall l, Permutation (so l) l) ->
  (update_needed_told so st target deps = Fail e (Some m) <->
   exists f l ty r ls, dget target st = Some f /\ deps = l ++ (DepOther, ty) :: r /\
     looks (map fst l) ls /\ Forall (fresh st (mtime f)) ls /\
     e = TypeError /\ m = u "Unknown dependency type " ++ ty).
Proof.
  intros P; unfold update_needed_told; destruct (dget target st) as [f|].
  - rewrite (check_said so st (mtime f) deps e m); split.
    + intros [l [ty [r [-> [-> [-> C]]]]]]; apply (check_fresh so P) in C as [ls [K F]].
      exists f, l, ty, r, ls; repeat split; assumption.
    + intros [f' [l [ty [r [ls [E [-> [K [F [-> ->]]]]]]]]]]; injection E as <-.
      exists l, ty, r; repeat split; apply (check_fresh so P); exists ls; split; assumption.
  - split; [discriminate|]; intros [f [l [ty [r [ls [E _]]]]]]; discriminate.
Qed.
Print Assumptions C139_update.
(** so an unknown dependency goes unnoticed while there is no target *)
Theorem C139_update_unnoticed_refuted so ty : ~ forall st target deps, In (DepOther, ty) deps -> exists e m, update_needed_told so st target deps = Fail e m.
Proof. intros H; destruct (H [] (u "x") [(DepOther, ty)] (or_introl eq_refl)) as [e [m E]]; discriminate. Qed.
Print Assumptions C139_update_unnoticed_refuted.

(** A segment is refused exactly when its first character is no kana, or there is
    none; a sequence for its first such segment, when those before it have forms. *)
Theorem C139_segment U s l r e m : segment_forms_told U s l r = Fail e (Some m) <->
  ~ kana_segment s /\ e = ValueError /\ m = u "Unsupported script type. Segments must be hiragana or katakana".
Proof. exact (segment_said U s l r e m). Qed.
Print Assumptions C139_segment.
Theorem C139_segments U segs e m : forms_told U segs = Fail e (Some m) <->
  e = ValueError /\ m = u "Unsupported script type. Segments must be hiragana or katakana" /\
  exists l s r, segs = l ++ s :: r /\ ~ kana_segment s /\
    forall j seg, nth_error l j = Some seg -> exists vs, canonical_segment_forms U seg (0 <? j)%nat (j <? length segs - 1)%nat = Ok vs.
Proof. exact (forms_said U segs e m). Qed.
Print Assumptions C139_segments.

Theorem C139_pack_text : please = u "Please install the cjk data pack in one of the default locations and/or set the CJKDATA environment variable to the location of the  data pack.".
Proof. vm_compute. reflexivity. Qed.
Print Assumptions C139_pack_text.
(** find_path asks for the data pack exactly when there is nowhere to find it, and
    so do get_resource, get_lists and get_list, whatever is asked of them. *)
Theorem C139_pack environ own user isdir :
  (forall e m, find_path_told environ own user isdir = Fail e m <-> no_pack environ own isdir /\ e = MissingCJKDataError /\ m = Some please) /\
  (no_pack environ own isdir -> forall name ls c,
     resource_told environ own user isdir name = Fail MissingCJKDataError (Some please) /\
     lists_told environ own user isdir ls = Fail MissingCJKDataError (Some please) /\
     list_told environ own user isdir c name = Fail MissingCJKDataError (Some please)) /\
  (forall e m name, resource_told environ own user isdir name = Fail e m -> no_pack environ own isdir) /\
  (forall e m ls, lists_told environ own user isdir ls = Fail e (Some m) -> no_pack environ own isdir) /\
  (forall e m c name, list_told environ own user isdir c name = Fail e (Some m) -> no_pack environ own isdir).
Proof.
  assert (G : forall e m, find_path_told environ own user isdir = Fail e m <-> no_pack environ own isdir /\ e = MissingCJKDataError /\ m = Some please).
  { intros e m; unfold find_path_told, no_pack; rewrite <- dget_None; destruct (dget (u "CJKDATA") environ) as [p|]; [split; [discriminate|intros [[X _] _]; discriminate]|].
    assert (X : expanduser environ own user (u "/usr/share/data/cjkdata") = u "/usr/share/data/cjkdata") by (vm_compute; reflexivity).
    assert (Y : expanduser environ own user (u "/usr/local/share/data/cjkdata") = u "/usr/local/share/data/cjkdata") by (vm_compute; reflexivity).
    rewrite search_said; unfold SEARCH_PATHS; split.
    - intros [-> [-> H]]; pose proof (H _ (or_introl eq_refl)) as H1; pose proof (H _ (or_intror (or_introl eq_refl))) as H2;
        pose proof (H _ (or_intror (or_intror (or_introl eq_refl)))) as H3; rewrite X in H2; rewrite Y in H3.
      split; [|split; reflexivity]; split; [reflexivity|split; [exact H2|split; [exact H3|]]].
      intros d D; rewrite (default_unique environ own user d D); exact H1.
    - intros [[_ [A [B C]]] [-> ->]]; split; [reflexivity|split; [reflexivity|]].
      intros p [<-|[<-|[<-|[]]]]; [apply C, expand_home|rewrite X; exact A|rewrite Y; exact B]. }
  split; [exact G|split].
  - intros N name ls c; pose proof (proj2 (G _ _) (conj N (conj eq_refl eq_refl))) as F.
    unfold lists_told, list_told, resource_told; rewrite F; repeat split.
  - assert (R : forall e m name, resource_told environ own user isdir name = Fail e m -> no_pack environ own isdir).
    { intros e m name E; unfold resource_told in E; destruct (find_path_told environ own user isdir) as [b|x y] eqn:F; [discriminate|].
      exact (proj1 (proj1 (G _ _) eq_refl)). }
    split; [exact R|split].
    + intros e m ls E; unfold lists_told in E; destruct (resource_told environ own user isdir _) as [f|x y] eqn:F; [|exact (R _ _ _ F)].
      cbn [tbind] in E; destruct (ls f); discriminate.
    + intros e m c name E; unfold list_told in E; destruct (resource_told environ own user isdir _) as [f|x y] eqn:F; [|exact (R _ _ _ F)].
      cbn [tbind] in E; destruct (c f); discriminate.
Qed.
Print Assumptions C139_pack.

(** the premises can be met, and the texts *)
Definition at_random (n : nat) (q : list (list str * addr)) : list (list str * addr) := if Nat.even n then rev q else q.
Example C139_case_shuffle : forall n q, Permutation q (at_random n q).
Proof. intros n q; unfold at_random; destruct (Nat.even n); [apply Permutation_rev|apply Permutation_refl]. Qed.
Example C139_case_tree : tree_at Place_props.ex_heap Place_props.ex_tree /\ keyed Place_props.ex_heap Place_props.ex_tree /\
  unknown_label Place_props.ex_heap Place_props.ex_tree (u "Tokyo") /\ ~ unknown_label Place_props.ex_heap Place_props.ex_tree (u "Sydney").
Proof.
  split; [exact Place_props.ex_tree_at|split; [|split]].
  - intros a [<-|[<-|[<-|[<-|[<-|[]]]]]]; (split; [apply nodupb_NoDup; vm_compute; reflexivity|]); intros k c I; repeat (destruct I as [I|I]; [injection I as <- <-; reflexivity|]); destruct I.
  - intros a [<-|[<-|[<-|[<-|[<-|[]]]]]]; vm_compute; discriminate.
  - intros H; apply (H 2%nat); [right; right; right; right; left; reflexivity|reflexivity].
Qed.
Example C139_case_find : map (find_any at_random 20 Place_props.ex_heap 0%nat) [Text (u "Tokyo"); Other (u "3"); Tuple [u "Sydney"]; Tuple []; Tuple [u "a"; u "b"]; Unhashable (u "[]")] =
  [Fail KeyError (Some (u "no such node Tokyo")); Fail KeyError (Some (u "no such node 3")); Fail KeyError (Some (u "no such node Sydney"));
   Fail TypeError None; Fail TypeError None; Fail TypeError None].
Proof. vm_compute; reflexivity. Qed.
Example C139_case_place : let repr a := match a with Text s => u "'" ++ s ++ u "'" | Tuple _ => u "(...)" | Other s | Unhashable s => s end in
  place_any repr (Other (u "3")) None None = Fail TypeError (Some (u "expected string, not 3")) /\
  place_any repr (Text (u "New York")) None None = Fail ValueError (Some (u "no spaces allowed in place details")) /\
  exists p, place_any repr (Text (u "York")) (Some []) (Some [u "a"; u "b"]) = Fine p.
Proof. vm_compute; repeat split; eexists; reflexivity. Qed.
(** two places that hold each other are walked for ever; one that holds another twice has no strange depth *)
Example C139_case_depths : let p l ks := {| Place_model.label := l; reading := None; aliases := None; kids := ks |} in
  walk_with_path_told 50 [p (u "a") [(u "b", 1%nat)]; p (u "b") [(u "a", 0%nat)]] 0%nat = Fail OutOfFuel None /\
  walk_with_path_told 50 [p (u "a") [(u "b", 1%nat); (u "c", 1%nat)]; p (u "b") []] 0%nat = Fine [([], 0%nat); (u "a", 1%nat); (u "a", 1%nat)].
Proof. vm_compute; repeat split. Qed.
Example C139_case_copy : let n l ks p := {| Tree_model.label := l; children := ks; attrib := []; parent := p |} in
  copy_told 9 [n (u "a") [(u "b", 1%nat)] None; n (u "b") [] (Some 0%nat)] 1%nat = Fail PlainException (Some (u "Cannot copy from a non-root node")) /\
  exists h, copy_told 9 [n (u "a") [] None; n (u "b") [] (Some 0%nat)] 1%nat = Fine (h, 2%nat).
Proof. vm_compute; repeat split; eexists; reflexivity. Qed.
Example C139_case_update : let f c t := {| content := c; mtime := t |} in
  let st := [(u "out", f [] 5); (u "old", f [] 3); (u "new", f [] 7)] in
  let nr := (DepOther, u "<class 'int'>") in
  update_needed_told (fun l => l) st (u "out") [(DepPath (u "old"), []); nr] = Fail TypeError (Some (u "Unknown dependency type <class 'int'>")) /\
  update_needed_told (fun l => l) st (u "out") [(DepPath (u "new"), []); nr] = Fine true /\
  update_needed_told (fun l => l) st (u "nowhere") [nr] = Fine true /\
  update_needed_told (fun l => l) st (u "out") [(DepPath (u "gone"), []); nr] = Fail OSError None.
Proof. vm_compute; repeat split. Qed.
Example C139_case_segments : (kana_segment (u "かn") /\ ~ kana_segment (u "nか") /\ ~ kana_segment []).
Proof.
  assert (N : forall c r, script_type (c :: r) <> Hiragana -> script_type (c :: r) <> Katakana -> ~ kana_segment (c :: r)).
  { intros c r A B [c' [r' [E [K|K]]]]; injection E as <- <-; [apply A|apply B]; apply Scripts_proofs.script_type_char; exact K. }
  split; [|split].
  - eexists _, _; split; [reflexivity|]; left; apply (Scripts_proofs.script_type_char _ (u "n")); vm_compute; reflexivity.
  - apply N; vm_compute; discriminate.
  - intros [c [r [E _]]]; discriminate.
Qed.
Example C139_case_pack : no_pack [(u "HOME", u "/home/me")] None (fun d => eqb d (u "/home/me")) /\
  find_path_told [(u "HOME", u "/home/me")] None (fun _ => None) (fun d => eqb d (u "/home/me")) = Fail MissingCJKDataError (Some
    (u "Please install the cjk data pack in one of the default locations and/or set the CJKDATA environment variable to the location of the  data pack.")).
Proof.
  assert (F : find_path_told [(u "HOME", u "/home/me")] None (fun _ => None) (fun d => eqb d (u "/home/me")) = Fail MissingCJKDataError (Some please)) by (vm_compute; reflexivity).
  split; [exact (proj1 (proj1 (proj1 (C139_pack _ None (fun _ => None) _) _ _) F))|vm_compute; reflexivity].
Qed.
Example C139_case_find_label : let h := [{| Tree_model.label := u "a"; children := []; attrib := []; parent := None |}] in
  Tree_spec.tree_at h (Rose 0%nat []) /\ tree_find_told (fun _ q => q) 5 h 0%nat (u "x") = Fail KeyError (Some (u "x")) /\ tree_find_told (fun _ q => q) 5 h 0%nat (u "a") = Fine 0%nat.
Proof. cbv zeta. split; [constructor; [reflexivity|constructor]|vm_compute; split; reflexivity]. Qed.
