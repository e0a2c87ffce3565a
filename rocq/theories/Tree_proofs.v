From Verif Require Import Base PyText Rose Maps_model Maps_proofs Tree_model Tree_spec.
From Coq Require Import Permutation Sorted.

(* ---------------- walks ---------------- *)
Fixpoint run_list {S A} (body : list node -> S -> addr -> list node * S * res (option A)) (h : list node) (s : S) (l : list addr)
    : list node * S * res (option A) :=
  match l with
  | [] => (h, s, Ok None)
  | n :: r => match body h s n with (h', s', Ok None) => run_list body h' s' r | out => out end
  end.
Definition same_children (h h' : list node) : Prop := forall a, children (at_ h' a) = children (at_ h a).
Definition keeps_children {S A} (body : list node -> S -> addr -> list node * S * res (option A)) : Prop :=
  forall h s n h' s' r, body h s n = (h', s', r) -> same_children h h'.
Lemma tree_same h h' t : same_children h h' -> tree_at h t -> tree_at h' t.
Proof.
  intros E; induction t as [a ks IH] using rose_rec_ind; intros T; inversion T as [? ? X F]; subst.
  constructor; [rewrite E; exact X|]; rewrite Forall_forall in *; intros k I; apply (IH k I), F, I.
Qed.
Lemma trees_same h h' ts : same_children h h' -> Forall (tree_at h) ts -> Forall (tree_at h') ts.
Proof. intros E F; eapply Forall_impl; [|exact F]; intros t; apply tree_same, E. Qed.
Lemma run_list_app {S A} (body : list node -> S -> addr -> list node * S * res (option A)) l : forall h s m,
  run_list body h s (l ++ m) = match run_list body h s l with (h', s', Ok None) => run_list body h' s' m | out => out end.
Proof.
  induction l as [|n l IH]; intros h s m; cbn [app run_list]; [reflexivity|].
  destruct (body h s n) as [[h' s'] [[x|]|e]]; [reflexivity|apply IH|reflexivity].
Qed.

(** parents first, children from the last to the first *)
Fixpoint rnodes {A} (t : rose A) : list A := match t with Rose x ks => x :: flat_map (fun l => l) (rev (map rnodes ks)) end.
Fixpoint pnodes {A} (t : rose A) : list A := match t with Rose x ks => flat_map (fun l => l) (rev (map pnodes ks)) ++ [x] end.
Definition rforest {A} (ts : list (rose A)) : list A := flat_map (fun l => l) (rev (map rnodes ts)).
Definition pforest {A} (ts : list (rose A)) : list A := flat_map (fun l => l) (rev (map pnodes ts)).
Lemma rforest_snoc {A} (ts : list (rose A)) t : rforest (ts ++ [t]) = rnodes t ++ rforest ts.
Proof. unfold rforest; rewrite map_app, rev_app_distr; reflexivity. Qed.
Lemma rforest_app {A} (ts us : list (rose A)) : rforest (ts ++ us) = rforest us ++ rforest ts.
Proof. unfold rforest; rewrite map_app, rev_app_distr, flat_map_app; reflexivity. Qed.
Lemma pforest_app {A} (ts us : list (rose A)) : pforest (ts ++ us) = pforest us ++ pforest ts.
Proof. unfold pforest; rewrite map_app, rev_app_distr, flat_map_app; reflexivity. Qed.
Lemma concat_rev_perm {A} (ls : list (list A)) : Permutation (flat_map (fun l => l) (rev ls)) (flat_map (fun l => l) ls).
Proof. apply Permutation_flat_map, Permutation_sym, Permutation_rev. Qed.
Lemma rnodes_perm {A} (t : rose A) : Permutation (rnodes t) (nodes t).
Proof.
  induction t as [x ks IH] using rose_rec_ind; cbn [rnodes nodes]; apply perm_skip.
  rewrite concat_rev_perm; induction IH as [|k ks E F IH']; [reflexivity|]; cbn [map flat_map]; apply Permutation_app; assumption.
Qed.
Lemma pnodes_perm {A} (t : rose A) : Permutation (pnodes t) (nodes t).
Proof.
  induction t as [x ks IH] using rose_rec_ind; cbn [pnodes nodes]; rewrite <- Permutation_cons_append; apply perm_skip.
  rewrite concat_rev_perm; induction IH as [|k ks E F IH']; [reflexivity|]; cbn [map flat_map]; apply Permutation_app; assumption.
Qed.

Section Generic.
  Context {S A : Type}.
  Variable body : list node -> S -> addr -> list node * S * res (option A).
  Hypothesis keeps : keeps_children body.
  Lemma preorder_run fuel : forall h s ts, Forall (tree_at h) ts -> (fsize ts < fuel)%nat ->
    for_preorder body fuel h s (map root ts) = run_list body h s (rforest ts).
  Proof.
    induction fuel as [|f IH]; intros h s ts F B; [lia|]; cbn [for_preorder].
    destruct ts as [|t ts _] using rev_ind; [reflexivity|].
    rewrite map_app; cbn [map]; rewrite pop_last_snoc, rforest_snoc; destruct t as [a ks]; cbn [root rnodes app run_list].
    destruct (body h s a) as [[h' s'] r] eqn:E; destruct r as [[x|]|e]; [reflexivity| |reflexivity].
    pose proof (keeps _ _ _ _ _ _ E) as K; apply Forall_app in F; destruct F as [F T]; inversion T as [|? ? T' _]; subst.
    inversion T' as [? ? X Fk]; subst; rewrite K, <- X, <- map_app, IH, rforest_app; [reflexivity| |].
    - apply (trees_same h); [exact K|apply Forall_app; split; assumption].
    - rewrite fsize_app in *; rewrite fsize_cons, rsize_eq in B; unfold fsize in *; cbn in *; lia.
  Qed.
  (** one step for a leaf, two for every other node *)
  Definition cost (bt : bool * rose addr) : nat := if fst bt then 1%nat else (2 * rsize (snd bt))%nat.
  Lemma costs_kids (ks : list (rose addr)) : list_sum (map cost (map (fun k => (false, k)) ks)) = (2 * fsize ks)%nat.
  Proof. induction ks as [|k ks IH]; [reflexivity|]; cbn [map list_sum fold_right]; unfold list_sum in IH; rewrite IH, fsize_cons; unfold cost; cbn [fst snd]; lia. Qed.
  Lemma postorder_run fuel : forall h s (ts : list (bool * rose addr)), Forall (fun bt => tree_at h (snd bt)) ts -> (list_sum (map cost ts) < fuel)%nat ->
    for_postorder body fuel h s (map (fun bt : bool * rose addr => (root (snd bt), fst bt)) ts) =
    run_list body h s (flat_map (fun l => l) (rev (map (fun bt : bool * rose addr => if fst bt then [root (snd bt)] else pnodes (snd bt)) ts))).
  Proof.
    induction fuel as [|f IH]; intros h s ts F B; [lia|]; cbn [for_postorder].
    destruct ts as [|[v t] ts _] using rev_ind; [reflexivity|].
    rewrite !map_app; cbn [map]; rewrite pop_last_snoc, rev_app_distr; cbn [rev app flat_map fst snd].
    apply Forall_app in F; destruct F as [F T]; inversion T as [|? ? T' _]; subst; cbn [snd] in T'.
    destruct t as [a ks]; cbn [root]; inversion T' as [? ? X Fk]; subst.
    rewrite map_app, list_sum_app in B; cbn [map list_sum fold_right] in B; unfold cost at 2 in B; cbn [fst snd] in B; rewrite rsize_eq in B.
    destruct v; cbn [orb negb].
    - cbn [app run_list]; destruct (body h s a) as [[h' s'] r] eqn:E; destruct r as [[x|]|e]; [reflexivity| |reflexivity].
      apply IH; [|lia].
      eapply Forall_impl; [|exact F]; intros bt; apply tree_same, (keeps _ _ _ _ _ _ E).
    - unfold truth; destruct (children (at_ h a)) as [|c0 cs] eqn:Ec; cbn [negb].
      + destruct ks; [|discriminate X]; cbn [pnodes map rev flat_map app run_list].
        destruct (body h s a) as [[h' s'] r] eqn:E; destruct r as [[x|]|e]; [reflexivity| |reflexivity].
        apply IH; [|cbn in B; lia].
        eapply Forall_impl; [|exact F]; intros bt; apply tree_same, (keeps _ _ _ _ _ _ E).
      + assert (Y : (map (fun bt : bool * rose addr => (root (snd bt), fst bt)) ts ++ [(a, true)]) ++ map (fun c => (c, false)) (dvals (c0 :: cs)) =
                map (fun bt : bool * rose addr => (root (snd bt), fst bt)) ((ts ++ [(true, Rose a ks)]) ++ map (fun k => (false, k)) ks)).
        { rewrite <- X, !map_app, !map_map; reflexivity. }
        rewrite Y, IH.
        * f_equal; rewrite !map_app, !rev_app_distr, !flat_map_app, !map_map; cbn [map fst snd root rev app flat_map pnodes].
          rewrite <- app_assoc; reflexivity.
        * apply Forall_app; split; [apply Forall_app; split; [exact F|constructor; [exact T'|constructor]]|].
          apply Forall_map; exact Fk.
        * rewrite !map_app, !list_sum_app, costs_kids; cbn [map list_sum fold_right]; unfold cost at 2; cbn [fst]; unfold fsize; lia.
  Qed.
  Lemma postorder_run1 fuel h s t : tree_at h t -> (2 * rsize t < fuel)%nat ->
    for_postorder body fuel h s [(root t, false)] = run_list body h s (pnodes t).
  Proof.
    intros T B; pose proof (postorder_run fuel h s [(false, t)]) as X; cbn [map fst snd rev app flat_map] in X.
    rewrite app_nil_r in X; apply X; [constructor; [exact T|constructor]|unfold list_sum, cost; cbn [fold_right fst snd]; lia].
  Qed.

  Variable shuffle : nat -> list addr -> list addr.
  Hypothesis shuffles : forall n l, Permutation l (shuffle n l).
  Definition levels (d : Z) (ts us : list (rose addr)) : list (Z * addr) := flat_map (pre d) ts ++ flat_map (pre (d + 1)) us.
  Lemma levels_ge d ts us e x : In (e, x) (levels d ts us) -> d <= e.
  Proof.
    intros I; apply in_app_or in I; destruct I as [I|I]; apply in_flat_map in I; destruct I as [t [_ I]]; pose proof (pre_depth _ _ _ _ I); lia.
  Qed.
  Lemma breadth_run fuel : forall k h s d ts us, Forall (tree_at h) ts -> Forall (tree_at h) us ->
    (ts = [] -> us = []) -> (fsize ts + fsize us < fuel)%nat ->
    exists ps, for_breadth body shuffle fuel k h s (map root ts) (map root us) = run_list body h s (map snd ps) /\
      Permutation ps (levels d ts us) /\ StronglySorted Z.le (map fst ps).
  Proof.
    induction fuel as [|f IH]; intros k h s d ts us Ft Fu Ne B; [lia|]; cbn [for_breadth].
    destruct ts as [|t ts _] using rev_ind.
    - rewrite (Ne eq_refl); exists []; cbn; split; [reflexivity|split; constructor].
    - rewrite map_app; cbn [map]; rewrite pop_last_snoc; destruct t as [a ks]; cbn [root].
      apply Forall_app in Ft; destruct Ft as [Ft T]; inversion T as [|? ? T' _]; subst; inversion T' as [? ? X Fk]; subst.
      rewrite fsize_app, fsize_cons, rsize_eq in B; change (fsize (@nil (rose addr))) with 0%nat in B.
      assert (PL : Permutation ((d, a) :: levels d ts (us ++ ks)) (levels d (ts ++ [Rose a ks]) us)).
      { unfold levels; rewrite !flat_map_app; cbn [flat_map pre]; rewrite app_nil_r, <- !app_assoc; cbn [app].
        rewrite <- Permutation_middle; apply perm_skip, Permutation_app_head, Permutation_app_comm. }
      (* the rest, whatever the state *)
      assert (R : forall h' s', same_children h h' -> exists ps,
        match map root ts with
        | [] => for_breadth body shuffle f (Datatypes.S k) h' s' (shuffle k (map root us ++ dvals (children (at_ h' a)))) []
        | _ => for_breadth body shuffle f k h' s' (map root ts) (map root us ++ dvals (children (at_ h' a)))
        end = run_list body h' s' (map snd ps) /\ Permutation ps (levels d ts (us ++ ks)) /\ StronglySorted Z.le (map fst ps)).
      { intros h' s' K; rewrite K, <- X, <- map_app; destruct ts as [|t ts].
        - cbn [map].
          destruct (Permutation_map_inv root (us ++ ks) (Permutation_sym (shuffles k (map root (us ++ ks))))) as [vs [E P]]; rewrite E.
          destruct (IH (Datatypes.S k) h' s' (d + 1) vs []) as [ps [E' [P' S']]].
          + apply (trees_same h); [exact K|apply (Permutation_Forall P), Forall_app; split; assumption].
          + constructor.
          + reflexivity.
          + rewrite <- (fsize_perm _ _ P), fsize_app; unfold fsize in *; cbn in *; lia.
          + exists ps; split; [exact E'|split; [|exact S']]; rewrite P'; unfold levels; cbn [flat_map app]; rewrite app_nil_r.
            apply Permutation_flat_map, Permutation_sym, P.
        - cbn [map]; change (root t :: map root ts) with (map root (t :: ts)).
          apply IH; [apply (trees_same h); assumption|apply (trees_same h); [exact K|apply Forall_app; split; assumption]|discriminate|].
          rewrite fsize_app; unfold fsize in *; lia. }
      assert (Gen : exists ps, Permutation ps (levels d ts (us ++ ks)) /\ StronglySorted Z.le (map fst ps)).
      { destruct (R h s (fun _ => eq_refl)) as [ps [_ Q]]; exists ps; exact Q. }
      assert (Fin : forall ps, Permutation ps (levels d ts (us ++ ks)) -> StronglySorted Z.le (map fst ps) ->
                Permutation ((d, a) :: ps) (levels d (ts ++ [Rose a ks]) us) /\ StronglySorted Z.le (map fst ((d, a) :: ps))).
      { intros ps P Q; split; [rewrite P; exact PL|]; cbn [map fst]; constructor; [exact Q|].
        apply Forall_forall; intros e I; apply in_map_iff in I; destruct I as [[e' x] [<- I]].
        apply (levels_ge d ts (us ++ ks) e' x), (Permutation_in _ P I). }
      destruct (body h s a) as [[h' s'] r] eqn:E; destruct r as [[x|]|e].
      + destruct Gen as [ps [P Q]]; exists ((d, a) :: ps); cbn [map snd run_list]; rewrite E; split; [reflexivity|apply Fin; assumption].
      + destruct (R h' s' (keeps _ _ _ _ _ _ E)) as [ps [E' [P Q]]]; exists ((d, a) :: ps); cbn [map snd run_list]; rewrite E; split; [|apply Fin; assumption].
        rewrite <- E'; destruct (map root ts); reflexivity.
      + destruct Gen as [ps [P Q]]; exists ((d, a) :: ps); cbn [map snd run_list]; rewrite E; split; [reflexivity|apply Fin; assumption].
  Qed.
End Generic.

(* ---------------- C54 ---------------- *)
Lemma tree_reach h t : forall d0 a0, tree_at h t -> reach h a0 d0 (root t) -> forall d b, In (d, b) (pre d0 t) -> reach h a0 d b.
Proof.
  induction t as [a ks IH] using rose_rec_ind; intros d0 a0 T R d b; cbn [pre root] in *; intros [E|I].
  - injection E as <- <-; exact R.
  - inversion T as [? ? E K]; subst; apply in_flat_map in I; destruct I as [k [Ik I]]; rewrite Forall_forall in IH, K.
    apply (IH k Ik (d0 + 1) a0 (K k Ik)); [|exact I].
    apply (Reach_kid h a0 d0 a); [exact R|rewrite <- E; apply in_map, Ik].
Qed.
Lemma sub_kid h t : forall d0, tree_at h t -> forall d b c, In (d, b) (pre d0 t) -> In c (dvals (children (at_ h b))) -> In (d + 1, c) (pre d0 t).
Proof.
  induction t as [a ks IH] using rose_rec_ind; intros d0 T d b c; cbn [pre].
  inversion T as [? ? E K]; subst; intros [X|I] C.
  - injection X as <- <-; right; rewrite <- E in C; apply in_map_iff in C; destruct C as [k [<- Ik]].
    apply in_flat_map; exists k; split; [exact Ik|destruct k; left; reflexivity].
  - right; apply in_flat_map in I; destruct I as [k [Ik I]]; apply in_flat_map; exists k; split; [exact Ik|].
    rewrite Forall_forall in IH, K; apply (IH k Ik (d0 + 1) (K k Ik) d b c I C).
Qed.
Lemma pre_reach h t d b : tree_at h t -> (In (d, b) (pre 0 t) <-> reach h (root t) d b).
Proof.
  intros T; split; [apply tree_reach; [exact T|apply Reach_root]|].
  induction 1 as [|d b c R IH C]; [destruct t; left; reflexivity|apply (sub_kid h t 0 T d b c IH C)].
Qed.
Lemma nodes_reach h t b : tree_at h t -> (In b (nodes t) <-> exists d, reach h (root t) d b).
Proof.
  intros T; rewrite <- (pre_nodes t 0), in_map_iff; split.
  - intros [[d c] [<- I]]; exists d; apply (pre_reach h t d c T), I.
  - intros [d R]; exists (d, b); split; [reflexivity|apply (pre_reach h t d b T), R].
Qed.

Definition before {A} (a c : A) (l : list A) : Prop := exists x y z, l = x ++ a :: y ++ c :: z.
Lemma before_app {A} (a c : A) p l q : before a c l -> before a c (p ++ l ++ q).
Proof. intros [x [y [z ->]]]; exists (p ++ x), y, (z ++ q); rewrite <- !app_assoc; cbn [app]; rewrite <- !app_assoc; reflexivity. Qed.
Lemma before_flat {A} (a c : A) ls l : In l ls -> before a c l -> before a c (flat_map (fun x => x) ls).
Proof. intros I B; apply in_split in I; destruct I as [p [q ->]]; rewrite flat_map_app; cbn [flat_map]; apply before_app, B. Qed.
Lemma rnodes_first h t : tree_at h t -> parents_first h (rnodes t).
Proof.
  induction t as [a ks IH] using rose_rec_ind; intros T b c; inversion T as [? ? E K]; subst; rewrite Forall_forall in IH, K; cbn [rnodes].
  intros [<-|I] C.
  - rewrite <- E in C; apply in_map_iff in C; destruct C as [k [<- Ik]].
    assert (I : In (root k) (flat_map (fun l => l) (rev (map rnodes ks)))).
    { apply in_flat_map; exists (rnodes k); split; [apply in_rev; rewrite rev_involutive; apply in_map, Ik|destruct k; left; reflexivity]. }
    apply in_split in I; destruct I as [y [z ->]]; exists [], y, z; reflexivity.
  - apply in_flat_map in I; destruct I as [l [Il I]]; pose proof Il as Il'; apply in_rev in Il; apply in_map_iff in Il; destruct Il as [k [<- Ik]].
    change (before b c ([a] ++ flat_map (fun l => l) (rev (map rnodes ks)))); rewrite <- (app_nil_r (flat_map _ _)); apply before_app.
    apply (before_flat b c _ (rnodes k) Il'), (IH k Ik (K k Ik)); assumption.
Qed.
Lemma pnodes_first h t : tree_at h t -> children_first h (pnodes t).
Proof.
  induction t as [a ks IH] using rose_rec_ind; intros T b c; inversion T as [? ? E K]; subst; rewrite Forall_forall in IH, K; cbn [pnodes].
  intros I C; apply in_app_or in I; destruct I as [I|[<-|[]]].
  - apply in_flat_map in I; destruct I as [l [Il I]]; pose proof Il as Il'; apply in_rev in Il; apply in_map_iff in Il; destruct Il as [k [<- Ik]].
    apply (before_app c b []); apply (before_flat c b _ (pnodes k) Il'), (IH k Ik (K k Ik)); assumption.
  - rewrite <- E in C; apply in_map_iff in C; destruct C as [k [<- Ik]].
    assert (I : In (root k) (flat_map (fun l => l) (rev (map pnodes ks)))).
    { apply in_flat_map; exists (pnodes k); split; [apply in_rev; rewrite rev_involutive; apply in_map, Ik|].
      apply (Permutation_in _ (Permutation_sym (pnodes_perm k))); destruct k; left; reflexivity. }
    apply in_split in I; destruct I as [y [z ->]]; exists y, z, []; rewrite <- app_assoc; reflexivity.
Qed.
Lemma collect_keeps : keeps_children collect.
Proof. intros h s n h' s' r E; injection E as <- _ _; intros a; reflexivity. Qed.
Lemma collect_run h l : forall s, run_list collect h s l = (h, s ++ l, Ok None).
Proof.
  induction l as [|n l IH]; intros s; cbn [run_list]; [rewrite app_nil_r; reflexivity|]; unfold collect at 1; rewrite IH, <- app_assoc; reflexivity.
Qed.
Lemma walk_preorder_ok h fuel t : tree_at h t -> (rsize t < fuel)%nat ->
  exists ns, walk_preorder fuel h (root t) = Ok ns /\ Permutation ns (nodes t) /\ parents_first h ns.
Proof.
  intros T B; exists (rnodes t); split; [|split; [apply rnodes_perm|apply rnodes_first, T]].
  unfold walk_preorder; change [root t] with (map root [t]); rewrite (preorder_run collect collect_keeps).
  - rewrite collect_run; unfold rforest; cbn [map rev app flat_map listed]; rewrite app_nil_r; reflexivity.
  - constructor; [exact T|constructor].
  - rewrite fsize_cons; change (fsize (@nil (rose addr))) with 0%nat; lia.
Qed.
Lemma walk_postorder_ok h fuel t : tree_at h t -> (2 * rsize t < fuel)%nat ->
  exists ns, walk_postorder fuel h (root t) = Ok ns /\ Permutation ns (nodes t) /\ children_first h ns.
Proof.
  intros T B; exists (pnodes t); split; [|split; [apply pnodes_perm|apply pnodes_first, T]].
  unfold walk_postorder; rewrite (postorder_run1 collect collect_keeps fuel h [] t T B), collect_run; reflexivity.
Qed.
Lemma breadth_one {S A} (body : list node -> S -> addr -> list node * S * res (option A)) shuffle fuel h s t :
  keeps_children body -> (forall n l, Permutation l (shuffle n l)) -> tree_at h t -> (rsize t < fuel)%nat ->
  exists ps, for_breadth body shuffle fuel O h s [root t] [] = run_list body h s (map snd ps) /\
    Permutation ps (pre 0 t) /\ StronglySorted Z.le (map fst ps).
Proof.
  intros K P T B; destruct (breadth_run body K shuffle P fuel O h s 0 [t] []) as [ps [E [Q Ss]]].
  - constructor; [exact T|constructor].
  - constructor.
  - discriminate.
  - rewrite fsize_cons; change (fsize (@nil (rose addr))) with 0%nat; lia.
  - exists ps; split; [exact E|split; [|exact Ss]]; rewrite Q; unfold levels; cbn [flat_map]; rewrite !app_nil_r; reflexivity.
Qed.
Lemma walk_breadth_ok shuffle h fuel t : (forall n l, Permutation l (shuffle n l)) -> tree_at h t -> (rsize t < fuel)%nat ->
  exists ps, walk_breadth_first shuffle fuel h (root t) = Ok (map snd ps) /\ Permutation ps (pre 0 t) /\ StronglySorted Z.le (map fst ps).
Proof.
  intros P T B; destruct (breadth_one collect shuffle fuel h [] t collect_keeps P T B) as [ps [E Q]]; exists ps; split; [|exact Q].
  unfold walk_breadth_first; rewrite E, collect_run; reflexivity.
Qed.

(* ---------------- C59 ---------------- *)
Lemma find_keeps l : keeps_children (find_body l).
Proof. intros h s n h' s' r E; injection E as <- _ _; intros a; reflexivity. Qed.
Lemma find_run l h ps : StronglySorted Z.le (map fst ps) ->
  (exists n d, run_list (find_body l) h tt (map snd ps) = (h, tt, Ok (Some n)) /\ In (d, n) ps /\ label (at_ h n) = l /\
     forall e m, In (e, m) ps -> label (at_ h m) = l -> d <= e) \/
  (run_list (find_body l) h tt (map snd ps) = (h, tt, Ok None) /\ forall e m, In (e, m) ps -> label (at_ h m) <> l).
Proof.
  induction ps as [|[d n] ps IH]; intros Ss; cbn [map fst snd run_list].
  - right; split; [reflexivity|intros e m []].
  - inversion Ss as [|? ? S' F]; subst; unfold find_body at 1 3; destruct (eqb_spec (label (at_ h n)) l) as [E|N].
    + left; exists n, d; split; [reflexivity|split; [left; reflexivity|split; [exact E|]]].
      intros e m [X|I] _; [injection X as <- _; lia|].
      rewrite Forall_forall in F; apply F, in_map_iff; exists (e, m); split; [reflexivity|exact I].
    + destruct (IH S') as [[n' [d' [R [I [E M]]]]]|[R M]].
      * left; exists n', d'; split; [exact R|split; [right; exact I|split; [exact E|]]].
        intros e m [X|J] Y; [injection X as <- <-; contradiction|apply (M e m J Y)].
      * right; split; [exact R|]; intros e m [X|J]; [injection X as <- <-; exact N|apply (M e m J)].
Qed.
Lemma find_node_ok shuffle h t l fuel : (forall n q, Permutation q (shuffle n q)) -> tree_at h t -> (rsize t < fuel)%nat ->
  (exists n d, find_node shuffle fuel h (root t) l = Ok n /\ reach h (root t) d n /\ label (at_ h n) = l /\
     forall e m, reach h (root t) e m -> label (at_ h m) = l -> d <= e) \/
  (find_node shuffle fuel h (root t) l = Raise KeyError /\ forall e m, reach h (root t) e m -> label (at_ h m) <> l).
Proof.
  intros P T B; destruct (breadth_one (find_body l) shuffle fuel h tt t (find_keeps l) P T B) as [ps [E [Q Ss]]].
  assert (X : forall d n, In (d, n) ps <-> reach h (root t) d n).
  { intros d n; rewrite <- (pre_reach h t d n T); split; apply Permutation_in; [exact Q|apply Permutation_sym, Q]. }
  unfold find_node; rewrite E; destruct (find_run l h ps Ss) as [[n [d [R [I [L M]]]]]|[R M]]; rewrite R.
  - left; exists n, d; split; [reflexivity|split; [apply X, I|split; [exact L|]]]; intros e m Y; apply (M e m), X, Y.
  - right; split; [reflexivity|]; intros e m Y; apply (M e m), X, Y.
Qed.

(* ---------------- C55, C56 ---------------- *)
Lemma at_put_same h a x : (a < length h)%nat -> at_ (put h a x) a = x.
Proof. apply fetch_put_same. Qed.
Lemma at_put_other h a b x : a <> b -> at_ (put h a x) b = at_ h b.
Proof. apply fetch_put_other. Qed.
Lemma at_out h a : (length h <= a)%nat -> at_ h a = no_node.
Proof. intros L; unfold at_, fetch; rewrite nth_overflow; [reflexivity|exact L]. Qed.
Lemma at_app_old h x a : (a < length h)%nat -> at_ (h ++ x) a = at_ h a.
Proof. apply fetch_app_old. Qed.
Lemma at_app_new h x : at_ (h ++ [x]) (length h) = x.
Proof. apply fetch_app_new. Qed.
Definition good (h : list node) : Prop :=
  (forall p, NoDup (dkeys (children (at_ h p)))) /\
  (forall p k c, In (k, c) (children (at_ h p)) -> (c < length h)%nat /\ k = label (at_ h c) /\ parent (at_ h c) = Some p) /\
  (forall c p, parent (at_ h c) = Some p -> (p < length h)%nat /\ In (label (at_ h c), c) (children (at_ h p))).
Lemma good_consistent h : good h -> consistent h.
Proof.
  intros [N [D U]] p c; split; intros E.
  - apply In_dget; [apply N|apply U, E].
  - apply dget_In in E; apply (D p _ c E).
Qed.
Lemma good_unlink h c : good h -> (c < length h)%nat -> exists h', unlink h c = (h', Ok tt) /\ good h' /\ length h' = length h /\
  parent (at_ h' c) = None /\ (forall p k, ~ In (k, c) (children (at_ h' p))) /\ (forall b, label (at_ h' b) = label (at_ h b)) /\
  (forall b, b <> c -> parent (at_ h' b) = parent (at_ h b)) /\
  (forall b k a, a <> c -> (In (k, a) (children (at_ h' b)) <-> In (k, a) (children (at_ h b)))).
Proof.
  intros [N [D U]] L; unfold unlink; destruct (parent (at_ h c)) as [p|] eqn:P.
  - destruct (U c p P) as [Lp I]; pose proof (In_dget _ _ _ (N p) I) as G; rewrite G; unfold truth.
    replace (match children (at_ h p) with [] => false | _ :: _ => true end) with true by (destruct (children (at_ h p)); [destruct I|reflexivity]).
    set (h1 := put h p _); eexists; split; [reflexivity|].
    set (h2 := put h1 c _).
    assert (L1 : length h1 = length h) by (unfold h1; apply length_put).
    assert (L2 : length h2 = length h) by (unfold h2; rewrite length_put; exact L1).
    assert (Lab : forall b, label (at_ h2 b) = label (at_ h b)).
    { intros b; unfold h2; destruct (Nat.eq_dec b c) as [->|Nc]; [rewrite at_put_same by lia; cbn [set_parent label]|rewrite at_put_other by congruence];
      unfold h1; (destruct (Nat.eq_dec p b) as [->|Np]; [rewrite at_put_same by lia|rewrite at_put_other by congruence]) ||
                 (destruct (Nat.eq_dec p c) as [->|Np]; [rewrite at_put_same by lia|rewrite at_put_other by congruence]); reflexivity. }
    assert (Par : forall b, parent (at_ h2 b) = if Nat.eqb b c then None else parent (at_ h b)).
    { intros b; unfold h2; destruct (Nat.eqb_spec b c) as [->|Nc]; [rewrite at_put_same by lia; reflexivity|rewrite at_put_other by congruence].
      unfold h1; destruct (Nat.eq_dec p b) as [->|Np]; [rewrite at_put_same by lia|rewrite at_put_other by congruence]; reflexivity. }
    assert (Ch : forall b, children (at_ h2 b) = if Nat.eqb b p then ddel (label (at_ h c)) (children (at_ h p)) else children (at_ h b)).
    { assert (Ch1 : forall b, children (at_ h1 b) = if Nat.eqb b p then ddel (label (at_ h c)) (children (at_ h p)) else children (at_ h b)).
      { intros b; unfold h1; destruct (Nat.eqb_spec b p) as [->|Np]; [rewrite at_put_same by lia|rewrite at_put_other by congruence]; reflexivity. }
      intros b; rewrite <- Ch1; unfold h2; destruct (Nat.eq_dec b c) as [->|Nc]; [rewrite at_put_same by lia|rewrite at_put_other by congruence]; reflexivity. }
    assert (In2 : forall b k a, In (k, a) (children (at_ h2 b)) <-> In (k, a) (children (at_ h b)) /\ a <> c).
    { intros b k a; rewrite Ch; destruct (Nat.eqb_spec b p) as [->|Np].
      - assert (ND := N p); split.
        + intros X; apply (In_dget _ _ _ (NoDup_ddel _ _ ND)) in X; rewrite dget_ddel in X by exact ND.
          destruct (eqb_spec k (label (at_ h c))) as [->|Nk]; [discriminate|]; apply dget_In in X; split; [exact X|].
          intros ->; apply Nk, (D p k c X).
        + intros [X Na]; apply dget_In; rewrite dget_ddel by exact ND; destruct (eqb_spec k (label (at_ h c))) as [->|Nk].
          * apply (In_dget _ _ _ ND) in X; congruence.
          * apply In_dget; assumption.
      - split; [|tauto]; intros X; split; [exact X|]; intros ->; destruct (D b k c X) as [_ [_ Y]]; congruence. }
    split; [|split; [exact L2|split; [rewrite Par, Nat.eqb_refl; reflexivity|split; [intros b k X; apply In2 in X; tauto|split; [exact Lab|split]]]]].
    + split; [|split].
      * intros b; rewrite Ch; destruct (Nat.eqb b p); [apply NoDup_ddel, N|apply N].
      * intros b k a X; apply In2 in X; destruct X as [X Na]; destruct (D b k a X) as [La [-> Pa]]; rewrite L2, Lab, Par.
        destruct (Nat.eqb_spec a c); [contradiction|]; auto.
      * intros a b X; rewrite Par in X; destruct (Nat.eqb_spec a c) as [->|Na]; [discriminate|]; destruct (U a b X) as [Lb Y].
        rewrite L2, Lab; split; [exact Lb|apply In2; auto].
    + intros b Nb; rewrite Par; destruct (Nat.eqb_spec b c); [contradiction|reflexivity].
    + intros b k a Na; rewrite In2; tauto.
  - eexists; split; [reflexivity|]; set (h2 := put h c _).
    assert (E : forall b, at_ h2 b = at_ h b).
    { intros b; unfold h2; destruct (Nat.eq_dec c b) as [<-|Nc]; [rewrite at_put_same by exact L|apply at_put_other, Nc].
      unfold set_parent; destruct (at_ h c); cbn in *; rewrite P; reflexivity. }
    assert (L2 : length h2 = length h) by apply length_put.
    assert (Q : forall p k, ~ In (k, c) (children (at_ h p))).
    { intros p k X; destruct (D p k c X) as [_ [_ Y]]; congruence. }
    split; [|split; [exact L2|split; [rewrite E; exact P|split; [intros p k; rewrite E; apply Q|split; [intros b; rewrite E; reflexivity|split; [intros b _; rewrite E; reflexivity|intros b k a _; rewrite E; reflexivity]]]]]].
    split; [intros p; rewrite E; apply N|split].
    + intros p k a; rewrite !E, L2; apply D.
    + intros a p; rewrite !E, L2; apply U.
Qed.
Lemma good_add h p c : good h -> (p < length h)%nat -> (c < length h)%nat -> parent (at_ h c) = None ->
  ~ In (label (at_ h c)) (dkeys (children (at_ h p))) -> good (add_child h p c).
Proof.
  intros [N [D U]] Lp Lc P F; unfold add_child.
  set (h1 := put h p _); set (h2 := put h1 c _).
  assert (L1 : length h1 = length h) by apply length_put.
  assert (L2 : length h2 = length h) by (unfold h2; rewrite length_put; exact L1).
  assert (E1 : forall b, at_ h1 b = if Nat.eqb b p then set_children (at_ h p) (children (at_ h p) ++ [(label (at_ h c), c)]) else at_ h b).
  { intros b; unfold h1; destruct (Nat.eqb_spec b p) as [->|Nb]; [rewrite at_put_same by exact Lp; rewrite dset_absent by exact F; reflexivity|apply at_put_other; congruence]. }
  assert (Lab : forall b, label (at_ h2 b) = label (at_ h b)).
  { assert (X : forall b, label (at_ h1 b) = label (at_ h b)) by (intros b; rewrite E1; destruct (Nat.eqb_spec b p) as [->|Nb]; reflexivity).
    intros b; rewrite <- X; unfold h2; destruct (Nat.eq_dec c b) as [<-|Nb]; [rewrite at_put_same by lia; reflexivity|rewrite at_put_other by exact Nb; reflexivity]. }
  assert (Ch : forall b, children (at_ h2 b) = if Nat.eqb b p then children (at_ h p) ++ [(label (at_ h c), c)] else children (at_ h b)).
  { assert (X : forall b, children (at_ h1 b) = if Nat.eqb b p then children (at_ h p) ++ [(label (at_ h c), c)] else children (at_ h b))
      by (intros b; rewrite E1; destruct (Nat.eqb_spec b p) as [->|Nb]; reflexivity).
    intros b; rewrite <- X; unfold h2; destruct (Nat.eq_dec c b) as [<-|Nb]; [rewrite at_put_same by lia; reflexivity|rewrite at_put_other by exact Nb; reflexivity]. }
  assert (Par : forall b, parent (at_ h2 b) = if Nat.eqb b c then Some p else parent (at_ h b)).
  { assert (X : forall b, parent (at_ h1 b) = parent (at_ h b)) by (intros b; rewrite E1; destruct (Nat.eqb_spec b p) as [->|Nb]; reflexivity).
    intros b; unfold h2; destruct (Nat.eqb_spec b c) as [->|Nb]; [rewrite at_put_same by lia; reflexivity|rewrite at_put_other by congruence; apply X]. }
  assert (NC : forall b k, ~ In (k, c) (children (at_ h b))).
  { intros b k X; destruct (D b k c X) as [_ [_ Y]]; congruence. }
  split; [|split].
  - intros b; rewrite Ch; destruct (Nat.eqb b p); [|apply N]; unfold dkeys; rewrite map_app; apply NoDup_app_intro; [apply N|repeat constructor; tauto|].
    intros x X [<-|[]]; apply F, X.
  - intros b k a X; rewrite L2, Lab, Par; rewrite Ch in X; destruct (Nat.eqb_spec b p) as [->|Nb].
    + apply in_app_or in X; destruct X as [X|[X|[]]].
      * destruct (D p k a X) as [La [Ek Pa]]; destruct (Nat.eqb_spec a c) as [->|Na]; [exfalso; exact (NC p k X)|auto].
      * injection X as <- <-; rewrite Nat.eqb_refl; auto.
    + destruct (D b k a X) as [La [Ek Pa]]; destruct (Nat.eqb_spec a c) as [->|Na]; [exfalso; exact (NC b k X)|auto].
  - intros a b X; rewrite Par in X; rewrite L2, Lab, Ch; destruct (Nat.eqb_spec a c) as [->|Na].
    + injection X as <-; rewrite Nat.eqb_refl; split; [exact Lp|apply in_or_app; right; left; reflexivity].
    + destruct (U a b X) as [Lb I]; split; [exact Lb|]; destruct (Nat.eqb_spec b p) as [->|Nb]; [apply in_or_app; left; exact I|exact I].
Qed.
Lemma built_good h : built h -> good h.
Proof.
  induction 1 as [|h l d B IH|h p c B IH Lp Lc P F|h c h' r B IH L E].
  - split; [|split].
    + intros p; rewrite at_out by (cbn; lia); constructor.
    + intros p k c; rewrite at_out by (cbn; lia); intros [].
    + intros c p; rewrite at_out by (cbn; lia); discriminate.
  - destruct IH as [N [D U]]; set (n := {| label := l; children := []; attrib := d; parent := None |}).
    assert (E : forall a, at_ (h ++ [n]) a = if Nat.eqb a (length h) then n else at_ h a).
    { intros a; destruct (Nat.eqb_spec a (length h)) as [->|Na]; [apply at_app_new|].
      destruct (Nat.lt_ge_cases a (length h)) as [La|Ge]; [apply at_app_old, La|].
      rewrite (at_out h) by exact Ge; apply at_out; rewrite app_length; cbn; lia. }
    split; [|split].
    + intros p; rewrite E; destruct (Nat.eqb p (length h)); [constructor|apply N].
    + intros p k c; rewrite !E, app_length; destruct (Nat.eqb_spec p (length h)) as [->|Np]; [intros []|].
      intros X; destruct (D p k c X) as [Lc [-> P]]; destruct (Nat.eqb_spec c (length h)) as [->|Nc]; [lia|]; split; [cbn; lia|auto].
    + intros c p; rewrite !E, app_length; destruct (Nat.eqb_spec c (length h)) as [->|Nc]; [discriminate|].
      intros X; destruct (U c p X) as [Lp I]; destruct (Nat.eqb_spec p (length h)) as [->|Np]; [lia|]; split; [cbn; lia|exact I].
  - apply good_add; assumption.
  - destruct (good_unlink h c IH L) as [h'' [E' [G _]]]; rewrite E in E'; injection E' as -> _; exact G.
Qed.
Lemma del_child_ok h p c : good h -> (c < length h)%nat -> parent (at_ h c) = Some p ->
  exists h', del_child h p c = (h', Ok tt) /\ (forall k, ~ In (k, c) (children (at_ h' p))) /\ parent (at_ h' c) = Some p.
Proof.
  intros [N [D U]] L P; destruct (U c p P) as [Lp I]; unfold del_child; rewrite (In_dget _ _ _ (N p) I).
  eexists; split; [reflexivity|]; set (h1 := put h p _).
  assert (L1 : length h1 = length h) by apply length_put.
  assert (C1 : children (at_ h1 p) = ddel (label (at_ h c)) (children (at_ h p))) by (unfold h1; rewrite at_put_same by exact Lp; reflexivity).
  assert (P1 : parent (at_ h1 c) = parent (at_ h c)) by (unfold h1; destruct (Nat.eq_dec p c) as [->|Np]; [rewrite at_put_same by exact L|rewrite at_put_other by exact Np]; reflexivity).
  split.
  - intros k X.
    assert (C2 : forall n, children (at_ (put h1 c (set_attrib (at_ h1 c) n)) p) = children (at_ h1 p)).
    { intros n; destruct (Nat.eq_dec c p) as [->|Nc]; [rewrite at_put_same by lia|rewrite at_put_other by exact Nc]; reflexivity. }
    rewrite C2, C1 in X; apply (In_dget _ _ _ (NoDup_ddel _ _ (N p))) in X; rewrite dget_ddel in X by apply N.
    destruct (eqb_spec k (label (at_ h c))) as [Ek|Nk]; [discriminate X|]; apply dget_In in X; apply Nk; destruct (D p _ _ X) as [_ [Y _]]; exact Y.
  - rewrite at_put_same by lia; cbn [set_attrib parent]; rewrite P1; exact P.
Qed.
Lemma del_child_raises h p c : ~ In (label (at_ h c)) (dkeys (children (at_ h p))) -> del_child h p c = (h, Raise KeyError).
Proof. intros N; unfold del_child; apply dget_None in N; rewrite N; reflexivity. Qed.

(* ---------------- C60, C61 ---------------- *)
Lemma ancestors_loop_path f : forall h r n, path_loop f h r n = ancestors_loop f h r n.
Proof.
  induction f as [|f IH]; intros h r n; cbn [path_loop ancestors_loop]; [reflexivity|].
  destruct (parent (at_ h n)) as [p|]; [|reflexivity]; rewrite pop_last_snoc; apply IH.
Qed.
Lemma path_is_ancestors f h n : path_from_root f h n = get_ancestors f h n.
Proof. unfold path_from_root, get_ancestors; rewrite ancestors_loop_path; reflexivity. Qed.
Inductive chain (h : list node) : list addr -> Prop :=
| Chain_root a : parent (at_ h a) = None -> chain h [a]
| Chain_up a b l : parent (at_ h a) = Some b -> chain h (b :: l) -> chain h (a :: b :: l).
Lemma ancestors_chain h l : chain h l -> forall f r, (length l <= f)%nat ->
  ancestors_loop f h r (hd O l) = Ok (r ++ tl l).
Proof.
  induction 1 as [a P|a b l P C IH]; intros [|f] r B; cbn [length] in B; try lia; cbn [hd tl ancestors_loop]; rewrite P.
  - rewrite app_nil_r; reflexivity.
  - change b with (hd O (b :: l)) at 2; rewrite IH by (cbn [length]; lia); rewrite <- app_assoc; reflexivity.
Qed.
Lemma branch_root {A} (t : rose A) l : branch t l -> exists r, l = root t :: r.
Proof. induction 1; eexists; reflexivity. Qed.
Lemma chain_snoc h par t l up : linked h par t -> branch t l ->
  (match up with [] => par = None | b :: _ => par = Some b /\ chain h up end) -> chain h (rev l ++ up).
Proof.
  intros K B; revert par up K; induction B as [t|x ks k l I B IH]; intros par up K U.
  - inversion K as [? a ks P ND E F]; subst; cbn [root rev app]; destruct up as [|b up].
    + apply Chain_root; congruence.
    + destruct U as [U C]; apply Chain_up; [congruence|exact C].
  - inversion K as [? a ks' P ND E F]; subst; rewrite Forall_forall in F; cbn [rev]; rewrite <- app_assoc; cbn [app].
    apply (IH (Some x)); [apply F, I|]; split; [reflexivity|]; destruct up as [|b up].
    + apply Chain_root; congruence.
    + destruct U as [U C]; apply Chain_up; [congruence|exact C].
Qed.
Lemma ancestors_ok h t l n fuel : linked h None t -> branch t (l ++ [n]) -> (length l < fuel)%nat ->
  get_ancestors fuel h n = Ok (l ++ [n]).
Proof.
  intros K B L; pose proof (chain_snoc h None t (l ++ [n]) [] K B eq_refl) as C; rewrite app_nil_r, rev_app_distr in C; cbn [rev app] in C.
  unfold get_ancestors; rewrite <- (rev_involutive l); change n with (hd O (n :: rev l)) at 2.
  rewrite (ancestors_chain h _ C) by (cbn [length]; rewrite rev_length; lia); cbn [tl rmap app rev]; rewrite !rev_involutive; reflexivity.
Qed.
Lemma get_path_iff h p : forall a b, get_path h a p = Ok b <-> path_to h a p b.
Proof.
  induction p as [|k p IH]; intros a b; cbn [get_path].
  - split; [intros E; injection E as ->; apply Path_nil|intros P; inversion P; reflexivity].
  - unfold dgetitem; destruct (dget k (children (at_ h a))) as [c|] eqn:G; cbn [of_option bind].
    + rewrite IH; split; [apply Path_cons, G|intros P; inversion P; subst; congruence].
    + split; [discriminate|intros P; inversion P; congruence].
Qed.
Lemma get_path_total h p : forall a, (exists b, get_path h a p = Ok b) \/ get_path h a p = Raise KeyError.
Proof.
  induction p as [|k p IH]; intros a; cbn [get_path]; [left; eexists; reflexivity|].
  unfold dgetitem; destruct (dget k (children (at_ h a))) as [c|]; cbn [of_option bind]; [apply IH|right; reflexivity].
Qed.
Lemma get_path_KeyError h a p : get_path h a p = Raise KeyError <-> ~ exists b, path_to h a p b.
Proof.
  split.
  - intros E [b P]; apply get_path_iff in P; congruence.
  - intros N; destruct (get_path_total h p a) as [[b E]|E]; [exfalso; apply N; exists b; apply get_path_iff, E|exact E].
Qed.
Lemma branch_path h t l par : branch t l -> linked h par t -> path_to h (root t) (map (fun a => label (at_ h a)) (tl l)) (last l O).
Proof.
  intros B; revert par; induction B as [t|x ks k l I B IH]; intros par K.
  - cbn; apply Path_nil.
  - inversion K as [? a ks' P ND E F]; subst; rewrite Forall_forall in F; destruct (branch_root k l B) as [r ->]; cbn [tl map root].
    change (last (x :: root k :: r) O) with (last (root k :: r) O).
    apply Path_cons with (c := root k); [|apply (IH (Some x)), F, I].
    apply In_dget; [exact ND|rewrite E; apply in_map_iff; exists k; split; [reflexivity|exact I]].
Qed.
Lemma branch_get_path h t l n par : linked h par t -> branch t (l ++ [n]) ->
  get_path h (root t) (map (fun a => label (at_ h a)) (tl (l ++ [n]))) = Ok n.
Proof.
  intros K B; pose proof (branch_path h t _ par B K) as P; rewrite last_last in P; apply get_path_iff, P.
Qed.
Lemma lstrip_by_all p g s : Forall (fun c => p c = true) g -> lstrip_by p (g ++ s) = lstrip_by p s.
Proof. induction 1 as [|c g E F IH]; [reflexivity|]; cbn [app lstrip_by]; rewrite E; exact IH. Qed.
Lemma get_path_text_ok h a k p : p <> [] -> Forall (fun l => ~ In (u1 "/") l) p -> hd [] p <> [] ->
  get_path_text h a (repeat (u1 "/") k ++ join (u "/") p) = get_path h a p.
Proof.
  intros N F H; unfold get_path_text; rewrite lstrip_by_all.
  2:{ apply Forall_forall; intros c I; apply repeat_spec in I; subst c; apply Z.eqb_refl. }
  destruct p as [|[|c l] p]; [contradiction|contradiction H; reflexivity|].
  assert (X : exists r, join (u "/") ((c :: l) :: p) = c :: r) by (destruct p; cbn [join app]; eexists; reflexivity).
  destruct X as [r E].
  assert (S0 : lstrip_by (fun d => d =? u1 "/") (join (u "/") ((c :: l) :: p)) = join (u "/") ((c :: l) :: p)).
  { rewrite E; cbn [lstrip_by]; destruct (Z.eqb_spec c (u1 "/")) as [->|Nc]; [|reflexivity].
    inversion F as [|? ? F' _]; subst; exfalso; apply F'; left; reflexivity. }
  rewrite S0; change (u "/") with [u1 "/"]; rewrite split_join; [reflexivity|discriminate|exact F].
Qed.
Lemma get_path_text_root h a k : get_path_text h a (repeat (u1 "/") k) = dgetitem (children (at_ h a)) [].
Proof.
  unfold get_path_text; rewrite <- (app_nil_r (repeat _ _)), lstrip_by_all; [cbn [lstrip_by split_on get_path]; unfold dgetitem; destruct (dget [] (children (at_ h a))); reflexivity|].
  apply Forall_forall; intros c I; apply repeat_spec in I; subst c; apply Z.eqb_refl.
Qed.
Lemma build_index_raises label_of fuel h a : exists e, build_index label_of (S fuel) h a = Raise e /\ (e = KeyError \/ e = ValueError).
Proof.
  unfold build_index; cbn [for_preorder]; change [a] with ([] ++ [a]); rewrite pop_last_snoc; unfold index_body, unpack2, dgetitem.
  destruct (dget (KInt 0) (attrib (at_ h a))); cbn [of_option bind]; [|eexists; split; [reflexivity|auto]].
  destruct (dget (KInt 1) (attrib (at_ h a))); cbn [of_option bind]; [|eexists; split; [reflexivity|auto]].
  destruct (dget (KInt 2) (attrib (at_ h a))); cbn [of_option bind]; eexists; split; try reflexivity; auto.
Qed.

(* ---------------- C57 ---------------- *)
Definition filed (h : list node) (ks : list (rose addr)) : list (str * addr) := map (fun k => (label (at_ h (root k)), root k)) ks.
Lemma filed_vals h ks : dvals (filed h ks) = map root ks.
Proof. unfold filed, dvals; rewrite map_map; reflexivity. Qed.
Lemma filed_keys h ks : dkeys (filed h ks) = map (fun k => label (at_ h (root k))) ks.
Proof. unfold filed, dkeys; rewrite map_map; reflexivity. Qed.
Lemma filed_ext h h' ks : Forall (fun k => label (at_ h' (root k)) = label (at_ h (root k))) ks -> filed h' ks = filed h ks.
Proof. induction 1 as [|k ks E F IH]; [reflexivity|]; unfold filed in *; cbn [map]; rewrite E, IH; reflexivity. Qed.
Definition child_copy (h : list node) (n : addr) (k : rose addr) : node :=
  {| label := label (at_ h (root k)); children := children (at_ h (root k)); attrib := attrib (at_ h (root k)); parent := Some n |}.
Lemma put_put {D} (st : list D) : forall a x y, put (put st a x) a y = put st a y.
Proof. induction st as [|z st IH]; intros [|a] x y; cbn [put]; try reflexivity; rewrite IH; reflexivity. Qed.
Lemma put_app_old {D} (st r : list D) : forall a x, (a < length st)%nat -> put (st ++ r) a x = put st a x ++ r.
Proof. induction st as [|z st IH]; intros [|a] x L; cbn [put app length] in *; try lia; [reflexivity|rewrite IH by lia; reflexivity]. Qed.
Lemma copy_kids_ok n ks : forall h done stack, (n < length h)%nat -> children (at_ h n) = done ++ filed h ks ->
  NoDup (dkeys (children (at_ h n))) -> Forall (fun k => (root k < length h)%nat /\ root k <> n) ks ->
  copy_kids h n (filed h ks) stack =
  (put h n (set_children (at_ h n) (done ++ combine (map (fun k => label (at_ h (root k))) ks) (seq (length h) (length ks)))) ++ map (child_copy h n) ks,
   stack ++ seq (length h) (length ks)).
Proof.
  induction ks as [|k ks IH]; intros h done stack L E ND F.
  - cbn [filed map copy_kids combine length seq]; rewrite !app_nil_r; f_equal.
    cbn [filed map] in E; rewrite app_nil_r in E; rewrite <- E.
    assert (X : set_children (at_ h n) (children (at_ h n)) = at_ h n) by (unfold set_children; destruct (at_ h n); reflexivity).
    rewrite X; clear -L; unfold at_, fetch; revert n L; induction h as [|x h IH]; intros [|n] L; cbn [put nth length] in *; try lia; [reflexivity|].
    f_equal; apply IH; lia.
  - cbn [filed map copy_kids]; unfold new_node; inversion F as [|? ? [Lk Nk] F']; subst; cbn [filed map] in E.
    set (h1 := h ++ [_]); cbn beta.
    assert (A1 : at_ h1 n = at_ h n) by (apply at_app_old, L).
    rewrite A1, E, dset_mid.
    2:{ unfold dkeys in *; rewrite E, map_app in ND; intros I; apply NoDup_remove_2 in ND; apply ND, in_or_app; left; exact I. }
    set (h2 := put h1 n _).
    assert (L2 : length h2 = S (length h)) by (unfold h2, h1; rewrite length_put, app_length; cbn; lia).
    assert (Old : forall b, (b < length h)%nat -> b <> n -> at_ h2 b = at_ h b).
    { intros b Lb Nb; unfold h2; rewrite at_put_other by congruence; apply at_app_old, Lb. }
    assert (An : at_ h2 n = set_children (at_ h n) (done ++ (label (at_ h (root k)), length h) :: filed h ks)).
    { unfold h2; rewrite at_put_same; [reflexivity|unfold h1; rewrite app_length; cbn; lia]. }
    assert (Fl : filed h2 ks = filed h ks).
    { apply filed_ext; eapply Forall_impl; [|exact F']; intros j [Lj Nj]; cbn beta; rewrite Old by assumption; reflexivity. }
    change (map (fun k0 : rose addr => (label (at_ h (root k0)), root k0)) ks) with (filed h ks) in *.
    rewrite <- Fl, (IH h2 (done ++ [(label (at_ h (root k)), length h)])).
    + f_equal.
      * rewrite L2, An; cbn [length seq combine map]; rewrite <- app_assoc; cbn [app].
        assert (Lb : map (fun k0 : rose addr => label (at_ h2 (root k0))) ks = map (fun k0 : rose addr => label (at_ h (root k0))) ks).
        { rewrite <- !filed_keys, Fl; reflexivity. }
        assert (Cp : map (child_copy h2 n) ks = map (child_copy h n) ks).
        { apply map_ext_in; intros j Ij; rewrite Forall_forall in F'; destruct (F' j Ij) as [Lj Nj]; unfold child_copy; rewrite Old by assumption; reflexivity. }
        rewrite Lb, Cp; unfold h2; rewrite put_put; unfold h1; rewrite put_app_old by exact L; rewrite <- app_assoc; reflexivity.
      * rewrite L2, <- app_assoc; reflexivity.
    + lia.
    + rewrite An, Fl; cbn [set_children children]; rewrite <- app_assoc; reflexivity.
    + rewrite An; cbn [set_children children]; rewrite E in ND; unfold dkeys in *; rewrite !map_app in *; exact ND.
    + eapply Forall_impl; [|exact F']; intros j [Lj Nj]; split; [lia|exact Nj].
Qed.

Lemma at_put_app h n x l a : (n < length h)%nat -> (a < length h)%nat -> at_ (put h n x ++ l) a = if Nat.eqb a n then x else at_ h a.
Proof.
  intros L La; rewrite at_app_old by (rewrite length_put; exact La); destruct (Nat.eqb_spec a n) as [->|Na]; [apply at_put_same, L|apply at_put_other; congruence].
Qed.
(** what becomes of a pending node *)
Definition copied (h0 h h' : list node) (p : addr * list (rose addr)) (t' : rose addr) : Prop :=
  root t' = fst p /\ label (at_ h' (fst p)) = label (at_ h (fst p)) /\ attrib (at_ h' (fst p)) = attrib (at_ h (fst p)) /\
  parent (at_ h' (fst p)) = parent (at_ h (fst p)) /\ children (at_ h' (fst p)) = filed h' (branches t') /\
  NoDup (dkeys (children (at_ h' (fst p)))) /\ Forall (linked h' (Some (fst p))) (branches t') /\
  map (rosemap (details h')) (branches t') = map (rosemap (details h0)) (snd p).
Definition pending (h0 h : list node) (p : addr * list (rose addr)) : Prop :=
  (length h0 <= fst p < length h)%nat /\ children (at_ h (fst p)) = filed h0 (snd p) /\
  NoDup (dkeys (children (at_ h (fst p)))) /\ Forall (keyed h0) (snd p).
Definition pops (p : addr * list (rose addr)) : nat := S (fsize (snd p)).
Lemma keyed_root h t : keyed h t -> (root t < length h)%nat.
Proof. intros K; inversion K; subst; assumption. Qed.
Lemma Forall2_app_split {A B} (R : A -> B -> Prop) l1 l2 m : Forall2 R (l1 ++ l2) m -> exists m1 m2, m = m1 ++ m2 /\ Forall2 R l1 m1 /\ Forall2 R l2 m2.
Proof. intros H; apply Forall2_app_inv_l in H; destruct H as [m1 [m2 [H1 [H2 E]]]]; exists m1, m2; auto. Qed.
Lemma Forall2_nth {A B} (R : A -> B -> Prop) l m i x y : Forall2 R l m -> nth_error l i = Some x -> nth_error m i = Some y -> R x y.
Proof.
  intros F; revert i; induction F as [|a b l m H F IH]; intros [|i] X Y; cbn [nth_error] in *; try discriminate; [congruence|apply (IH i X Y)].
Qed.
Lemma nth_error_eq {A} (l : list A) : forall m, length l = length m -> (forall i x, nth_error l i = Some x -> nth_error m i = Some x) -> l = m.
Proof.
  induction l as [|x l IH]; intros [|y m] E H; cbn [length] in E; try discriminate; [reflexivity|].
  pose proof (H O x eq_refl) as X; cbn in X; injection X as ->; f_equal; apply IH; [lia|]; intros i z; apply (H (S i) z).
Qed.
Lemma kid_pops ks (seqs : list addr) : length seqs = length ks -> list_sum (map pops (combine seqs (map branches ks))) = fsize ks.
Proof.
  revert seqs; induction ks as [|[a js] ks IH]; intros [|s seqs] E; cbn [length] in E; try discriminate; [reflexivity|].
  cbn [map combine list_sum fold_right]; unfold list_sum in IH; rewrite IH by lia; rewrite fsize_cons, rsize_eq; reflexivity.
Qed.
Lemma combine_fst {A B} (l : list A) (m : list B) : length l = length m -> map fst (combine l m) = l.
Proof. revert m; induction l as [|x l IH]; intros [|y m] E; cbn [length] in E; try discriminate; [reflexivity|]; cbn [combine map fst]; rewrite IH by lia; reflexivity. Qed.
Lemma copy_loop_ok h0 fuel : forall h st, (length h0 <= length h)%nat -> (forall a, (a < length h0)%nat -> at_ h a = at_ h0 a) ->
  Forall (pending h0 h) st -> NoDup (map fst st) -> (list_sum (map pops st) < fuel)%nat ->
  exists h' ts', copy_loop fuel h (map fst st) = Ok h' /\ length h' = (length h + list_sum (map (fun p => fsize (snd p)) st))%nat /\
    (forall a, (a < length h)%nat -> ~ In a (map fst st) -> at_ h' a = at_ h a) /\
    Forall2 (copied h0 h h') st ts' /\ NoDup (flat_map nodes ts') /\
    (forall a, In a (flat_map nodes ts') -> In a (map fst st) \/ (length h <= a < length h')%nat).
Proof.
  induction fuel as [|f IH]; intros h st L0 Old P ND B; [lia|]; cbn [copy_loop].
  destruct st as [|[n ks] st _] using rev_ind.
  - exists h, []; cbn; split; [reflexivity|split; [lia|split; [auto|split; [constructor|split; [constructor|intros a []]]]]].
  - rewrite map_app; cbn [map fst]; rewrite pop_last_snoc.
    apply Forall_app in P; destruct P as [P Pn]; inversion Pn as [|? ? [[Ln0 Ln] [Cn [NDn Kn]]] _]; subst; cbn [fst snd] in *.
    rewrite map_app in ND; cbn [map fst] in ND.
    rewrite map_app, list_sum_app in B; cbn [map list_sum fold_right] in B; unfold pops at 2 in B; cbn [snd] in B.
    assert (Kr : Forall (fun k => (root k < length h0)%nat) ks) by (eapply Forall_impl; [|exact Kn]; intros k; apply keyed_root).
    assert (Ef : filed h0 ks = filed h ks).
    { symmetry; apply filed_ext; eapply Forall_impl; [|exact Kr]; intros k Lk; cbn beta; rewrite Old by exact Lk; reflexivity. }
    rewrite Cn, Ef, (copy_kids_ok n ks h []).
    2: exact Ln.
    2: rewrite Cn, Ef; reflexivity.
    2: exact NDn.
    2:{ eapply Forall_impl; [|exact Kr]; intros k Lk; cbn beta in *; split; lia. }
    set (h1 := put h n _ ++ map (child_copy h n) ks).
    assert (Sq : length (seq (length h) (length ks)) = length ks) by apply seq_length.
    set (st1 := st ++ combine (seq (length h) (length ks)) (map branches ks)).
    assert (Est : map fst st ++ seq (length h) (length ks) = map fst st1).
    { unfold st1; rewrite map_app, combine_fst by (rewrite map_length; exact Sq); reflexivity. }
    rewrite Est.
    assert (L1 : length h1 = (length h + length ks)%nat) by (unfold h1; rewrite app_length, length_put, map_length; reflexivity).
    assert (O1 : forall a, (a < length h)%nat -> a <> n -> at_ h1 a = at_ h a).
    { intros a La Na; unfold h1; rewrite at_put_app by assumption; destruct (Nat.eqb_spec a n); [contradiction|reflexivity]. }
    assert (N1 : at_ h1 n = set_children (at_ h n) (combine (map (fun k => label (at_ h (root k))) ks) (seq (length h) (length ks)))).
    { unfold h1; rewrite at_put_app by assumption; rewrite Nat.eqb_refl; reflexivity. }
    assert (K1 : forall i k, nth_error ks i = Some k -> at_ h1 (length h + i)%nat = child_copy h n k).
    { intros i k E; unfold at_, fetch, h1; rewrite app_nth2; rewrite length_put; [|lia].
      replace (length h + i - length h)%nat with i by lia; apply nth_error_nth; rewrite nth_error_map, E; reflexivity. }
    assert (Nst : ~ In n (map fst st)) by (apply NoDup_remove_2 in ND; rewrite app_nil_r in ND; exact ND).
    assert (NDst : NoDup (map fst st)) by (apply NoDup_remove_1 in ND; rewrite app_nil_r in ND; exact ND).
    assert (Lst : forall a, In a (map fst st) -> (length h0 <= a < length h)%nat).
    { intros a I; apply in_map_iff in I; destruct I as [p [<- I]]; rewrite Forall_forall in P; apply (P p I). }
    destruct (IH h1 st1) as [h' [ts' [E [LL [Un [Cp [NN Wh]]]]]]].
    + lia.
    + intros a La; rewrite O1; [apply Old, La|lia|lia].
    + unfold st1; apply Forall_app; split.
      * rewrite Forall_forall in *; intros p I; destruct (P p I) as [Rp [Cp [NDp Kp]]].
        assert (Np : fst p <> n) by (intros <-; apply Nst, in_map, I).
        unfold pending; rewrite O1 by (lia || exact Np); split; [lia|auto].
      * apply Forall_forall; intros p I.
        apply In_nth_error in I; destruct I as [i I].
        assert (Hi : (i < length ks)%nat).
        { assert (X : nth_error (combine (seq (length h) (length ks)) (map branches ks)) i <> None) by congruence.
          apply nth_error_Some in X; rewrite combine_length, Sq, map_length in X; lia. }
        destruct (nth_error ks i) as [k|] eqn:Ek; [|apply nth_error_None in Ek; lia].
        assert (Ep : p = ((length h + i)%nat, branches k)).
        { apply nth_error_nth with (d := (O, [])) in I; rewrite combine_nth in I by (rewrite map_length; exact Sq).
          rewrite seq_nth in I by exact Hi; change (@nil (rose addr)) with (branches (Rose O [])) in I; rewrite map_nth in I.
          rewrite (nth_error_nth _ _ _ Ek) in I; symmetry; exact I. }
        subst p; unfold pending; cbn [fst snd]; rewrite (K1 i k Ek); cbn [child_copy children].
        apply nth_error_In in Ek; rewrite Forall_forall in Kn; pose proof (Kn k Ek) as Kk; inversion Kk as [a js La NDa Ca Ka]; subst; cbn [root branches].
        rewrite Old by exact La; split; [rewrite L1; lia|split; [exact Ca|split; [exact NDa|exact Ka]]].
    + rewrite <- Est; apply NoDup_app_intro; [exact NDst|apply seq_NoDup|].
      intros a I J; apply Lst in I; apply in_seq in J; lia.
    + unfold st1; rewrite map_app, list_sum_app, kid_pops by exact Sq; lia.
    + unfold st1 in Cp; apply Forall2_app_split in Cp; destruct Cp as [ts1 [ts2 [-> [C1 C2]]]].
      assert (Nn : ~ In n (map fst st1)).
      { rewrite <- Est; intros I; apply in_app_or in I; destruct I as [I|I]; [exact (Nst I)|apply in_seq in I; lia]. }
      assert (An : at_ h' n = at_ h1 n) by (apply Un; [lia|exact Nn]).
      (* the children of n *)
      assert (Kids : forall i k, nth_error ks i = Some k -> exists t', nth_error ts2 i = Some t' /\ root t' = (length h + i)%nat /\ label (at_ h' (root t')) = label (at_ h (root k)) /\
                linked h' (Some n) t' /\ rosemap (details h') t' = rosemap (details h0) k).
      { intros i k Ek; assert (Hi : (i < length ks)%nat) by (apply nth_error_Some; congruence).
        destruct (nth_error ts2 i) as [t'|] eqn:Et.
        2:{ apply nth_error_None in Et; rewrite <- (Forall2_len _ _ _ C2), combine_length, Sq, map_length in Et; lia. }
        assert (R : copied h0 h1 h' ((length h + i)%nat, branches k) t').
        { assert (X : nth_error (combine (seq (length h) (length ks)) (map branches ks)) i = Some ((length h + i)%nat, branches k)).
          { rewrite (nth_error_nth' _ (O, [])) by (rewrite combine_length, Sq, map_length; lia).
            rewrite combine_nth by (rewrite map_length; exact Sq); rewrite seq_nth by exact Hi.
            change (@nil (rose addr)) with (branches (Rose O [])); rewrite map_nth, (nth_error_nth _ _ _ Ek); reflexivity. }
          exact (Forall2_nth _ _ _ i _ _ C2 X Et). }
        exists t'; destruct R as [Rt [Lb [At [Pa [Ch [NDc [Lk Rm]]]]]]]; cbn [fst snd] in *.
        rewrite (K1 i k Ek) in Lb, At, Pa; cbn [child_copy label attrib parent] in Lb, At, Pa.
        pose proof (nth_error_In _ _ Ek) as Ik; rewrite Forall_forall in Kr; pose proof (Kr k Ik) as Lk0.
        rewrite Rt; split; [reflexivity|split; [reflexivity|split; [exact Lb|]]].
        destruct t' as [a' ks']; cbn [root branches] in *; subst a'; split.
        - constructor; [exact Pa|exact NDc|exact Ch|exact Lk].
        - destruct k as [a js]; cbn [rosemap branches root] in *; rewrite Rm; f_equal; unfold details.
          rewrite Lb, At, Old by exact Lk0; reflexivity. }
      assert (L2 : length ts2 = length ks) by (rewrite <- (Forall2_len _ _ _ C2), combine_length, Sq, map_length; lia).
      assert (Back : forall i t', nth_error ts2 i = Some t' -> exists k, nth_error ks i = Some k).
      { intros i t' Et; destruct (nth_error ks i) as [k|] eqn:Ek; [exists k; reflexivity|].
        apply nth_error_None in Ek; assert (X : (i < length ts2)%nat) by (apply nth_error_Some; congruence); lia. }
      assert (Rts : map root ts2 = seq (length h) (length ks)).
      { apply nth_error_eq; [rewrite map_length, Sq; exact L2|]; intros i x X; rewrite nth_error_map in X.
        destruct (nth_error ts2 i) as [t'|] eqn:Et; [|discriminate X]; cbn in X; injection X as <-.
        destruct (Back i t' Et) as [k Ek]; destruct (Kids i k Ek) as [t'' [Et' [R _]]]; rewrite Et in Et'; injection Et' as <-.
        assert (Hi : (i < length ks)%nat) by (apply nth_error_Some; congruence).
        rewrite (nth_error_nth' _ O) by (rewrite Sq; exact Hi); rewrite seq_nth by exact Hi; rewrite R; reflexivity. }
      assert (Lts : map (fun t' => label (at_ h' (root t'))) ts2 = map (fun k => label (at_ h (root k))) ks).
      { apply nth_error_eq; [rewrite !map_length; exact L2|]; intros i x X; rewrite nth_error_map in *.
        destruct (nth_error ts2 i) as [t'|] eqn:Et; [|discriminate X]; cbn in X; injection X as <-.
        destruct (Back i t' Et) as [k Ek]; destruct (Kids i k Ek) as [t'' [Et' [_ [R _]]]]; rewrite Et in Et'; injection Et' as <-.
        rewrite Ek; cbn; rewrite R; reflexivity. }
      assert (Rm2 : map (rosemap (details h')) ts2 = map (rosemap (details h0)) ks).
      { apply nth_error_eq; [rewrite !map_length; exact L2|]; intros i x X; rewrite nth_error_map in *.
        destruct (nth_error ts2 i) as [t'|] eqn:Et; [|discriminate X]; cbn in X; injection X as <-.
        destruct (Back i t' Et) as [k Ek]; destruct (Kids i k Ek) as [t'' [Et' [_ [_ [_ R]]]]]; rewrite Et in Et'; injection Et' as <-.
        rewrite Ek; cbn; rewrite R; reflexivity. }
      assert (Lk2 : Forall (linked h' (Some n)) ts2).
      { apply Forall_forall; intros t' I; apply In_nth_error in I; destruct I as [i Et].
        destruct (Back i t' Et) as [k Ek]; destruct (Kids i k Ek) as [t'' [Et' [_ [_ [R _]]]]]; rewrite Et in Et'; injection Et' as <-; exact R. }
      exists h', (ts1 ++ [Rose n ts2]).
      split; [exact E|split; [|split; [|split; [|split]]]].
      * rewrite LL, L1, map_app, list_sum_app; unfold st1; rewrite map_app, list_sum_app; cbn [map list_sum fold_right snd].
        assert (Z : (length ks + list_sum (map (fun p : addr * list (rose addr) => fsize (snd p)) (combine (seq (length h) (length ks)) (map branches ks))) = fsize ks)%nat).
        { clear; generalize (length h) as o; induction ks as [|[a js] ks IH]; intros o; [reflexivity|].
          cbn [length seq combine map list_sum fold_right snd branches]; specialize (IH (S o)); unfold list_sum in IH; rewrite fsize_cons, rsize_eq; unfold fsize at 1; lia. }
        lia.
      * intros a La Na; rewrite Un.
        -- apply O1; [exact La|]; intros ->; apply Na; rewrite in_app_iff; right; left; reflexivity.
        -- rewrite L1; lia.
        -- rewrite <- Est; intros I; apply in_app_or in I; destruct I as [I|I]; [apply Na, in_or_app; left; exact I|apply in_seq in I; lia].
      * apply Forall2_app.
        -- clear -C1 O1 Lst Nst; revert Lst Nst; induction C1 as [|p t' st ts1 R C1 IH]; intros Lst Nst; constructor.
           ++ unfold copied in *; rewrite O1 in R; [exact R| |].
              ** apply Lst; left; reflexivity.
              ** intros Ep; apply Nst; left; exact Ep.
           ++ apply IH; [intros a I; apply Lst; right; exact I|intros I; apply Nst; right; exact I].
        -- constructor; [|constructor]; unfold copied; cbn [fst snd root branches]; rewrite An, N1; cbn [set_children label attrib parent children].
           assert (Fi : combine (map (fun k => label (at_ h (root k))) ks) (seq (length h) (length ks)) = filed h' ts2).
           { unfold filed; rewrite <- Rts, <- Lts; clear; induction ts2 as [|t ts2 IH]; [reflexivity|cbn [map combine]; rewrite IH; reflexivity]. }
           split; [reflexivity|split; [reflexivity|split; [reflexivity|split; [reflexivity|split; [exact Fi|split; [|split; [exact Lk2|exact Rm2]]]]]]].
           rewrite Fi, filed_keys, Lts; rewrite Cn, Ef, filed_keys in NDn; exact NDn.
      * rewrite flat_map_app in *; cbn [flat_map nodes]; rewrite app_nil_r.
        apply (Permutation_NoDup (Permutation_middle _ _ _)); constructor; [|exact NN].
        intros I; apply Wh in I; destruct I as [I|I]; [exact (Nn I)|lia].
      * intros a I; rewrite flat_map_app in I; cbn [flat_map nodes] in I; rewrite app_nil_r in I.
        rewrite in_app_iff; cbn [In].
        assert (X : a = n \/ In a (flat_map nodes (ts1 ++ ts2))).
        { rewrite flat_map_app; apply in_app_or in I; destruct I as [I|[<-|I]]; [right; apply in_or_app; left; exact I|left; reflexivity|right; apply in_or_app; right; exact I]. }
        destruct X as [->|X]; [left; right; left; reflexivity|]; apply Wh in X; destruct X as [X|X]; [|right; lia].
        rewrite <- Est in X; apply in_app_or in X; destruct X as [X|X]; [left; left; exact X|apply in_seq in X; right; lia].
Qed.
Lemma linked_keyed h t : forall par, linked h par t -> (forall a, In a (nodes t) -> (a < length h)%nat) -> keyed h t.
Proof.
  induction t as [a ks IH] using rose_rec_ind; intros par K L; inversion K as [? ? ? P ND E F]; subst; rewrite Forall_forall in *.
  constructor; [apply L; left; reflexivity|exact ND|exact E|]; apply Forall_forall; intros k I.
  apply (IH k I (Some a) (F k I)); intros b J; apply L; right; apply in_flat_map; exists k; auto.
Qed.
Lemma keyed_tree h t : keyed h t -> tree_at h t.
Proof.
  induction t as [a ks IH] using rose_rec_ind; intros K; inversion K as [? ? L ND E F]; subst; constructor.
  - rewrite E; unfold dvals; rewrite map_map; reflexivity.
  - rewrite Forall_forall in *; intros k I; apply (IH k I), F, I.
Qed.
Lemma keyed_range h t : keyed h t -> forall a, In a (nodes t) -> (a < length h)%nat.
Proof.
  induction t as [a ks IH] using rose_rec_ind; intros K b; inversion K as [? ? L ND E F]; subst; intros [<-|I]; [exact L|].
  apply in_flat_map in I; destruct I as [k [Ik I]]; rewrite Forall_forall in *; apply (IH k Ik (F k Ik) b I).
Qed.
Lemma keyed_frame h h' t : (length h <= length h')%nat -> (forall a, In a (nodes t) -> at_ h' a = at_ h a) -> keyed h t -> keyed h' t.
Proof.
  intros Le; induction t as [a ks IH] using rose_rec_ind; intros Q K; inversion K as [? ? L ND E F]; subst.
  assert (Qa : at_ h' a = at_ h a) by (apply Q; left; reflexivity).
  constructor; [lia|rewrite Qa; exact ND| |].
  - rewrite Qa, E; apply map_ext_in; intros k I; rewrite Q; [reflexivity|right; apply in_flat_map; exists k; split; [exact I|destruct k; left; reflexivity]].
  - rewrite Forall_forall in *; intros k I; apply (IH k I); [|apply F, I]; intros b J; apply Q; right; apply in_flat_map; exists k; auto.
Qed.
Lemma linked_frame h h' t : forall par, (forall a, In a (nodes t) -> at_ h' a = at_ h a) -> linked h par t -> linked h' par t.
Proof.
  induction t as [a ks IH] using rose_rec_ind; intros par Q K; inversion K as [? ? ? P ND E F]; subst.
  assert (Qa : at_ h' a = at_ h a) by (apply Q; left; reflexivity).
  constructor; [rewrite Qa; reflexivity|rewrite Qa; exact ND| |].
  - rewrite Qa, E; apply map_ext_in; intros k I; rewrite Q; [reflexivity|right; apply in_flat_map; exists k; split; [exact I|destruct k; left; reflexivity]].
  - rewrite Forall_forall in *; intros k I; apply (IH k I); [|apply F, I]; intros b J; apply Q; right; apply in_flat_map; exists k; auto.
Qed.
Lemma rosemap_frame {A B} (f g : A -> B) t : (forall a, In a (nodes t) -> f a = g a) -> rosemap f t = rosemap g t.
Proof.
  induction t as [a ks IH] using rose_rec_ind; intros Q; cbn [rosemap]; rewrite Q by (left; reflexivity); f_equal.
  apply map_ext_in; intros k I; rewrite Forall_forall in IH; apply (IH k I); intros b J; apply Q; right; apply in_flat_map; exists k; auto.
Qed.
Lemma copy_ok h t fuel : keyed h t -> truth_opt h (parent (at_ h (root t))) = false -> (rsize t < fuel)%nat ->
  exists h' t', copy fuel h (root t) = Ok (h', root t') /\ linked h' None t' /\ keyed h' t' /\ rosemap (details h') t' = rosemap (details h) t /\
    NoDup (nodes t') /\ (forall a, In a (nodes t') -> (length h <= a)%nat) /\ (forall a, (a < length h)%nat -> at_ h' a = at_ h a) /\
    length h' = (length h + rsize t)%nat.
Proof.
  intros K T B; unfold copy; rewrite T; unfold new_node; destruct t as [a ks]; cbn [root].
  inversion K as [? ? L ND E F]; subst.
  set (n := {| label := label (at_ h a); children := children (at_ h a); attrib := attrib (at_ h a); parent := None |}).
  assert (An : at_ (h ++ [n]) (length h) = n) by apply at_app_new.
  destruct (copy_loop_ok h fuel (h ++ [n]) [(length h, ks)]) as [h' [ts' [Ec [LL [Un [Cp [NN Wh]]]]]]].
  - rewrite app_length; lia.
  - intros b Lb; apply at_app_old, Lb.
  - constructor; [|constructor]; unfold pending; cbn [fst snd]; rewrite An; cbn [children]; split; [rewrite app_length; cbn; lia|split; [exact E|split; [exact ND|exact F]]].
  - repeat constructor; intros [].
  - rewrite rsize_eq in B; cbn [map list_sum fold_right]; unfold pops; cbn [snd]; unfold fsize; lia.
  - inversion Cp as [|? t' ? ? R Rn]; subst; inversion Rn; subst; cbn [map fst] in *; rewrite Ec; cbn [bind].
    destruct R as [Rt [Lb [At [Pa [Ch [NDc [Lk Rm]]]]]]]; cbn [fst snd] in *; rewrite An in Lb, At, Pa; cbn [label attrib parent] in Lb, At, Pa.
    cbn [flat_map] in NN, Wh; rewrite app_nil_r in NN, Wh; rewrite app_length in LL, Wh, Un; cbn [length map list_sum fold_right snd] in LL, Wh, Un.
    exists h', t'; rewrite Rt; split; [reflexivity|].
    assert (K' : linked h' None t') by (destruct t' as [b ks']; cbn [root branches] in *; subst b; constructor; assumption).
    assert (Rg : forall b, In b (nodes t') -> (length h <= b < length h')%nat).
    { intros b I; apply Wh in I; destruct I as [[<-|[]]|I]; lia. }
    split; [exact K'|split; [apply (linked_keyed h' t' None K'); intros b I; apply Rg, I|split; [|split; [exact NN|split; [intros b I; apply Rg, I|split]]]]].
    + destruct t' as [b ks']; cbn [root branches rosemap] in *; subst b; rewrite Rm; f_equal; unfold details; rewrite Lb, At; reflexivity.
    + intros b Lb'; rewrite Un; [apply at_app_old, Lb'|lia|intros [<-|[]]; lia].
    + rewrite rsize_eq; unfold fsize in LL; lia.
Qed.
Lemma copy_raises h a fuel : truth_opt h (parent (at_ h a)) = true -> copy fuel h a = Raise PlainException.
Proof. intros T; unfold copy; rewrite T; reflexivity. Qed.

(** comparing two trees with the same details *)
Lemma node_eq_same veq (R0 : forall v, veq v v = true) fuel : forall h t t', keyed h t -> keyed h t' -> rosemap (details h) t = rosemap (details h) t' ->
  (forall a, In a (nodes t) -> NoDup (dkeys (attrib (at_ h a)))) -> (rsize t < fuel)%nat -> node_eq veq fuel h (root t) (root t') = Ok true.
Proof.
  induction fuel as [|f IH]; intros h [a ks] [b js] K K' E W B; [lia|]; cbn [root node_eq].
  inversion K as [? ? La NDa Ca Ka]; inversion K' as [? ? Lb NDb Cb Kb]; subst; cbn [rosemap] in E; injection E as Ed Ea Ek.
  rewrite <- Ed, <- Ea, eqb_refl, Nat.eqb_refl; cbn [negb andb].
  replace (forallb _ (attrib (at_ h a))) with true.
  2:{ symmetry; apply forallb_forall; intros [k v] I; cbn [fst snd]; rewrite (In_dget _ _ _ (W a (or_introl eq_refl)) I); apply R0. }
  cbn [negb andb].
  assert (Lk : length ks = length js) by (apply (f_equal (@length _)) in Ek; rewrite !map_length in Ek; exact Ek).
  rewrite Ca, Cb, !map_length, Lk, Nat.eqb_refl; cbn [negb].
  rewrite rsize_eq in B.
  assert (D : forall k j, In (k, j) (combine ks js) -> dget (label (at_ h (root k))) (children (at_ h b)) = Some (root j)).
  { intros k j I; assert (X : label (at_ h (root k)) = label (at_ h (root j))).
    { clear -Ek I; revert js Ek I; induction ks as [|k0 ks IH]; intros [|j0 js] Ek I; cbn in I; try contradiction; cbn [map] in Ek; injection Ek as E0 Ek.
      destruct I as [I|I]; [injection I as -> ->; destruct k, j; cbn [rosemap] in E0; injection E0 as E0 _ _; exact E0|apply (IH js Ek I)]. }
    rewrite X; apply In_dget; [exact NDb|]; rewrite Cb; apply in_map_iff; exists j; split; [reflexivity|apply in_combine_r in I; exact I]. }
  assert (R : forall k j, In (k, j) (combine ks js) -> node_eq veq f h (root k) (root j) = Ok true).
  { intros k j I; rewrite Forall_forall in Ka, Kb; apply IH; [apply Ka; apply in_combine_l in I; exact I|apply Kb; apply in_combine_r in I; exact I| | |].
    - clear -Ek I; revert js Ek I; induction ks as [|k0 ks IH]; intros [|j0 js] Ek I; cbn in I; try contradiction; cbn [map] in Ek; injection Ek as E0 Ek.
      destruct I as [I|I]; [injection I as -> ->; exact E0|apply (IH js Ek I)].
    - intros c Ic; apply W; right; apply in_flat_map; exists k; split; [apply in_combine_l in I; exact I|exact Ic].
    - apply in_combine_l in I; apply in_split in I; destruct I as [l [r ->]]; rewrite flat_map_app, app_length in B; cbn [flat_map] in B; rewrite app_length in B; unfold rsize; lia. }
  rewrite Cb in D.
  assert (X : forall k, In k ks -> exists d, dget (label (at_ h (root k))) (map (fun k => (label (at_ h (root k)), root k)) js) = Some d /\ node_eq veq f h (root k) d = Ok true).
  { intros k I; assert (Y : exists j, In (k, j) (combine ks js)).
    { clear -I Lk; revert js Lk; induction ks as [|k0 ks IH]; intros [|j0 js] Lk; cbn [length] in Lk; try discriminate; [destruct I|].
      destruct I as [->|I]; [exists j0; left; reflexivity|destruct (IH I js) as [j Y]; [lia|exists j; right; exact Y]]. }
    destruct Y as [j Y]; exists (root j); split; [apply D, Y|apply R, Y]. }
  clear -X; induction ks as [|k ks IH]; [reflexivity|]; cbn [map].
  destruct (X k (or_introl eq_refl)) as [d [Ed En]]; rewrite Ed; destruct (Nat.eqb (root k) d); [|rewrite En; cbn [bind]]; apply IH; intros k' I; apply X; right; exact I.
Qed.
Lemma copy_equal veq h t fuel : (forall v, veq v v = true) -> keyed h t -> truth_opt h (parent (at_ h (root t))) = false -> (rsize t < fuel)%nat ->
  (forall a, In a (nodes t) -> NoDup (dkeys (attrib (at_ h a)))) ->
  exists h' b, copy fuel h (root t) = Ok (h', b) /\ node_eq veq fuel h' (root t) b = Ok true.
Proof.
  intros R0 K T B W; destruct (copy_ok h t fuel K T B) as [h' [t' [E [_ [K' [D [_ [_ [O L]]]]]]]]].
  exists h', (root t'); split; [exact E|].
  assert (Q : forall a, In a (nodes t) -> at_ h' a = at_ h a) by (intros a I; apply O, (keyed_range h t K a I)).
  apply node_eq_same; [exact R0|apply (keyed_frame h); [lia|exact Q|exact K]|exact K'| | |exact B].
  - rewrite D; apply rosemap_frame; intros a I; unfold details; rewrite Q by exact I; reflexivity.
  - intros a I; rewrite Q by exact I; apply W, I.
Qed.

(* ---------------- C58 ---------------- *)
Lemma existsb_flat_map {A B} (p : B -> bool) (f : A -> list B) l : existsb p (flat_map f l) = existsb (fun x => existsb p (f x)) l.
Proof. induction l as [|x l IH]; [reflexivity|]; cbn [flat_map existsb]; rewrite existsb_app, IH; reflexivity. Qed.
Definition kept {A} (P : A -> bool) (ks : list (rose A)) : list (rose A) := flat_map (fun k => if viable P k then [keep P k] else []) ks.
Lemma viable_eq {A} (P : A -> bool) a ks : viable P (Rose a ks) = P a || existsb (viable P) ks.
Proof. unfold viable; cbn [nodes existsb]; rewrite existsb_flat_map; reflexivity. Qed.
Lemma kept_nil {A} (P : A -> bool) ks : (match kept P ks with [] => false | _ => true end) = existsb (viable P) ks.
Proof. induction ks as [|k ks IH]; [reflexivity|]; cbn [kept flat_map existsb] in *; destruct (viable P k); [reflexivity|exact IH]. Qed.
Lemma keep_root {A} (P : A -> bool) t : root (keep P t) = root t.
Proof. destruct t; reflexivity. Qed.
Lemma keep_incl {A} (P : A -> bool) t b : In b (nodes (keep P t)) -> In b (nodes t).
Proof.
  induction t as [a ks IH] using rose_rec_ind; cbn [keep nodes]; intros [<-|I]; [left; reflexivity|right].
  apply in_flat_map in I; destruct I as [k' [Ik I]]; apply in_flat_map in Ik; destruct Ik as [k [Ik J]].
  destruct (viable P k); [|destruct J]; destruct J as [<-|[]]; rewrite Forall_forall in IH.
  apply in_flat_map; exists k; split; [exact Ik|apply (IH k Ik I)].
Qed.
Lemma ddel_mid (pre : dict str addr) k v post : ~ In k (dkeys pre) -> ddel k (pre ++ (k, v) :: post) = pre ++ post.
Proof.
  induction pre as [|[k' v'] pre IH]; cbn [app ddel dkeys map fst In]; intros N; [rewrite eqb_refl; reflexivity|].
  destruct (eqb_spec k k') as [E|_]; [exfalso; apply N; left; congruence|]; rewrite IH; [reflexivity|tauto].
Qed.
Lemma NoDup_app_inv {A} (l m : list A) : NoDup (l ++ m) -> NoDup l /\ NoDup m /\ forall x, In x l -> ~ In x m.
Proof.
  induction l as [|x l IH]; cbn [app]; intros N; [split; [constructor|split; [exact N|intros y []]]|].
  inversion N as [|? ? Nx N']; subst; destruct (IH N') as [A1 [A2 A3]]; split; [constructor; [intros I; apply Nx, in_or_app; left; exact I|exact A1]|split; [exact A2|]].
  intros y [<-|I]; [intros J; apply Nx, in_or_app; right; exact J|apply A3, I].
Qed.
Section Prune.
  Variable pred : str * dict akey value -> bool.
  Definition by_details (h : list node) (a : addr) : bool := pred (details h a).
  Variable P : addr -> bool.
  Notation body := (prune_body by_details).
  Definition pruned (h h' : list node) (par : option addr) (t : rose addr) : Prop :=
    length h' = length h /\ (forall b, details h' b = details h b) /\
    (forall b, ~ In b (nodes t) -> par <> Some b -> at_ h' b = at_ h b) /\
    (forall p, par = Some p -> at_ h' p = if viable P t then at_ h p else set_children (at_ h p) (ddel (label (at_ h (root t))) (children (at_ h p)))) /\
    (if viable P t then linked h' par (keep P t) else children (at_ h' (root t)) = []).
  Definition filed_in (h : list node) (par : option addr) (t : rose addr) : Prop :=
    forall p, par = Some p -> (p < length h)%nat /\ ~ In p (nodes t) /\ dget (label (at_ h (root t))) (children (at_ h p)) = Some (root t).
  Definition tree_stmt (t : rose addr) : Prop := forall h par st, linked h par t -> NoDup (nodes t) ->
    (forall a, In a (nodes t) -> (a < length h)%nat) -> filed_in h par t -> (forall a, P a = pred (details h a)) ->
    exists c h', (c <= 2 * rsize t)%nat /\
      (forall f, for_postorder body (c + f) h tt (st ++ [(root t, false)]) = for_postorder body f h' tt st) /\ pruned h h' par t.

  Lemma prune_forest a ks : Forall tree_stmt ks -> forall h done st,
    children (at_ h a) = filed h (ks ++ done) -> NoDup (dkeys (children (at_ h a))) -> Forall (linked h (Some a)) (ks ++ done) ->
    NoDup (flat_map nodes ks) -> ~ In a (flat_map nodes (ks ++ done)) -> (forall b, In b (flat_map nodes ks) -> ~ In b (flat_map nodes done)) ->
    (a < length h)%nat -> (forall b, In b (flat_map nodes ks) -> (b < length h)%nat) -> (forall b, P b = pred (details h b)) ->
    exists c h', (c <= 2 * fsize ks)%nat /\
      (forall f, for_postorder body (c + f) h tt (st ++ map (fun k => (root k, false)) ks) = for_postorder body f h' tt st) /\
      length h' = length h /\ (forall b, details h' b = details h b) /\
      (forall b, ~ In b (flat_map nodes ks) -> b <> a -> at_ h' b = at_ h b) /\ parent (at_ h' a) = parent (at_ h a) /\
      children (at_ h' a) = filed h' (kept P ks ++ done) /\ NoDup (dkeys (children (at_ h' a))) /\ Forall (linked h' (Some a)) (kept P ks ++ done).
  Proof.
    induction ks as [|k ks IHks] using rev_ind; intros IH h done st Ch ND Lk Nn Na Dj La Rg HP.
    - exists O, h; cbn [kept flat_map app map] in *; rewrite app_nil_r; split; [lia|split; [reflexivity|split; [reflexivity|repeat split; auto]]].
    - apply Forall_app in IH; destruct IH as [IH IHk]; inversion IHk as [|? ? Tk _]; subst.
      rewrite <- app_assoc in Ch, Lk, Na; cbn [app] in Ch, Lk, Na.
      rewrite flat_map_app in Nn, Dj, Rg; cbn [flat_map] in Nn, Dj, Rg; rewrite app_nil_r in Nn, Dj, Rg.
      rewrite !flat_map_app in Na; cbn [flat_map] in Na.
      pose proof Lk as Lk0; apply Forall_app in Lk; destruct Lk as [Lks Lk]; inversion Lk as [|? ? Lkk Lkd]; subst.
      destruct (NoDup_app_inv _ _ Nn) as [Nks [Nk Dk]].
      assert (Ak : ~ In a (nodes k)) by (intros I; apply Na, in_or_app; right; apply in_or_app; left; exact I).
      pose proof ND as ND0; rewrite Ch in ND0; unfold filed, dkeys in ND0; rewrite map_map, map_app in ND0; cbn [map fst] in ND0.
      destruct (Tk h (Some a) (st ++ map (fun k => (root k, false)) ks) Lkk Nk) as [c1 [h1 [Bc [Run [L1 [D1 [O1 [A1 K1]]]]]]]].
      + intros b I; apply Rg, in_or_app; right; exact I.
      + intros p Ep; injection Ep as <-; split; [exact La|split; [exact Ak|]].
        apply In_dget; [exact ND|]; rewrite Ch; unfold filed; rewrite map_app; apply in_or_app; right; left; reflexivity.
      + exact HP.
      + specialize (A1 a eq_refl).
        set (done1 := if viable P k then keep P k :: done else done).
        assert (Lab : forall b, label (at_ h1 b) = label (at_ h b)) by (intros b; specialize (D1 b); injection D1; auto).
        assert (Fl : forall l, filed h1 l = filed h l) by (intros l; apply filed_ext, Forall_forall; intros; apply Lab).
        assert (Ch1 : children (at_ h1 a) = filed h1 (ks ++ done1)).
        { rewrite A1, Fl; unfold done1; destruct (viable P k).
          - rewrite Ch; unfold filed; rewrite !map_app; cbn [map]; rewrite keep_root; reflexivity.
          - cbn [set_children children]; rewrite Ch; unfold filed; rewrite !map_app; cbn [map]; apply ddel_mid.
            unfold dkeys; rewrite map_map; cbn [fst]; intros I; apply NoDup_remove_2 in ND0; apply ND0, in_or_app; left; exact I. }
        assert (ND1 : NoDup (dkeys (children (at_ h1 a)))).
        { rewrite A1; destruct (viable P k); [exact ND|cbn [set_children children]; apply NoDup_ddel, ND]. }
        assert (Fr : forall t, (forall b, In b (nodes t) -> ~ In b (nodes k) /\ b <> a) -> linked h (Some a) t -> linked h1 (Some a) t).
        { intros t Q; apply linked_frame; intros b I; destruct (Q b I) as [Q1 Q2]; apply O1; [exact Q1|congruence]. }
        assert (Nd1 : forall b, In b (flat_map nodes done1) -> In b (nodes k) \/ In b (flat_map nodes done)).
        { intros b; unfold done1; destruct (viable P k); [|auto]; cbn [flat_map]; intros I; apply in_app_or in I; destruct I as [I|I]; [left; apply (keep_incl P k b I)|auto]. }
        destruct (IHks IH h1 done1 st Ch1 ND1) as [c2 [h2 [Bc2 [Run2 [L2 [D2 [O2 [P2 [C2 [ND2 K2]]]]]]]]]].
        * apply Forall_app; split.
          -- rewrite Forall_forall in *; intros t I; apply Fr; [|apply Lks, I]; intros b J.
             assert (Jb : In b (flat_map nodes ks)) by (apply in_flat_map; exists t; auto).
             split; [apply Dk, Jb|intros ->; apply Na, in_or_app; left; exact Jb].
          -- assert (Fd : Forall (linked h1 (Some a)) done).
             { rewrite Forall_forall in *; intros t I; apply Fr; [|apply Lkd, I]; intros b J.
               assert (Jb : In b (flat_map nodes done)) by (apply in_flat_map; exists t; auto).
               split; [intros X; apply (Dj b); [apply in_or_app; right; exact X|exact Jb]|intros ->; apply Na, in_or_app; right; apply in_or_app; right; exact Jb]. }
             unfold done1; destruct (viable P k); [constructor; [exact K1|exact Fd]|exact Fd].
        * exact Nks.
        * rewrite flat_map_app; intros I; apply in_app_or in I; destruct I as [I|I]; [apply Na, in_or_app; left; exact I|].
          apply Nd1 in I; destruct I as [I|I]; [exact (Ak I)|apply Na, in_or_app; right; apply in_or_app; right; exact I].
        * intros b I J; apply Nd1 in J; destruct J as [J|J]; [exact (Dk b I J)|apply (Dj b); [apply in_or_app; left; exact I|exact J]].
        * lia.
        * intros b I; rewrite L1; apply Rg, in_or_app; left; exact I.
        * intros b; rewrite D1; apply HP.
        * exists (c1 + c2)%nat, h2; split; [rewrite fsize_app, fsize_cons; change (fsize (@nil (rose addr))) with O; lia|split].
          -- intros f; rewrite map_app; cbn [map]; rewrite app_assoc, <- Nat.add_assoc, Run; apply Run2.
          -- assert (Kp : kept P (ks ++ [k]) ++ done = kept P ks ++ done1).
             { unfold kept; rewrite flat_map_app; cbn [flat_map]; rewrite app_nil_r, <- app_assoc; unfold done1; destruct (viable P k); reflexivity. }
             rewrite Kp; split; [lia|split; [intros b; rewrite D2; apply D1|split; [|split; [|split; [exact C2|split; [exact ND2|exact K2]]]]]].
             ++ intros b Nb Nba; rewrite flat_map_app in Nb; cbn [flat_map] in Nb; rewrite app_nil_r in Nb.
                rewrite O2; [apply O1; [intros I; apply Nb, in_or_app; right; exact I|congruence]|intros I; apply Nb, in_or_app; left; exact I|exact Nba].
             ++ rewrite P2, A1; destruct (viable P k); reflexivity.
  Qed.

  (** visiting a node whose children are done *)
  Lemma prune_visit h h1 par a ks : linked h par (Rose a ks) -> NoDup (nodes (Rose a ks)) -> (a < length h)%nat -> filed_in h par (Rose a ks) ->
    (forall b, P b = pred (details h b)) ->
    length h1 = length h -> (forall b, details h1 b = details h b) ->
    (forall b, ~ In b (flat_map nodes ks) -> b <> a -> at_ h1 b = at_ h b) -> parent (at_ h1 a) = parent (at_ h a) ->
    children (at_ h1 a) = filed h1 (kept P ks) -> NoDup (dkeys (children (at_ h1 a))) -> Forall (linked h1 (Some a)) (kept P ks) ->
    exists h', body h1 tt a = (h', tt, Ok None) /\ pruned h h' par (Rose a ks).
  Proof.
    intros K Nn La Fi HP L1 D1 O1 P1 C1 ND1 K1; unfold prune_body, by_details.
    assert (T : truth h1 a = existsb (viable P) ks).
    { unfold truth; rewrite C1, <- (kept_nil P ks); destruct (kept P ks); reflexivity. }
    rewrite T, D1, <- HP; replace (existsb (viable P) ks || P a) with (viable P (Rose a ks)) by (rewrite viable_eq; apply orb_comm).
    inversion K as [? ? ? Pa ND E F]; subst.
    assert (Op : forall p, parent (at_ h a) = Some p -> at_ h1 p = at_ h p /\ p <> a).
    { intros p Ep; destruct (Fi p Ep) as [_ [N _]]; assert (p <> a) by (intros ->; apply N; left; reflexivity).
      split; [|assumption]; apply O1; [intros I; apply N; right; exact I|assumption]. }
    destruct (viable P (Rose a ks)) eqn:V.
    - exists h1; split; [reflexivity|]; unfold pruned; rewrite V; split; [exact L1|split; [exact D1|split; [|split]]].
      + intros b Nb _; apply O1; [intros I; apply Nb; right; exact I|intros ->; apply Nb; left; reflexivity].
      + intros p Ep; apply (Op p Ep).
      + cbn [keep]; constructor; [exact P1|exact ND1|exact C1|exact K1].
    - assert (C0 : children (at_ h1 a) = []).
      { rewrite C1; rewrite viable_eq in V; apply orb_false_iff in V; destruct V as [_ V]; rewrite <- kept_nil in V; destruct (kept P ks); [reflexivity|discriminate]. }
      unfold unlink; rewrite P1; destruct (parent (at_ h a)) as [p|] eqn:Ep.
      + destruct (Fi p eq_refl) as [Lp [Np G]]; destruct (Op p eq_refl) as [Ap Npa]; cbn [root] in G.
        assert (Lab : label (at_ h1 a) = label (at_ h a)) by (specialize (D1 a); injection D1; auto).
        unfold truth; rewrite Ap, Lab, G; destruct (children (at_ h p)) as [|kv ch] eqn:Ec; [discriminate G|]; rewrite <- Ec in *; clear Ec kv ch.
        set (h2 := put h1 p _); eexists; split; [reflexivity|]; set (h3 := put h2 a _).
        assert (L2 : length h2 = length h) by (unfold h2; rewrite length_put; exact L1).
        assert (L3 : length h3 = length h) by (unfold h3; rewrite length_put; exact L2).
        assert (A2 : at_ h2 a = at_ h1 a) by (unfold h2; apply at_put_other; congruence).
        assert (A3 : at_ h3 a = set_parent (at_ h1 a) None) by (unfold h3; rewrite at_put_same by lia; rewrite A2; reflexivity).
        assert (P3 : at_ h3 p = set_children (at_ h p) (ddel (label (at_ h a)) (children (at_ h p)))).
        { unfold h3; rewrite at_put_other by congruence; unfold h2; rewrite at_put_same by lia; reflexivity. }
        assert (O3 : forall b, b <> a -> b <> p -> at_ h3 b = at_ h1 b).
        { intros b Nb Nb'; unfold h3; rewrite at_put_other by congruence; unfold h2; apply at_put_other; congruence. }
        unfold pruned; rewrite V; cbn [root]; split; [exact L3|split; [|split; [|split]]].
        * intros b; destruct (Nat.eq_dec b a) as [->|Nb]; [unfold details; rewrite A3; cbn [set_parent label attrib]; apply D1|].
          destruct (Nat.eq_dec b p) as [->|Nb']; [unfold details; rewrite P3; reflexivity|unfold details at 1; rewrite O3 by assumption; apply D1].
        * intros b Nb Nb'; rewrite O3; [apply O1; [intros I; apply Nb; right; exact I|intros ->; apply Nb; left; reflexivity]|intros ->; apply Nb; left; reflexivity|congruence].
        * intros q Eq; injection Eq as <-; exact P3.
        * rewrite A3; exact C0.
      + eexists; split; [reflexivity|]; set (h2 := put h1 a _).
        assert (A2 : at_ h2 a = set_parent (at_ h1 a) None) by (unfold h2; apply at_put_same; lia).
        assert (O2 : forall b, b <> a -> at_ h2 b = at_ h1 b) by (intros b Nb; unfold h2; apply at_put_other; congruence).
        unfold pruned; rewrite V; cbn [root]; split; [unfold h2; rewrite length_put; exact L1|split; [|split; [|split]]].
        * intros b; destruct (Nat.eq_dec b a) as [->|Nb]; [unfold details; rewrite A2; cbn [set_parent label attrib]; apply D1|].
          unfold details at 1; rewrite O2 by exact Nb; apply D1.
        * intros b Nb _; rewrite O2; [apply O1; [intros I; apply Nb; right; exact I|intros ->; apply Nb; left; reflexivity]|intros ->; apply Nb; left; reflexivity].
        * discriminate.
        * rewrite A2; exact C0.
  Qed.
  Lemma prune_tree t : tree_stmt t.
  Proof.
    induction t as [a ks IH] using rose_rec_ind; intros h par st K Nn Rg Fi HP; cbn [root].
    pose proof K as K0; inversion K as [? ? ? Pa ND E F]; subst.
    assert (La : (a < length h)%nat) by (apply Rg; left; reflexivity).
    cbn [nodes] in Nn; inversion Nn as [|? ? Na Nk]; subst.
    destruct ks as [|k ks].
    - destruct (prune_visit h h (parent (at_ h a)) a [] K0 Nn La Fi HP) as [h' [Eb Pr]]; auto.
      exists 1%nat, h'; split; [rewrite rsize_eq; cbn; lia|split; [|exact Pr]]; intros f; cbn [Nat.add for_postorder]; rewrite pop_last_snoc.
      unfold truth at 1; rewrite E; cbn [map negb orb]; rewrite Eb; reflexivity.
    - remember (k :: ks) as ks0 eqn:Ek.
      destruct (prune_forest a ks0 IH h [] (st ++ [(a, true)])) as [c [h1 [Bc [Run [L1 [D1 [O1 [P1 [C1 [ND1 K1]]]]]]]]]].
      + rewrite app_nil_r; exact E.
      + exact ND.
      + rewrite app_nil_r; exact F.
      + exact Nk.
      + rewrite app_nil_r; exact Na.
      + intros b _ [].
      + exact La.
      + intros b I; apply Rg; right; exact I.
      + exact HP.
      + rewrite app_nil_r in C1, K1.
        destruct (prune_visit h h1 (parent (at_ h a)) a ks0 K0 Nn La Fi HP L1 D1 O1 P1 C1 ND1 K1) as [h' [Eb Pr]].
        exists (S (c + 1)), h'; split; [rewrite rsize_eq; unfold fsize in Bc; lia|split; [|exact Pr]]; intros f; cbn [Nat.add for_postorder]; rewrite pop_last_snoc.
        unfold truth at 1; rewrite E.
        replace (match map (fun k0 : rose addr => (label (at_ h (root k0)), root k0)) ks0 with [] => false | _ :: _ => true end) with true by (rewrite Ek; reflexivity).
        cbn [negb orb].
        replace (map (fun c0 : addr => (c0, false)) (dvals (map (fun k0 : rose addr => (label (at_ h (root k0)), root k0)) ks0))) with (map (fun k0 : rose addr => (root k0, false)) ks0)
          by (unfold dvals; rewrite !map_map; reflexivity).
        rewrite <- Nat.add_assoc, Run; cbn [Nat.add for_postorder]; rewrite pop_last_snoc; cbn [orb]; rewrite Eb; reflexivity.
  Qed.
End Prune.
Lemma keep_ext {A} (p q : A -> bool) t : (forall a, In a (nodes t) -> p a = q a) -> viable p t = viable q t /\ keep p t = keep q t.
Proof.
  induction t as [a ks IH] using rose_rec_ind; intros E; split.
  - unfold viable; remember (nodes (Rose a ks)) as l; clear -E; induction l as [|x l IH]; [reflexivity|]; cbn [existsb]; rewrite E by (left; reflexivity); f_equal; apply IH; intros b I; apply E; right; exact I.
  - cbn [keep]; f_equal; apply flat_map_ext_Forall; rewrite Forall_forall in *; intros k I.
    destruct (IH k I) as [-> ->]; [|reflexivity]; intros b J; apply E; right; apply in_flat_map; exists k; auto.
Qed.
Lemma keep_map {A B} (f : A -> B) (p : B -> bool) t : viable p (rosemap f t) = viable (fun a => p (f a)) t /\ rosemap f (keep (fun a => p (f a)) t) = keep p (rosemap f t).
Proof.
  induction t as [a ks IH] using rose_rec_ind; split.
  - unfold viable; rewrite rosemap_nodes; generalize (nodes (Rose a ks)) as l; induction l as [|x l IHl]; [reflexivity|cbn; rewrite IHl; reflexivity].
  - cbn [keep rosemap]; f_equal; rewrite map_flat_map, flat_map_map; apply flat_map_ext_Forall; rewrite Forall_forall in *; intros k I.
    destruct (IH k I) as [-> Ek]; rewrite <- Ek; destruct (viable _ k); reflexivity.
Qed.
Lemma prune_ok pred h t fuel : keyed h t -> truth_opt h (parent (at_ h (root t))) = false -> (2 * rsize t < fuel)%nat ->
  exists h' r, prune (fun h a => pred (details h a)) fuel h (root t) = Ok (h', r) /\ (forall a, (a < length h)%nat -> at_ h' a = at_ h a) /\
    if viable pred (rosemap (details h) t) then
      exists t', r = Some (root t') /\ linked h' None t' /\ rosemap (details h') t' = keep pred (rosemap (details h) t) /\ forall a, In a (nodes t') -> (length h <= a)%nat
    else r = None.
Proof.
  intros K T B; destruct (copy_ok h t fuel K T) as [h1 [t1 [E [Lk [K1 [D1 [N1 [G1 [O1 L1]]]]]]]]]; [lia|].
  unfold prune; rewrite E; cbn [bind].
  assert (Rs : rsize t1 = rsize t) by (unfold rsize; rewrite <- (map_length (details h1)), <- rosemap_nodes, D1, rosemap_nodes, map_length; reflexivity).
  destruct (prune_tree pred (fun a => pred (details h1 a)) t1 h1 None [] Lk N1 (keyed_range h1 t1 K1)) as [c [h' [Bc [Run Pr]]]].
  - intros p; discriminate.
  - reflexivity.
  - cbn [app] in Run; replace fuel with (c + (fuel - c))%nat by lia; change (fun h a => pred (details h a)) with (by_details pred); rewrite Run.
    destruct (fuel - c)%nat as [|f] eqn:Ef; [lia|]; cbn [for_postorder pop_last rev].
    destruct Pr as [L' [D' [O' [_ V]]]].
    eexists; eexists; split; [reflexivity|split].
    + intros a La; rewrite O'; [apply O1, La| |discriminate]; intros I; apply G1 in I; lia.
    + rewrite <- D1; destruct (keep_map (details h1) pred t1) as [-> Ek].
      destruct (viable (fun a => pred (details h1 a)) t1) eqn:Ev.
      * exists (keep (fun a => pred (details h1 a)) t1).
        assert (Tr : truth h' (root t1) || by_details pred h' (root t1) = true).
        { unfold by_details; rewrite D'; destruct t1 as [a ks]; cbn [root keep] in *; inversion V as [? ? ? _ _ Ech _]; subst.
          unfold truth; rewrite Ech; rewrite viable_eq in Ev; apply orb_true_iff in Ev; destruct Ev as [Ev|Ev]; [rewrite Ev; apply orb_true_r|].
          rewrite <- kept_nil in Ev; unfold kept in Ev; destruct (flat_map _ ks); [discriminate Ev|reflexivity]. }
        unfold by_details in Tr; rewrite Tr, keep_root; split; [reflexivity|split; [exact V|split]].
        -- rewrite <- Ek; apply rosemap_frame; intros a _; apply D'.
        -- intros a I; apply G1, (keep_incl _ _ _ I).
      * unfold truth; rewrite V; cbn [orb]; unfold by_details; rewrite D'; destruct t1 as [a ks]; cbn [root]; rewrite viable_eq in Ev.
        apply orb_false_iff in Ev; destruct Ev as [-> _]; reflexivity.
Qed.
Lemma prune_raises p h a fuel : truth_opt h (parent (at_ h a)) = true -> prune p fuel h a = Raise PlainException.
Proof. intros T; unfold prune; rewrite copy_raises by exact T; reflexivity. Qed.

(* ---------------- C62 ---------------- *)
Lemma at_setitem h n k v b : (n < length h)%nat -> at_ (setitem h n k v) b = if Nat.eqb b n then set_attrib (at_ h n) (dset (KStr k) v (attrib (at_ h n))) else at_ h b.
Proof. intros L; unfold setitem; destruct (Nat.eqb_spec b n) as [->|Nb]; [apply at_put_same, L|apply at_put_other; congruence]. Qed.
Lemma length_setitem h n k v : length (setitem h n k v) = length h.
Proof. apply length_put. Qed.
Lemma setitem_out h n k v b : children (at_ (setitem h n k v) b) = children (at_ h b).
Proof.
  unfold setitem; destruct (Nat.lt_ge_cases n (length h)) as [L|L].
  - destruct (Nat.eq_dec n b) as [->|Nb]; [rewrite at_put_same by exact L; reflexivity|rewrite at_put_other by exact Nb; reflexivity].
  - replace (put h n (set_attrib (at_ h n) (dset (KStr k) v (attrib (at_ h n))))) with h; [reflexivity|].
    generalize (set_attrib (at_ h n) (dset (KStr k) v (attrib (at_ h n)))) as x; clear -L; intros x; revert n L.
    induction h as [|y h IH]; intros [|n] L; cbn [put length] in *; try reflexivity; try lia; f_equal; apply IH; lia.
Qed.
Lemma count_keeps cm : keeps_children (count_body cm).
Proof.
  intros h s n h' s' r E a; unfold count_body in E; destruct (cm (at_ h n)) as [c|e]; [|injection E as <- _ _; reflexivity].
  destruct (bind _ _) as [z|e]; injection E as <- _ _; rewrite !setitem_out; reflexivity.
Qed.
Lemma freq_keeps total : keeps_children (freq_body total).
Proof.
  intros h s n h' s' r E a; unfold freq_body in E; destruct (get_num h n (u "cum_count")) as [z|e]; [|injection E as <- _ _; reflexivity].
  destruct (total =? 0); injection E as <- _ _; rewrite ?setitem_out; reflexivity.
Qed.
Lemma split_unique {A} (n : A) l : forall r q z, NoDup (l ++ n :: r) -> l ++ n :: r = q ++ n :: z -> l = q.
Proof.
  induction l as [|x l IH]; intros r [|y q] z ND E; cbn [app] in *.
  - reflexivity.
  - injection E as <- E; exfalso; inversion ND as [|? ? X _]; subst; apply X, in_or_app; right; left; reflexivity.
  - injection E as -> E; exfalso; inversion ND as [|? ? X _]; subst; apply X, in_or_app; right; left; reflexivity.
  - injection E as -> E; f_equal; apply (IH r q z); [inversion ND; assumption|exact E].
Qed.
Section Dist.
  Variable cm : str -> dict akey value -> nat -> Z.
  Definition by_node (n : node) : res Z := Ok (cm (label n) (attrib n) (length (children n))).
  Variable h0 : list node.
  Definition cnt (b : addr) : Z := cm (label (at_ h0 b)) (attrib (at_ h0 b)) (length (children (at_ h0 b))).
  Definition cumA (b : addr) : Z := cnt b + sumZ (map cnt (dvals (children (at_ h0 b)))).
  Definition counted (b : addr) : node :=
    set_attrib (at_ h0 b) (dset (KStr (u "cum_count")) (VNum (cumA b)) (dset (KStr (u "count")) (VNum (cnt b)) (attrib (at_ h0 b)))).
  Lemma counted_count b : dget (KStr (u "count")) (attrib (counted b)) = Some (VNum (cnt b)).
  Proof. cbn [counted set_attrib attrib]; rewrite dget_dset_other by (intros E; apply eqb_true in E; revert E; vm_compute; discriminate); apply dget_dset_same. Qed.
  Lemma fold_sum l : forall z, fold_left Z.add l z = z + sumZ l.
  Proof. induction l as [|x l IH]; intros z; cbn [fold_left sumZ fold_right]; [lia|]; rewrite IH; unfold sumZ; lia. Qed.
  Lemma count_run l : forall done h, NoDup (done ++ l) -> children_first h0 (done ++ l) -> (forall b, In b l -> (b < length h0)%nat) -> length h = length h0 ->
    (forall b, In b done -> at_ h b = counted b) -> (forall b, ~ In b done -> at_ h b = at_ h0 b) ->
    exists h', run_list (count_body by_node) h tt l = (h', tt, Ok None) /\ length h' = length h0 /\
      (forall b, In b (done ++ l) -> at_ h' b = counted b) /\ (forall b, ~ In b (done ++ l) -> at_ h' b = at_ h0 b).
  Proof.
    induction l as [|n l IH]; intros done h ND CF Rg L Dn Un; cbn [run_list].
    - exists h; rewrite app_nil_r; auto.
    - assert (Nn : ~ In n done) by (destruct (NoDup_app_inv _ _ ND) as [_ [_ X]]; intros I; apply (X n I); left; reflexivity).
      assert (Kd : forall c, In c (dvals (children (at_ h0 n))) -> In c done).
      { intros c I; destruct (CF n c) as [x [y [z E]]]; [apply in_or_app; right; left; reflexivity|exact I|].
        assert (X : done = x ++ c :: y).
        { apply (split_unique n done l (x ++ c :: y) z ND); rewrite E, <- app_assoc; reflexivity. }
        rewrite X; apply in_or_app; right; left; reflexivity. }
      assert (Ln : (n < length h)%nat) by (rewrite L; apply Rg; left; reflexivity).
      assert (Body : exists h1, count_body by_node h tt n = (h1, tt, Ok None) /\ length h1 = length h0 /\ at_ h1 n = counted n /\ forall b, b <> n -> at_ h1 b = at_ h b).
      { unfold count_body, by_node; rewrite (Un n Nn); fold (cnt n); set (h1 := setitem h n (u "count") (VNum (cnt n))).
        assert (L1 : length h1 = length h0) by (unfold h1; rewrite length_setitem; exact L).
        assert (A1 : forall b, at_ h1 b = if Nat.eqb b n then set_attrib (at_ h0 n) (dset (KStr (u "count")) (VNum (cnt n)) (attrib (at_ h0 n))) else at_ h b).
        { intros b; unfold h1; rewrite at_setitem by exact Ln; rewrite (Un n Nn); reflexivity. }
        assert (G1 : get_num h1 n (u "count") = Ok (cnt n)).
        { unfold get_num, dgetitem; rewrite A1, Nat.eqb_refl; cbn [set_attrib attrib]; rewrite dget_dset_same; reflexivity. }
        rewrite G1; cbn [bind].
        assert (C1 : children (at_ h1 n) = children (at_ h0 n)) by (rewrite A1, Nat.eqb_refl; reflexivity).
        rewrite C1, (mapM_Ok _ cnt).
        2:{ intros c I; apply Kd in I; unfold get_num, dgetitem; rewrite A1; destruct (Nat.eqb_spec c n) as [->|Nc]; [contradiction|].
            rewrite (Dn c I), counted_count; reflexivity. }
        cbn [bind]; rewrite fold_sum, Z.add_0_l; fold (cumA n); eexists; split; [reflexivity|split; [rewrite length_setitem; exact L1|split]].
        - rewrite at_setitem by lia; rewrite Nat.eqb_refl, A1, Nat.eqb_refl; unfold set_attrib, counted; cbn [attrib label children parent]; reflexivity.
        - intros b Nb; rewrite at_setitem by lia; destruct (Nat.eqb_spec b n) as [|_]; [contradiction|]; rewrite A1; destruct (Nat.eqb_spec b n); [contradiction|reflexivity]. }
      destruct Body as [h1 [E1 [L1 [A1 O1]]]]; rewrite E1.
      destruct (IH (done ++ [n]) h1) as [h' [E' [L' [D' U']]]].
      + rewrite <- app_assoc; exact ND.
      + rewrite <- app_assoc; exact CF.
      + intros b I; apply Rg; right; exact I.
      + exact L1.
      + intros b I; apply in_app_or in I; destruct (Nat.eq_dec b n) as [->|Nb]; [exact A1|rewrite O1 by exact Nb; destruct I as [I|[->|[]]]; [apply Dn, I|contradiction]].
      + intros b I; rewrite O1 by (intros ->; apply I, in_or_app; right; left; reflexivity); apply Un; intros J; apply I, in_or_app; left; exact J.
      + rewrite <- app_assoc in D', U'; cbn [app] in D', U'; exists h'; auto.
  Qed.
  Variable total : Z.
  Definition rated (b : addr) : node := set_attrib (counted b) (dset (KStr (u "freq")) (VQuot (cumA b) total) (attrib (counted b))).
  Lemma counted_cum b : dget (KStr (u "cum_count")) (attrib (counted b)) = Some (VNum (cumA b)).
  Proof. apply dget_dset_same. Qed.
  Lemma freq_run l : total <> 0 -> forall h, NoDup l -> (forall b, In b l -> (b < length h)%nat) -> (forall b, In b l -> at_ h b = counted b) ->
    exists h', run_list (freq_body total) h tt l = (h', tt, Ok None) /\ length h' = length h /\
      (forall b, In b l -> at_ h' b = rated b) /\ (forall b, ~ In b l -> at_ h' b = at_ h b).
  Proof.
    intros T; induction l as [|n l IH]; intros h ND Rg Dn; cbn [run_list].
    - exists h; split; [reflexivity|split; [reflexivity|split; [intros b []|auto]]].
    - inversion ND as [|? ? Nn ND']; subst.
      assert (Ln : (n < length h)%nat) by (apply Rg; left; reflexivity).
      assert (An : at_ h n = counted n) by (apply Dn; left; reflexivity).
      unfold freq_body at 1, get_num, dgetitem; rewrite An, counted_cum; cbn [of_option bind num].
      destruct (Z.eqb_spec total 0) as [|_]; [contradiction|].
      set (h1 := setitem h n (u "freq") (VQuot (cumA n) total)).
      assert (A1 : forall b, at_ h1 b = if Nat.eqb b n then rated n else at_ h b).
      { intros b; unfold h1; rewrite at_setitem by exact Ln; rewrite An; reflexivity. }
      assert (L1 : length h1 = length h) by apply length_setitem.
      destruct (IH h1 ND') as [h' [E' [L' [D' U']]]].
      + intros b I; rewrite L1; apply Rg; right; exact I.
      + intros b I; rewrite A1; destruct (Nat.eqb_spec b n) as [->|Nb]; [contradiction|apply Dn; right; exact I].
      + exists h'; split; [exact E'|split; [lia|split]].
        * intros b [<-|I]; [rewrite U' by exact Nn; rewrite A1, Nat.eqb_refl; reflexivity|apply D', I].
        * intros b Nb; rewrite U' by (intros I; apply Nb; right; exact I); rewrite A1; destruct (Nat.eqb_spec b n) as [->|]; [exfalso; apply Nb; left; reflexivity|reflexivity].
  Qed.
  Lemma own_cnt s : keyed h0 s -> own cm (rosemap (details h0) s) = cnt (root s).
  Proof. intros K; inversion K as [a ks L ND E F]; subst; unfold own, cnt, details; cbn [rosemap root branches fst snd]; rewrite E, !map_length; reflexivity. Qed.
  Lemma cum_cnt s : keyed h0 s -> cum cm (rosemap (details h0) s) = cumA (root s).
  Proof.
    intros K; unfold cum, cumA; rewrite (own_cnt s K); inversion K as [a ks L ND E F]; subst; cbn [rosemap root branches]; rewrite E.
    f_equal; f_equal; unfold dvals; rewrite !map_map; apply map_ext_in; intros k I; cbn [snd]; rewrite Forall_forall in F; apply own_cnt, F, I.
  Qed.
  Lemma annotated_rated h' s : keyed h0 s -> (forall b, In b (nodes s) -> at_ h' b = rated b) -> rosemap (details h') s = annotated cm total (rosemap (details h0) s).
  Proof.
    induction s as [a ks IH] using rose_rec_ind; intros K R; pose proof (cum_cnt _ K) as C; pose proof (own_cnt _ K) as O; inversion K as [? ? L ND E F]; subst.
    cbn [rosemap annotated]; f_equal.
    - change (Rose (details h0 a) (map (rosemap (details h0)) ks)) with (rosemap (details h0) (Rose a ks)); unfold noted; rewrite C, O.
      unfold details at 1; rewrite R by (left; reflexivity); reflexivity.
    - rewrite map_map; apply map_ext_in; intros k I; rewrite Forall_forall in IH, F; apply (IH k I (F k I)).
      intros b J; apply R; right; apply in_flat_map; exists k; auto.
  Qed.
  Lemma linked_rated h' s : forall par, (forall b, In b (nodes s) -> at_ h' b = rated b) -> linked h0 par s -> linked h' par s.
  Proof.
    induction s as [a ks IH] using rose_rec_ind; intros par R K; inversion K as [? ? ? Pa ND E F]; subst.
    assert (Ra : at_ h' a = rated a) by (apply R; left; reflexivity).
    constructor; rewrite ?Ra; [reflexivity|exact ND| |].
    - cbn [rated counted set_attrib children]; rewrite E; apply map_ext_in; intros k I; rewrite R; [reflexivity|right; apply in_flat_map; exists k; split; [exact I|destruct k; left; reflexivity]].
    - rewrite Forall_forall in *; intros k I; apply (IH k I); [|apply F, I]; intros b J; apply R; right; apply in_flat_map; exists k; auto.
  Qed.
End Dist.
Lemma tree_dist_ok cm h t fuel : keyed h t -> truth_opt h (parent (at_ h (root t))) = false -> (2 * rsize t < fuel)%nat ->
  let total := cum cm (rosemap (details h) t) in
  if total =? 0 then tree_dist (by_node cm) fuel h (root t) = Raise ZeroDivisionError
  else exists h' t', tree_dist (by_node cm) fuel h (root t) = Ok (h', root t') /\ linked h' None t' /\
    rosemap (details h') t' = annotated cm total (rosemap (details h) t) /\
    (forall a, In a (nodes t') -> (length h <= a)%nat) /\ (forall a, (a < length h)%nat -> at_ h' a = at_ h a).
Proof.
  intros K T B total; destruct (copy_ok h t fuel K T) as [h1 [t1 [E [Lk [K1 [D1 [N1 [G1 [O1 L1]]]]]]]]]; [lia|].
  assert (Rs : rsize t1 = rsize t) by (unfold rsize; rewrite <- (map_length (details h1)), <- rosemap_nodes, D1, rosemap_nodes, map_length; reflexivity).
  assert (Tt : total = cumA cm h1 (root t1)) by (unfold total; rewrite <- D1; apply cum_cnt, K1).
  pose proof (keyed_tree h1 t1 K1) as Tr; pose proof (keyed_range h1 t1 K1) as Rg.
  unfold tree_dist; rewrite E; cbn [bind].
  rewrite (postorder_run1 _ (count_keeps _)) by (assumption || lia).
  destruct (count_run cm h1 (pnodes t1) [] h1) as [h2 [E2 [L2 [D2 U2]]]].
  - apply (Permutation_NoDup (Permutation_sym (pnodes_perm t1))), N1.
  - apply pnodes_first, Tr.
  - intros b I; apply Rg, (Permutation_in _ (pnodes_perm t1) I).
  - reflexivity.
  - intros b [].
  - reflexivity.
  - cbn [app] in D2, U2; rewrite E2.
    assert (D2' : forall b, In b (nodes t1) -> at_ h2 b = counted cm h1 b) by (intros b I; apply D2, (Permutation_in _ (Permutation_sym (pnodes_perm t1)) I)).
    assert (Ir : In (root t1) (nodes t1)) by (destruct t1; left; reflexivity).
    assert (Gt : get_num h2 (root t1) (u "cum_count") = Ok total).
    { unfold get_num, dgetitem; rewrite (D2' _ Ir), counted_cum, Tt; reflexivity. }
    rewrite Gt; cbn [bind].
    assert (Tr2 : tree_at h2 t1).
    { apply (tree_same h1 h2); [|exact Tr]; intros a; destruct (in_dec Nat.eq_dec a (pnodes t1)) as [I|N]; [rewrite (D2 a I); reflexivity|rewrite (U2 a N); reflexivity]. }
    change [root t1] with (map root [t1]); rewrite (preorder_run _ (freq_keeps total)).
    2: constructor; [exact Tr2|constructor].
    2: rewrite fsize_cons; change (fsize (@nil (rose addr))) with 0%nat; lia.
    unfold rforest; cbn [map rev app flat_map]; rewrite app_nil_r.
    destruct (Z.eqb_spec total 0) as [Z0|NZ].
    + destruct t1 as [a ks]; cbn [rnodes run_list]; unfold freq_body at 1; cbn [root] in Gt; rewrite Gt, Z0; reflexivity.
    + destruct (freq_run cm h1 total (rnodes t1) NZ h2) as [h3 [E3 [L3 [D3 U3]]]].
      * apply (Permutation_NoDup (Permutation_sym (rnodes_perm t1))), N1.
      * intros b I; rewrite L2; apply Rg, (Permutation_in _ (rnodes_perm t1) I).
      * intros b I; apply D2', (Permutation_in _ (rnodes_perm t1) I).
      * rewrite E3; exists h3, t1.
        assert (D3' : forall b, In b (nodes t1) -> at_ h3 b = rated cm h1 total b) by (intros b I; apply D3, (Permutation_in _ (Permutation_sym (rnodes_perm t1)) I)).
        split; [reflexivity|split; [apply (linked_rated cm h1 total h3 t1 None D3' Lk)|split; [|split; [exact G1|]]]].
        -- rewrite <- D1; apply annotated_rated; assumption.
        -- intros a La; assert (Na : ~ In a (nodes t1)) by (intros I; apply G1 in I; lia).
           rewrite U3 by (intros I; apply Na, (Permutation_in _ (rnodes_perm t1) I)).
           rewrite U2 by (intros I; apply Na, (Permutation_in _ (pnodes_perm t1) I)); apply O1, La.
Qed.
Lemma sum_app l m : sumZ (l ++ m) = sumZ l + sumZ m.
Proof. induction l as [|x l IH]; cbn [app sumZ fold_right] in *; [reflexivity|unfold sumZ in *; rewrite IH; lia]. Qed.
Lemma cum_whole cm t : cum cm t = whole cm t <-> sumZ (map (whole cm) (flat_map branches (branches t))) = 0.
Proof.
  destruct t as [x ks]; unfold cum; cbn [branches whole]; unfold own at 1; cbn [root branches].
  assert (E : sumZ (map (whole cm) ks) = sumZ (map (own cm) ks) + sumZ (map (whole cm) (flat_map branches ks))).
  { induction ks as [|[y js] ks IH]; [reflexivity|]; cbn [map sumZ fold_right flat_map branches whole]; rewrite map_app, sum_app; unfold own at 1; cbn [root branches]; unfold sumZ in *; lia. }
  rewrite E; lia.
Qed.
(** the predicate only ever sees nodes without children *)
Lemma postorder_ext {S A} (b1 b2 : list node -> S -> addr -> list node * S * res (option A)) : (forall h s n, b1 h s n = b2 h s n) ->
  forall fuel h s st, for_postorder b1 fuel h s st = for_postorder b2 fuel h s st.
Proof.
  intros E; induction fuel as [|f IH]; intros h s st; cbn [for_postorder]; [reflexivity|].
  destruct (pop_last st) as [[[n v] st']|]; [|reflexivity]; destruct (v || negb (truth h n)); [|apply IH].
  rewrite E; destruct (b2 h s n) as [[h' s'] [[x|]|e]]; [reflexivity|apply IH|reflexivity].
Qed.
Lemma prune_leaves (p q : list node -> addr -> bool) : (forall h a, truth h a = false -> p h a = q h a) -> forall fuel h a, prune p fuel h a = prune q fuel h a.
Proof.
  intros E fuel h a; unfold prune; destruct (copy fuel h a) as [[h1 r]|e]; cbn [bind]; [|reflexivity].
  assert (O : forall g b, truth g b || p g b = truth g b || q g b) by (intros g b; destruct (truth g b) eqn:T; [reflexivity|cbn; apply E, T]).
  rewrite (postorder_ext (prune_body p) (prune_body q)) by (intros g s n; unfold prune_body; rewrite O; reflexivity).
  destruct (for_postorder _ _ _ _ _) as [[h2 s] [x|e]]; [rewrite O; reflexivity|reflexivity].
Qed.
Definition leaf_pred (pred : str * dict akey value -> dict str addr -> bool) (d : str * dict akey value) : bool := pred d [].
Lemma prune_any pred h t fuel : keyed h t -> truth_opt h (parent (at_ h (root t))) = false -> (2 * rsize t < fuel)%nat ->
  exists h' r, prune (fun h a => pred (details h a) (children (at_ h a))) fuel h (root t) = Ok (h', r) /\ (forall a, (a < length h)%nat -> at_ h' a = at_ h a) /\
    if viable (fun d => pred d []) (rosemap (details h) t) then
      exists t', r = Some (root t') /\ linked h' None t' /\ rosemap (details h') t' = keep (fun d => pred d []) (rosemap (details h) t) /\ forall a, In a (nodes t') -> (length h <= a)%nat
    else r = None.
Proof.
  intros K T B; rewrite (prune_leaves _ (fun h a => leaf_pred pred (details h a))).
  - apply (prune_ok (leaf_pred pred) h t fuel K T B).
  - intros g a E; unfold truth in E; unfold leaf_pred; destruct (children (at_ g a)); [reflexivity|discriminate].
Qed.
Lemma last_any {A} (x : A) l : forall d e, last (x :: l) d = last (x :: l) e.
Proof. revert x; induction l as [|y l IH]; intros x d e; [reflexivity|apply (IH y d e)]. Qed.
(** what is kept, in other words: the nodes above or equal to a node of which p holds *)
Lemma keep_nodes {A} (p : A -> bool) t b : viable p t = true ->
  (In b (nodes (keep p t)) <-> exists l c r, branch t (l ++ b :: r) /\ last (b :: r) b = c /\ p c = true).
Proof.
  induction t as [a ks IH] using rose_rec_ind; intros V; rewrite Forall_forall in IH; cbn [keep nodes]; split.
  - intros [<-|I].
    + unfold viable in V; apply existsb_exists in V; destruct V as [c [I Pc]].
      assert (X : forall t : rose A, In c (nodes t) -> exists l, branch t l /\ last l c = c).
      { clear; induction t as [a ks IH] using rose_rec_ind; cbn [nodes]; intros [<-|I]; [exists [a]; split; [apply (Branch_end (Rose a ks))|reflexivity]|].
        apply in_flat_map in I; destruct I as [k [Ik I]]; rewrite Forall_forall in IH; destruct (IH k Ik I) as [l [B L]]; exists (a :: l); split; [apply (Branch_down a ks k l Ik B)|].
        destruct (branch_root k l B) as [r ->]; exact L. }
      destruct (X _ I) as [l [B L]]; destruct (branch_root _ _ B) as [r ->]; cbn [root] in B, L; exists [], c, r; split; [exact B|split; [|exact Pc]].
      destruct r as [|x r]; [exact L|]; change (last (a :: x :: r) a) with (last (x :: r) a); change (last (a :: x :: r) c) with (last (x :: r) c) in L.
      rewrite <- L; apply last_any.
    + apply in_flat_map in I; destruct I as [k' [J I]]; apply in_flat_map in J; destruct J as [k [Ik J]]; destruct (viable p k) eqn:Vk; [|destruct J]; destruct J as [<-|[]].
      apply (IH k Ik Vk) in I; destruct I as [l [c [r [B [L Pc]]]]]; exists (a :: l), c, r; split; [apply (Branch_down a ks k _ Ik B)|auto].
  - intros [l [c [r [B [L Pc]]]]]; remember (l ++ b :: r) as q eqn:Eq; remember (Rose a ks) as t eqn:Et; destruct B as [t|x ks0 k q0 Ik B].
    + subst t; destruct l as [|y l]; [injection Eq as <- <-; left; reflexivity|destruct l; discriminate Eq].
    + injection Et as -> ->; destruct l as [|y l]; [injection Eq as <- _; left; reflexivity|injection Eq as <- ->; right].
      apply in_flat_map; exists (keep p k).
      assert (Vk : viable p k = true).
      { unfold viable; apply existsb_exists; exists c; split; [|exact Pc].
        assert (X : forall (t : rose A) m, branch t m -> forall z, In z m -> In z (nodes t)).
        { clear; intros t m B; induction B as [t|x ks k l I B IH]; intros z J; [destruct J as [<-|[]]; destruct t; left; reflexivity|].
          destruct J as [<-|J]; [left; reflexivity|right; apply in_flat_map; exists k; split; [exact I|apply IH, J]]. }
        apply (X k _ B), in_or_app; right; rewrite <- L; clear; revert b; induction r as [|y r IH]; intros b; [left; reflexivity|right].
        change (last (b :: y :: r) b) with (last (y :: r) b).
        rewrite (last_any y r b y); apply IH. }
      split; [apply in_flat_map; exists k; split; [exact Ik|rewrite Vk; left; reflexivity]|].
      apply (IH k Ik Vk); exists l, c, r; auto.
Qed.
