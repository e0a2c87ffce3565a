(* Depth_proofs.v *)
From Verif Require Import Base Rose Maps_model Tree_model Tree_spec Tree_proofs TreeEq_spec TreeEq_proofs Layout_model Layout_spec Layout_proofs Depth_spec.

Section Stopped.
  Variable (limit : Z) (trouble : addr -> option exn).
  Lemma stopped_app a b : forall l m, length a = length l ->
    stopped limit trouble (a ++ b) (l ++ m) = and_then (stopped limit trouble a l) (stopped limit trouble b m).
  Proof.
    induction a as [|x a IH]; intros [|[d n] l] m L; try discriminate.
    - cbn [app stopped and_then]. destruct (stopped limit trouble b m). reflexivity.
    - cbn [app stopped]. destruct (trouble n); [reflexivity|]. destruct (d =? limit); [reflexivity|].
      rewrite (IH l m) by (cbn in L; lia). destruct (stopped limit trouble a l) as [ls [[]|e]]; cbn [and_then]; destruct (stopped limit trouble b m); reflexivity.
  Qed.
End Stopped.

Lemma block_length f r ls : length (block f r ls) = length ls.
Proof. destruct ls; cbn [block length]; [reflexivity|]. rewrite map_length. reflexivity. Qed.
Lemma blocks_cons b c bs : blocks (b :: c :: bs) = block (u "├─ ") (u "│  ") b ++ blocks (c :: bs).
Proof. reflexivity. Qed.
Lemma blocks_length bs : length (blocks bs) = length (concat bs).
Proof.
  induction bs as [|b [|c bs] IH]; [reflexivity| |].
  - cbn [blocks concat]. rewrite app_nil_r. apply block_length.
  - rewrite blocks_cons, app_length, block_length, IH. cbn [concat]. rewrite !app_length. reflexivity.
Qed.
Lemma draw_length (t : rose str) : length (draw t) = rsize t.
Proof.
  induction t as [x ks IH] using rose_rec_ind. cbn [draw length]. rewrite rsize_eq, blocks_length. f_equal.
  induction IH as [|k ks K _ IHks]; [reflexivity|]. cbn [map concat flat_map]. rewrite !app_length, K, IHks. reflexivity.
Qed.
Lemma rosemap_rsize {A B} (f : A -> B) t : rsize (rosemap f t) = rsize t.
Proof. unfold rsize. rewrite rosemap_nodes. apply map_length. Qed.

Section Draw.
  Variable (method : list node -> addr -> res str) (h : list node).
  Definition text (n : addr) : str := match method h n with Ok s => s | Raise _ => [] end.
  Definition trouble (n : addr) : option exn := match method h n with Ok _ => None | Raise e => Some e end.
  Notation stop L := (stopped L trouble).

  Lemma map_draw pre t : map (app pre) (draw (rosemap text t)) = (pre ++ text (root t)) :: map (app pre) (blocks (map draw (map (rosemap text) (branches t)))).
  Proof. destruct t; reflexivity. Qed.
  Definition below (L : Z) (d : Z) (pre : str) (ks : list (rose addr)) : out :=
    if d =? L then ([], Raise RecursionError) else stop L (map (app pre) (blocks (map draw (map (rosemap text) ks)))) (flat_map (Rose.pre (d + 1)) ks).
  (** one child with its own children *)
  Lemma stop_child L d prefix f r k :
    and_then (print_node method h (prefix ++ f) (root k)) (below L d (prefix ++ r) (branches k)) =
    stop L (map (app prefix) (block f r (draw (rosemap text k)))) (Rose.pre d k).
  Proof.
    destruct k as [a ks]. cbn [root branches rosemap draw block map Rose.pre stopped]. unfold print_node, below, trouble at 2.
    destruct (method h a) as [s|e] eqn:M; [|reflexivity].
    assert (T : text a = s) by (unfold text; rewrite M; reflexivity). rewrite T.
    unfold print_line. destruct (d =? L).
    - cbn [and_then app]. rewrite <- app_assoc. reflexivity.
    - cbn [and_then]. rewrite (map_app_map prefix r), <- app_assoc. cbn [app].
      destruct (stopped _ _ _ _) as [ls x]. reflexivity.
  Qed.
  Lemma stop_children L t : tree_at h t -> forall f d prefix, Z.of_nat f = L - d ->
    layout_children method f h (root t) prefix = below L d prefix (branches t).
  Proof.
    induction t as [a ks IH] using rose_rec_ind; intros T f d prefix E; inversion T as [? ? K F]; subst; clear T.
    unfold below. destruct f as [|f]; cbn [layout_children root branches].
    { replace (d =? L) with true by lia. reflexivity. }
    replace (d =? L) with false by lia. rewrite <- K. clear K.
    match goal with |- ?F _ = _ => set (each := F) end.
    assert (E1 : forall c, each [c] = and_then (print_node method h (prefix ++ u "└─ ") c) (layout_children method f h c (prefix ++ u "   "))) by reflexivity.
    assert (E2 : forall c c' r, each (c :: c' :: r) = and_then (and_then (print_node method h (prefix ++ u "├─ ") c) (layout_children method f h c (prefix ++ u "│  "))) (each (c' :: r))) by reflexivity.
    assert (E0 : each [] = ([], Ok tt)) by reflexivity. clearbody each.
    induction ks as [|k ks IHks]; [exact E0|].
    inversion F as [|? ? Tk Fk]; subst; inversion IH as [|? ? Hk Hks]; subst. specialize (IHks Hks Fk).
    assert (C : forall p, layout_children method f h (root k) p = below L (d + 1) p (branches k)) by (intro p; apply (Hk Tk); lia).
    destruct ks as [|j ks].
    - cbn [map]. rewrite E1, C, stop_child. cbn [map blocks flat_map]. rewrite app_nil_r. reflexivity.
    - change (map root (k :: j :: ks)) with (root k :: root j :: map root ks). change (map root (j :: ks)) with (root j :: map root ks) in IHks. rewrite E2, IHks, C, stop_child.
      change (map draw (map (rosemap text) (k :: j :: ks))) with (draw (rosemap text k) :: draw (rosemap text j) :: map draw (map (rosemap text) ks)).
      rewrite blocks_cons, map_app. change (flat_map (Rose.pre (d + 1)) (k :: j :: ks)) with (Rose.pre (d + 1) k ++ flat_map (Rose.pre (d + 1)) (j :: ks)).
      rewrite stopped_app; [reflexivity|]. rewrite map_length, block_length, draw_length, rosemap_rsize, pre_length. reflexivity.
  Qed.
  Theorem layout_stopped t limit : tree_at h t ->
    layout method limit h (root t) = stop (Z.of_nat limit) (draw (rosemap text t)) (Rose.pre 0 t).
  Proof.
    intros T. unfold layout. rewrite (stop_children (Z.of_nat limit) t T limit 0 []) by lia.
    pose proof (stop_child (Z.of_nat limit) 0 [] [] [] t) as C. cbn [app] in C. rewrite C. f_equal.
    destruct t as [a ks]. cbn [rosemap draw block map app]. f_equal. rewrite !map_id. reflexivity.
  Qed.
End Draw.

(** ** comparing *)
Section Eq.
  Variable (veq : value -> value -> bool) (h : list node).
  Lemma node_eq_more f : forall a b e, node_eq veq f h a b = Ok e -> node_eq veq (S f) h a b = Ok e.
  Proof.
    induction f as [|f IH]; intros a b e; [discriminate|]. remember (S f) as g eqn:G. cbn [node_eq]. rewrite G at 1. cbn [node_eq].
    destruct (negb _); [exact id|]. destruct (negb _); [exact id|]. destruct (negb _); [exact id|].
    generalize (children (at_ h a)) as l. induction l as [|[k c] l IHl]; [exact id|].
    destruct (dget k (children (at_ h b))) as [d|]; [|exact id]. destruct (Nat.eqb c d); [exact IHl|].
    destruct (node_eq veq f h c d) as [x|] eqn:X; [|discriminate]. rewrite (IH c d x X). cbn [bind]. destruct x; [exact IHl|exact id].
  Qed.
  Lemma node_eq_mono f g a b e : (f <= g)%nat -> node_eq veq f h a b = Ok e -> node_eq veq g h a b = Ok e.
  Proof. intros L. induction L as [|g L IH]; [exact id|]. intros E. apply node_eq_more, IH, E. Qed.
  Lemma node_eq_error f : forall a b e, node_eq veq f h a b = Raise e -> e = RecursionError.
  Proof.
    induction f as [|f IH]; intros a b e; [intros [= <-]; reflexivity|]. cbn [node_eq].
    destruct (negb _); [discriminate|]. destruct (negb _); [discriminate|]. destruct (negb _); [discriminate|].
    generalize (children (at_ h a)) as l. induction l as [|[k c] l IHl]; [discriminate|].
    destruct (dget k (children (at_ h b))) as [d|]; [|discriminate]. destruct (Nat.eqb c d); [exact IHl|].
    destruct (node_eq veq f h c d) as [x|y] eqn:X; cbn [bind].
    - destruct x; [exact IHl|discriminate].
    - intros [= <-]. exact (IH _ _ _ X).
  Qed.
  Lemma tree_kid a ks k c : tree_at h (Rose a ks) -> In (k, c) (children (at_ h a)) -> exists t, In t ks /\ root t = c /\ tree_at h t.
  Proof.
    intros T I. inversion T as [? ? K F]; subst. assert (J : In c (map root ks)) by (rewrite K; exact (in_map snd _ _ I)).
    apply in_map_iff in J. destruct J as (t & R & J). exists t. rewrite Forall_forall in F. auto.
  Qed.
  Lemma height_kid (a : addr) ks k f : In k ks -> (height (Rose a ks) <= S f)%nat -> (height k <= f)%nat.
  Proof. intros I L. exact (height_kids k ks f I L). Qed.
  Lemma node_eq_enough f : forall t t', tree_at h t -> tree_at h t' -> (height t <= f \/ height t' <= f)%nat -> exists e, node_eq veq f h (root t) (root t') = Ok e.
  Proof.
    induction f as [|f IH]; intros [a ks] [b js] T T' L; [cbn [height] in L; lia|]. cbn [root node_eq].
    destruct (negb _); [eauto|]. destruct (negb _); [eauto|]. destruct (negb _); [eauto|].
    assert (Sub : forall k c, In (k, c) (children (at_ h a)) -> exists t, In t ks /\ root t = c /\ tree_at h t) by (intros k c; apply tree_kid, T).
    revert Sub. generalize (children (at_ h a)) as l. induction l as [|[k c] l IHl]; intro Sub; [eauto|].
    specialize (IHl (fun k c I => Sub k c (or_intror I))).
    destruct (dget k (children (at_ h b))) as [d|] eqn:D; [|eauto]. destruct (Nat.eqb c d); [exact IHl|].
    destruct (Sub k c (or_introl eq_refl)) as (x & Ix & <- & Tx). destruct (tree_kid b js k d T' (dget_In _ _ _ D)) as (y & Iy & <- & Ty).
    destruct (IH x y Tx Ty) as [e E].
    { destruct L as [L|L]; [left; exact (height_kid a ks x f Ix L)|right; exact (height_kid b js y f Iy L)]. }
    rewrite E. cbn [bind]. destruct e; [exact IHl|eauto].
  Qed.
  Lemma apart_kid (a b : addr) ks js k j : apart (Rose a ks) (Rose b js) -> In k ks -> In j js -> apart k j.
  Proof. intros A I J n N M. apply (A n); right; apply in_flat_map; eauto. Qed.
  Lemma node_eq_true_height f : forall t t', tree_at h t -> tree_at h t' -> apart t t' -> node_eq veq f h (root t) (root t') = Ok true -> (height t <= f)%nat.
  Proof.
    induction f as [|f IH]; intros [a ks] [b js] T T' A; [discriminate|]. cbn [root node_eq].
    destruct (negb _); [discriminate|]. destruct (negb _); [discriminate|]. destruct (negb _); [discriminate|].
    intro E. cbn [height]. apply le_n_S, list_max_le, Forall_forall. intros n I. apply in_map_iff in I. destruct I as (k & <- & Ik).
    inversion T as [? ? K F]; subst. rewrite Forall_forall in F.
    assert (C : exists l, In (l, root k) (children (at_ h a))).
    { assert (R : In (root k) (dvals (children (at_ h a)))) by (rewrite <- K; apply in_map, Ik). unfold dvals in R. apply in_map_iff in R. destruct R as ((l & c) & E1 & R). cbn in E1. subst c. eauto. }
    destruct C as [lab C]. revert E C. generalize (children (at_ h a)) as l. induction l as [|[l c] r IHr]; intros E C; [destruct C|].
    destruct (dget l (children (at_ h b))) as [d|] eqn:D; [|discriminate].
    destruct (tree_kid b js l d T' (dget_In _ _ _ D)) as (y & Iy & Ry & Ty).
    destruct (Nat.eqb_spec c d) as [X|X].
    - destruct C as [C|C]; [|exact (IHr E C)]. injection C as -> ->. elim (A (root k)).
      + right. apply in_flat_map. exists k. split; [exact Ik|destruct k; left; reflexivity].
      + right. apply in_flat_map. exists y. split; [exact Iy|]. rewrite X, <- Ry. destruct y; left; reflexivity.
    - destruct (node_eq veq f h c d) as [[]|] eqn:Q; try discriminate E. cbn [bind] in E.
      destruct C as [C|C]; [|exact (IHr E C)]. injection C as -> ->. rewrite <- Ry in Q.
      exact (IH k y (F k Ik) Ty (apart_kid a b ks js k y A Ik Iy) Q).
  Qed.
End Eq.
