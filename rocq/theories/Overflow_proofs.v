(* Overflow_proofs.v *)
From Coq Require Import Permutation.
From Verif Require Import Base PyText PyFmt Rose Maps_model Maps_proofs Tree_model Tree_spec Tree_proofs Layout_spec Float_model Float_spec Float_proofs Overflow_model.
Local Open Scope Z_scope.

Lemma float_no n : ~ fits n -> float_of (Z.abs n) = None.
Proof. intro N. apply float_none; [lia|]. unfold fits in N. lia. Qed.
Lemma parts_rosemap {A B} (f : A -> B) t : parts (rosemap f t) = map (rosemap f) (parts t).
Proof.
  induction t as [x ks IH] using rose_rec_ind; try (rewrite Forall_forall in IH). cbn [rosemap parts map]. f_equal. rewrite flat_map_concat_map, map_map, flat_map_concat_map, concat_map, map_map. f_equal. apply map_ext_in.
  intros k I. apply IH, I.
Qed.
Lemma nodes_parts {A} (t : rose A) : nodes t = map root (parts t).
Proof.
  induction t as [x ks IH] using rose_rec_ind; try (rewrite Forall_forall in IH). cbn [nodes parts map root]. f_equal. rewrite !flat_map_concat_map, concat_map, map_map. f_equal. apply map_ext_in. intros k I. apply IH, I.
Qed.
Lemma parts_keyed h t : keyed h t -> forall s, In s (parts t) -> keyed h s.
Proof.
  induction t as [x ks IH] using rose_rec_ind; try (rewrite Forall_forall in IH). intros K s I. cbn [parts] in I. destruct I as [<-|I]; [exact K|]. inversion K as [? ? L ND E F]; subst. rewrite Forall_forall in F.
  apply in_flat_map in I. destruct I as (k & I & J). exact (IH k I (F k I) s J).
Qed.
Lemma put_far {D} (st : list D) : forall a x, (length st <= a)%nat -> put st a x = st.
Proof. induction st as [|y st IH]; intros [|a] x L; cbn [length put] in *; [reflexivity|reflexivity|lia|]. f_equal. apply IH. lia. Qed.
Lemma cum_key h n v b : get_num (setitem h n (u "freq") v) b (u "cum_count") = get_num h b (u "cum_count").
Proof.
  unfold get_num. destruct (Nat.eq_dec n b) as [->|N].
  - destruct (Nat.lt_ge_cases b (length h)) as [L|L].
    + unfold setitem. rewrite at_put_same by exact L. cbn [set_attrib attrib]. unfold dgetitem. rewrite dget_dset_other; [reflexivity|]. intro X. vm_compute in X. discriminate X.
    + unfold setitem. rewrite put_far by exact L. reflexivity.
  - unfold setitem. rewrite at_put_other by exact N. reflexivity.
Qed.
Lemma freq_float_keeps total : keeps_children (freq_float total).
Proof.
  intros h s n h' s' r E a. unfold freq_float in E. destruct (get_num h n (u "cum_count")) as [z|e]; [|injection E as <- _ _; reflexivity].
  destruct (float_of (Z.abs z)); [|injection E as <- _ _; reflexivity]. destruct (total =? 0); injection E as <- _ _; rewrite ?setitem_out; reflexivity.
Qed.
Lemma freqs_run total c l : total <> 0 -> forall h, (forall b, In b l -> get_num h b (u "cum_count") = Ok (c b)) ->
  ((forall b, In b l -> fits (c b)) -> run_list (freq_float total) h tt l = run_list (freq_body total) h tt l) /\
  ((exists b, In b l /\ ~ fits (c b)) -> exists h', run_list (freq_float total) h tt l = (h', tt, Raise OverflowError)).
Proof.
  intro NZ. induction l as [|n l IH]; intros h G; [split; [reflexivity|intros (b & [] & _)]|]. cbn [run_list]. unfold freq_float at 1 3, freq_body at 1. rewrite (G n (or_introl eq_refl)), (proj2 (Z.eqb_neq total 0) NZ).
  specialize (IH (setitem h n (u "freq") (VQuot (c n) total))). destruct IH as [A B]. { intros b I. rewrite cum_key. apply G. right. exact I. }
  split.
  - intro F. rewrite (proj1 (float_fits (c n)) (F n (or_introl eq_refl))). apply A. intros b I. apply F. right. exact I.
  - intros (b & I & N). destruct (float_of (Z.abs (c n))) as [x|] eqn:E; [|eexists; reflexivity]. destruct I as [->|I]; [rewrite (float_no _ N) in E; discriminate E|]. apply B. exists b. split; assumption.
Qed.
Definition all_fit cm (T : rose (str * dict akey value)) : Prop := forall s, In s (parts T) -> fits (cum cm s).
Lemma dist_float cm h t fuel : keyed h t -> truth_opt h (parent (at_ h (root t))) = false -> (2 * rsize t < fuel)%nat ->
  let T := rosemap (details h) t in
  (cum cm T = 0 \/ all_fit cm T -> tree_dist_float (by_node cm) fuel h (root t) = tree_dist (by_node cm) fuel h (root t)) /\
  (cum cm T <> 0 -> (exists s, In s (parts T) /\ ~ fits (cum cm s)) -> tree_dist_float (by_node cm) fuel h (root t) = Raise OverflowError).
Proof.
  intros K P B T. destruct (copy_ok h t fuel K P) as [h1 [t1 [E [Lk [K1 [D1 [N1 [G1 [O1 L1]]]]]]]]]; [lia|].
  assert (Rs : rsize t1 = rsize t) by (unfold rsize; rewrite <- (map_length (details h1)), <- rosemap_nodes, D1, rosemap_nodes, map_length; reflexivity).
  assert (Tt : cum cm T = cumA cm h1 (root t1)) by (unfold T; rewrite <- D1; apply cum_cnt, K1).
  pose proof (keyed_tree h1 t1 K1) as Tr; pose proof (keyed_range h1 t1 K1) as Rg.
  unfold tree_dist, tree_dist_float; rewrite E; cbn [bind].
  rewrite (postorder_run1 _ (count_keeps _)) by (assumption || lia).
  destruct (count_run cm h1 (pnodes t1) [] h1) as [h2 [E2 [L2 [D2 U2]]]].
  - apply (Permutation_NoDup (Permutation_sym (pnodes_perm t1))), N1.
  - apply pnodes_first, Tr.
  - intros b I; apply Rg, (Permutation_in _ (pnodes_perm t1) I).
  - reflexivity.
  - intros b [].
  - reflexivity.
  - cbn [app] in D2, U2; rewrite E2.
    assert (D2' : forall b, In b (nodes t1) -> get_num h2 b (u "cum_count") = Ok (cumA cm h1 b)).
    { intros b I. unfold get_num, dgetitem. rewrite (D2 b (Permutation_in _ (Permutation_sym (pnodes_perm t1)) I)), counted_cum. reflexivity. }
    assert (Ir : In (root t1) (nodes t1)) by (destruct t1; left; reflexivity).
    rewrite (D2' _ Ir), <- Tt; cbn [bind].
    assert (Tr2 : tree_at h2 t1).
    { apply (tree_same h1 h2); [|exact Tr]; intros a; destruct (in_dec Nat.eq_dec a (pnodes t1)) as [I|N]; [rewrite (D2 a I); reflexivity|rewrite (U2 a N); reflexivity]. }
    assert (Pts : forall b, In b (nodes t1) <-> exists s, In s (parts t1) /\ root s = b).
    { intro b. rewrite nodes_parts, in_map_iff. split; intros (s & X & Y); exists s; split; assumption. }
    assert (Cs : forall s, In s (parts t1) -> cum cm (rosemap (details h1) s) = cumA cm h1 (root s)) by (intros s I; apply cum_cnt, (parts_keyed h1 t1 K1 s I)).
    assert (PT : parts T = map (rosemap (details h1)) (parts t1)) by (unfold T; rewrite <- D1; apply parts_rosemap).
    change [root t1] with (map root [t1]); rewrite (preorder_run _ (freq_float_keeps (cum cm T))).
    2: constructor; [exact Tr2|constructor].
    2: rewrite fsize_cons; change (fsize (@nil (rose addr))) with 0%nat; lia.
    rewrite (preorder_run _ (freq_keeps (cum cm T))).
    2: constructor; [exact Tr2|constructor].
    2: rewrite fsize_cons; change (fsize (@nil (rose addr))) with 0%nat; lia.
    unfold rforest; cbn [map rev app flat_map]; rewrite app_nil_r.
    destruct (Z.eq_dec (cum cm T) 0) as [Z0|NZ].
    + split; [|contradiction]. intros _. rewrite Z0. cbn [of_option]. rewrite (proj1 (float_fits 0) ltac:(vm_compute; reflexivity)). cbn [of_option bind]. destruct t1 as [a ks]. cbn [root] in Tt, Ir. cbn [rnodes run_list]. unfold freq_float at 1, freq_body at 1. rewrite (D2' a Ir), <- Tt, Z0. 
      rewrite (proj1 (float_fits 0) ltac:(vm_compute; reflexivity)). reflexivity.
    + destruct (freqs_run (cum cm T) (cumA cm h1) (rnodes t1) NZ h2) as [A C]. { intros b I. apply D2', (Permutation_in _ (rnodes_perm t1) I). }
      split.
      * intros [X|F]; [contradiction|]. assert (FT : fits (cum cm T)) by (apply F; destruct T; left; reflexivity). rewrite (proj1 (float_fits _) FT). cbn [of_option bind]. rewrite A; [reflexivity|].
        intros b I. apply (Permutation_in _ (rnodes_perm t1)), Pts in I. destruct I as (s & I & <-). rewrite <- (Cs s I). apply F. rewrite PT. apply in_map, I.
      * intros _ (s & I & N). destruct (float_of (Z.abs (cum cm T))) eqn:FT; [|reflexivity]. cbn [of_option bind]. destruct C as (h' & ->); [|reflexivity].
        rewrite PT in I. apply in_map_iff in I. destruct I as (s1 & <- & I). exists (root s1). split; [apply (Permutation_in _ (Permutation_sym (rnodes_perm t1))), Pts; exists s1; split; [exact I|reflexivity]|].
        rewrite <- (Cs s1 I). exact N.
Qed.

(** ** no overflow if the counts are not negative and all together fit *)
Lemma sumZ_nonneg l : Forall (fun x => 0 <= x) l -> 0 <= sumZ l.
Proof. induction 1; cbn [sumZ fold_right] in *; [lia|]. unfold sumZ in IHForall. lia. Qed.
Lemma sumZ_le {A} (f g : A -> Z) l : (forall x, In x l -> f x <= g x) -> sumZ (map f l) <= sumZ (map g l).
Proof. induction l as [|x l IH]; intro H; cbn [map sumZ fold_right]; [lia|]. specialize (IH (fun y I => H y (or_intror I))). specialize (H x (or_introl eq_refl)). unfold sumZ in IH. lia. Qed.
Lemma sumZ_one {A} (f : A -> Z) l x : (forall y, In y l -> 0 <= f y) -> In x l -> f x <= sumZ (map f l).
Proof.
  induction l as [|y l IH]; intros H I; [destruct I|]. destruct I as [->|I]; cbn [map sumZ fold_right].
  - pose proof (sumZ_nonneg (map f l)) as X. rewrite Forall_map, Forall_forall in X. specialize (X (fun y I => H y (or_intror I))). unfold sumZ in X. lia.
  - specialize (IH (fun y I => H y (or_intror I)) I). specialize (H y (or_introl eq_refl)). unfold sumZ in IH. lia.
Qed.
Section Nonneg.
  Variable cm : str -> dict akey value -> nat -> Z.
  Hypothesis NN : forall l a n, 0 <= cm l a n.
  Lemma own_whole t : 0 <= own cm t <= whole cm t.
  Proof.
    induction t as [x ks IH] using rose_rec_ind; try (rewrite Forall_forall in IH). unfold own at 1 2. cbn [root branches whole]. pose proof (sumZ_nonneg (map (whole cm) ks)) as X. rewrite Forall_map, Forall_forall in X.
    assert (Y : forall k, In k ks -> 0 <= whole cm k) by (intros k I; specialize (IH k I); lia). specialize (X Y). pose proof (NN (fst x) (snd x) (length ks)). lia.
  Qed.
  Lemma cum_le_whole t : 0 <= cum cm t <= whole cm t.
  Proof.
    destruct t as [x ks]. unfold cum. cbn [branches whole]. unfold own at 1 3. cbn [root branches]. pose proof (NN (fst x) (snd x) (length ks)).
    pose proof (sumZ_le (own cm) (whole cm) ks (fun k _ => proj2 (own_whole k))). pose proof (sumZ_nonneg (map (own cm) ks)) as X. rewrite Forall_map, Forall_forall in X. specialize (X (fun k _ => proj1 (own_whole k))). lia.
  Qed.
  Lemma part_whole t : forall s, In s (parts t) -> whole cm s <= whole cm t.
  Proof.
    induction t as [x ks IH] using rose_rec_ind; try (rewrite Forall_forall in IH). intros s I. cbn [parts] in I. destruct I as [<-|I]; [lia|]. apply in_flat_map in I. destruct I as (k & I & J). specialize (IH k I s J). cbn [whole].
    pose proof (sumZ_one (whole cm) ks k (fun k _ => Z.le_trans _ _ _ (proj1 (own_whole k)) (proj2 (own_whole k))) I). pose proof (NN (fst x) (snd x) (length ks)). lia.
  Qed.
  Lemma whole_fits t : fits (whole cm t) -> all_fit cm t.
  Proof.
    intros F s I. pose proof (part_whole t s I). pose proof (cum_le_whole s). unfold fits in *. lia.
  Qed.
End Nonneg.
