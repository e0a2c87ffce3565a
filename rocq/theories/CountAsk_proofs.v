(* CountAsk_proofs.v -- counting by what a count method answers *)
From Verif Require Import Base Rose Maps_model Maps_proofs Tree_model Tree_spec Tree_proofs PruneAsk_spec PruneAsk_proofs CountAsk_model CountAsk_spec.

(* ---------------- stores that differ in attributes only ---------------- *)
Definition same_shape (h h' : list node) : Prop := length h' = length h /\
  forall b, label (at_ h' b) = label (at_ h b) /\ children (at_ h' b) = children (at_ h b) /\ parent (at_ h' b) = parent (at_ h b).
Lemma shape_refl h : same_shape h h.
Proof. split; auto. Qed.
Lemma shape_trans h h' h'' : same_shape h h' -> same_shape h' h'' -> same_shape h h''.
Proof. intros [L A] [M B]; split; [congruence|]; intros b; destruct (A b) as (A1 & A2 & A3), (B b) as (B1 & B2 & B3); repeat split; congruence. Qed.
Lemma shape_set h n k v : (n < length h)%nat -> same_shape h (setitem h n k v).
Proof.
  intros L; split; [apply length_setitem|]; intros b; rewrite at_setitem by exact L.
  destruct (Nat.eqb_spec b n) as [->|_]; repeat split; reflexivity.
Qed.
Lemma shape_children h h' : same_shape h h' -> same_children h h'.
Proof. intros [_ S] a; apply (S a). Qed.
Lemma shape_chain h h' a l : same_shape h h' -> chain h a l -> chain h' a l.
Proof. intros [_ S] C; apply (chain_frame h h' a l C); intros b _; apply (S b). Qed.
Lemma shape_linked h h' t : same_shape h h' -> forall par, linked h par t -> linked h' par t.
Proof.
  intros [L S]; induction t as [a ks IH] using rose_rec_ind; intros par K; inversion K as [? ? ? Pa ND E F]; subst.
  destruct (S a) as (_ & Ca & Pa'); constructor.
  - exact Pa'.
  - rewrite Ca; exact ND.
  - rewrite Ca, E; apply map_ext; intros k; destruct (S (root k)) as (Lk & _ & _); rewrite Lk; reflexivity.
  - rewrite Forall_forall in *; intros k I; apply (IH k I), F, I.
Qed.
Lemma rosemap_twice {A B C} (f : A -> B) (g : B -> C) t : rosemap g (rosemap f t) = rosemap (fun x => g (f x)) t.
Proof. induction t as [x ks IH] using rose_rec_ind; cbn [rosemap]; f_equal; rewrite map_map; apply map_ext_in; rewrite Forall_forall in IH; exact IH. Qed.
Lemma rosemap_same {A B} (f g : A -> B) t : (forall x, In x (nodes t) -> f x = g x) -> rosemap f t = rosemap g t.
Proof.
  induction t as [x ks IH] using rose_rec_ind; intros E; cbn [rosemap]; f_equal; [apply E; left; reflexivity|].
  apply map_ext_in; intros k I; rewrite Forall_forall in IH; apply (IH k I); intros y J; apply E; right; apply in_flat_map; exists k; auto.
Qed.
Lemma tree_linked h t : forall par, linked h par t -> tree_at h t.
Proof.
  induction t as [a ks IH] using rose_rec_ind; intros par K; inversion K as [? ? ? Pa ND E F]; subst; constructor.
  - rewrite E; unfold dvals; rewrite map_map; reflexivity.
  - rewrite Forall_forall in *; intros k I; apply (IH k I _ (F k I)).
Qed.
Lemma tallied_count p : dget (KStr (u "count")) (snd (tallied p)) = Some (VNum (snd (fst p))).
Proof.
  destruct p as [[d c] z]; cbn [tallied snd fst]; rewrite dget_dset_other by (intros E; apply eqb_true in E; revert E; vm_compute; discriminate).
  apply dget_dset_same.
Qed.
Lemma tallied_cum p : dget (KStr (u "cum_count")) (snd (tallied p)) = Some (VNum (snd p)).
Proof. destruct p as [[d c] z]; cbn [tallied snd fst]; apply dget_dset_same. Qed.

Section CountAsk.
  Variable S : Type.
  Variable count_method : S -> list node -> addr -> S * res Z.
  Variable ask : S -> list said -> rose said -> S * res Z.
  Hypothesis looks : forall s h up t, chain h (root t) (up ++ [root t]) -> tree_at h t ->
    count_method s h (root t) = ask s (map (details h) up) (rosemap (details h) t).
  Notation body := (tally_body S count_method).
  Lemma tally_keeps : keeps_children body.
  Proof.
    intros h s n h' s' r E a; unfold tally_body in E; destruct (count_method s h n) as [s1 [c|e]]; [|injection E as <- _ _; reflexivity].
    destruct (bind _ _) as [z|e]; injection E as <- _ _; rewrite !setitem_out; reflexivity.
  Qed.
  (** one step *)
  Lemma tally_step h s a (ks : list (rose addr)) up (l : list (rose (said * Z * Z))) : (a < length h)%nat -> chain h a (up ++ [a]) -> tree_at h (Rose a ks) -> ~ In a (map root ks) ->
    map (rosemap (details h)) ks = map (rosemap tallied) l ->
    match ask s (map (details h) up) (Rose (details h a) (map (rosemap tallied) l)) with
    | (s', Raise e) => exists h', body h s a = (h', s', Raise e)
    | (s', Ok c) => exists h', body h s a = (h', s', Ok None) /\ same_shape h h' /\ (forall b, b <> a -> at_ h' b = at_ h b) /\
        details h' a = tallied (details h a, c, c + sumZ (map count_of l))
    end.
  Proof.
    intros La C T Na E; pose proof (looks s h up (Rose a ks) C T) as L; cbn [root rosemap] in L; rewrite E in L.
    unfold tally_body; rewrite L; destruct (ask s _ _) as [s' [c|e]]; [|eexists; reflexivity].
    set (h1 := setitem h a (u "count") (VNum c)).
    assert (A1 : forall b, at_ h1 b = if Nat.eqb b a then set_attrib (at_ h a) (dset (KStr (u "count")) (VNum c) (attrib (at_ h a))) else at_ h b).
    { intros b; unfold h1; rewrite at_setitem by exact La; reflexivity. }
    assert (L1 : (a < length h1)%nat) by (unfold h1; rewrite length_setitem; exact La).
    assert (G1 : get_num h1 a (u "count") = Ok c).
    { unfold get_num, dgetitem; rewrite A1, Nat.eqb_refl; cbn [set_attrib attrib]; rewrite dget_dset_same; reflexivity. }
    assert (C1 : children (at_ h1 a) = children (at_ h a)) by (rewrite A1, Nat.eqb_refl; reflexivity).
    inversion T as [? ? X _]; subst.
    assert (M1 : mapM (fun c => get_num h1 c (u "count")) (dvals (children (at_ h1 a))) = Ok (map count_of l)).
    { rewrite C1, <- X; clear -E A1 Na; revert l E; induction ks as [|k ks IH]; intros [|t l] E; try discriminate E; [reflexivity|].
      cbn [map] in E; injection E as Ek E; cbn [map mapM].
      assert (Gk : get_num h1 (root k) (u "count") = Ok (count_of t)).
      { unfold get_num, dgetitem; rewrite A1; destruct (Nat.eqb_spec (root k) a) as [Q|_]; [exfalso; apply Na; left; exact Q|].
        assert (Dk : details h (root k) = tallied (root t)) by (destruct k, t; cbn [rosemap root] in *; congruence).
        change (attrib (at_ h (root k))) with (snd (details h (root k))); rewrite Dk, tallied_count; reflexivity. }
      rewrite Gk; cbn [bind]; rewrite (IH (fun I => Na (or_intror I)) l E); reflexivity. }
    rewrite G1; cbn [bind]; rewrite M1; cbn [bind]; rewrite fold_sum, Z.add_0_l.
    eexists; split; [reflexivity|split; [|split]].
    - apply (shape_trans _ h1); [apply shape_set, La|apply shape_set, L1].
    - intros b Nb; rewrite at_setitem by exact L1; destruct (Nat.eqb_spec b a) as [|_]; [contradiction|]; rewrite A1; destruct (Nat.eqb_spec b a); [contradiction|reflexivity].
    - unfold details; rewrite at_setitem by exact L1; rewrite Nat.eqb_refl, A1, Nat.eqb_refl; reflexivity.
  Qed.
  Lemma walk t : forall h s par up, linked h par t -> upchain h par up -> (forall b, In b up -> ~ In b (nodes t)) -> NoDup (nodes t) ->
    (forall b, In b (nodes t) -> (b < length h)%nat) ->
    match counted S ask (map (details h) up) (rosemap (details h) t) s with
    | (s', Raise e) => exists h', run_list body h s (pnodes t) = (h', s', Raise e)
    | (s', Ok T) => exists h', run_list body h s (pnodes t) = (h', s', Ok None) /\ same_shape h h' /\ (forall b, ~ In b (nodes t) -> at_ h' b = at_ h b) /\
        rosemap (details h') t = rosemap tallied T
    end.
  Proof.
    induction t as [a ks IH] using rose_rec_ind; intros h s par up LK UP DJ ND RG.
    cbn [rosemap counted pnodes]; rewrite run_list_app.
    fold (pforest ks).
    inversion LK as [? ? ? Pa NDa Ea Fa]; subst.
    pose proof (upchain_down h a _ up UP eq_refl) as CH.
    cbn [nodes] in ND; inversion ND as [|? ? Na ND']; subst.
    assert (FOLD : match fold_right (fun k acc => match acc with
                     | (s, Ok l) => match counted S ask (map (details h) up ++ [details h a]) k s with
                                    | (s, Ok t) => (s, Ok (t :: l))
                                    | (s, Raise e) => (s, Raise e)
                                    end
                     | (s, Raise e) => (s, Raise e)
                     end) (s, Ok []) (map (rosemap (details h)) ks) with
      | (s', Raise e) => exists h', run_list body h s (pforest ks) = (h', s', Raise e)
      | (s', Ok l) => exists h', run_list body h s (pforest ks) = (h', s', Ok None) /\ same_shape h h' /\
          (forall b, ~ In b (flat_map nodes ks) -> at_ h' b = at_ h b) /\ map (rosemap (details h')) ks = map (rosemap tallied) l
      end).
    { assert (RG' : forall b, In b (flat_map nodes ks) -> (b < length h)%nat) by (intros b I; apply RG; right; exact I).
      assert (DJ' : forall b, In b (up ++ [a]) -> ~ In b (flat_map nodes ks)).
      { intros b I; apply in_app_or in I; destruct I as [I|[<-|[]]]; [|exact Na]; intros J; apply (DJ b I); right; exact J. }
      clear LK ND RG DJ Ea NDa Na; induction ks as [|k ks IHks]; [exists h; repeat split; reflexivity|].
      inversion IH as [|? ? IHk IHks']; subst; inversion Fa as [|? ? Fk Fks]; subst.
      cbn [flat_map] in ND', RG', DJ'; destruct (NoDup_app_inv _ _ ND') as (Nk & Nks & NX).
      specialize (IHks IHks' Fks Nks (fun b I => RG' b (in_or_app _ _ _ (or_intror I))) (fun b I J => DJ' b I (in_or_app _ _ _ (or_intror J)))).
      change (k :: ks) with ([k] ++ ks); rewrite pforest_app; cbn [app map fold_right].
      rewrite run_list_app; destruct (fold_right _ (s, Ok []) _) as [s1 [l|e]]; [|destruct IHks as [h' R]; rewrite R; exists h'; reflexivity].
      destruct IHks as (h1 & R1 & SH1 & O1 & D1); rewrite R1.
      unfold pforest; cbn [map rev app flat_map]; rewrite app_nil_r.
      assert (Dk : rosemap (details h) k = rosemap (details h1) k).
      { apply rosemap_same; intros b I; unfold details; rewrite O1; [reflexivity|]; intros J; apply (NX b I J). }
      assert (Du : map (details h) up ++ [details h a] = map (details h1) (up ++ [a])).
      { rewrite map_app; cbn [map]; f_equal; [apply map_ext_in; intros b I|f_equal]; unfold details; rewrite O1; try reflexivity; intros J.
        - apply (DJ' b); apply in_or_app; [left; exact I|right; exact J].
        - apply (DJ' a); apply in_or_app; [right; left; reflexivity|right; exact J]. }
      rewrite Dk, Du.
      pose proof (IHk h1 s1 (Some a) (up ++ [a])) as W.
      destruct (counted S ask _ (rosemap (details h1) k) s1) as [s2 [T|e]].
      - destruct W as (h2 & R2 & SH2 & O2 & D2).
        + apply (shape_linked h), Fk; exact SH1.
        + apply (shape_chain h); [exact SH1|exact CH].
        + intros b I J; apply (DJ' b I), in_or_app; left; exact J.
        + exact Nk.
        + intros b I; rewrite (proj1 SH1); apply RG', in_or_app; left; exact I.
        + exists h2; split; [exact R2|split; [exact (shape_trans _ h1 _ SH1 SH2)|split]].
          * intros b I; rewrite O2 by (intros J; apply I, in_or_app; left; exact J); apply O1; intros J; apply I, in_or_app; right; exact J.
          * cbn [map]; apply f_equal2; [exact D2|]; rewrite <- D1; apply map_ext_in; intros j Ij; apply rosemap_same; intros b Ib.
            unfold details; rewrite O2; [reflexivity|]; intros J; apply (NX b J), in_flat_map; exists j; auto.
      - destruct W as [h2 R2].
        + apply (shape_linked h), Fk; exact SH1.
        + apply (shape_chain h); [exact SH1|exact CH].
        + intros b I J; apply (DJ' b I), in_or_app; left; exact J.
        + exact Nk.
        + intros b I; rewrite (proj1 SH1); apply RG', in_or_app; left; exact I.
        + exists h2; exact R2. }
    destruct (fold_right _ (s, Ok []) _) as [s1 [l|e]]; [|destruct FOLD as [h' R]; rewrite R; exists h'; reflexivity].
    destruct FOLD as (h1 & R1 & SH1 & O1 & D1); rewrite R1; cbn [run_list].
    assert (Da : details h a = details h1 a) by (unfold details; rewrite O1 by exact Na; reflexivity).
    assert (Du : map (details h) up = map (details h1) up).
    { apply map_ext_in; intros b I; unfold details; rewrite O1; [reflexivity|]; intros J; apply (DJ b I); right; exact J. }
    assert (T1 : tree_at h1 (Rose a ks)) by (apply (tree_same h h1 _ (shape_children _ _ SH1)), (tree_linked h _ _ LK)).
    pose proof (tally_step h1 s1 a ks up l) as ST; rewrite Da, Du.
    destruct (ask s1 _ _) as [s2 [c|e]].
    - destruct ST as (h2 & R2 & SH2 & O2 & D2).
      + rewrite (proj1 SH1); apply RG; left; reflexivity.
      + apply (shape_chain h); assumption.
      + exact T1.
      + intros I; apply Na; apply in_map_iff in I; destruct I as (k & <- & I); apply in_flat_map; exists k; split; [exact I|destruct k; left; reflexivity].
      + exact D1.
      + rewrite R2; exists h2; split; [reflexivity|split; [apply (shape_trans _ h1); assumption|split]].
        * intros b I; rewrite O2 by (intros ->; apply I; left; reflexivity); apply O1; intros J; apply I; right; exact J.
        * cbn [rosemap]; rewrite D2, <- D1; apply f_equal; apply map_ext_in; intros k Ik; apply rosemap_same; intros b Ib.
          unfold details; rewrite O2; [reflexivity|]; intros ->; apply Na, in_flat_map; exists k; auto.
    - destruct ST as [h2 R2].
      + rewrite (proj1 SH1); apply RG; left; reflexivity.
      + apply (shape_chain h); assumption.
      + exact T1.
      + intros I; apply Na; apply in_map_iff in I; destruct I as (k & <- & I); apply in_flat_map; exists k; split; [exact I|destruct k; left; reflexivity].
      + exact D1.
      + rewrite R2; exists h2; reflexivity.
  Qed.
End CountAsk.

(* ---------------- the second loop ---------------- *)
Definition share (total : Z) (d : said) : said :=
  match dget (KStr (u "cum_count")) (snd d) with Some (VNum z) => (fst d, dset (KStr (u "freq")) (VQuot z total) (snd d)) | _ => d end.
Lemma share_tallied total p : share total (tallied p) = rated total p.
Proof. unfold share; rewrite tallied_cum; reflexivity. Qed.
Lemma rate_run total l : total <> 0 -> forall h, NoDup l -> (forall b, In b l -> (b < length h)%nat) ->
  (forall b, In b l -> exists z, dget (KStr (u "cum_count")) (attrib (at_ h b)) = Some (VNum z)) ->
  exists h', run_list (freq_body total) h tt l = (h', tt, Ok None) /\ same_shape h h' /\
    (forall b, In b l -> details h' b = share total (details h b)) /\ (forall b, ~ In b l -> at_ h' b = at_ h b).
Proof.
  intros T; induction l as [|n l IH]; intros h ND Rg Dn; cbn [run_list].
  - exists h; split; [reflexivity|split; [apply shape_refl|split; [intros b []|auto]]].
  - inversion ND as [|? ? Nn ND']; subst.
    assert (Ln : (n < length h)%nat) by (apply Rg; left; reflexivity).
    destruct (Dn n (or_introl eq_refl)) as [z Ez].
    unfold freq_body at 1, get_num, dgetitem; rewrite Ez; cbn [of_option bind num].
    destruct (Z.eqb_spec total 0) as [|_]; [contradiction|].
    set (h1 := setitem h n (u "freq") (VQuot z total)).
    assert (A1 : forall b, b <> n -> at_ h1 b = at_ h b).
    { intros b Nb; unfold h1; rewrite at_setitem by exact Ln; destruct (Nat.eqb_spec b n); [contradiction|reflexivity]. }
    assert (D1 : details h1 n = share total (details h n)).
    { unfold details, share, h1; rewrite at_setitem by exact Ln; rewrite Nat.eqb_refl; cbn [snd fst]; rewrite Ez; reflexivity. }
    assert (S1 : same_shape h h1) by (apply shape_set, Ln).
    destruct (IH h1 ND') as (h' & E' & S' & D' & U').
    + intros b I; rewrite (proj1 S1); apply Rg; right; exact I.
    + intros b I; rewrite A1 by (intros ->; contradiction); apply Dn; right; exact I.
    + exists h'; split; [exact E'|split; [apply (shape_trans _ h1); assumption|split]].
      * intros b [<-|I]; [unfold details; rewrite (U' _ Nn); exact D1|rewrite (D' b I); unfold details; rewrite A1 by (intros ->; contradiction); reflexivity].
      * intros b Nb; rewrite U' by (intros I; apply Nb; right; exact I); apply A1; intros ->; apply Nb; left; reflexivity.
Qed.

Section Dist.
  Variable S : Type.
  Variable count_method : S -> list node -> addr -> S * res Z.
  Variable ask : S -> list said -> rose said -> S * res Z.
  Hypothesis looks : forall s h up t, chain h (root t) (up ++ [root t]) -> tree_at h t ->
    count_method s h (root t) = ask s (map (details h) up) (rosemap (details h) t).
  Lemma dist_ask_ok h t fuel s : keyed h t -> truth_opt h (parent (at_ h (root t))) = false -> (2 * rsize t < fuel)%nat ->
    match counted S ask [] (rosemap (details h) t) s with
    | (s', Raise e) => dist_ask S count_method fuel h (root t) s = (s', Raise e)
    | (s', Ok T) =>
        if cum_of T =? 0 then dist_ask S count_method fuel h (root t) s = (s', Raise ZeroDivisionError)
        else exists h' t', dist_ask S count_method fuel h (root t) s = (s', Ok (h', root t')) /\ linked h' None t' /\
          rosemap (details h') t' = rosemap (rated (cum_of T)) T /\
          (forall a, In a (nodes t') -> (length h <= a)%nat) /\ (forall a, (a < length h)%nat -> at_ h' a = at_ h a)
    end.
  Proof.
    intros K T B; destruct (copy_ok h t fuel K T) as (h1 & t1 & E & Lk & K1 & D1 & N1 & G1 & O1 & L1); [lia|].
    assert (Rs : rsize t1 = rsize t) by (unfold rsize; rewrite <- (map_length (details h1)), <- rosemap_nodes, D1, rosemap_nodes, map_length; reflexivity).
    pose proof (keyed_tree h1 t1 K1) as Tr; pose proof (keyed_range h1 t1 K1) as Rg.
    unfold dist_ask; rewrite E, (postorder_run1 _ (tally_keeps S count_method)) by (assumption || lia).
    pose proof (walk S count_method ask looks t1 h1 s None [] Lk eq_refl (fun b (I : False) => False_ind _ I) N1 Rg) as W.
    rewrite D1 in W.
    change (map (details h1) []) with (@nil said) in W; destruct (counted S ask [] (rosemap (details h) t) s) as [s1 [C|e]]; [|destruct W as [h2 R]; rewrite R; reflexivity]. 
    destruct W as (h2 & R2 & S2 & O2 & D2); rewrite R2.
    assert (Gt : get_num h2 (root t1) (u "cum_count") = Ok (cum_of C)).
    { unfold get_num, dgetitem; assert (X : details h2 (root t1) = tallied (root C)) by (destruct t1, C; cbn [rosemap root] in *; congruence).
      change (attrib (at_ h2 (root t1))) with (snd (details h2 (root t1))); rewrite X, tallied_cum; reflexivity. }
    rewrite Gt.
    assert (Tr2 : tree_at h2 t1) by (apply (tree_same h1 h2 _ (shape_children _ _ S2)), Tr).
    change [root t1] with (map root [t1]); rewrite (preorder_run _ (freq_keeps (cum_of C))).
    2: constructor; [exact Tr2|constructor].
    2: rewrite fsize_cons; change (fsize (@nil (rose addr))) with 0%nat; lia.
    unfold rforest; cbn [map rev app flat_map]; rewrite app_nil_r.
    destruct (Z.eqb_spec (cum_of C) 0) as [Z0|NZ].
    - destruct t1 as [a ks]; cbn [rnodes run_list]; unfold freq_body at 1; cbn [root] in Gt; rewrite Gt, Z0; reflexivity.
    - destruct (rate_run (cum_of C) (rnodes t1) NZ h2) as (h3 & E3 & S3 & D3 & U3).
      + apply (Permutation_NoDup (Permutation_sym (rnodes_perm t1))), N1.
      + intros b I; rewrite (proj1 S2); apply Rg; exact (Permutation_in _ (rnodes_perm t1) I).
      + intros b I; apply (Permutation_in _ (rnodes_perm t1)) in I.
        assert (J : In (details h2 b) (nodes (rosemap (details h2) t1))) by (rewrite rosemap_nodes; apply in_map, I).
        rewrite D2, rosemap_nodes in J; apply in_map_iff in J; destruct J as (p & Ep & _); exists (snd p).
        change (attrib (at_ h2 b)) with (snd (details h2 b)); rewrite <- Ep; apply tallied_cum.
      + rewrite E3; exists h3, t1; split; [reflexivity|split; [apply (shape_linked h2), (shape_linked h1); assumption|split; [|split; [exact G1|]]]].
        * transitivity (rosemap (share (cum_of C)) (rosemap (details h2) t1)).
          -- rewrite rosemap_twice; apply rosemap_same; intros b I; apply D3; exact (Permutation_in _ (Permutation_sym (rnodes_perm t1)) I).
          -- rewrite D2, rosemap_twice; apply rosemap_same; intros p _; apply share_tallied.
        * intros a La; assert (Na : ~ In a (nodes t1)) by (intros I; apply G1 in I; lia).
          rewrite U3 by (intros I; apply Na, (Permutation_in _ (rnodes_perm t1) I)).
          rewrite O2 by exact Na; apply O1, La.
  Qed.
End Dist.

(* ---------------- which nodes are asked about ---------------- *)
Lemma ask_each_app {S X Y} (g : S -> X -> S) (ans : X -> res Y) l m : forall s,
  ask_each g ans (l ++ m) s = match ask_each g ans l s with (s', None) => ask_each g ans m s' | out => out end.
Proof. induction l as [|x l IH]; intros s; cbn [app ask_each]; [reflexivity|]; destruct (ans x); [apply IH|reflexivity]. Qed.
Lemma counted_order {S} (g : S -> list said * said -> S) (ans : list said * said -> res Z) t : forall up s,
  match counted S (fun s up t => (g s (up, root t), ans (up, root t))) up t s, ask_each g ans (leaves_up (placed up t)) s with
  | (s', Ok T), (s'', o) => s' = s'' /\ o = None /\ rosemap (fun p => fst (fst p)) T = t
  | (s', Raise e), (s'', o) => s' = s'' /\ o = Some e
  end.
Proof.
  induction t as [x ks IH] using rose_rec_ind; intros up s; cbn [counted placed leaves_up]; rewrite ask_each_app.
  assert (FOLD : match fold_right (fun k acc => match acc with
                     | (s, Ok l) => match counted S (fun s up t => (g s (up, root t), ans (up, root t))) (up ++ [x]) k s with
                                    | (s, Ok t) => (s, Ok (t :: l))
                                    | (s, Raise e) => (s, Raise e)
                                    end
                     | (s, Raise e) => (s, Raise e)
                     end) (s, Ok []) ks, ask_each g ans (fold_right (fun k l => l ++ leaves_up k) [] (map (placed (up ++ [x])) ks)) s with
      | (s', Ok l), (s'', o) => s' = s'' /\ o = None /\ map (rosemap (fun p => fst (fst p))) l = ks
      | (s', Raise e), (s'', o) => s' = s'' /\ o = Some e
      end).
  { induction ks as [|k ks IHks]; [repeat split|]; inversion IH as [|? ? IHk IHr]; subst; specialize (IHks IHr); cbn [map fold_right]; rewrite ask_each_app.
    destruct (fold_right _ (s, Ok []) ks) as [s1 [l|e]], (ask_each g ans (fold_right _ [] _) s) as [s2 o].
    - destruct IHks as (-> & -> & M); specialize (IHk (up ++ [x]) s2).
      destruct (counted S _ (up ++ [x]) k s2) as [s3 [T|e]], (ask_each g ans (leaves_up _) s2) as [s4 o4]; [destruct IHk as (-> & -> & E)|destruct IHk as (-> & ->)]; repeat split.
      cbn [map]; rewrite E, M; reflexivity.
    - destruct IHks as (-> & ->); split; reflexivity. }
  destruct (fold_right _ (s, Ok []) ks) as [s1 [l|e]], (ask_each g ans (fold_right _ [] _) s) as [s2 o].
  - destruct FOLD as (-> & -> & M); cbn [root ask_each]; destruct (ans (up, x)) as [c|e]; repeat split; cbn [rosemap fst]; rewrite M; reflexivity.
  - destruct FOLD as (-> & ->); split; reflexivity.
Qed.
Lemma leaves_up_perm {A} (t : rose A) : Permutation (leaves_up t) (nodes t).
Proof.
  induction t as [x ks IH] using rose_rec_ind; cbn [leaves_up nodes]; rewrite <- Permutation_cons_append; apply perm_skip.
  induction IH as [|k ks E F IH']; [reflexivity|]; cbn [fold_right flat_map]; rewrite Permutation_app_comm; apply Permutation_app; assumption.
Qed.

(* ---------------- sums ---------------- *)
Definition count_said (d : said) : res Z := do v <- dgetitem (snd d) (KStr (u "count")); num v.
Definition ask_sum (f : said -> Z) (s : unit) (up : list said) (t : rose said) : unit * res Z :=
  (s, do ks <- mapM (fun k => count_said (root k)) (branches t); Ok (f (root t) + fold_left Z.add ks 0)).
Lemma with_children_looks f s h up t : chain h (root t) (up ++ [root t]) -> tree_at h t ->
  with_children f s h (root t) = ask_sum f s (map (details h) up) (rosemap (details h) t).
Proof.
  intros _ T; destruct T as [a ks E F]; unfold with_children, ask_sum; cbn [root rosemap branches]; rewrite <- E.
  assert (M : forall ks, mapM (fun c => get_num h c (u "count")) (map root ks) = mapM (fun k => count_said (root k)) (map (rosemap (details h)) ks)).
  { clear; induction ks as [|k ks IH]; [reflexivity|]; cbn [map mapM]; rewrite IH; destruct k; reflexivity. }
  rewrite M; reflexivity.
Qed.
Lemma count_summed f t : count_of (summed f t) = over f t.
Proof. destruct t; reflexivity. Qed.
Lemma counted_sum f t : forall up s, counted unit (ask_sum f) up t s = (s, Ok (summed f t)).
Proof.
  induction t as [x ks IH] using rose_rec_ind; intros up s; cbn [counted summed].
  assert (FOLD : fold_right (fun k acc => match acc with
                     | (s, Ok l) => match counted unit (ask_sum f) (up ++ [x]) k s with
                                    | (s, Ok t) => (s, Ok (t :: l))
                                    | (s, Raise e) => (s, Raise e)
                                    end
                     | (s, Raise e) => (s, Raise e)
                     end) (s, Ok []) ks = (s, Ok (map (summed f) ks))).
  { induction IH as [|k ks E F IH']; [reflexivity|]; cbn [fold_right map]; rewrite IH', E; reflexivity. }
  rewrite FOLD; unfold ask_sum; cbn [root branches].
  assert (M : mapM (fun k => count_said (root k)) (map (rosemap tallied) (map (summed f) ks)) = Ok (map (over f) ks)).
  { clear; induction ks as [|k ks IH]; [reflexivity|]; cbn [map mapM]; rewrite IH.
    replace (count_said (root (rosemap tallied (summed f k)))) with (Ok (over f k)); [reflexivity|].
    rewrite <- count_summed; destruct (summed f k) as [p l]; unfold count_said, dgetitem; cbn [rosemap root]; rewrite tallied_count; reflexivity. }
  rewrite M; cbn [bind]; rewrite fold_sum, Z.add_0_l.
  assert (C : map count_of (map (summed f) ks) = map (over f) ks) by (rewrite map_map; apply map_ext; intros k; apply count_summed).
  rewrite C; reflexivity.
Qed.
Lemma summed_said f t : rosemap (fun p => fst (fst p)) (summed f t) = t.
Proof. induction t as [x ks IH] using rose_rec_ind; cbn [summed rosemap fst]; f_equal; induction IH as [|k ks E F IH']; [reflexivity|]; cbn [map]; rewrite E, IH'; reflexivity. Qed.
Lemma dist_ask_pure cm fuel h a : dist_ask unit (fun s h a => (s, cm (at_ h a))) fuel h a tt = (tt, tree_dist cm fuel h a).
Proof.
  unfold dist_ask, tree_dist; destruct (copy fuel h a) as [[h1 r]|e]; cbn [bind]; [|reflexivity].
  assert (LOOP : forall f h s st, for_postorder (tally_body unit (fun s h a => (s, cm (at_ h a)))) f h s st = for_postorder (count_body cm) f h s st).
  { apply postorder_ext; intros g s n; unfold tally_body, count_body; destruct (cm (at_ g n)); reflexivity. }
  rewrite LOOP; destruct (for_postorder _ fuel h1 tt _) as [[h2 []] [o|e]]; [|reflexivity].
  destruct (get_num h2 r (u "cum_count")) as [z|e]; cbn [bind]; [|reflexivity].
  destruct (for_preorder _ fuel h2 tt _) as [[h3 []] [o'|e]]; reflexivity.
Qed.
