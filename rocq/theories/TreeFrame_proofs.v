(* TreeFrame_proofs.v *)
From Verif Require Import Base Rose Maps_model Maps_proofs Tree_model Tree_spec Tree_proofs Layout_model TreeFrame_spec.

(* ---- copy only writes new nodes ---- *)
Definition apart (n0 : nat) (h h' : list node) : Prop :=
  (length h <= length h')%nat /\ (forall a, (a < n0)%nat -> at_ h' a = at_ h a) /\
  ((forall a p, (n0 <= a)%nat -> parent (at_ h a) = Some p -> (n0 <= p)%nat) ->
   (forall a p, (n0 <= a)%nat -> parent (at_ h' a) = Some p -> (n0 <= p)%nat)).
Lemma apart_refl n0 h : apart n0 h h.
Proof. split; [lia|]. split; auto. Qed.
Lemma apart_trans n0 h1 h2 h3 : apart n0 h1 h2 -> apart n0 h2 h3 -> apart n0 h1 h3.
Proof.
  intros (A1 & A2 & A3) (B1 & B2 & B3). split; [lia|]. split; [intros a L; rewrite (B2 a L); apply A2, L | exact (fun W => B3 (A3 W))].
Qed.
Lemma copy_kids_apart n0 n items : (n0 <= n)%nat -> forall h stack h' stack', (n0 <= length h)%nat -> Forall (le n0) stack ->
  copy_kids h n items stack = (h', stack') -> apart n0 h h' /\ Forall (le n0) stack'.
Proof.
  intro Ln; induction items as [|[l c] r IH]; intros h stack h' stack' Lh F E; cbn [copy_kids new_node] in E.
  - injection E as <- <-. split; [apply apart_refl | exact F].
  - set (h1 := h ++ _) in *. set (h2 := put h1 n _) in *.
    assert (L1 : length h1 = S (length h)) by (unfold h1; rewrite app_length; cbn [length]; lia).
    assert (L2 : length h2 = length h1) by (unfold h2; apply length_put).
    assert (F2 : Forall (le n0) (stack ++ [length h])) by (apply Forall_app; split; [exact F | constructor; [exact Lh | constructor]]).
    destruct (IH h2 (stack ++ [length h]) h' stack' ltac:(lia) F2 E) as [A B]. split; [|exact B].
    apply (apart_trans n0 h h2 h'); [|exact A].
    split; [lia|]. split.
    + intros a La. unfold h2. rewrite at_put_other by lia. unfold h1. apply at_app_old. lia.
    + intros W a p La. unfold h2. destruct (Nat.eq_dec n a) as [<- | Na].
      * destruct (Nat.lt_ge_cases n (length h1)) as [I | I].
        -- rewrite at_put_same by exact I. cbn [set_children parent].
           unfold h1. destruct (Nat.lt_ge_cases n (length h)) as [J | J].
           ++ rewrite at_app_old by exact J. apply W, La.
           ++ replace n with (length h) by lia. rewrite at_app_new. cbn [parent]. intro X; injection X as <-. lia.
        -- rewrite at_out by (rewrite length_put; exact I). discriminate.
      * rewrite at_put_other by exact Na. unfold h1. destruct (Nat.lt_ge_cases a (length h)) as [J | J].
        -- rewrite at_app_old by exact J. apply W, La.
        -- destruct (Nat.eq_dec a (length h)) as [-> | Nl].
           ++ rewrite at_app_new. cbn [parent]. intro X; injection X as <-. exact Ln.
           ++ rewrite at_out by (fold h1; lia). discriminate.
Qed.
Lemma copy_loop_apart n0 fuel : forall h stack h', (n0 <= length h)%nat -> Forall (le n0) stack ->
  copy_loop fuel h stack = Ok h' -> apart n0 h h'.
Proof.
  induction fuel as [|f IH]; intros h stack h' L F E; [discriminate|]. cbn [copy_loop] in E.
  destruct (pop_last stack) as [[n rest]|] eqn:P; [|injection E as <-; apply apart_refl].
  apply pop_last_inv in P. subst stack. apply Forall_app in F. destruct F as [F1 F2].
  inversion F2 as [|? ? Ln _]; subst.
  destruct (copy_kids h n (children (at_ h n)) rest) as [h1 st1] eqn:K.
  destruct (copy_kids_apart n0 n _ Ln _ _ _ _ L F1 K) as [A B].
  apply (apart_trans n0 h h1 h' A). apply (IH h1 st1); auto. destruct A as [A _]. lia.
Qed.
Lemma copy_apart fuel h self h' r : copy fuel h self = Ok (h', r) ->
  (length h <= length h')%nat /\ r = length h /\ (length h < length h')%nat /\ (forall a, (a < length h)%nat -> at_ h' a = at_ h a) /\
  (forall a p, (length h <= a)%nat -> parent (at_ h' a) = Some p -> (length h <= p)%nat).
Proof.
  unfold copy. destruct (truth_opt h (parent (at_ h self))); [discriminate|]. cbn [new_node].
  set (n := {| label := _ |}). destruct (copy_loop fuel (h ++ [n]) [length h]) as [h1|] eqn:C; [|discriminate].
  intro X; injection X as <- <-.
  destruct (copy_loop_apart (length h) fuel (h ++ [n]) _ _ ltac:(rewrite app_length; lia) (Forall_cons _ (le_n _) (Forall_nil _)) C) as (A1 & A2 & A3).
  rewrite app_length in A1; cbn [length] in A1.
  split; [lia|]. split; [reflexivity|]. split; [lia|]. split.
  - intros a L. rewrite A2 by exact L. apply at_app_old, L.
  - apply A3. intros a p L. destruct (Nat.eq_dec a (length h)) as [-> | N].
    + rewrite at_app_new. discriminate.
    + rewrite at_out by (rewrite app_length; cbn [length]; lia). discriminate.
Qed.

(* ---- a region that is closed under parents and contains the new nodes ---- *)
Section Frame.
  Variable R : addr -> Prop.
  Definition region (h : list node) : Prop :=
    (forall a p, R a -> parent (at_ h a) = Some p -> R p) /\ (forall a, (length h <= a)%nat -> R a).
  Definition framed (h h' : list node) : Prop := region h' /\ forall a, ~ R a -> at_ h' a = at_ h a.

  Lemma put_parent h a x b : parent x = parent (at_ h a) -> parent (at_ (put h a x) b) = parent (at_ h b).
  Proof.
    intro E. destruct (Nat.eq_dec a b) as [<- | N]; [|rewrite at_put_other by exact N; reflexivity].
    destruct (Nat.lt_ge_cases a (length h)) as [L | L]; [rewrite at_put_same by exact L; exact E|].
    rewrite !at_out by (rewrite ?length_put; exact L). reflexivity.
  Qed.
  Lemma put_framed h a x : region h -> R a -> (forall p, parent x = Some p -> R p) -> framed h (put h a x).
  Proof.
    intros [U N] Ra P. split; [split|].
    - intros b p Rb. destruct (Nat.eq_dec a b) as [<- | D]; [|rewrite at_put_other by exact D; apply U, Rb].
      destruct (Nat.lt_ge_cases a (length h)) as [L | L]; [rewrite at_put_same by exact L; apply P|].
      rewrite at_out by (rewrite length_put; exact L). discriminate.
    - intros b. rewrite length_put. apply N.
    - intros b Nb. apply at_put_other. intro; subst; contradiction.
  Qed.
  Lemma framed_trans h1 h2 h3 : framed h1 h2 -> (region h2 -> framed h2 h3) -> framed h1 h3.
  Proof. intros [A1 A2] B. destruct (B A1) as [B1 B2]. split; [exact B1|]. intros a N. rewrite B2, A2; auto. Qed.
  Lemma framed_refl h : region h -> framed h h.
  Proof. intro W; split; auto. Qed.

  Lemma perform_framed h o : region h -> (forall a, In a (names o) -> R a) -> framed h (perform h o).
  Proof.
    intros W I. destruct o as [l d | a k v | a k | p c | p c | a | f a]; cbn [perform names In] in *.
    - destruct W as [U N]. cbn [new_node fst]. split; [split|].
      + intros a p Ra. destruct (Nat.lt_ge_cases a (length h)) as [L | L]; [rewrite at_app_old by exact L; apply U, Ra|].
        destruct (Nat.eq_dec a (length h)) as [-> | D]; [rewrite at_app_new; discriminate|].
        rewrite at_out by (rewrite app_length; cbn [length]; lia). discriminate.
      + intros a L. apply N. rewrite app_length in L. lia.
      + intros a Na. apply at_app_old. destruct (Nat.lt_ge_cases a (length h)); [assumption | destruct Na; auto].
    - unfold node_setitem. apply put_framed; auto. cbn [set_attrib parent]. intros p. apply (proj1 W). auto.
    - unfold node_delitem. destruct (dget k (attrib (at_ h a))); cbn [fst]; [|apply framed_refl, W].
      apply put_framed; auto. cbn [set_attrib parent]. intros p. apply (proj1 W). auto.
    - unfold add_child. apply (framed_trans h (put h p (set_children (at_ h p) (dset (label (at_ h c)) c (children (at_ h p)))))).
      + apply put_framed; auto. cbn [set_children parent]. intros q. apply (proj1 W). auto.
      + intro W2. apply put_framed; auto. cbn [set_parent parent]. intros q X; injection X as <-. auto.
    - unfold del_child. destruct (dget (label (at_ h c)) (children (at_ h p))); cbn [fst]; [|apply framed_refl, W].
      apply (framed_trans h (put h p (set_children (at_ h p) (ddel (label (at_ h c)) (children (at_ h p)))))).
      + apply put_framed; auto. cbn [set_children parent]. intros q. apply (proj1 W). auto.
      + intro W2. apply put_framed; auto. cbn [set_attrib parent]. intros q. apply (proj1 W2). auto.
    - assert (Ra : R a) by auto. unfold unlink. destruct (parent (at_ h a)) as [p|] eqn:P.
      + assert (Rp : R p) by (apply (proj1 W a p Ra P)).
        assert (Dt : forall h1, region h1 -> framed h1 (put h1 a (set_parent (at_ h1 a) None))).
        { intros h1 W1. apply put_framed; auto. cbn [set_parent parent]. discriminate. }
        destruct (truth h p); [|apply Dt, W].
        destruct (dget (label (at_ h a)) (children (at_ h p))); cbn [fst]; [|apply framed_refl, W].
        eapply framed_trans; [|exact (Dt _)]. apply put_framed; auto. cbn [set_children parent]. intros q. apply (proj1 W). auto.
      + apply put_framed; auto. cbn [set_parent parent]. discriminate.
    - destruct (copy f h a) as [[h' r]|] eqn:C; [|apply framed_refl, W].
      destruct (copy_apart f h a h' r C) as (L & _ & _ & Old & Par). destruct W as [U N]. split; [split|].
      + intros b p Rb E. destruct (Nat.lt_ge_cases b (length h)) as [Lb | Lb].
        * rewrite Old in E by exact Lb. apply (U b p Rb E).
        * apply N, (Par b p Lb E).
      + intros b Lb. apply N. lia.
      + intros b Nb. apply Old. destruct (Nat.lt_ge_cases b (length h)); [assumption | destruct Nb; auto].
  Qed.
  Lemma program_framed ops : forall h, region h -> works_on R ops -> framed h (program h ops).
  Proof.
    induction ops as [|o ops IH]; intros h W I; [apply framed_refl, W|]. cbn [program fold_left].
    apply (framed_trans h (perform h o)).
    - apply perform_framed; [exact W|]. intros a. apply I. left; reflexivity.
    - intro W2. apply IH; [exact W2|]. intros o' a Io. apply I. right; exact Io.
  Qed.
End Frame.

Lemma frame_any h (R : addr -> Prop) ops a : (forall a p, R a -> parent (at_ h a) = Some p -> R p) -> (forall a, (length h <= a)%nat -> R a) ->
  works_on R ops -> ~ R a -> at_ (program h ops) a = at_ h a.
Proof. intros U N W. exact (proj2 (program_framed R ops h (conj U N) W) a). Qed.

Lemma original_kept fuel h self h' r ops : copy fuel h self = Ok (h', r) -> works_on (fun a => (length h <= a)%nat) ops ->
  forall a, (a < length h)%nat -> at_ (program h' ops) a = at_ h a.
Proof.
  intros C W a L. destruct (copy_apart fuel h self h' r C) as (Lh & _ & _ & Old & Par).
  rewrite (frame_any h' (fun a => (length h <= a)%nat) ops a); [apply Old, L | exact Par | | exact W | lia].
  intros b Lb. lia.
Qed.
Lemma copy_kept fuel h self h' r ops : parents_exist h -> copy fuel h self = Ok (h', r) ->
  works_on (fun a => (a < length h)%nat \/ (length h' <= a)%nat) ops ->
  forall a, (length h <= a < length h')%nat -> at_ (program h' ops) a = at_ h' a.
Proof.
  intros PE C W a L. destruct (copy_apart fuel h self h' r C) as (Lh & _ & _ & Old & Par).
  apply (frame_any h' (fun a => (a < length h)%nat \/ (length h' <= a)%nat) ops a); [| | exact W | lia].
  - intros b p [Lb | Lb] E.
    + rewrite Old in E by exact Lb. left. apply (PE b p E).
    + rewrite at_out in E by exact Lb. discriminate.
  - intros b Lb. right. exact Lb.
Qed.

Lemma dist_copy_ok h t fuel : keyed h t -> truth_opt h (parent (at_ h (root t))) = false -> (rsize t < fuel)%nat ->
  exists h' t', dist_copy fuel h (mkdist (root t)) = Ok (h', mkdist (root t')) /\ linked h' None t' /\ keyed h' t' /\
    rosemap (details h') t' = rosemap (details h) t /\ NoDup (nodes t') /\ (forall a, In a (nodes t') -> (length h <= a)%nat) /\
    (forall a, (a < length h)%nat -> at_ h' a = at_ h a).
Proof.
  intros K T B. unfold dist_copy; cbn [dist_root].
  destruct (copy_ok h t fuel K T B) as (h1 & t1 & E1 & Li1 & K1 & D1 & _ & F1 & O1 & L1).
  assert (S1 : rsize t1 = rsize t).
  { unfold rsize; rewrite <- (map_length (details h1)), <- rosemap_nodes, D1, rosemap_nodes, map_length; reflexivity. }
  assert (T1 : truth_opt h1 (parent (at_ h1 (root t1))) = false).
  { inversion Li1 as [? ? ? P _ _ _]; subst. cbn [root]. rewrite P. reflexivity. }
  destruct (copy_ok h1 t1 fuel K1 T1 ltac:(lia)) as (h2 & t2 & E2 & Li2 & K2 & D2 & ND2 & F2 & O2 & L2).
  exists h2, t2. rewrite E1. cbn [bind fst snd]. rewrite E2. cbn [bind fst snd].
  split; [reflexivity|]. split; [exact Li2|]. split; [exact K2|]. split; [congruence|]. split; [exact ND2|].
  split; [intros a I; specialize (F2 a I); lia|].
  intros a L. rewrite O2 by lia. apply O1, L.
Qed.
Lemma dist_copy_raises h a fuel : truth_opt h (parent (at_ h a)) = true -> dist_copy fuel h (mkdist a) = Raise PlainException.
Proof. intro T. unfold dist_copy; cbn [dist_root]. rewrite (copy_raises h a fuel T). reflexivity. Qed.
