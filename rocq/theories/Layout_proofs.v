(* Layout_proofs.v *)
From Verif Require Import Base PyText PyFmt Rose Maps_model Tree_model Tree_spec Tree_proofs Layout_model Layout_spec.

Lemma map_app_inj (r : str) : forall ls ls', map (app r) ls = map (app r) ls' -> ls = ls'.
Proof.
  induction ls as [|l ls IH]; intros [|l' ls'] E; try discriminate; [reflexivity|]; cbn [map] in E; injection E as E1 E2.
  apply app_inv_head in E1; f_equal; auto.
Qed.
Lemma block_inj f r b b' : b <> [] -> b' <> [] -> block f r b = block f r b' -> b = b'.
Proof.
  destruct b as [|l b], b' as [|l' b']; intros N N' E; try contradiction; cbn [block] in E; injection E as E1 E2.
  apply app_inv_head in E1; apply map_app_inj in E2; congruence.
Qed.
(** a line that does not continue a block *)
Definition fresh (xs : list str) : Prop := match xs with [] => True | x :: _ => forall t, x <> u "│  " ++ t end.
Lemma run_inj : forall ls ls' xs xs', fresh xs -> fresh xs' ->
  map (app (u "│  ")) ls ++ xs = map (app (u "│  ")) ls' ++ xs' -> ls = ls' /\ xs = xs'.
Proof.
  induction ls as [|l ls IH]; intros [|l' ls'] xs xs' F F' E; cbn [map] in E.
  - split; [reflexivity|exact E].
  - destruct xs as [|x xs]; [discriminate|]; rewrite <- app_comm_cons in E; injection E as E _; elim (F l' E).
  - destruct xs' as [|x xs']; [discriminate|]; rewrite <- app_comm_cons in E; injection E as E _; symmetry in E; elim (F' l E).
  - rewrite <- !app_comm_cons in E; injection E as E1 E2; apply IH in E2; try assumption; destruct E2; subst; auto.
Qed.
Lemma blocks_head b bs : b <> [] -> exists x xs, blocks (b :: bs) = x :: xs /\
  ((bs = [] /\ exists t, x = u "└─ " ++ t) \/ (bs <> [] /\ exists t, x = u "├─ " ++ t)).
Proof.
  intros N; destruct b as [|l b]; [contradiction|]; destruct bs as [|b2 bs].
  - eexists; eexists; split; [reflexivity|]; left; split; [reflexivity|eexists; reflexivity].
  - eexists; eexists; split; [reflexivity|]; right; split; [discriminate|eexists; reflexivity].
Qed.
Lemma blocks_fresh bs : Forall (fun b => b <> []) bs -> fresh (blocks bs).
Proof.
  intros F; destruct bs as [|b bs]; [exact I|]; inversion F as [|? ? N F']; subst; destruct (blocks_head b bs N) as [x [xs [-> [[_ [t ->]]|[_ [t ->]]]]]];
    intros s X; discriminate.
Qed.
Lemma blocks_inj : forall bs bs', Forall (fun b => b <> []) bs -> Forall (fun b => b <> []) bs' -> blocks bs = blocks bs' -> bs = bs'.
Proof.
  induction bs as [|b bs IH]; intros bs' F F' E.
  - destruct bs' as [|b' bs']; [reflexivity|]; inversion F' as [|? ? N' _]; subst; destruct (blocks_head b' bs' N') as [x [xs [X _]]].
    rewrite X in E; discriminate.
  - inversion F as [|? ? N Fb]; subst; destruct bs' as [|b' bs'].
    { destruct (blocks_head b bs N) as [x [xs [X _]]]; rewrite X in E; discriminate. }
    inversion F' as [|? ? N' Fb']; subst.
    destruct bs as [|b2 bs], bs' as [|b2' bs'].
    + f_equal; apply (block_inj (u "└─ ") (u "   ")); assumption.
    + exfalso; destruct (blocks_head b [] N) as [x [xs [X [[_ [t T]]|[Y _]]]]]; [|contradiction].
      destruct (blocks_head b' (b2' :: bs') N') as [x' [xs' [X' [[Y' _]|[_ [t' T']]]]]]; [discriminate|].
      rewrite X, X' in E; injection E as E _; subst; discriminate.
    + exfalso; destruct (blocks_head b' [] N') as [x [xs [X [[_ [t T]]|[Y _]]]]]; [|contradiction].
      destruct (blocks_head b (b2 :: bs) N) as [x' [xs' [X' [[Y' _]|[_ [t' T']]]]]]; [discriminate|].
      rewrite X, X' in E; injection E as E _; subst; discriminate.
    + change (block (u "├─ ") (u "│  ") b ++ blocks (b2 :: bs) = block (u "├─ ") (u "│  ") b' ++ blocks (b2' :: bs')) in E.
      destruct b as [|l b]; [contradiction|]; destruct b' as [|l' b']; [contradiction|]; cbn [block] in E; rewrite <- !app_comm_cons in E.
      injection E as E1 E2; apply (run_inj b b' (blocks (b2 :: bs)) (blocks (b2' :: bs'))) in E2; [|apply blocks_fresh; assumption|apply blocks_fresh; assumption].
      destruct E2 as [-> E3]; rewrite (IH _ Fb Fb' E3), E1; reflexivity.
Qed.
Lemma draw_nonempty t : draw t <> [].
Proof. destruct t; discriminate. Qed.
Lemma draw_inj t : forall t', draw t = draw t' -> t = t'.
Proof.
  induction t as [x ks IH] using rose_rec_ind; intros [y js] E; cbn [draw] in E; injection E as -> E; f_equal.
  assert (F : forall l, Forall (fun b => b <> []) (map draw l)) by (intros l; apply Forall_forall; intros b I; apply in_map_iff in I; destruct I as [t [<- _]]; apply draw_nonempty).
  apply blocks_inj in E; [|apply F|apply F].
  revert js E; induction ks as [|k ks IHks]; intros [|j js] E; try discriminate; [reflexivity|]; cbn [map] in E; injection E as E1 E2.
  inversion IH as [|? ? Hk Hks]; subst; rewrite (Hk j E1), (IHks Hks js E2); reflexivity.
Qed.
(** one line for every node, parents first, each ending in the node's text *)
Lemma draw_lines t : Forall2 (fun line x => exists p, line = p ++ x) (draw t) (nodes t).
Proof.
  induction t as [x ks IH] using rose_rec_ind; cbn [draw nodes]; constructor; [exists []; reflexivity|].
  assert (B : forall f r ls xs, Forall2 (fun line x => exists p : str, line = p ++ x) ls xs -> Forall2 (fun line x => exists p : str, line = p ++ x) (block f r ls) xs).
  { intros f r ls xs [|l y ls' xs' [p ->] R]; [constructor|]; cbn [block]; constructor; [exists (f ++ p); rewrite <- app_assoc; reflexivity|].
    clear -R; induction R as [|l y ls xs [p ->] R IHR]; cbn [map]; constructor; [exists (r ++ p); rewrite <- app_assoc; reflexivity|exact IHR]. }
  induction IH as [|k ks Hk Hks IHks]; [constructor|]; cbn [map flat_map]; destruct ks as [|k2 ks].
  - cbn [map flat_map]; rewrite app_nil_r; apply B, Hk.
  - change (blocks (draw k :: map draw (k2 :: ks))) with (block (u "├─ ") (u "│  ") (draw k) ++ blocks (map draw (k2 :: ks))).
    apply Forall2_app; [apply B, Hk|exact IHks].
Qed.

Section Layout.
  Variable method : list node -> addr -> res str.
  Variable h : list node.
  Variable name : addr -> str.
  Lemma print_ok before n : method h n = Ok (name n) -> print_node method h before n = ([before ++ name n], Ok tt).
  Proof. intros M; unfold print_node; rewrite M; reflexivity. Qed.
  Lemma height_kids (k : rose addr) ks n : In k ks -> (S (list_max (map height ks)) <= S n)%nat -> (height k <= n)%nat.
  Proof.
    intros I L; apply le_S_n in L; apply list_max_le in L; rewrite Forall_forall in L; apply L, in_map, I.
  Qed.
  Lemma map_app_map (p q : str) ls : map (app (p ++ q)) ls = map (app p) (map (app q) ls).
  Proof. rewrite map_map; apply map_ext; intros l; symmetry; apply app_assoc. Qed.
  Lemma layout_children_ok t : tree_at h t -> (forall n, In n (nodes t) -> method h n = Ok (name n)) ->
    forall limit prefix, (height t <= limit)%nat ->
    layout_children method limit h (root t) prefix = (map (app prefix) (blocks (map draw (map (rosemap name) (branches t)))), Ok tt).
  Proof.
    induction t as [a ks IH] using rose_rec_ind; intros T M limit prefix L; inversion T as [? ? K F]; subst; clear T.
    destruct limit as [|f]; [cbn [height] in L; lia|]; cbn [root branches layout_children]; rewrite <- K; clear K.
    assert (M' : forall k n, In k ks -> In n (nodes k) -> method h n = Ok (name n)).
    { intros k n Ik In_; apply M; cbn [nodes]; right; apply in_flat_map; eauto. }
    assert (H : forall k, In k ks -> (height k <= f)%nat) by (intros k Ik; apply (height_kids k ks f Ik L)).
    clear M L; induction ks as [|k ks IHks]; [reflexivity|].
    inversion F as [|? ? Tk Fk]; subst; inversion IH as [|? ? Hk Hks]; subst.
    assert (R : method h (root k) = Ok (name (root k))) by (apply (M' k); [left; reflexivity|destruct k; left; reflexivity]).
    specialize (Hk Tk (fun n => M' k n (or_introl eq_refl))).
    specialize (IHks Hks Fk (fun k n I => M' k n (or_intror I)) (fun k I => H k (or_intror I))).
    destruct k as [b kk]; cbn [root branches] in *; cbn [map root].
    destruct ks as [|k2 ks].
    - cbn [map]; rewrite (print_ok _ _ R), Hk by (apply (H (Rose b kk)); left; reflexivity).
      cbn [and_then map blocks block draw rosemap]; rewrite map_app_map, <- app_assoc; reflexivity.
    - change (map root (k2 :: ks)) with (root k2 :: map root ks) in *; cbv iota.
      rewrite (print_ok _ _ R), Hk by (apply (H (Rose b kk)); left; reflexivity); rewrite IHks.
      assert (X : forall b bs, bs <> [] -> blocks (b :: bs) = block (u "├─ ") (u "│  ") b ++ blocks bs) by (intros ? [|? ?] N; [contradiction|reflexivity]).
      cbn [map rosemap draw]; rewrite (X (name b :: blocks (map draw (map (rosemap name) kk)))) by discriminate; cbn [and_then block]; rewrite map_app, map_app_map; cbn [map app]; rewrite <- !app_assoc; reflexivity.
  Qed.
  Lemma layout_ok t limit : tree_at h t -> (forall n, In n (nodes t) -> method h n = Ok (name n)) -> (height t <= limit)%nat ->
    layout method limit h (root t) = (draw (rosemap name t), Ok tt).
  Proof.
    intros T M L; unfold layout; rewrite (print_ok [] (root t)) by (apply M; destruct t; left; reflexivity).
    rewrite (layout_children_ok t T M limit [] L); destruct t as [a ks]; cbn [and_then root branches rosemap draw app].
    rewrite map_id; reflexivity.
  Qed.
  Lemma layout_children_deep t : tree_at h t -> (forall n, In n (nodes t) -> method h n = Ok (name n)) ->
    forall limit prefix, (limit < height t)%nat -> snd (layout_children method limit h (root t) prefix) = Raise RecursionError.
  Proof.
    induction t as [a ks IH] using rose_rec_ind; intros T M limit prefix L; inversion T as [? ? K F]; subst; clear T.
    destruct limit as [|f]; [reflexivity|]; cbn [root layout_children]; rewrite <- K; clear K.
    assert (M' : forall k n, In k ks -> In n (nodes k) -> method h n = Ok (name n)).
    { intros k n Ik In_; apply M; cbn [nodes]; right; apply in_flat_map; eauto. }
    cbn [height] in L; apply Nat.succ_lt_mono in L.
    clear M; induction ks as [|k ks IHks]; [cbn in L; lia|].
    inversion F as [|? ? Tk Fk]; subst; inversion IH as [|? ? Hk Hks]; subst.
    assert (R : method h (root k) = Ok (name (root k))) by (apply (M' k); [left; reflexivity|destruct k; left; reflexivity]).
    specialize (Hk Tk (fun n => M' k n (or_introl eq_refl))).
    specialize (fun L => IHks Hks L Fk (fun k n I => M' k n (or_intror I))) as IHks'; clear IHks; rename IHks' into IHks.
    pose proof (layout_children_ok k Tk (fun n => M' k n (or_introl eq_refl)) f) as OK.
    assert (S_ : forall l o, snd o = Raise RecursionError -> snd (and_then (l, Ok tt) o) = Raise RecursionError) by (intros l [l' r]; cbn; auto).
    change (list_max (map height (k :: ks))) with (Nat.max (height k) (list_max (map height ks))) in L.
    destruct (Nat.lt_ge_cases f (height k)) as [D|D].
    - clear OK; change (map root (k :: ks)) with (root k :: map root ks).
      destruct ks as [|k2 ks]; cbn [map].
      + rewrite (print_ok _ _ R); apply S_, Hk, D.
      + rewrite (print_ok _ _ R); specialize (Hk f (prefix ++ u "│  ") D).
        destruct (layout_children method f h (root k) (prefix ++ u "│  ")) as [l r]; cbn [snd] in Hk; subst r; reflexivity.
    - change (map root (k :: ks)) with (root k :: map root ks).
      destruct ks as [|k2 ks]; [cbn in L; lia|].
      change (map root (k2 :: ks)) with (root k2 :: map root ks) in *; cbv iota.
      rewrite (print_ok _ _ R), OK by exact D; cbn [and_then]; apply S_, IHks; lia.
  Qed.
  Lemma layout_deep t limit : tree_at h t -> (forall n, In n (nodes t) -> method h n = Ok (name n)) -> (limit < height t)%nat ->
    snd (layout method limit h (root t)) = Raise RecursionError.
  Proof.
    intros T M L; unfold layout; rewrite (print_ok [] (root t)) by (apply M; destruct t; left; reflexivity).
    pose proof (layout_children_deep t T M limit [] L) as D; destruct (layout_children method limit h (root t) []) as [l r]; exact D.
  Qed.
End Layout.

Lemma union_raises n l r : exists e, union n l r = Raise e /\ (e = TypeError \/ e = RecursionError).
Proof. destruct n; eexists; split; try reflexivity; auto. Qed.
