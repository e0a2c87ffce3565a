(* Share2_proofs.v -- prune and TreeDist on nodes that share dictionaries, and
   what every node sees of a change *)
From Verif Require Import Base Rose Maps_model Maps_proofs Tree_model Tree_spec Tree_proofs Layout_model TreeFrame_spec TreeFrame_proofs Share_model Share_spec Share_proofs.

(* ---- a copy refers to new nodes only ---- *)
Definition inside (n0 : nat) (d : dict str addr) : Prop := forall k c, In (k, c) d -> (n0 <= c)%nat.
Definition closed (n0 : nat) (h : list node) : Prop :=
  forall a, (n0 <= a)%nat -> (forall p, parent (at_ h a) = Some p -> (n0 <= p)%nat) /\ inside n0 (children (at_ h a)).
Definition keys_ok (h : list node) : Prop := forall a, NoDup (dkeys (children (at_ h a))).
Lemma copy_kids_inside n0 n items : forall h done stack h' stack', (n0 <= n < length h)%nat -> (n0 <= length h)%nat -> keys_ok h ->
  children (at_ h n) = done ++ items -> inside n0 done ->
  (forall a, (n0 <= a)%nat -> a <> n -> In a stack \/ inside n0 (children (at_ h a))) ->
  copy_kids h n items stack = (h', stack') ->
  keys_ok h' /\ (length h <= length h')%nat /\ (forall a, (n0 <= a)%nat -> In a stack' \/ inside n0 (children (at_ h' a))) /\
  (Forall (fun a => (a < length h)%nat) stack -> Forall (fun a => (a < length h')%nat) stack').
Proof.
  induction items as [|[l c] r IH]; intros h done stack h' stack' Ln L0 ND E Hd Hs C.
  - cbn [copy_kids] in C. injection C as <- <-. split; [exact ND|]. split; [lia|]. split; [|auto]. intros a La. destruct (Nat.eq_dec a n) as [-> | N].
    + right. rewrite E, app_nil_r. exact Hd.
    + apply Hs; assumption.
  - cbn [copy_kids new_node] in C. set (h1 := h ++ _) in C. assert (A1 : at_ h1 n = at_ h n) by (apply at_app_old; lia).
    rewrite A1, E in C.
    assert (ND1 : NoDup (dkeys (done ++ (l, c) :: r))) by (rewrite <- E; apply ND).
    rewrite dset_mid in C.
    2:{ unfold dkeys in *. rewrite map_app in ND1; intros I; apply NoDup_remove_2 in ND1; apply ND1, in_or_app; left; exact I. }
    set (h2 := put h1 n _) in C.
    assert (L1 : length h1 = S (length h)) by (unfold h1; rewrite app_length; cbn [length]; lia).
    assert (L2 : length h2 = S (length h)) by (unfold h2; rewrite length_put; exact L1).
    assert (At : forall a, at_ h2 a = if Nat.eqb a n then set_children (at_ h n) (done ++ (l, length h) :: r)
                                      else if Nat.eqb a (length h) then {| label := l; children := children (at_ h c); attrib := attrib (at_ h c); parent := Some n |} else at_ h a).
    { intro a. unfold h2. destruct (Nat.eqb_spec a n) as [-> | Na]; [apply at_put_same; lia|]. rewrite at_put_other by congruence.
      unfold h1. destruct (Nat.eqb_spec a (length h)) as [-> | Nl]; [apply at_app_new|].
      destruct (Nat.lt_ge_cases a (length h)); [apply at_app_old; assumption|]. rewrite !at_out; [reflexivity | lia | rewrite app_length; cbn [length]; lia]. }
    destruct (IH h2 (done ++ [(l, length h)]) (stack ++ [length h]) h' stack') as (B1 & B2 & B3 & B4); try assumption; try lia.
    + intro a. rewrite At. destruct (Nat.eqb a n); [|destruct (Nat.eqb a (length h)); cbn [children]; apply ND].
      cbn [set_children children]. unfold dkeys in *. rewrite map_app in *. exact ND1.
    + rewrite At, Nat.eqb_refl. cbn [set_children children]. rewrite <- app_assoc. reflexivity.
    + intros k b I. apply in_app_or in I. destruct I as [I | [X | []]]; [exact (Hd k b I)|]. injection X as _ <-. exact L0.
    + intros a La Na. rewrite At, (proj2 (Nat.eqb_neq a n) Na). destruct (Nat.eqb_spec a (length h)) as [-> | Nl].
      * left. apply in_or_app. right. left. reflexivity.
      * destruct (Hs a La Na) as [I | I]; [left; apply in_or_app; auto | right; exact I].
    + split; [exact B1|]. split; [lia|]. split; [exact B3|]. intro F. apply B4. rewrite L2. apply Forall_app. split.
      * eapply Forall_impl; [|exact F]. cbn. intros; lia.
      * constructor; [lia | constructor].
Qed.
Lemma copy_loop_inside n0 fuel : forall h stack h', (n0 <= length h)%nat -> Forall (fun a => (n0 <= a < length h)%nat) stack -> keys_ok h ->
  (forall a, (n0 <= a)%nat -> In a stack \/ inside n0 (children (at_ h a))) ->
  copy_loop fuel h stack = Ok h' -> keys_ok h' /\ forall a, (n0 <= a)%nat -> inside n0 (children (at_ h' a)).
Proof.
  induction fuel as [|f IH]; intros h stack h' L F ND Hs E; [discriminate|]. cbn [copy_loop] in E.
  destruct (pop_last stack) as [[n rest]|] eqn:P.
  2:{ injection E as <-. split; [exact ND|]. intros a La. destruct (Hs a La) as [I | I]; [|exact I]. apply pop_last_None in P. subst stack. destruct I. }
  apply pop_last_inv in P. subst stack. apply Forall_app in F. destruct F as [F1 F2]. inversion F2 as [|? ? Ln _]; subst.
  destruct (copy_kids h n (children (at_ h n)) rest) as [h1 st1] eqn:K.
  destruct (copy_kids_inside n0 n _ h [] rest h1 st1 Ln L ND eq_refl) as (A1 & A2 & A3 & A4).
  - intros k c [].
  - intros a La Na. destruct (Hs a La) as [I | I]; [|right; exact I]. apply in_app_or in I. destruct I as [I | [-> | []]]; [left; exact I | contradiction].
  - exact K.
  - apply (IH h1 st1 h'); [lia | | exact A1 | exact A3 | exact E].
    assert (G : Forall (le n0) st1).
    { refine (copy_kids_stack (le n0) n _ _ _ _ _ _ _ K); [intros a La; lia|]. eapply Forall_impl; [|exact F1]. cbn. intros; lia. }
    assert (G' : Forall (fun a => (a < length h1)%nat) st1).
    { apply A4. eapply Forall_impl; [|exact F1]. cbn. intros; lia. }
    rewrite Forall_forall in *. intros a I. split; [apply G, I | apply G', I].
Qed.
Lemma copy_closed fuel h self h' r : keys_ok h -> copy fuel h self = Ok (h', r) -> closed (length h) h' /\ keys_ok h' /\ r = length h.
Proof.
  intros ND C. destruct (copy_apart _ _ _ _ _ C) as (_ & R & _ & _ & P).
  unfold copy in C. destruct (truth_opt h (parent (at_ h self))); [discriminate|]. cbn [new_node] in C.
  set (n := {| label := _ |}) in C. destruct (copy_loop fuel (h ++ [n]) [length h]) as [h1|] eqn:E; [|discriminate].
  injection C as <- _.
  assert (At : forall a, at_ (h ++ [n]) a = if Nat.eqb a (length h) then n else at_ h a).
  { intro a. destruct (Nat.eqb_spec a (length h)) as [-> | N]; [apply at_app_new|].
    destruct (Nat.lt_ge_cases a (length h)); [apply at_app_old; assumption|]. rewrite !at_out; [reflexivity | lia | rewrite app_length; cbn [length]; lia]. }
  destruct (copy_loop_inside (length h) fuel (h ++ [n]) [length h] h1) as [A B]; try exact E.
  - rewrite app_length. lia.
  - constructor; [rewrite app_length; cbn [length]; lia | constructor].
  - intro a. rewrite At. destruct (Nat.eqb a (length h)); [exact (ND self) | apply ND].
  - intros a La. destruct (Nat.eq_dec a (length h)) as [-> | N]; [left; left; reflexivity|]. right. rewrite At, (proj2 (Nat.eqb_neq _ _) N), at_out by lia. intros k c [].
  - split; [|split; [exact A | exact R]]. intros a La. split; [intros p; apply P, La | apply B, La].
Qed.

(* ---- loops over a walk of the copy ---- *)
Section Loops.
  Context (w0 : world) (body : world -> addr -> world * res unit) (body' : list node -> unit -> addr -> list node * unit * res (option unit)).
  Definition good (w : world) : Prop := region w0 w /\ closed (length (objs w0)) (view w).
  Definition done (r : res unit) : res (option unit) := match r with Ok _ => Ok None | Raise e => Raise e end.
  Hypothesis same : forall w n, good w -> fresh w0 n -> good (fst (body w n)) /\ body' (view w) tt n = (view (fst (body w n)), tt, done (snd (body w n))).
  Lemma kids_fresh w n : good w -> fresh w0 n -> Forall (fresh w0) (dvals (children (seen w n))).
  Proof.
    intros (_ & C) Fn. apply Forall_forall. intros c I. unfold dvals in I. apply in_map_iff in I. destruct I as ([k c'] & <- & I).
    exact (proj2 (C n Fn) k c' I).
  Qed.
  Lemma s_preorder_ok fuel : forall w stack, good w -> Forall (fresh w0) stack ->
    good (fst (s_preorder body fuel w stack)) /\
    for_preorder body' fuel (view w) tt stack = (view (fst (s_preorder body fuel w stack)), tt, done (snd (s_preorder body fuel w stack))).
  Proof.
    induction fuel as [|f IH]; intros w stack G F; cbn [s_preorder for_preorder]; [split; [exact G | reflexivity]|].
    destruct (pop_last stack) as [[n rest]|] eqn:P; [|split; [exact G | reflexivity]].
    apply pop_last_inv in P. subst stack. apply Forall_app in F. destruct F as [F1 F2]. inversion F2 as [|? ? Fn _]; subst.
    destruct (same w n G Fn) as [G1 B1]. rewrite B1. destruct (body w n) as [w1 [[]|e]]; cbn [fst snd done] in *; [|split; [exact G1 | reflexivity]].
    apply IH; [exact G1|]. apply Forall_app. split; [exact F1|]. apply kids_fresh; assumption.
  Qed.
  Lemma s_postorder_ok fuel : forall w stack, good w -> Forall (fun x => fresh w0 (fst x)) stack ->
    good (fst (s_postorder body fuel w stack)) /\
    for_postorder body' fuel (view w) tt stack = (view (fst (s_postorder body fuel w stack)), tt, done (snd (s_postorder body fuel w stack))).
  Proof.
    induction fuel as [|f IH]; intros w stack G F; cbn [s_postorder for_postorder]; [split; [exact G | reflexivity]|].
    destruct (pop_last stack) as [[[n v] rest]|] eqn:P; [|split; [exact G | reflexivity]].
    apply pop_last_inv in P. subst stack. apply Forall_app in F. destruct F as [F1 F2]. inversion F2 as [|? ? Fn _]; subst. cbn [fst] in Fn.
    destruct (v || negb (truth (view w) n)).
    - destruct (same w n G Fn) as [G1 B1]. rewrite B1. destruct (body w n) as [w1 [[]|e]]; cbn [fst snd done] in *; [|split; [exact G1 | reflexivity]].
      apply IH; assumption.
    - apply IH; [exact G|]. apply Forall_app. split; [apply Forall_app; split; [exact F1 | constructor; [exact Fn | constructor]]|].
      apply Forall_forall. intros x I. apply in_map_iff in I. destruct I as (c & <- & I). cbn [fst].
      pose proof (kids_fresh w n G Fn) as K. rewrite Forall_forall in K. apply K, I.
  Qed.
End Loops.

Lemma closed_put n0 h a x : closed n0 h -> ((n0 <= a)%nat -> (forall p, parent x = Some p -> (n0 <= p)%nat) /\ inside n0 (children x)) -> closed n0 (put h a x).
Proof.
  intros C X b Lb. destruct (Nat.lt_ge_cases a (length h)) as [L | L]; [|rewrite put_out by exact L; apply C, Lb].
  destruct (Nat.eq_dec a b) as [<- | N]; [rewrite at_put_same by exact L; apply X, Lb | rewrite at_put_other by exact N; apply C, Lb].
Qed.
Lemma inside_ddel n0 k d : inside n0 d -> inside n0 (ddel k d).
Proof.
  intros H j c I. apply (H j c). revert I. induction d as [|[k' v] r IH]; cbn [ddel]; [auto|].
  destruct (eqb k k'); intro I; [right; exact I|]. destruct I as [I | I]; [left; exact I | right; apply IH; [intros ? ? ?; eapply H; right; eassumption | exact I]].
Qed.
Lemma unlink_closed n0 h a : closed n0 h -> closed n0 (fst (unlink h a)).
Proof.
  intro C. assert (D : forall h, closed n0 h -> closed n0 (put h a (set_parent (at_ h a) None))).
  { intros h' C'. apply closed_put; [exact C'|]. intro L. cbn [set_parent parent children]. split; [discriminate | apply C', L]. }
  unfold unlink. destruct (parent (at_ h a)) as [p|]; [|apply D, C]. destruct (truth h p); [|apply D, C].
  destruct (dget (label (at_ h a)) (children (at_ h p))); [|exact C]. cbn [fst]. apply D, closed_put; [exact C|].
  intro L. cbn [set_children parent children]. split; [apply (C p L) | apply inside_ddel, (C p L)].
Qed.
Lemma setitem_closed n0 h a k v : closed n0 h -> closed n0 (node_setitem h a k v).
Proof. intro C. apply closed_put; [exact C|]. intro L. cbn [set_attrib parent children]. apply (C a L). Qed.

(* ---- prune ---- *)
Lemma prune_same w0 predicate w n : good w0 w -> fresh w0 n -> good w0 (fst (s_prune_body predicate w n)) /\
  prune_body predicate (view w) tt n = (view (fst (s_prune_body predicate w n)), tt, done (snd (s_prune_body predicate w n))).
Proof.
  intros [H C] Fn. unfold s_prune_body, prune_body. destruct (truth (view w) n || predicate (view w) n); [split; [split; assumption | reflexivity]|].
  destruct (s_unlink_ok w0 w n H) as [A B]; [intros p; apply (C n Fn)|].
  pose proof (unlink_closed (length (objs w0)) (view w) n C) as D. rewrite B in *. destruct (s_unlink w n) as [w' [[]|e]]; cbn [fst snd done] in *.
  - split; [split; assumption | reflexivity].
  - split; [split; assumption | reflexivity].
Qed.
Lemma dicts_keys w : dicts w -> keys_ok (view w).
Proof.
  intros D a. fold (seen w a). destruct (nth_error (objs w) a) as [n|] eqn:E; [|rewrite seen_none by exact E; constructor].
  rewrite (seen_some w a n E). apply D.
Qed.
Lemma s_prune_ok predicate fuel w self : sound w -> dicts w ->
  match s_prune predicate fuel w self with
  | Ok (w', r) => prune predicate fuel (view w) self = Ok (view w', r) /\ region w w'
  | Raise e => prune predicate fuel (view w) self = Raise e
  end.
Proof.
  intros S0 D. unfold s_prune, prune. pose proof (s_copy_ok w fuel w self (region_start w S0)) as C.
  destruct (s_copy fuel w self) as [[w1 r]|e]; cbn [bind]; [|rewrite C; reflexivity]. destruct C as (H1 & C & R). rewrite C. cbn [bind].
  destruct (copy_closed _ _ _ _ _ (dicts_keys w D) C) as (Cl & _ & _). rewrite length_view in Cl.
  destruct (s_postorder_ok w (s_prune_body predicate) (prune_body predicate) (prune_same w predicate) fuel w1 [(r, false)]) as [G E].
  - split; assumption.
  - constructor; [unfold fresh; cbn; lia | constructor].
  - rewrite E. destruct (s_postorder (s_prune_body predicate) fuel w1 [(r, false)]) as [w2 [[]|e]]; cbn [fst snd done] in *; [|reflexivity].
    split; [reflexivity | apply G].
Qed.

(* ---- TreeDist ---- *)
Lemma set_same w0 w n k v : good w0 w -> fresh w0 n -> good w0 (s_setitem w n (KStr k) v) /\ view (s_setitem w n (KStr k) v) = setitem (view w) n k v.
Proof.
  intros [H C] Fn. destruct (s_setitem_ok w0 w n (KStr k) v H Fn) as [A B]. split; [split; [exact A | rewrite B; apply setitem_closed, C] | exact B].
Qed.
Lemma count_same w0 cm w n : good w0 w -> fresh w0 n -> good w0 (fst (s_count_body cm w n)) /\
  count_body cm (view w) tt n = (view (fst (s_count_body cm w n)), tt, done (snd (s_count_body cm w n))).
Proof.
  intros G Fn. unfold s_count_body, count_body. fold (seen w n). destruct (cm (seen w n)) as [c|e]; [|split; [exact G | reflexivity]].
  destruct (set_same w0 w n (u "count") (VNum c) G Fn) as [G1 V1]. unfold seen. rewrite <- V1.
  set (w1 := s_setitem w n (KStr (u "count")) (VNum c)) in *.
  destruct (do own <- get_num (view w1) n (u "count"); _) as [z|e]; [|split; [exact G1 | reflexivity]].
  destruct (set_same w0 w1 n (u "cum_count") (VNum z) G1 Fn) as [G2 V2]. cbn [fst snd done]. rewrite V2. split; [exact G2 | reflexivity].
Qed.
Lemma freq_same w0 total w n : good w0 w -> fresh w0 n -> good w0 (fst (s_freq_body total w n)) /\
  freq_body total (view w) tt n = (view (fst (s_freq_body total w n)), tt, done (snd (s_freq_body total w n))).
Proof.
  intros G Fn. unfold s_freq_body, freq_body. destruct (get_num (view w) n (u "cum_count")) as [z|e]; [|split; [exact G | reflexivity]].
  destruct (total =? 0); [split; [exact G | reflexivity]|].
  destruct (set_same w0 w n (u "freq") (VQuot z total) G Fn) as [G1 V1]. cbn [fst snd done]. rewrite V1. split; [exact G1 | reflexivity].
Qed.
Lemma s_tree_dist_ok cm fuel w self : sound w -> dicts w ->
  match s_tree_dist cm fuel w self with
  | Ok (w', r) => tree_dist cm fuel (view w) self = Ok (view w', r) /\ region w w'
  | Raise e => tree_dist cm fuel (view w) self = Raise e
  end.
Proof.
  intros S0 D. unfold s_tree_dist, tree_dist. pose proof (s_copy_ok w fuel w self (region_start w S0)) as C.
  destruct (s_copy fuel w self) as [[w1 r]|e]; cbn [bind]; [|rewrite C; reflexivity]. destruct C as (H1 & C & R). rewrite C. cbn [bind].
  destruct (copy_closed _ _ _ _ _ (dicts_keys w D) C) as (Cl & _ & _). rewrite length_view in Cl.
  assert (Fr : fresh w r) by (unfold fresh; lia).
  destruct (s_postorder_ok w (s_count_body cm) (count_body cm) (count_same w cm) fuel w1 [(r, false)]) as [G E].
  - split; assumption.
  - constructor; [exact Fr | constructor].
  - rewrite E. destruct (s_postorder (s_count_body cm) fuel w1 [(r, false)]) as [w2 [[]|e]]; cbn [fst snd done] in *; [|reflexivity].
    destruct (get_num (view w2) r (u "cum_count")) as [total|e]; cbn [bind]; [|reflexivity].
    destruct (s_preorder_ok w (s_freq_body total) (freq_body total) (freq_same w total) fuel w2 [r] G) as [G2 E2].
    + constructor; [exact Fr | constructor].
    + rewrite E2. destruct (s_preorder (s_freq_body total) fuel w2 [r]) as [w3 [[]|e]]; cbn [fst snd done] in *; [|reflexivity].
      split; [reflexivity | apply G2].
Qed.

(* ---- what every node sees of a change, shared or not ---- *)
Lemma share_kids_sym w a b : share_kids w a b -> share_kids w b a.
Proof. intros (n & m & A & B & C). exists m, n. auto. Qed.
Lemma with_kids_exact w a x b : sound w ->
  (share_kids w a b -> seen (with_kids w a x) b = set_children (seen w b) x) /\
  (~ share_kids w a b -> seen (with_kids w a x) b = seen w b).
Proof.
  intro S0. rewrite (seen_with_kids w S0). split.
  - intros (n & m & -> & -> & ->). rewrite Nat.eqb_refl. reflexivity.
  - intro N. destruct (nth_error (objs w) a) as [n|] eqn:A; [|reflexivity]. destruct (nth_error (objs w) b) as [m|] eqn:B; [|reflexivity].
    destruct (Nat.eqb_spec (s_children n) (s_children m)) as [E | E]; [|reflexivity]. exfalso. apply N. exists n, m. auto.
Qed.
Lemma with_atts_exact w a x b : sound w ->
  (share_atts w a b -> seen (with_atts w a x) b = set_attrib (seen w b) x) /\
  (~ share_atts w a b -> seen (with_atts w a x) b = seen w b).
Proof.
  intro S0. rewrite (seen_with_atts w S0). split.
  - intros (n & m & -> & -> & ->). rewrite Nat.eqb_refl. reflexivity.
  - intro N. destruct (nth_error (objs w) a) as [n|] eqn:A; [|reflexivity]. destruct (nth_error (objs w) b) as [m|] eqn:B; [|reflexivity].
    destruct (Nat.eqb_spec (s_attrib n) (s_attrib m)) as [E | E]; [|reflexivity]. exfalso. apply N. exists n, m. auto.
Qed.
Lemma with_parent_exact w a p b : (a < length (objs w))%nat -> seen (with_parent w a p) b = if Nat.eqb a b then set_parent (seen w b) p else seen w b.
Proof.
  intro L. rewrite seen_with_parent. destruct (Nat.eqb_spec a b) as [<- | N]; cbn [andb]; [|reflexivity].
  destruct (Nat.ltb_spec a (length (objs w))); [reflexivity | lia].
Qed.
Lemma put_kids_exact w d x b : sound w -> (d < length (kid_dicts w))%nat ->
  (holds_kids w b d -> seen (put_kids w d x) b = set_children (seen w b) x) /\ (~ holds_kids w b d -> seen (put_kids w d x) b = seen w b).
Proof.
  intros S0 L. destruct (nth_error (objs w) b) as [m|] eqn:B.
  - rewrite (seen_some w b m B), (seen_some (put_kids w d x) b m) by exact B.
    unfold shown, kid_dict, att_dict, put_kids, set_children; cbn [kid_dicts att_dicts label attrib parent]. split.
    + intros (n & E & <-). rewrite B in E. injection E as <-. rewrite fetch_put_same by exact L. reflexivity.
    + intro N. rewrite fetch_put_other; [reflexivity|]. intro E. apply N. exists m. auto.
  - split; [intros (n & E & _); congruence|]. intros _. rewrite (seen_none w b B), (seen_none (put_kids w d x) b) by exact B. reflexivity.
Qed.
Lemma put_atts_exact w d x b : sound w -> (d < length (att_dicts w))%nat ->
  (holds_atts w b d -> seen (put_atts w d x) b = set_attrib (seen w b) x) /\ (~ holds_atts w b d -> seen (put_atts w d x) b = seen w b).
Proof.
  intros S0 L. destruct (nth_error (objs w) b) as [m|] eqn:B.
  - rewrite (seen_some w b m B), (seen_some (put_atts w d x) b m) by exact B.
    unfold shown, kid_dict, att_dict, put_atts, set_attrib; cbn [kid_dicts att_dicts label children parent]. split.
    + intros (n & E & <-). rewrite B in E. injection E as <-. rewrite fetch_put_same by exact L. reflexivity.
    + intro N. rewrite fetch_put_other; [reflexivity|]. intro E. apply N. exists m. auto.
  - split; [intros (n & E & _); congruence|]. intros _. rewrite (seen_none w b B), (seen_none (put_atts w d x) b) by exact B. reflexivity.
Qed.
Lemma in_range w a : (a < length (objs w))%nat -> exists n, nth_error (objs w) a = Some n.
Proof. intro L. destruct (nth_error (objs w) a) as [n|] eqn:E; [eauto|]. apply nth_error_None in E. lia. Qed.

(* nodes given the same dictionary *)
Lemma make_sees w l c a p w' n : sound w -> make w l c a p = (w', n) -> forall b, (b < length (objs w))%nat -> seen w' b = seen w b.
Proof.
  intros S0 E b L. destruct (make_ok _ _ _ _ _ _ _ S0 E) as (_ & _ & V & _). unfold seen. rewrite V. apply at_app_old. rewrite length_view. exact L.
Qed.
Lemma make_holds w l c a p w' n : sound w -> make w l c a p = (w', n) ->
  (forall d, c = Some d -> kid_dict w d <> [] -> holds_kids w' n d) /\
  (forall d, a = Some d -> att_dict w d <> [] -> holds_atts w' n d) /\
  (given_kids w c = [] -> holds_kids w' n (length (kid_dicts w))) /\
  (given_atts w a = [] -> holds_atts w' n (length (att_dicts w))) /\
  (forall b d, (b < length (objs w))%nat -> holds_kids w' b d <-> holds_kids w b d) /\
  (forall b d, (b < length (objs w))%nat -> holds_atts w' b d <-> holds_atts w b d).
Proof.
  intros S0 E. destruct (make_ok _ _ _ _ _ _ _ S0 E) as (-> & _ & _ & (k & e & OB & K1 & K2 & A1 & A2) & _).
  assert (T : nth_error (objs w') (length (objs w)) = Some {| s_label := l; s_children := k; s_attrib := e; s_parent := p |}).
  { rewrite OB, nth_error_app2, Nat.sub_diag by lia. reflexivity. }
  split; [|split; [|split; [|split; [|split]]]].
  - intros d -> N. exists {| s_label := l; s_children := k; s_attrib := e; s_parent := p |}. split; [exact T|]. cbn. specialize (K1 N). congruence.
  - intros d -> N. exists {| s_label := l; s_children := k; s_attrib := e; s_parent := p |}. split; [exact T|]. cbn. specialize (A1 N). congruence.
  - intro N. eexists. split; [exact T|]. exact (K2 N).
  - intro N. eexists. split; [exact T|]. exact (A2 N).
  - intros b d L. unfold holds_kids. rewrite OB, nth_error_app1 by exact L. reflexivity.
  - intros b d L. unfold holds_atts. rewrite OB, nth_error_app1 by exact L. reflexivity.
Qed.
Lemma two_parents w d l1 a1 p1 w1 x l2 a2 p2 w2 y c : sound w -> kid_dict w d <> [] -> (c < length (objs w))%nat ->
  make w l1 (Some d) a1 p1 = (w1, x) -> make w1 l2 (Some d) a2 p2 = (w2, y) ->
  x <> y /\ dget (label (seen w c)) (children (seen (s_add_child w2 x c) y)) = Some c /\ parent (seen (s_add_child w2 x c) c) = Some x.
Proof.
  intros S0 N L E1 E2.
  destruct (make_ok _ _ _ _ _ _ _ S0 E1) as (X & S1 & V1 & (k1 & d1 & O1 & _) & (x1 & K1) & _).
  destruct (make_ok _ _ _ _ _ _ _ S1 E2) as (Y & S2 & V2 & (k2 & d2 & O2 & _) & _).
  assert (N1 : kid_dict w1 d <> []).
  { unfold kid_dict in *. rewrite K1. destruct (Nat.lt_ge_cases d (length (kid_dicts w))) as [Ld | Ld]; [rewrite fetch_app_old by exact Ld; exact N|].
    rewrite fetch_out in N by exact Ld. contradiction. }
  destruct (make_holds _ _ _ _ _ _ _ S0 E1) as (H1 & _). specialize (H1 d eq_refl N).
  destruct (make_holds _ _ _ _ _ _ _ S1 E2) as (H2 & _ & _ & _ & B2 & _). specialize (H2 d eq_refl N1).
  assert (Lx : (x < length (objs w1))%nat) by (rewrite O1, app_length; cbn [length]; lia).
  apply (proj2 (B2 x d Lx)) in H1. destruct H1 as (nx & Ex & Dx). destruct H2 as (ny & Ey & Dy).
  assert (Sh : share_kids w2 x y) by (exists nx, ny; repeat split; congruence).
  split; [rewrite X, Y, O1, app_length; cbn [length]; lia|].
  assert (Lc : (c < length (objs w2))%nat) by (rewrite O2, O1, !app_length; cbn [length]; lia).
  assert (Sc : seen w2 c = seen w c).
  { rewrite (make_sees _ _ _ _ _ _ _ S1 E2) by (rewrite O1, app_length; cbn [length]; lia). apply (make_sees _ _ _ _ _ _ _ S0 E1), L. }
  unfold s_add_child. rewrite !with_parent_exact by (rewrite (proj1 (ptrs_with_kids _ _ _)); exact Lc). rewrite Nat.eqb_refl. cbn [set_parent parent].
  split; [|reflexivity]. rewrite (proj1 (with_kids_exact w2 x _ y S2) Sh), Sc.
  assert (G : forall n, children (if Nat.eqb c y then set_parent n (Some x) else n) = children n) by (intro n; destruct (Nat.eqb c y); reflexivity).
  rewrite G. cbn [set_children children]. apply dget_dset_same.
Qed.
Lemma given_children w d l a p w' n k c : sound w -> make w l (Some d) a p = (w', n) -> In (k, c) (kid_dict w d) -> (c < length (objs w))%nat ->
  parent (seen w c) = None -> In (k, c) (children (seen w' n)) /\ parent (seen w' c) = None /\
  exists w'', s_unlink w' c = (w'', Ok tt) /\ In (k, c) (children (seen w'' n)).
Proof.
  intros S0 E I L P. destruct (make_ok _ _ _ _ _ _ _ S0 E) as (N & S1 & V & (k' & d' & OB & _) & _).
  assert (Sn : children (seen w' n) = kid_dict w d).
  { unfold seen. rewrite V, N, <- length_view, at_app_new. reflexivity. }
  assert (Sc : parent (seen w' c) = None) by (rewrite (make_sees _ _ _ _ _ _ _ S0 E) by exact L; exact P).
  split; [rewrite Sn; exact I|]. split; [exact Sc|]. unfold s_unlink. rewrite Sc. eexists. split; [reflexivity|].
  rewrite with_parent_exact by (rewrite OB, app_length; lia). destruct (Nat.eqb c n); cbn [set_parent children]; rewrite Sn; exact I.
Qed.
Lemma kept_dict w d l a p w' n x : sound w -> (d < length (kid_dicts w))%nat -> make w l (Some d) a p = (w', n) ->
  children (seen (put_kids w' d x) n) = match kid_dict w d with [] => [] | _ => x end.
Proof.
  intros S0 L E. destruct (make_ok _ _ _ _ _ _ _ S0 E) as (N & S1 & V & _ & (y & K) & _).
  destruct (make_holds _ _ _ _ _ _ _ S0 E) as (H1 & _ & H2 & _). specialize (H1 d eq_refl). cbn [given_kids] in H2.
  assert (L' : (d < length (kid_dicts w'))%nat) by (rewrite K, app_length; lia).
  destruct (put_kids_exact w' d x n S1 L') as [A B].
  assert (Sn : children (seen w' n) = kid_dict w d).
  { unfold seen. rewrite V, N, <- length_view, at_app_new. reflexivity. }
  destruct (kid_dict w d) as [|e r].
  - rewrite B; [exact Sn|]. intros (m & Em & Dm). destruct (H2 eq_refl) as (m' & Em' & Dm'). rewrite Em in Em'. injection Em' as <-. lia.
  - rewrite A by (apply H1; discriminate). reflexivity.
Qed.
Lemma add_child_exact w p c b : sound w -> (p < length (objs w))%nat -> (c < length (objs w))%nat ->
  let w' := s_add_child w p c in
  label (seen w' b) = label (seen w b) /\ attrib (seen w' b) = attrib (seen w b) /\
  (share_kids w p b -> children (seen w' b) = dset (label (seen w c)) c (children (seen w p))) /\
  (~ share_kids w p b -> children (seen w' b) = children (seen w b)) /\
  parent (seen w' b) = if Nat.eqb c b then Some p else parent (seen w b).
Proof.
  intros S0 Lp Lc w'. unfold w', s_add_child.
  set (x := dset (label (seen w c)) c (children (seen w p))). destruct (with_kids_exact w p x b S0) as [A B].
  rewrite with_parent_exact by (rewrite (proj1 (ptrs_with_kids _ _ _)); exact Lc).
  assert (D : seen (with_kids w p x) b = set_children (seen w b) x /\ share_kids w p b \/ seen (with_kids w p x) b = seen w b /\ ~ share_kids w p b).
  { destruct (in_range w p Lp) as [n En]. destruct (nth_error (objs w) b) as [m|] eqn:Eb.
    - destruct (Nat.eq_dec (s_children n) (s_children m)) as [Q | Q].
      + left. assert (Sh : share_kids w p b) by (exists n, m; auto). auto.
      + right. assert (Sh : ~ share_kids w p b) by (intros (n' & m' & Q1 & Q2 & Q3); congruence). auto.
    - right. assert (Sh : ~ share_kids w p b) by (intros (n' & m' & Q1 & Q2 & Q3); congruence). auto. }
  destruct D as [[-> D] | [-> D]]; destruct (Nat.eqb c b); cbn [set_parent set_children label attrib children parent]; repeat split; auto; contradiction.
Qed.
Lemma region_leaves w w' : region w w' -> sound w' /\ leaves w w'.
Proof. intros (S0 & O & _ & (D1 & D2) & F). split; [exact S0|]. split; [exact D1|]. split; [exact D2|]. split; [exact F | exact O]. Qed.
Lemma copy_shared fuel w self : sound w ->
  match s_copy fuel w self with
  | Ok (w', r) => copy fuel (view w) self = Ok (view w', r) /\ sound w' /\ leaves w w'
  | Raise e => copy fuel (view w) self = Raise e
  end.
Proof.
  intro S0. pose proof (s_copy_ok w fuel w self (region_start w S0)) as C. destruct (s_copy fuel w self) as [[w' r]|e]; [|exact C].
  destruct C as (A & B & _). split; [exact B | apply region_leaves, A].
Qed.
Lemma prune_shared predicate fuel w self : sound w -> dicts w ->
  match s_prune predicate fuel w self with
  | Ok (w', r) => prune predicate fuel (view w) self = Ok (view w', r) /\ sound w' /\ leaves w w'
  | Raise e => prune predicate fuel (view w) self = Raise e
  end.
Proof.
  intros S0 D. pose proof (s_prune_ok predicate fuel w self S0 D) as C. destruct (s_prune predicate fuel w self) as [[w' r]|e]; [|exact C].
  destruct C as (A & B). split; [exact A | apply region_leaves, B].
Qed.
Lemma tree_dist_shared cm fuel w self : sound w -> dicts w ->
  match s_tree_dist cm fuel w self with
  | Ok (w', r) => tree_dist cm fuel (view w) self = Ok (view w', r) /\ sound w' /\ leaves w w'
  | Raise e => tree_dist cm fuel (view w) self = Raise e
  end.
Proof.
  intros S0 D. pose proof (s_tree_dist_ok cm fuel w self S0 D) as C. destruct (s_tree_dist cm fuel w self) as [[w' r]|e]; [|exact C].
  destruct C as (A & B). split; [exact A | apply region_leaves, B].
Qed.
