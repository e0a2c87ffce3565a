(* LoadEq_proofs.v -- places with the same labels below them are == *)
From Verif Require Import Base PyText PyFmt Rose Maps_model Place_model Place_spec Place_proofs DictEq_model DictEq_spec DictEq_proofs.

Lemma kids_of h a ks : tree_at h (Rose a ks) -> keyed h (Rose a ks) -> kids (at_ h a) = map (fun k => (label (at_ h (root k)), root k)) ks.
Proof.
  intros T Y. inversion T as [? ? K _]; subst. destruct (Y a (or_introl Logic.eq_refl)) as [_ L]. clear T Y.
  revert ks K L. generalize (kids (at_ h a)) as d. induction d as [|[k c] d IH]; intros [|t ks] K L; try discriminate; [reflexivity|].
  cbn [map dvals snd] in *. injection K as K1 K2. rewrite (L k c (or_introl Logic.eq_refl)), K1. f_equal. apply IH; [exact K2|intros; apply L; right; assumption].
Qed.
Lemma keyed_kid h a ks k : keyed h (Rose a ks) -> In k ks -> keyed h k.
Proof. intros Y I b B. apply Y. right. apply in_flat_map. eauto. Qed.
Lemma levels_alike {B} (f g : addr -> B) : forall t t', rosemap f t = rosemap g t' -> levels t = levels t'.
Proof.
  induction t as [x ks IH] using rose_rec_ind. intros [y js] E. cbn [rosemap] in E. injection E as _ E. cbn [levels]. do 2 f_equal.
  revert js E. induction IH as [|k ks H _ IHk]; intros [|j js] E; try discriminate; [reflexivity|]. cbn [map] in *. injection E as E1 E2. f_equal; auto.
Qed.
Definition lab (h : list place) (a : addr) : str := label (at_ h a).
Lemma root_lab h k j : rosemap (lab h) k = rosemap (lab h) j -> label (at_ h (root k)) = label (at_ h (root j)).
Proof. destruct k, j. cbn. intros [= E _]. exact E. Qed.
Lemma alike_eq h f : forall a ks b js, tree_at h (Rose a ks) -> tree_at h (Rose b js) -> keyed h (Rose a ks) -> keyed h (Rose b js) ->
  map (rosemap (lab h)) ks = map (rosemap (lab h)) js -> (levels (Rose a ks) <= f)%nat -> place_eq f h a b = Ok true.
Proof.
  induction f as [|f IH]; intros a ks b js T T' Y Y' E L; [cbn [levels] in L; lia|]. cbn [place_eq].
  pose proof (kids_of h a ks T Y) as Ka. pose proof (kids_of h b js T' Y') as Kb. destruct (Y' b (or_introl Logic.eq_refl)) as [N _].
  replace (length (kids (at_ h a))) with (length (kids (at_ h b)))
    by (rewrite Ka, Kb, !map_length; rewrite <- (map_length (rosemap (lab h)) js), <- E, map_length; reflexivity).
  rewrite Nat.eqb_refl. cbn [negb]. match goal with |- ?F _ = _ => set (all := F) end. rewrite Ka.
  inversion T as [? ? _ Fa]; inversion T' as [? ? _ Fb]; subst. rewrite Forall_forall in Fa, Fb.
  enough (X : forall l, incl l ks -> all (map (fun k => (label (at_ h (root k)), root k)) l) = Ok true) by (apply X, incl_refl).
  induction l as [|k l IHl]; intro I; [reflexivity|]. cbn [map]. unfold all; fold all.
  assert (Ik : In k ks) by (apply I; left; reflexivity).
  assert (J : exists j, In j js /\ rosemap (lab h) k = rosemap (lab h) j).
  { pose proof (in_map (rosemap (lab h)) _ _ Ik) as M. rewrite E in M. apply in_map_iff in M. destruct M as (j & M & Ij). exists j. auto. }
  destruct J as (j & Ij & R).
  assert (G : dget (label (at_ h (root k))) (kids (at_ h b)) = Some (root j)).
  { apply In_dget; [exact N|]. rewrite Kb, (root_lab h k j R). apply (in_map (fun k => (label (at_ h (root k)), root k))), Ij. }
  rewrite G. destruct (Nat.eqb _ _); [apply IHl; intros x Q; apply I; right; exact Q|].
  destruct k as [c cs] eqn:Qk, j as [d ds] eqn:Qj. cbn [root]. rewrite (IH c cs d ds).
  - cbn [bind]. apply IHl. intros x Q; apply I; right; exact Q.
  - apply Fa, Ik.
  - apply Fb, Ij.
  - exact (keyed_kid h a ks _ Y Ik).
  - exact (keyed_kid h b js _ Y' Ij).
  - cbn [rosemap] in R. injection R as _ R. exact R.
  - exact (levels_kid a ks _ f Ik L).
Qed.
(** the tree is still there in a longer store *)
Lemma tree_kept h h' : forall t, (forall a, In a (nodes t) -> at_ h' a = at_ h a) -> tree_at h t -> tree_at h' t.
Proof.
  induction t as [a ks IH] using rose_rec_ind. intros S T. inversion T as [? ? K F]; subst. constructor.
  - rewrite S by (left; reflexivity). exact K.
  - rewrite Forall_forall in *. intros k I. apply IH; [exact I| |apply F, I]. intros b B. apply S. right. apply in_flat_map. eauto.
Qed.
Lemma rosemap_kept {A B} (f g : A -> B) : forall t, (forall a, In a (nodes t) -> f a = g a) -> rosemap f t = rosemap g t.
Proof.
  induction t as [a ks IH] using rose_rec_ind. intros S. cbn [rosemap]. f_equal; [apply S; left; reflexivity|].
  apply map_ext_in. intros k I. rewrite Forall_forall in IH. apply IH; [exact I|]. intros b Q. apply S. right. apply in_flat_map. eauto.
Qed.
Lemma rosemap_rosemap {A B C} (f : A -> B) (g : B -> C) : forall t, rosemap g (rosemap f t) = rosemap (fun a => g (f a)) t.
Proof. induction t as [a ks IH] using rose_rec_ind. cbn [rosemap]. f_equal. rewrite map_map. apply map_ext_in. rewrite Forall_forall in IH. exact IH. Qed.
Lemma keyed_kept h h' t : (forall a, In a (nodes t) -> at_ h' a = at_ h a) -> tree_at h t -> keyed h t -> keyed h' t.
Proof.
  intros S T Y a I. rewrite S by exact I. destruct (Y a I) as [N L]. split; [exact N|]. intros k c J. rewrite (L k c J). f_equal. symmetry. apply S.
  clear -T I J. induction t as [b ks IH] using rose_rec_ind. inversion T as [? ? K F]; subst. rewrite Forall_forall in *. cbn [nodes] in *. destruct I as [->|I].
  - right. apply in_flat_map. pose proof (in_map snd _ _ J) as M. cbn in M. change (In c (dvals (kids (at_ h a)))) in M. rewrite <- K in M. apply in_map_iff in M. destruct M as (k' & <- & Ik). exists k'. split; [exact Ik|destruct k'; left; reflexivity].
  - right. apply in_flat_map in I. destruct I as (k' & Ik & I). apply in_flat_map. exists k'. split; [exact Ik|]. apply IH; auto.
Qed.
Lemma loaded_eq h h' t t' f : (forall a, In a (nodes t) -> at_ h' a = at_ h a) -> tree_at h t -> keyed h t -> tree_at h' t' -> keyed h' t' ->
  rosemap (details h') t' = rosemap (details h) t -> (levels t <= f)%nat ->
  place_eq f h' (root t) (root t') = Ok true /\ place_eq f h' (root t') (root t) = Ok true.
Proof.
  intros S T Y T' Y' E L. pose proof (levels_alike _ _ _ _ E) as Lv. pose proof (tree_kept h h' t S T) as T1. pose proof (keyed_kept h h' t S T Y) as Y1.
  assert (E1 : rosemap (lab h') t' = rosemap (lab h') t).
  { rewrite (rosemap_kept (lab h') (lab h) t) by (intros a I; unfold lab; rewrite S by exact I; reflexivity).
    pose proof (f_equal (rosemap (fun x : str * option str * option (list str) => fst (fst x))) E) as X. rewrite !rosemap_rosemap in X. exact X. }
  destruct t as [a ks], t' as [b js]. cbn [root]. cbn [rosemap] in E1. injection E1 as _ E1. split; apply alike_eq with (1 := T1) (2 := T') || apply alike_eq with (1 := T') (2 := T1); auto; lia.
Qed.
(** two trees with no place in common and more levels than calls *)
Lemma alike_deep h f : forall a ks b js, tree_at h (Rose a ks) -> tree_at h (Rose b js) -> keyed h (Rose a ks) -> keyed h (Rose b js) ->
  map (rosemap (lab h)) ks = map (rosemap (lab h)) js -> (forall x, In x (nodes (Rose a ks)) -> ~ In x (nodes (Rose b js))) ->
  (f < levels (Rose a ks))%nat -> place_eq f h a b = Raise RecursionError.
Proof.
  induction f as [|f IH]; intros a ks b js T T' Y Y' E D L; [reflexivity|]. cbn [place_eq].
  pose proof (kids_of h a ks T Y) as Ka. pose proof (kids_of h b js T' Y') as Kb. destruct (Y' b (or_introl Logic.eq_refl)) as [N _].
  replace (length (kids (at_ h a))) with (length (kids (at_ h b)))
    by (rewrite Ka, Kb, !map_length; rewrite <- (map_length (rosemap (lab h)) js), <- E, map_length; reflexivity).
  rewrite Nat.eqb_refl. cbn [negb]. match goal with |- ?F _ = _ => set (all := F) end. rewrite Ka.
  inversion T as [? ? _ Fa]; inversion T' as [? ? _ Fb]; subst. rewrite Forall_forall in Fa, Fb.
  assert (W : exists k, In k ks /\ (f < levels k)%nat).
  { cbn [levels] in L. apply Nat.succ_lt_mono in L. clear -L. induction ks as [|k ks IH]; cbn [map list_max fold_right] in L; [cbn in L; lia|].
    destruct (Nat.ltb_spec f (levels k)); [exists k; split; [left; reflexivity|assumption]|].
    destruct IH as (x & I & X); [unfold list_max in *; cbn in L; lia|exists x; split; [right; exact I|exact X]]. }
  enough (X : forall l, incl l ks -> (exists k, In k l /\ (f < levels k)%nat) -> all (map (fun k => (label (at_ h (root k)), root k)) l) = Raise RecursionError) by (apply X; [apply incl_refl|exact W]).
  induction l as [|k l IHl]; intros I [w [Iw Lw]]; [destruct Iw|]. cbn [map]. unfold all; fold all.
  assert (Ik : In k ks) by (apply I; left; reflexivity).
  assert (J : exists j, In j js /\ rosemap (lab h) k = rosemap (lab h) j).
  { pose proof (in_map (rosemap (lab h)) _ _ Ik) as M. rewrite E in M. apply in_map_iff in M. destruct M as (j & M & Ij). exists j. auto. }
  destruct J as (j & Ij & R).
  assert (G : dget (label (at_ h (root k))) (kids (at_ h b)) = Some (root j)).
  { apply In_dget; [exact N|]. rewrite Kb, (root_lab h k j R). apply (in_map (fun k => (label (at_ h (root k)), root k))), Ij. }
  assert (Dk : forall x, In x (nodes k) -> ~ In x (nodes j)).
  { intros x A B. apply (D x); right; apply in_flat_map; eauto. }
  rewrite G. destruct (Nat.eqb_spec (root k) (root j)) as [Q|_].
  { exfalso. apply (Dk (root k)); [destruct k; left; reflexivity|rewrite Q; destruct j; left; reflexivity]. }
  assert (Tk : tree_at h k) by (apply Fa, Ik). assert (Tj : tree_at h j) by (apply Fb, Ij).
  pose proof (keyed_kid h a ks _ Y Ik) as Yk. pose proof (keyed_kid h b js _ Y' Ij) as Yj.
  destruct (Nat.ltb_spec f (levels k)) as [Lk|Lk]; destruct k as [c cs], j as [d ds]; cbn [root]; cbn [rosemap] in R; injection R as _ R.
  - rewrite (IH c cs d ds); auto.
  - rewrite (alike_eq h f c cs d ds) by auto. cbn [bind]. apply IHl; [intros x Q; apply I; right; exact Q|].
    destruct Iw as [<-|Iw]; [lia|]. exists w. auto.
Qed.
Lemma loaded_deep h h' t t' f : (forall a, In a (nodes t) -> at_ h' a = at_ h a) -> tree_at h t -> keyed h t -> tree_at h' t' -> keyed h' t' ->
  rosemap (details h') t' = rosemap (details h) t -> (forall x, In x (nodes t) -> ~ In x (nodes t')) -> (f < levels t)%nat ->
  place_eq f h' (root t) (root t') = Raise RecursionError /\ place_eq f h' (root t') (root t) = Raise RecursionError.
Proof.
  intros S T Y T' Y' E D L. pose proof (levels_alike _ _ _ _ E) as Lv. pose proof (tree_kept h h' t S T) as T1. pose proof (keyed_kept h h' t S T Y) as Y1.
  assert (E1 : rosemap (lab h') t' = rosemap (lab h') t).
  { rewrite (rosemap_kept (lab h') (lab h) t) by (intros a I; unfold lab; rewrite S by exact I; reflexivity).
    pose proof (f_equal (rosemap (fun x : str * option str * option (list str) => fst (fst x))) E) as X. rewrite !rosemap_rosemap in X. exact X. }
  destruct t as [a ks], t' as [b js]. cbn [root]. cbn [rosemap] in E1. injection E1 as _ E1. split.
  - apply alike_deep with (1 := T1) (2 := T'); auto.
  - apply alike_deep with (1 := T') (2 := T1); auto; [|rewrite Lv; exact L]. intros x A B. exact (D x B A).
Qed.
Lemma leaf_loaded repr dv h b fuel text h' a x r :
  (forall s, (length s + 2 <= length (repr s))%nat) -> (forall s, no_break (repr s)) -> (b < length h)%nat ->
  kids (at_ h b) = [] -> word (label (at_ h b)) -> word (show_reading (reading (at_ h b))) -> aliases (at_ h b) = Some (x :: r) ->
  dump repr (S (S fuel)) h b = Ok text -> from_file dv h (file_lines text) = Ok (h', a) -> at_ h' b = at_ h b /\ kids (at_ h' a) = [].
Proof.
  intros R Rb Lb K Wb Wr A.
  assert (T : tree_at h (Rose b [])) by (constructor; [rewrite K; reflexivity|constructor]).
  pose proof (walk_ok h (S (S fuel)) (Rose b []) T ltac:(cbn; lia)) as W; cbn [root] in W.
  unfold dump; rewrite W; cbn [rmap pre flat_map snd fst app]; intros E; injection E as <-.
  rewrite app_nil_r, file_lines_line.
  - cbn [from_file]; destruct (from_line dv (to_line repr (at_ h b) 0 ++ [10])) as [[d p]|e] eqn:F; cbn [bind]; [|discriminate].
    destruct (Z.eqb_spec d 0); cbn [negb]; [|discriminate].
    cbn [file_lines lines_from load_loop bind]; intros E; injection E as <- <-; rewrite at_app_new. split.
    + unfold at_, fetch. apply app_nth1, Lb.
    + apply from_line_read in F. destruct F as (? & ? & ? & _ & _ & _ & _ & Q). exact Q.
  - unfold to_line; rewrite A; unfold repr_list; change (u " ") with [32]; change (u "[") with [91]; change (u "]") with [93].
    assert (N1 : forall c, c <> 10 -> c <> 13 -> no_break [c]) by (intros c X Y z [<-|[]]; split; assumption).
    repeat apply no_break_app; try (apply N1; discriminate).
    + apply solid_no_break, Wb.
    + apply solid_no_break, Wr.
    + apply no_break_join; [intros c [<-|[<-|[]]]; split; discriminate|].
      apply Forall_forall; intros y I; apply in_map_iff in I; destruct I as [z [<- I]]; apply Rb.
Qed.
