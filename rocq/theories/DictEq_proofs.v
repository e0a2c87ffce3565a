(* DictEq_proofs.v *)
From Verif Require Import Base Corpus_model Corpus_spec Corpus_proofs Compare_model Rose Maps_model Place_model Place_spec DictEq_model DictEq_spec.

Lemma dict_eq_iff {K V} `{EqB K} (veq : V -> V -> bool) (d e : dict K V) : NoDup (dkeys d) -> NoDup (dkeys e) ->
  (dict_eq veq d e = true <-> forall k, answer_alike veq (dget k d) (dget k e)).
Proof.
  intros Nd Ne. unfold dict_eq. rewrite andb_true_iff, Nat.eqb_eq, forallb_forall. unfold answer_alike. split.
  - intros [L A].
    assert (S : forall k v, dget k d = Some v -> exists w, dget k e = Some w /\ veq v w = true).
    { intros k v G; apply dget_In in G; apply A in G; cbn [fst snd] in G; destruct (dget k e) as [w|]; [exists w; split; [reflexivity|exact G]|discriminate]. }
    assert (I : incl (dkeys e) (dkeys d)).
    { apply NoDup_length_incl; [exact Nd|unfold dkeys; rewrite !map_length; lia|].
      intros k J; apply In_key_dget in J; destruct J as [v G]; destruct (S _ _ G) as (w & G' & _); exact (dget_Some_key k w _ G'). }
    intros k; destruct (dget k d) as [v|] eqn:G; [destruct (S k v G) as (w & -> & X); exact X|].
    replace (dget k e) with (@None V); [exact Logic.I|].
    symmetry; apply dget_None; intros J; apply I in J; apply dget_None in G; contradiction.
  - intros E; split.
    + assert (A : incl (dkeys d) (dkeys e)).
      { intros k J; apply In_key_dget in J; destruct J as [v G]; specialize (E k); rewrite G in E; destruct (dget k e) as [w|] eqn:G'; [exact (dget_Some_key k w _ G')|destruct E]. }
      assert (B : incl (dkeys e) (dkeys d)).
      { intros k J; apply In_key_dget in J; destruct J as [v G]; specialize (E k); rewrite G in E; destruct (dget k d) as [w|] eqn:G'; [exact (dget_Some_key k w _ G')|destruct E]. }
      pose proof (NoDup_incl_length Nd A); pose proof (NoDup_incl_length Ne B); unfold dkeys in *; rewrite !map_length in *; lia.
    + intros [k v] I; cbn [fst snd]; specialize (E k); rewrite (In_dget k v d Nd I) in E; destruct (dget k e); [exact E|destruct E].
Qed.

Section Places.
  Variable h : list place.
  Hypothesis once : forall a, NoDup (dkeys (kids (at_ h a))).
  Lemma path_key a k p : (exists c, path_to h a (k :: p) c) <-> exists b, dget k (kids (at_ h a)) = Some b /\ exists c, path_to h b p c.
  Proof.
    split.
    - intros [c P]. inversion P; subst. eauto.
    - intros (b & G & c & P). exists c. econstructor; eassumption.
  Qed.
  Lemma same_iff a b : same_paths h a b <-> forall k, match dget k (kids (at_ h a)), dget k (kids (at_ h b)) with
    | Some c, Some d => same_paths h c d | None, None => True | _, _ => False end.
  Proof.
    split.
    - intros S k. assert (N : forall x, exists c, path_to h x [] c) by (intro x; exists x; constructor).
      destruct (dget k (kids (at_ h a))) as [c|] eqn:G, (dget k (kids (at_ h b))) as [d|] eqn:G'; [|exfalso|exfalso|exact I].
      + intro p. specialize (S (k :: p)). rewrite !path_key in S. rewrite G, G' in S. split; intro X.
        * destruct (proj1 S) as (y & [= <-] & Y); [eauto|exact Y].
        * destruct (proj2 S) as (y & [= <-] & Y); [eauto|exact Y].
      + pose proof (proj1 (S [k])) as X. rewrite !path_key in X. destruct X as (y & Y & _); [eauto|]. rewrite G' in Y. discriminate.
      + pose proof (proj2 (S [k])) as X. rewrite !path_key in X. destruct X as (y & Y & _); [eauto|]. rewrite G in Y. discriminate.
    - intros S [|k p]; [split; intros _; eexists; constructor|]. rewrite !path_key. specialize (S k).
      destruct (dget k (kids (at_ h a))) as [c|], (dget k (kids (at_ h b))) as [d|]; try destruct S.
      + split; intros (y & [= <-] & Y); [exists d|exists c]; (split; [reflexivity|]); apply S, Y.
      + split; intros (y & Y & _); discriminate.
  Qed.
  Lemma same_refl a : same_paths h a a.
  Proof. intro p. reflexivity. Qed.
  Lemma keys_length (d e : dict str addr) : NoDup (dkeys d) -> NoDup (dkeys e) -> (forall k, dget k d = None <-> dget k e = None) -> length d = length e.
  Proof.
    intros Nd Ne E. assert (X : forall d e : dict str addr, NoDup (dkeys d) -> (forall k, dget k d = None <-> dget k e = None) -> (length d <= length e)%nat).
    { clear. intros d e Nd E. rewrite <- (map_length fst d), <- (map_length fst e). apply NoDup_incl_length; [exact Nd|].
      intros k J. destruct (dget k e) as [w|] eqn:G; [exact (dget_Some_key k w _ G)|]. apply E in G. apply dget_None in G. contradiction. }
    apply Nat.le_antisymm; apply X; try assumption. intro k. symmetry. apply E.
  Qed.
  Lemma place_eq_right f : forall a b e, place_eq f h a b = Ok e -> (e = true <-> same_paths h a b).
  Proof.
    induction f as [|f IH]; intros a b e; [discriminate|]. cbn [place_eq].
    destruct (Nat.eqb_spec (length (kids (at_ h a))) (length (kids (at_ h b)))) as [L|L]; cbn [negb].
    2:{ intros [= <-]. split; [discriminate|]. intro S. elim L. apply keys_length; try apply once. intro k. rewrite same_iff in S. specialize (S k).
        destruct (dget k (kids (at_ h a))), (dget k (kids (at_ h b))); try destruct S; split; congruence. }
    match goal with |- ?F _ = _ -> _ => set (all := F) end.
    assert (A : forall l e, (forall k c, In (k, c) l -> dget k (kids (at_ h a)) = Some c) -> all l = Ok e ->
      (e = true <-> forall k c, In (k, c) l -> exists d, dget k (kids (at_ h b)) = Some d /\ same_paths h c d)).
    { induction l as [|[k c] l IHl]; intros x Sub.
      - intros [= <-]. split; [intros _ ? ? []|reflexivity].
      - unfold all; fold all. destruct (dget k (kids (at_ h b))) as [d|] eqn:G.
        + destruct (Nat.eqb_spec c d) as [<-|N].
          * intro E. rewrite (IHl x (fun k c I => Sub k c (or_intror I)) E). split; intros Q k' c' I; [destruct I as [[= <- <-]|I]; [exists c; split; [exact G|apply same_refl]|exact (Q _ _ I)]|exact (Q _ _ (or_intror I))].
          * destruct (place_eq f h c d) as [y|] eqn:Y; [|discriminate]. cbn [bind]. pose proof (IH c d y Y) as R. destruct y.
            -- intro E. rewrite (IHl x (fun k c I => Sub k c (or_intror I)) E). pose proof (proj1 R Logic.eq_refl) as R'.
               split; intros Q k' c' I; [destruct I as [[= <- <-]|I]; [exists d; split; [exact G|exact R']|exact (Q _ _ I)]|exact (Q _ _ (or_intror I))].
            -- intros [= <-]. split; [discriminate|]. intro Q. destruct (Q k c (or_introl Logic.eq_refl)) as (d' & G' & S). rewrite G in G'. injection G' as <-. apply R, S.
        + intros [= <-]. split; [discriminate|]. intro Q. destruct (Q k c (or_introl Logic.eq_refl)) as (d & G' & _). congruence. }
    intro E. rewrite (A _ e (fun k c I => In_dget k c _ (once a) I) E), same_iff. split.
    - intros Q k. destruct (dget k (kids (at_ h a))) as [c|] eqn:G.
      + destruct (Q k c (dget_In _ _ _ G)) as (d & -> & S). exact S.
      + destruct (dget k (kids (at_ h b))) as [d|] eqn:G'; [|exact I]. exfalso.
        assert (J : incl (dkeys (kids (at_ h b))) (dkeys (kids (at_ h a)))).
        { apply NoDup_length_incl; [apply once|unfold dkeys; rewrite !map_length; lia|].
          intros x J. apply In_key_dget in J. destruct J as [v J]. destruct (Q x v (dget_In _ _ _ J)) as (w & W & _). exact (dget_Some_key x w _ W). }
        apply dget_None in G. apply G, J. exact (dget_Some_key k d _ G').
    - intros S k c Ik. specialize (S k). rewrite (In_dget k c _ (once a) Ik) in S. destruct (dget k (kids (at_ h b))) as [d|]; [exists d; split; [reflexivity|exact S]|destruct S].
  Qed.
End Places.
Lemma place_eq_error h f : forall a b e, place_eq f h a b = Raise e -> e = RecursionError.
Proof.
  induction f as [|f IH]; intros a b e; [intros [= <-]; reflexivity|]. cbn [place_eq].
  destruct (negb _); [discriminate|].
  generalize (kids (at_ h a)) as l. induction l as [|[k c] l IHl]; [discriminate|].
  destruct (dget k (kids (at_ h b))) as [d|]; [|discriminate]. destruct (Nat.eqb c d); [exact IHl|].
  destruct (place_eq f h c d) as [x|y] eqn:X; cbn [bind].
  - destruct x; [exact IHl|discriminate].
  - intros [= <-]. exact (IH _ _ _ X).
Qed.
Lemma place_kid h a ks k c : tree_at h (Rose a ks) -> In (k, c) (kids (at_ h a)) -> exists t, In t ks /\ root t = c /\ tree_at h t.
Proof.
  intros T I. inversion T as [? ? K F]; subst. assert (J : In c (map root ks)) by (rewrite K; exact (in_map snd _ _ I)).
  apply in_map_iff in J. destruct J as (t & R & J). exists t. rewrite Forall_forall in F. auto.
Qed.
Lemma levels_kid (a : addr) ks k f : In k ks -> (levels (Rose a ks) <= S f)%nat -> (levels k <= f)%nat.
Proof. intros I L. cbn [levels] in L. apply le_S_n in L. apply list_max_le in L. rewrite Forall_forall in L. apply L, in_map, I. Qed.
Lemma place_eq_enough h f : forall t t', tree_at h t -> tree_at h t' -> (levels t <= f \/ levels t' <= f)%nat -> exists e, place_eq f h (root t) (root t') = Ok e.
Proof.
  induction f as [|f IH]; intros [a ks] [b js] T T' L; [cbn [levels] in L; lia|]. cbn [root place_eq].
  destruct (negb _); [eauto|].
  assert (Sub : forall k c, In (k, c) (kids (at_ h a)) -> exists t, In t ks /\ root t = c /\ tree_at h t) by (intros k c; apply place_kid, T).
  revert Sub. generalize (kids (at_ h a)) as l. induction l as [|[k c] l IHl]; intro Sub; [eauto|].
  specialize (IHl (fun k c I => Sub k c (or_intror I))).
  destruct (dget k (kids (at_ h b))) as [d|] eqn:D; [|eauto]. destruct (Nat.eqb c d); [exact IHl|].
  destruct (Sub k c (or_introl Logic.eq_refl)) as (x & Ix & <- & Tx). destruct (place_kid h b js k d T' (dget_In _ _ _ D)) as (y & Iy & <- & Ty).
  destruct (IH x y Tx Ty) as [e E].
  { destruct L as [L|L]; [left; exact (levels_kid a ks x f Ix L)|right; exact (levels_kid b js y f Iy L)]. }
  rewrite E. cbn [bind]. destruct e; [exact IHl|eauto].
Qed.
