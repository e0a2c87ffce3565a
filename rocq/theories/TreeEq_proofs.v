(* TreeEq_proofs.v *)
From Verif Require Import Base Rose Maps_model Tree_model Tree_spec Tree_proofs TreeEq_spec.

Section Eq.
Variable veq : value -> value -> bool.
Hypothesis veq_refl : forall v, veq v v = true.

Lemma attrib_iff (d e : dict akey value) : NoDup (dkeys d) -> NoDup (dkeys e) ->
  Nat.eqb (length d) (length e) && forallb (fun kv => match dget (fst kv) e with Some v => veq (snd kv) v | None => false end) d = true <-> same_attrib veq d e.
Proof.
  intros Nd Ne; rewrite andb_true_iff, Nat.eqb_eq, forallb_forall; unfold same_attrib; split.
  - intros [L A].
    assert (S : forall k v, dget k d = Some v -> exists w, dget k e = Some w /\ veq v w = true).
    { intros k v G; apply dget_In in G; apply A in G; cbn [fst snd] in G; destruct (dget k e) as [w|]; [exists w; split; [reflexivity|exact G]|discriminate]. }
    assert (I : incl (dkeys e) (dkeys d)).
    { apply NoDup_length_incl; [exact Nd|unfold dkeys; rewrite !map_length; lia|].
      intros k J; apply In_key_dget in J; destruct J as [v G]; destruct (S _ _ G) as (w & G' & _); exact (dget_Some_key k w _ G'). }
    intros k; destruct (dget k d) as [v|] eqn:G; [destruct (S k v G) as (w & -> & V); exact V|].
    replace (dget k e) with (@None value); [exact Logic.I|].
    symmetry; apply dget_None; intros J; apply I in J; apply dget_None in G; contradiction.
  - intros E; split.
    + assert (A : incl (dkeys d) (dkeys e)).
      { intros k J; apply In_key_dget in J; destruct J as [v G]; specialize (E k); rewrite G in E; destruct (dget k e) as [w|] eqn:G'; [exact (dget_Some_key k w _ G')|destruct E]. }
      assert (B : incl (dkeys e) (dkeys d)).
      { intros k J; apply In_key_dget in J; destruct J as [v G]; specialize (E k); rewrite G in E; destruct (dget k d) as [w|] eqn:G'; [exact (dget_Some_key k w _ G')|destruct E]. }
      pose proof (NoDup_incl_length Nd A); pose proof (NoDup_incl_length Ne B); unfold dkeys in *; rewrite !map_length in *; lia.
    + intros [k v] I; cbn [fst snd]; specialize (E k); rewrite (In_dget k v d Nd I) in E; destruct (dget k e); [exact E|destruct E].
Qed.

Lemma keyed_unique h t : keyed h t -> forall t', keyed h t' -> root t = root t' -> t = t'.
Proof.
  induction t as [a ks IH] using rose_rec_ind; intros K [b js] K' E; cbn [root] in E; subst b.
  inversion K as [? ? _ _ C F]; inversion K' as [? ? _ _ C' F']; subst; f_equal; rewrite C in C'.
  clear K K' C; revert js C' F'; induction ks as [|k ks IHks]; intros [|j js] C' F'; try discriminate; [reflexivity|].
  cbn [map] in C'; injection C' as _ R C'; inversion IH; inversion F; inversion F'; subst.
  f_equal; [auto|apply IHks; assumption].
Qed.
Lemma alike_refl h t : alike veq h t t.
Proof.
  induction t as [a ks IH] using rose_rec_ind; rewrite Forall_forall in IH; constructor; [reflexivity|intros k; destruct (dget k _); [apply veq_refl|exact Logic.I]| |].
  - intros k I; exists k; split; [exact I|apply IH, I].
  - intros j I; exists j; split; [exact I|reflexivity].
Qed.
Lemma alike_label h t t' : alike veq h t t' -> label (at_ h (root t)) = label (at_ h (root t')).
Proof. inversion 1; assumption. Qed.

Lemma dget_child h k js d : dget k (map (fun k => (label (at_ h (root k)), root k)) js) = Some d ->
  exists j, In j js /\ root j = d /\ label (at_ h (root j)) = k.
Proof. intros E; apply dget_In, in_map_iff in E; destruct E as (j & [= A B] & J); exists j; repeat split; assumption. Qed.
Lemma label_unique h js j j' : NoDup (map (fun k => label (at_ h (root k))) js) -> In j js -> In j' js ->
  label (at_ h (root j)) = label (at_ h (root j')) -> j = j'.
Proof.
  induction js as [|x js IH]; intros N I J E; [destruct I|]; cbn [map] in N; inversion N as [|? ? A B]; subst.
  destruct I as [->|I], J as [->|J]; [reflexivity| | |apply IH; assumption].
  - elim A; rewrite E; apply (in_map (fun k => label (at_ h (root k)))), J.
  - elim A; rewrite <- E; apply (in_map (fun k => label (at_ h (root k)))), I.
Qed.
Lemma rsize_kid (k : rose addr) a ks : In k ks -> (rsize k < rsize (Rose a ks))%nat.
Proof.
  intros I; rewrite rsize_eq; apply in_split in I; destruct I as [l [r ->]]; rewrite flat_map_app, app_length; cbn [flat_map]; rewrite app_length; unfold rsize; lia.
Qed.

(** equality decides likeness *)
Theorem node_eq_alike fuel : forall h t t', keyed h t -> keyed h t' ->
  (forall a, In a (nodes t) \/ In a (nodes t') -> NoDup (dkeys (attrib (at_ h a)))) -> (rsize t < fuel)%nat ->
  exists e, node_eq veq fuel h (root t) (root t') = Ok e /\ (e = true <-> alike veq h t t').
Proof.
  induction fuel as [|f IH]; intros h [a ks] [b js] K K' W B; [lia|]; cbn [root node_eq].
  inversion K as [? ? La NDa Ca Ka]; inversion K' as [? ? Lb NDb Cb Kb]; subst.
  assert (Na : NoDup (map (fun k => label (at_ h (root k))) ks)) by (rewrite Ca in NDa; unfold dkeys in NDa; rewrite map_map in NDa; exact NDa).
  assert (Nb : NoDup (map (fun k => label (at_ h (root k))) js)) by (rewrite Cb in NDb; unfold dkeys in NDb; rewrite map_map in NDb; exact NDb).
  rewrite Forall_forall in Ka, Kb.
  destruct (eqb_spec (label (at_ h a)) (label (at_ h b))) as [EL|EL]; cbn [negb].
  2:{ exists false; split; [reflexivity|]; split; [discriminate|]; inversion 1; contradiction. }
  destruct (_ && forallb _ (attrib (at_ h a))) eqn:EA; cbn [negb].
  2:{ exists false; split; [reflexivity|]; split; [discriminate|]; inversion 1; subst.
      rewrite (proj2 (attrib_iff (attrib (at_ h a)) (attrib (at_ h b)) (W a (or_introl (or_introl eq_refl))) (W b (or_intror (or_introl eq_refl))))) in EA by assumption; discriminate. }
  apply attrib_iff in EA; [|apply W; left; left; reflexivity|apply W; right; left; reflexivity].
  rewrite Ca, Cb, !map_length.
  destruct (Nat.eqb_spec (length ks) (length js)) as [EN|EN]; cbn [negb].
  2:{ exists false; split; [reflexivity|]; split; [discriminate|]; inversion 1 as [? ? ? ? _ _ A1 A2]; subst; elim EN.
      assert (I1 : incl (map (fun k => label (at_ h (root k))) ks) (map (fun k => label (at_ h (root k))) js)).
      { intros x I; apply in_map_iff in I; destruct I as (k & <- & I); destruct (A1 k I) as (j & J & Al).
        rewrite (alike_label _ _ _ Al); apply (in_map (fun k => label (at_ h (root k)))), J. }
      assert (I2 : incl (map (fun k => label (at_ h (root k))) js) (map (fun k => label (at_ h (root k))) ks)).
      { intros x I; apply in_map_iff in I; destruct I as (j & <- & I); destruct (A2 j I) as (k & J & <-).
        apply (in_map (fun k => label (at_ h (root k)))), J. }
      pose proof (NoDup_incl_length Na I1); pose proof (NoDup_incl_length Nb I2); rewrite !map_length in *; lia. }
  (* the loop over the children *)
  match goal with |- exists e, ?F _ = Ok e /\ _ => set (loop := F) end.
  assert (L : forall l, (forall k, In k l -> In k ks) -> exists e, loop (map (fun k => (label (at_ h (root k)), root k)) l) = Ok e /\
     (e = true <-> forall k, In k l -> exists j, In j js /\ alike veq h k j)).
  { induction l as [|k l IHl]; intros Sub; [exists true; split; [reflexivity|]; split; [intros _ k []|reflexivity]|].
    destruct IHl as (e & E & Ee); [intros x I; apply Sub; right; exact I|].
    assert (Ik : In k ks) by (apply Sub; left; reflexivity).
    cbn [map]; unfold loop; fold loop.
    destruct (dget (label (at_ h (root k))) (map (fun k => (label (at_ h (root k)), root k)) js)) as [d|] eqn:D.
    - destruct (dget_child _ _ _ _ D) as (j & Ij & <- & Lj).
      assert (Kk : alike veq h k j -> (forall x, In x (k :: l) -> exists j, In j js /\ alike veq h x j) <-> (forall x, In x l -> exists j, In j js /\ alike veq h x j)).
      { intros Al; split; [intros A x I; apply A; right; exact I|intros A x [<-|I]; [exists j; split; assumption|apply A, I]]. }
      destruct (Nat.eqb_spec (root k) (root j)) as [R|R].
      + exists e; split; [exact E|]; rewrite Kk; [exact Ee|].
        rewrite (keyed_unique h k (Ka k Ik) j (Kb j Ij) R); apply alike_refl.
      + destruct (IH h k j (Ka k Ik) (Kb j Ij)) as (x & X & Xe).
        * intros c [I|I]; apply W; [left|right]; right; apply in_flat_map; [exists k|exists j]; split; assumption.
        * pose proof (rsize_kid k a ks Ik); lia.
        * rewrite X; cbn [bind]; destruct x.
          -- exists e; split; [exact E|]; rewrite Kk; [exact Ee|apply Xe; reflexivity].
          -- exists false; split; [reflexivity|]; split; [discriminate|]; intros A; destruct (A k (or_introl eq_refl)) as (j' & Ij' & Al).
             apply Xe; replace j with j'; [exact Al|]; apply (label_unique h js); [exact Nb|exact Ij'|exact Ij|].
             rewrite Lj; symmetry; apply alike_label, Al.
    - exists false; split; [reflexivity|]; split; [discriminate|]; intros A; destruct (A k (or_introl eq_refl)) as (j & Ij & Al).
      apply dget_None in D; elim D; unfold dkeys; rewrite map_map; cbn [fst]; rewrite (alike_label _ _ _ Al); apply (in_map (fun k => label (at_ h (root k)))), Ij. }
  destruct (L ks (fun k I => I)) as (e & E & Ee); exists e; split; [exact E|]; rewrite Ee; split.
  - intros A; constructor; [exact EL|exact EA|exact A|].
    assert (I : incl (map (fun k => label (at_ h (root k))) js) (map (fun k => label (at_ h (root k))) ks)).
    { apply NoDup_length_incl; [exact Na|rewrite !map_length; lia|].
      intros x I; apply in_map_iff in I; destruct I as (k & <- & I); destruct (A k I) as (j & J & Al).
      rewrite (alike_label _ _ _ Al); apply (in_map (fun k => label (at_ h (root k)))), J. }
    intros j J; apply (in_map (fun k => label (at_ h (root k)))), I, in_map_iff in J; destruct J as (k & X & J); exists k; split; assumption.
  - inversion 1; assumption.
Qed.

Lemma alike_sym h t (S : forall v w, veq v w = true -> veq w v = true) : forall t', keyed h t -> keyed h t' -> alike veq h t t' -> alike veq h t' t.
Proof.
  induction t as [a ks IH] using rose_rec_ind; intros [b js] K K' A; rewrite Forall_forall in IH.
  inversion K as [? ? _ _ Ca Ka]; inversion K' as [? ? _ NDb Cb Kb]; subst; rewrite Forall_forall in Ka, Kb.
  assert (Nb : NoDup (map (fun k => label (at_ h (root k))) js)) by (rewrite Cb in NDb; unfold dkeys in NDb; rewrite map_map in NDb; exact NDb).
  inversion A as [? ? ? ? L D A1 A2]; subst; constructor; [symmetry; exact L|intros k; specialize (D k); destruct (dget k (attrib (at_ h a))), (dget k (attrib (at_ h b))); auto| |].
  - intros j J; destruct (A2 j J) as (k & Ik & E); exists k; split; [exact Ik|]; destruct (A1 k Ik) as (j' & J' & Al).
    replace j with j'; [apply IH; [exact Ik|apply Ka, Ik|apply Kb, J'|exact Al]|].
    apply (label_unique h js); [exact Nb|exact J'|exact J|]; rewrite <- E; symmetry; apply alike_label, Al.
  - intros k Ik; destruct (A1 k Ik) as (j & J & Al); exists j; split; [exact J|symmetry; apply alike_label, Al].
Qed.
Lemma alike_trans h t (T : forall u v w, veq u v = true -> veq v w = true -> veq u w = true) : forall t1 t2, alike veq h t t1 -> alike veq h t1 t2 -> alike veq h t t2.
Proof.
  induction t as [a ks IH] using rose_rec_ind; intros [b js] [c ls] A B; rewrite Forall_forall in IH.
  inversion A as [? ? ? ? L D A1 A2]; inversion B as [? ? ? ? L' D' B1 B2]; subst; constructor.
  - rewrite L; exact L'.
  - intros k; specialize (D k); specialize (D' k); destruct (dget k (attrib (at_ h a))), (dget k (attrib (at_ h b))), (dget k (attrib (at_ h c))); try contradiction; try exact Logic.I; exact (T _ _ _ D D').
  - intros k I; destruct (A1 k I) as (j & J & X); destruct (B1 j J) as (l & Il & Y); exists l; split; [exact Il|exact (IH k I j l X Y)].
  - intros l Il; destruct (B2 l Il) as (j & J & E); destruct (A2 j J) as (k & I & E'); exists k; split; [exact I|rewrite E'; exact E].
Qed.
End Eq.
