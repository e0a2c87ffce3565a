(* Objects_proofs.v -- attributes of objects *)
From Verif Require Import Base PyText Objects_model Objects_spec.

Lemma lacks_dget {V} (d : dict str V) name : lacks d name <-> dget name d = None.
Proof.
  unfold lacks; split; intros H.
  - destruct (dget name d) as [v|] eqn:G; [|reflexivity]; elim (H v); apply dget_In, G.
  - intros v I; assert (D : In name (dkeys d)) by (apply in_map_iff; exists (name, v); split; [reflexivity|exact I]).
    apply In_key_dget in D; destruct D as [w D]; congruence.
Qed.
Lemma attribute_lacks {V} (o : object V) name : lacks (own V o) name -> lacks (of_class V o) name -> attribute V o name = Raise AttributeError.
Proof. intros A B; apply lacks_dget in A, B; unfold attribute; rewrite A, B; reflexivity. Qed.
Lemma set_all_class {V} slots (l : list (str * V)) : forall o, of_class V (set_all V slots o l) = of_class V o.
Proof.
  induction l as [|[k v] l IH]; intros o; [reflexivity|]; unfold set_all in *; cbn [fold_left]; rewrite IH.
  unfold set_attribute; cbn [fst snd]; destruct slots as [s|]; [destruct (mem k s)|]; reflexivity.
Qed.
Lemma set_all_lacks {V} slots (l : list (str * V)) name : (forall s, slots = Some s -> ~ In name s) -> (slots = None -> lacks l name) ->
  forall o, lacks (own V o) name -> lacks (own V (set_all V slots o l)) name.
Proof.
  intros S; induction l as [|[k v] l IH]; intros N o L; [exact L|]; unfold set_all in *; cbn [fold_left]; apply IH.
  { intros X; specialize (N X); intros w I; apply (N w); right; exact I. }
  assert (Q : k <> name -> lacks (dset k v (own V o)) name).
  { intros D; apply lacks_dget; rewrite dget_dset_other by congruence; apply lacks_dget, L. }
  unfold set_attribute; cbn [fst snd]; destruct slots as [s|].
  - destruct (mem k s) eqn:M; [|exact L]; apply Q; intros ->; apply (S s eq_refl), mem_In, M.
  - apply Q; intros ->; apply (N eq_refl v); left; reflexivity.
Qed.
