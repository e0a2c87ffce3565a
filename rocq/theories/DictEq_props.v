(* DictEq_props.v -- C146 *)
From Verif Require Import Base PyStr PyText Corpus_model Corpus_spec Corpus_proofs Compare_model Kanjidic_model Radk_model Rose Maps_model Place_model Place_spec DictEq_model DictEq_spec DictEq_proofs.

(** C146: places are == exactly when the same labels in a row lead somewhere from both.
    [limit] calls fit on the stack: an answer is the right answer, nothing but
    RecursionError is raised, and trees with no more levels are compared *)
Theorem C146_places h a b limit e : (forall a, NoDup (dkeys (kids (at_ h a)))) -> place_eq limit h a b = Ok e -> (e = true <-> same_paths h a b).
Proof. intro N. exact (place_eq_right h N limit a b e). Qed.
Print Assumptions C146_places.
Theorem C146_places_errors h a b limit e : place_eq limit h a b = Raise e -> e = RecursionError.
Proof. exact (place_eq_error h limit a b e). Qed.
Print Assumptions C146_places_errors.
Theorem C146_places_enough h t t' limit : tree_at h t -> tree_at h t' -> (levels t <= limit \/ levels t' <= limit)%nat -> exists e, place_eq limit h (root t) (root t') = Ok e.
Proof. exact (place_eq_enough h limit t t'). Qed.
Print Assumptions C146_places_enough.
(** so all places without children are equal, and equal to an empty dictionary *)
Theorem C146_leaves h a b limit : kids (at_ h a) = [] -> kids (at_ h b) = [] -> place_eq (S limit) h a b = Ok true.
Proof. intros A B. cbn [place_eq]. rewrite A, B. reflexivity. Qed.
Print Assumptions C146_leaves.

(** a place compared with itself needs one call, even if it contains itself *)
Theorem C146_itself h a limit : NoDup (dkeys (kids (at_ h a))) -> place_eq (S limit) h a a = Ok true.
Proof.
  intro N. cbn [place_eq]. rewrite Nat.eqb_refl. cbn [negb].
  match goal with |- ?F _ = _ => set (all := F) end.
  enough (X : forall l, (forall k c, In (k, c) l -> dget k (kids (at_ h a)) = Some c) -> all l = Ok true) by (apply X; intros k c; apply In_dget, N).
  induction l as [|[k c] l IH]; intro Q; [reflexivity|]. unfold all; fold all. rewrite (Q k c (or_introl Logic.eq_refl)), Nat.eqb_refl. apply IH. intros; apply Q; right; assumption.
Qed.
Print Assumptions C146_itself.
(** dictionaries are == exactly when all lookups answer alike *)
Theorem C146_dicts K V (E : EqB K) (veq : V -> V -> bool) (d e : dict K V) : NoDup (dkeys d) -> NoDup (dkeys e) ->
  (dict_eq veq d e = true <-> forall k, answer_alike veq (dget k d) (dget k e)).
Proof. exact (dict_eq_iff veq d e). Qed.
Print Assumptions C146_dicts.
(** and so are a reader and a dictionary, on whichever side the reader is *)
Theorem C146_reader_dict K V F (E : EqB K) (veq : V -> V -> bool) same_object (other_eq : F -> thing K V F -> answer) i m ks f j d : represents m ks f -> NoDup (dkeys d) ->
  exists b, equal veq same_object other_eq (Reader i m) (Dict j d) = Ok b /\ equal veq same_object other_eq (Dict j d) (Reader i m) = Ok b /\
    (b = true <-> forall k, answer_alike veq (f k) (dget k d)).
Proof.
  intros R N. destruct (rep_items m ks f R) as (vs & I & _ & Fa). destruct R as (_ & Nk & D & _).
  exists (dict_eq veq (combine ks vs) d). unfold equal, thing_eq, mapping_eq, dict_dunder_eq. rewrite I. cbn [bind].
  rewrite (dict_of_nodup (combine ks vs)) by (rewrite (combine_fst _ _ _ Fa); exact Nk). rewrite (dict_of_nodup d) by exact N. cbn [of_try rich].
  split; [reflexivity|]. split; [reflexivity|]. rewrite dict_eq_iff; [|unfold dkeys; rewrite (combine_fst _ _ _ Fa); exact Nk|exact N].
  split; intros A k; specialize (A k); rewrite (combine_get ks vs f k Nk D Fa) in *; exact A.
Qed.
Print Assumptions C146_reader_dict.
(** a reader whose items cannot be read makes the comparison fail; of two, the left one's failure is seen *)
Theorem C146_reader_errors K V F (E : EqB K) (veq : V -> V -> bool) same_object (other_eq : F -> thing K V F -> answer) i m e : m_items m = Raise e ->
  (forall j d, equal veq same_object other_eq (Reader i m) (Dict j d) = Raise e /\ equal veq same_object other_eq (Dict j d) (Reader i m) = Raise e) /\
  (forall j m', equal veq same_object other_eq (Reader i m) (Reader j m') = Raise e) /\
  (forall j m' l, m_items m' = Ok l -> equal veq same_object other_eq (Reader j m') (Reader i m) = Raise e).
Proof.
  intro A. unfold equal, thing_eq, mapping_eq, dict_dunder_eq, m_eq. split; [|split].
  - intros j d. rewrite A. split; reflexivity.
  - intros j m'. rewrite A. reflexivity.
  - intros j m' l B. rewrite B, A. reflexivity.
Qed.
Print Assumptions C146_reader_errors.
(** an object that is no mapping decides by its own __eq__; otherwise it is unequal *)
Theorem C146_others K V F (E : EqB K) (veq : V -> V -> bool) same_object (other_eq : F -> thing K V F -> answer) x f : (forall g, x <> Other g) ->
  equal veq same_object other_eq x (Other f) = match other_eq f x with Says b => Ok b | Throws e => Raise e | NotImpl => Ok false end /\
  equal veq same_object other_eq (Other f) x = match other_eq f x with Says b => Ok b | Throws e => Raise e | NotImpl => Ok false end.
Proof. intro N. destruct x as [i m|i d|g]; [| |elim (N g); reflexivity]; unfold equal, rich; cbn [thing_eq mapping_eq dict_dunder_eq same_thing]; destruct (other_eq f _); split; reflexivity. Qed.
Print Assumptions C146_others.

(** dictionaries of entries are == exactly when they hold the same objects; *)
Theorem C146_entries K (E : EqB K) (a b : dict K addr) : NoDup (dkeys a) -> NoDup (dkeys b) -> (entry_dict_eq a b = true <-> forall k, dget k a = dget k b).
Proof.
  intros A B. unfold entry_dict_eq. rewrite (dict_eq_iff Nat.eqb a b A B). unfold answer_alike. split; intros H k; specialize (H k).
  - destruct (dget k a), (dget k b); try contradiction; [apply Nat.eqb_eq in H; subst; reflexivity|reflexivity].
  - rewrite H. destruct (dget k b); [apply Nat.eqb_refl|exact I].
Qed.
Print Assumptions C146_entries.
(** so two that were loaded one after the other are equal only if both are empty *)
Lemma entry_keys {K X} first (d : dict K X) : dkeys (entry_objects first d) = dkeys d.
Proof.
  unfold entry_objects. assert (L : length (dkeys d) = length (seq first (length d))) by (unfold dkeys; rewrite map_length, seq_length; reflexivity).
  revert L. generalize (seq first (length d)) as s. generalize (dkeys d) as l. induction l as [|k l IH]; intros [|x s] L; try discriminate; [reflexivity|].
  cbn [combine dkeys map fst]. f_equal. apply IH. cbn in L. lia.
Qed.
Lemma entry_range {K X} `{EqB K} first (d : dict K X) k a : dget k (entry_objects first d) = Some a -> (first <= a < first + length d)%nat.
Proof. intro G. apply dget_In in G. apply in_combine_r in G. apply in_seq in G. lia. Qed.
Theorem C146_loaded_twice K X (E : EqB K) (d d' : dict K X) n n' : NoDup (dkeys d) -> NoDup (dkeys d') -> (n + length d <= n')%nat ->
  (entry_dict_eq (entry_objects n d) (entry_objects n' d') = true <-> d = [] /\ d' = []).
Proof.
  intros N N' L. split; [|intros [-> ->]; reflexivity]. intro Q0.
  pose proof (proj1 (C146_entries K E (entry_objects n d) (entry_objects n' d') ltac:(rewrite entry_keys; exact N) ltac:(rewrite entry_keys; exact N')) Q0) as Q.
  assert (Z : forall k, dget k (entry_objects n d) = None /\ dget k (entry_objects n' d') = None).
  { intro k. rewrite <- (Q k). destruct (dget k (entry_objects n d)) as [a|] eqn:G; [|split; reflexivity]. pose proof (entry_range _ _ _ _ G). rewrite (Q k) in G. pose proof (entry_range _ _ _ _ G). lia. }
  assert (Y : forall first (e : dict K X), (forall k, dget k (entry_objects first e) = None) -> e = []).
  { intros first [|[k v] e] H; [reflexivity|]. specialize (H k). cbn in H. rewrite eqb_refl in H. discriminate. }
  split; [apply (Y n)|apply (Y n')]; intro k; apply Z.
Qed.
Print Assumptions C146_loaded_twice.

(** ** what is false *)
(** Equal places have the same label, reading and aliases; or the same in the places below them *)
Definition map1 : list place :=
  [{| label := u "日本"; reading := Some (u "にほん"); aliases := None; kids := [(u "東京", 1%nat)] |};
   {| label := u "東京"; reading := Some (u "とうきょう"); aliases := None; kids := [] |};
   {| label := u "大和"; reading := None; aliases := Some [u "倭"]; kids := [(u "東京", 3%nat)] |};
   {| label := u "東京"; reading := Some (u "とうけい"); aliases := None; kids := [] |};
   {| label := u "京都"; reading := None; aliases := None; kids := [] |}].
Theorem C146_details_refuted : exists h a b c d k, place_eq 9 h a b = Ok true /\ label (at_ h a) <> label (at_ h b) /\ reading (at_ h a) <> reading (at_ h b) /\ aliases (at_ h a) <> aliases (at_ h b) /\
  dget k (kids (at_ h a)) = Some c /\ dget k (kids (at_ h b)) = Some d /\ reading (at_ h c) <> reading (at_ h d).
Proof. exists map1, 0%nat, 2%nat, 1%nat, 3%nat, (u "東京"). split; [vm_compute; reflexivity|]. repeat split; vm_compute; reflexivity || discriminate. Qed.
Print Assumptions C146_details_refuted.
(** A Kanjidic loaded again from the same files is equal to the first *)
Theorem C146_again_refuted : exists files d, init ascii_dv files = Ok d /\ entry_dict_eq (entry_objects 0 d) (entry_objects (length d) d) = false.
Proof. exists [[u "亜 3021 S7 P4-7-1 ア {Asia}"]]. eexists. split; [vm_compute; reflexivity|vm_compute; reflexivity]. Qed.
Print Assumptions C146_again_refuted.
(** Equal RadkDicts count the same strokes; their order of radicals does not matter *)
Definition tuple_eq (a b : list (option (list Z))) : bool := eqb a b.
Theorem C146_strokes_refuted : exists lines lines' r r', parse_radkfile ascii_dv lines = Ok r /\ parse_radkfile ascii_dv lines' = Ok r' /\
  dict_eq tuple_eq (items r) (items r') = true /\ radical_to_stroke_count r <> radical_to_stroke_count r'.
Proof. exists [u "$ 一 1"; u "亜"], [u "$ 一 2"; u "亜"]. eexists. eexists. split; [vm_compute; reflexivity|]. split; [vm_compute; reflexivity|]. split; [vm_compute; reflexivity|]. vm_compute. discriminate. Qed.
Print Assumptions C146_strokes_refuted.
Theorem C146_order_refuted : exists lines lines' r r', parse_radkfile ascii_dv lines = Ok r /\ parse_radkfile ascii_dv lines' = Ok r' /\
  (forall k x, In x (match dget k (items r) with Some l => l | None => [] end) <-> In x (match dget k (items r') with Some l => l | None => [] end)) /\
  dict_eq tuple_eq (items r) (items r') = false.
Proof.
  exists [u "$ 一 1"; u "亜"; u "$ 口 3"; u "亜"], [u "$ 口 3"; u "亜"; u "$ 一 1"; u "亜"]. eexists. eexists. split; [vm_compute; reflexivity|]. split; [vm_compute; reflexivity|]. split; [|vm_compute; reflexivity].
  intros k x. cbn [items dget]. destruct (eqb k _); cbn [In]; tauto.
Qed.
Print Assumptions C146_order_refuted.
(** ** cases *)
Example C146_case_places : (forall a, NoDup (dkeys (kids (at_ map1 a)))) /\ place_eq 2 map1 0 2 = Ok true /\ place_eq 1 map1 0 2 = Raise RecursionError /\ place_eq 1 map1 1 4 = Ok true /\ place_eq 1 map1 0 0 = Ok true /\ place_eq 2 map1 0 1 = Ok false /\
  tree_at map1 (Rose 0 [Rose 1 []])%nat /\ levels (Rose 0 [Rose 1 []])%nat = 2%nat.
Proof.
  split; [|repeat split; try (vm_compute; reflexivity); repeat (constructor; try reflexivity)].
  intro a. do 5 (destruct a as [|a]; [vm_compute; repeat constructor; intros []|]). unfold at_, fetch, map1. cbn [nth]. destruct a; constructor.
Qed.
Definition reader1 : mapping Z str := mkmapping (fun k => if k =? 1 then Ok (u "a") else Raise KeyError) (Ok [1]).
Example C146_case_mixed : represents reader1 [1] (fun k => if k =? 1 then Some (u "a") else None) /\
  equal (V := str) (F := bool) eqb Bool.eqb (fun _ _ => NotImpl) (Reader 0 reader1) (Dict 1 [(1, u "a")]) = Ok true /\
  equal (V := str) (F := bool) eqb Bool.eqb (fun _ _ => NotImpl) (Dict 1 [(1, u "b")]) (Reader 0 reader1) = Ok false /\
  equal (V := str) (F := bool) eqb Bool.eqb (fun b _ => if b then Says true else NotImpl) (Reader 0 reader1) (Other true) = Ok true /\
  equal (V := str) (F := bool) eqb Bool.eqb (fun b _ => if b then Says true else NotImpl) (Dict 0 []) (Other false) = Ok false.
Proof.
  split; [|vm_compute; repeat split]. split; [reflexivity|]. split; [repeat constructor; intros []|]. split; intro k.
  - split; [intros [<-|[]]; discriminate|]. cbn beta. destruct (Z.eqb_spec k 1) as [Q|M]; [left; symmetry; exact Q|intro N; elim N; reflexivity].
  - cbn. destruct (k =? 1); reflexivity.
Qed.
Definition reader2 : mapping Z str := mkmapping (fun _ => Raise KeyError) (Ok [1]).
Definition reader3 : mapping Z str := mkmapping (fun _ => Raise KeyError) (Raise ValueError).
Example C146_case_reader_errors : m_items reader2 = Raise KeyError /\ m_items reader3 = Raise ValueError /\
  equal (V := str) (F := bool) eqb Bool.eqb (fun _ _ => NotImpl) (Reader 0 reader2) (Reader 1 reader3) = Raise KeyError /\
  equal (V := str) (F := bool) eqb Bool.eqb (fun _ _ => NotImpl) (Reader 1 reader3) (Reader 0 reader2) = Raise ValueError /\
  equal (V := str) (F := bool) eqb Bool.eqb (fun _ _ => NotImpl) (Reader 0 reader1) (Reader 1 reader3) = Raise ValueError.
Proof. vm_compute. repeat split. Qed.
