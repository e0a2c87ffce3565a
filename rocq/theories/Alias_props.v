(* Alias_props.v -- property C112: objects handed out by memory_proxy *)
From Verif Require Import Base SmartCache_model SmartCache_spec SmartCache_proofs Alias_model Alias_spec Alias_proofs.

(** ** C112.  For every history of calls and of changes made by the receivers: a
    call finds the one object of its key, with all changes made to it so far
    through whichever call, and none made to the objects of other keys. *)
Theorem C112_one_object_per_key : forall (O V : Type) oeq hashable (build : list O * list (str * O) -> res V),
  equivalence oeq -> (forall k k', key_eq oeq k k' = true -> build k = build k') ->
  forall h, shared oeq hashable build h = one_each oeq hashable build (fun _ => None) [] h.
Proof. intros O V oeq hashable build E B h; exact (shared_one_each oeq hashable build E B h). Qed.
Print Assumptions C112_one_object_per_key.

(** as long as nobody changes what was handed out, every call finds what the
    method builds *)
Theorem C112_unchanged_partial : forall (O V : Type) oeq hashable (build : list O * list (str * O) -> res V),
  equivalence oeq -> (forall k k', key_eq oeq k k' = true -> build k = build k') ->
  forall ks, shared oeq hashable build (map (fun k => Call k) ks) =
             map (fun k => if key_hashable hashable k then build k else Raise TypeError) ks.
Proof.
  intros O V oeq hashable build E B ks; rewrite (shared_one_each oeq hashable build E B).
  apply (one_each_calls oeq hashable build E B); discriminate.
Qed.
Print Assumptions C112_unchanged_partial.

(** for every method and key: a change made by one receiver is what the next
    caller gets *)
Theorem C112_change_refuted : forall (O V : Type) oeq hashable (build : list O * list (str * O) -> res V),
  equivalence oeq -> (forall k k', key_eq oeq k k' = true -> build k = build k') ->
  forall k v f, key_hashable hashable k = true -> build k = Ok v ->
  shared oeq hashable build [Call k; Change 0 f; Call k] = [Ok v; Ok (f v)].
Proof.
  intros O V oeq hashable build E B k v f H Bk; rewrite (shared_one_each oeq hashable build E B).
  cbn [one_each app nth_error]; unfold built, changed.
  rewrite H, (e_refl _ (key_eq_equiv oeq E)), Bk; cbn [andb option_map]; rewrite ?H, ?(e_refl _ (key_eq_equiv oeq E)); reflexivity.
Qed.
Print Assumptions C112_change_refuted.

(** the same keyword arguments in another order are another key: the method is
    invoked again, and its object is another one *)
Theorem C112_keyword_order_refuted : forall (O V : Type) oeq hashable (build : list O * list (str * O) -> res V) args x y a b v w f,
  equivalence oeq -> x <> y ->
  let k := (args, [(x, a); (y, b)]) in let k' := (args, [(y, b); (x, a)]) in
  key_hashable hashable k = true -> build k = Ok v -> build k' = Ok w ->
  shared oeq hashable build [Call k; Change 0 f; Call k'; Call k] = [Ok v; Ok w; Ok (f v)].
Proof.
  intros O V oeq hashable build args x y a b v w f E N k k' H Bk Bk'.
  assert (H' : key_hashable hashable k' = true).
  { unfold key_hashable, k, k' in *; cbn [fst snd forallb] in *; apply andb_true_iff in H; destruct H as [H1 H2]; rewrite H1.
    rewrite !andb_true_iff in H2; destruct H2 as [H2 [H3 _]]; rewrite H2, H3; reflexivity. }
  assert (D : key_eq oeq k' k = false) by (apply keyword_order; congruence).
  pose proof (e_refl _ (key_eq_equiv oeq E)) as R.
  unfold shared; cbn [share]; unfold memory_call, building; cbn [mget].
  rewrite H, Bk; cbn [length app nth_error of_option change mget]; rewrite H', D, Bk'.
  cbn [length app nth_error of_option mget]; rewrite (R k); reflexivity.
Qed.
Print Assumptions C112_keyword_order_refuted.

(** lists as objects: two calls share one, the third key has its own *)
Example C112_case :
  let build := fun k : list Z * list (str * Z) => match fst k with [0] => Raise ValueError | l => Ok l end in
  let k a := ([a], []) : list Z * list (str * Z) in
  shared Z.eqb (fun x => x <? 9) build
    [Call (k 4); Call (k 5); Change 0 (fun l => l ++ [7]); Call (k 4); Call (k 5); Call (k 0); Change 4 (fun l => [1]); Call (k 9);
     Change 2 (fun l => 8 :: l); Call (k 4)] =
  [Ok [4]; Ok [5]; Ok [4; 7]; Ok [5]; Raise ValueError; Raise TypeError; Ok [8; 4; 7]].
Proof. vm_compute; reflexivity. Qed.
