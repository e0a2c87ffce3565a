(* LoadEq_props.v -- C147 *)
From Verif Require Import Base PyText PyFmt Rose Maps_model Place_model Place_spec Place_proofs Place_props DictEq_model DictEq_spec DictEq_proofs LoadEq_proofs.

(** C147: a map that is dumped and loaded again is == to the first, on either side,
    if all its levels fit on the stack, and the comparison fails otherwise *)
Theorem C147_loaded repr dv h t fuel limit : ascii_digits dv ->
  tree_at h t -> keyed h t -> (forall a, In a (nodes t) -> storable (at_ h a) /\ (a < length h)%nat) -> (rsize t < fuel)%nat ->
  exists text h' a, dump repr fuel h (root t) = Ok text /\ from_file dv h (file_lines text) = Ok (h', a) /\ a <> root t /\
    place_eq limit h' (root t) a = (if (levels t <=? limit)%nat then Ok true else Raise RecursionError) /\
    place_eq limit h' a (root t) = (if (levels t <=? limit)%nat then Ok true else Raise RecursionError).
Proof.
  intros D T Y St B. destruct (C49_roundtrip_partial repr dv h t fuel h D T Y (fun a I => proj1 (St a I)) B) as (text & h' & t' & Du & Fr & T' & Y' & E & _ & New & Old).
  exists text, h', (root t'). assert (Kp : forall a, In a (nodes t) -> at_ h' a = at_ h a) by (intros a I; apply Old, St, I).
  assert (Dj : forall x, In x (nodes t) -> ~ In x (nodes t')) by (intros x I J; apply New in J; destruct (St x I); lia).
  split; [exact Du|]. split; [exact Fr|]. split.
  { intro Q. apply (Dj (root t)); [destruct t; left; reflexivity|rewrite <- Q; destruct t'; left; reflexivity]. }
  destruct (Nat.leb_spec (levels t) limit) as [L|L]; [exact (loaded_eq h h' t t' limit Kp T Y T' Y' E L)|].
  exact (loaded_deep h h' t t' limit Kp T Y T' Y' E Dj L).
Qed.
Print Assumptions C147_loaded.
(** places with the same labels below them are == whatever their own labels, readings and aliases *)
Theorem C147_labels h a ks b js limit : tree_at h (Rose a ks) -> tree_at h (Rose b js) -> keyed h (Rose a ks) -> keyed h (Rose b js) ->
  map (rosemap (fun a => label (at_ h a))) ks = map (rosemap (fun a => label (at_ h a))) js -> (levels (Rose a ks) <= limit)%nat ->
  place_eq limit h a b = Ok true.
Proof. exact (alike_eq h limit a ks b js). Qed.
Print Assumptions C147_labels.
(** refuted: == does not tell whether a map was saved completely; the aliases of this one are lost *)
Theorem C147_saved_refuted repr dv h b fuel text h' a x r limit :
  (forall s, (length s + 2 <= length (repr s))%nat) -> (forall s, no_break (repr s)) -> (b < length h)%nat ->
  kids (at_ h b) = [] -> word (label (at_ h b)) -> word (show_reading (reading (at_ h b))) -> aliases (at_ h b) = Some (x :: r) ->
  dump repr (S (S fuel)) h b = Ok text -> from_file dv h (file_lines text) = Ok (h', a) ->
  aliases (at_ h' a) <> aliases (at_ h' b) /\ place_eq (S limit) h' b a = Ok true.
Proof.
  intros R Rb Lb K Wb Wr A Du Fr.
  destruct (leaf_loaded repr dv h b fuel text h' a x r R Rb Lb K Wb Wr A Du Fr) as [Kb Ka].
  pose proof (C49_aliases_refuted repr dv h b fuel h text h' a x r R Rb K Wb Wr A Du Fr) as N.
  split; [rewrite Kb; exact N|]. cbn [place_eq]. rewrite Kb, K, Ka. reflexivity.
Qed.
Print Assumptions C147_saved_refuted.
(** ** cases *)
Example C147_case : tree_at ex_heap ex_tree /\ levels ex_tree = 3%nat /\
  exists h', from_file ascii_dv ex_heap (file_lines (u "0 Australia None
1 Melbourne メルボルン
2 Collingwood None
2 St_Kilda None
1 Sydney None
")) = Ok (h', 5%nat) /\ place_eq 3 h' 0 5 = Ok true /\ place_eq 2 h' 0 5 = Raise RecursionError /\ place_eq 3 h' 5 0 = Ok true /\ place_eq 3 h' 0 6 = Ok false.
Proof. split; [exact ex_tree_at|]. split; [reflexivity|]. eexists. split; [vm_compute; reflexivity|]. vm_compute. repeat split. Qed.
Definition spaced (c : Z) : str := if (c =? 10) || (c =? 13) then [32] else [c].
Definition quoted (s : str) : str := [39] ++ flat_map spaced s ++ [39].
Example C147_case_saved : (forall s, (length s + 2 <= length (quoted s))%nat) /\ (forall s, no_break (quoted s)) /\
  exists text h' a, dump quoted 2 [mk (u "a") (Some (u "b")) (Some [u "x"])] 0 = Ok text /\
    from_file ascii_dv [mk (u "a") (Some (u "b")) (Some [u "x"])] (file_lines text) = Ok (h', a) /\ aliases (at_ h' a) = Some [u "['x']"].
Proof.
  split; [|split].
  - intro s. unfold quoted. rewrite !app_length. cbn [length]. enough ((length s <= length (flat_map spaced s))%nat) by lia.
    induction s as [|c s IH]; [cbn; lia|]. cbn [flat_map length]. rewrite app_length. unfold spaced at 1. destruct (_ || _); cbn [length]; lia.
  - intros s c I. unfold quoted in I. apply in_app_or in I. destruct I as [[<-|[]]|I]; [split; discriminate|]. apply in_app_or in I. destruct I as [I|[<-|[]]]; [|split; discriminate].
    apply in_flat_map in I. destruct I as (z & _ & I). unfold spaced in I. destruct (Z.eqb_spec z 10), (Z.eqb_spec z 13); cbn [orb] in I; destruct I as [<-|[]]; split; try discriminate; assumption.
  - do 3 eexists. split; [vm_compute; reflexivity|]. split; [vm_compute; reflexivity|]. vm_compute. reflexivity.
Qed.
