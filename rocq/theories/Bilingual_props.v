(* Bilingual_props.v -- C32, C33, C34 *)
From Verif Require Import Base Maps_model Bilingual_model Bilingual_spec Bilingual_proofs.

(* ---------------- C32 ---------------- *)
(** one merge of homographs, [self] and [rhs] possibly the same object *)
Theorem C32_update h self rhs : wf h -> (self < length (entries h))%nat -> (rhs < length (entries h))%nat ->
  wd h self = wd h rhs ->
  let h' := fst (entry_update h self rhs) in
  snd (entry_update h self rhs) = Ok tt /\ wf h' /\ length (entries h') = length (entries h) /\
  length (rd h' self) = length (sn h' self) /\
  pairs h' self = pairs h self ++ pairs h rhs /\
  (forall f, (f < length (entries h))%nat ->
     wd h' f = wd h f /\ (f <> self -> pairs h' f = pairs h f /\ sn h' f = sn h f)).
Proof. exact (entry_update_ok h self rhs). Qed.
Print Assumptions C32_update.

Theorem C32_rejected h self rhs : wd h self <> wd h rhs ->
  entry_update h self rhs = (h, Raise PlainException).
Proof. exact (entry_update_reject h self rhs). Qed.
Print Assumptions C32_rejected.

Theorem C32_any_sequence h ops : wf h ->
  Forall (fun ij => fst ij < length (entries h) /\ snd ij < length (entries h))%nat ops ->
  wf (updates h ops) /\ view (updates h ops) = merges (view h) ops.
Proof. exact (fun W F => updates_spec ops h W F). Qed.
Print Assumptions C32_any_sequence.

(** constructing entries on their own lists keeps the invariant *)
Theorem C32_constructed h w rs ss : wf h -> valid_entry rs ss ->
  let '(h1, r) := new_list h rs in let '(h2, s) := new_list h1 ss in
  exists h3, new_entry h2 w r s = (h3, Ok (length (entries h))) /\ wf h3 /\
    length (entries h3) = S (length (entries h)) /\
    wd h3 (length (entries h)) = w /\ rd h3 (length (entries h)) = rs /\ sn h3 (length (entries h)) = ss /\
    forall f, (f < length (entries h))%nat -> wd h3 f = wd h f /\ rd h3 f = rd h f /\ sn h3 f = sn h f.
Proof. exact (new_entry_wf h w rs ss). Qed.
Print Assumptions C32_constructed.

Theorem C32_invalid_refused h w r s : ~ valid_entry (list_at h r) (list_at h s) ->
  new_entry h w r s = (h, Raise AssertionError).
Proof. exact (new_entry_invalid h w r s). Qed.
Print Assumptions C32_invalid_refused.

(** a heap with three entries built by the constructor: 生 [なま] a, b;
    生 [せい] c; 山 [やま] d *)
Definition heap_of (l : list (str * (list str * list str))) : heap :=
  fold_left (fun h x =>
    let '(h, r) := new_list h (fst (snd x)) in
    let '(h, s) := new_list h (snd (snd x)) in fst (new_entry h (fst x) r s))
    l {| lists := []; entries := [] |}.
Definition ex_heap := heap_of
  [(u "生", ([u "なま"], [u "a"; u "b"])); (u "生", ([u "せい"], [u "c"])); (u "山", ([u "やま"], [u "d"]))].
Lemma heap_of_wf l : Forall (fun x => valid_entry (fst (snd x)) (snd (snd x))) l -> wf (heap_of l).
Proof.
  unfold heap_of; generalize wf_empty; generalize {| lists := []; entries := [] |}.
  induction l as [|[w [rs ss]] l IH]; intros h W F; cbn [fold_left]; [exact W|].
  inversion F as [|? ? V F']; subst; apply IH; [|exact F'].
  pose proof (new_entry_wf h w rs ss W V) as X; cbn [fst snd] in *.
  destruct (new_list h rs) as [h1 r]; destruct (new_list h1 ss) as [h2 s]; destruct X as [h3 [-> [W3 _]]]; exact W3.
Qed.
Example C32_case_wf : wf ex_heap.
Proof. apply heap_of_wf; repeat constructor. Qed.
Example C32_case :
  view (updates ex_heap [(0, 1); (2, 0); (1, 1); (1, 0)]%nat) =
  [(u "生", [(u "なま", u "a"); (u "なま", u "b"); (u "せい", u "c")]);
   (u "生", [(u "せい", u "c"); (u "せい", u "c"); (u "なま", u "a"); (u "なま", u "b"); (u "せい", u "c")]);
   (u "山", [(u "やま", u "d")])].
Proof. vm_compute; reflexivity. Qed.

(* ---------------- C33 ---------------- *)
Theorem C33_groups rs ss : valid_entry rs ss -> rs <> [] ->
  exists d, senses_by_reading rs ss = Ok d /\ dkeys d = distinct rs /\
    forall r, In r rs -> dget r d = Some (senses_for r (pairs_of rs ss)).
Proof. exact (senses_by_reading_ok rs ss). Qed.
Print Assumptions C33_groups.

Theorem C33_merged_groups h i j : wf h -> (i < length (entries h))%nat -> (j < length (entries h))%nat ->
  wd h i = wd h j -> sn h i ++ sn h j <> [] ->
  exists d, entry_senses_by_reading (fst (entry_update h i j)) i = Ok d /\
    forall r, dlist r d = senses_for r (pairs h i) ++ senses_for r (pairs h j).
Proof. exact (update_groups h i j). Qed.
Print Assumptions C33_merged_groups.

(** without senses there is nothing to pair: an entry left without readings
    makes the method raise *)
Theorem C33_no_readings ss : senses_by_reading [] ss = Raise ValueError.
Proof. exact (senses_by_reading_empty ss). Qed.
Print Assumptions C33_no_readings.

Example C33_case :
  entry_senses_by_reading (updates ex_heap [(1, 0); (1, 1)]%nat) 1%nat =
  Ok [(u "せい", [u "c"; u "c"]); (u "なま", [u "a"; u "b"; u "a"; u "b"])].
Proof. vm_compute; reflexivity. Qed.

(* ---------------- C34 ---------------- *)
Theorem C34_overwrite {V} (d e : dict str V) : NoDup (dkeys e) ->
  exists d', bd_update d e Overwrite = (d', Ok tt) /\
  forall k, dget k d' = match dget k e with Some v => Some v | None => dget k d end.
Proof. exact (fun ND => ex_intro _ _ (conj eq_refl (fun k => bd_overwrite d e k ND))). Qed.
Print Assumptions C34_overwrite.

Theorem C34_merge_refused {V} (d e : dict str V) : bd_update d e Merge = (d, Raise NotYetImplementedError).
Proof. exact eq_refl. Qed.
Print Assumptions C34_merge_refused.

Example C34_case : bd_update [(u "a", 1); (u "b", 2)] [(u "b", 3); (u "c", 4)] Overwrite =
  ([(u "a", 1); (u "b", 3); (u "c", 4)], Ok tt).
Proof. reflexivity. Qed.
