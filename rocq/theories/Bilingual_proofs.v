(* Bilingual_proofs.v *)
From Verif Require Import Base Maps_model Maps_proofs Bilingual_model Bilingual_spec.

(* ---------------- values ---------------- *)
Lemma repeat_list_one {A} n (x : A) : repeat_list n [x] = repeat x n.
Proof. induction n as [|n IH]; cbn [repeat_list repeat app]; [reflexivity|rewrite IH; reflexivity]. Qed.
Lemma pairs_of_combine rs ss : length rs = length ss -> pairs_of rs ss = combine rs ss.
Proof.
  intros L; destruct rs as [|r [|r' rs]]; try reflexivity.
  destruct ss as [|s [|s' ss]]; try discriminate L; reflexivity.
Qed.
Lemma combine_repeat (r : str) (ss : list str) : combine (repeat r (length ss)) ss = map (fun s => (r, s)) ss.
Proof. induction ss as [|s ss IH]; cbn [length repeat combine map]; [reflexivity|rewrite IH; reflexivity]. Qed.
Lemma combine_app {A B} (a a' : list A) (b b' : list B) : length a = length b ->
  combine (a ++ a') (b ++ b') = combine a b ++ combine a' b'.
Proof.
  revert b; induction a as [|x a IH]; intros [|y b] L; try discriminate L; cbn [app combine]; [reflexivity|].
  injection L as L; rewrite (IH b L); reflexivity.
Qed.

Definition padded (rs ss : list str) : list str :=
  if Nat.eqb (length rs) 1 then repeat_list (length ss) rs else rs.
Lemma padded_pairs rs ss : valid_entry rs ss ->
  length (padded rs ss) = length ss /\ pairs_of (padded rs ss) ss = pairs_of rs ss.
Proof.
  intros V; unfold padded; destruct (Nat.eqb_spec (length rs) 1) as [E|N].
  - destruct rs as [|r [|r' rs]]; try discriminate E; rewrite repeat_list_one.
    split; [apply repeat_length|].
    rewrite pairs_of_combine by apply repeat_length; apply combine_repeat.
  - destruct V as [V|V]; [contradiction|split; [exact V|reflexivity]].
Qed.

(* ---------------- heaps ---------------- *)
Lemma list_at_set h a l b : (a < length (lists h))%nat -> list_at (set_list h a l) b = if Nat.eqb a b then l else list_at h b.
Proof.
  intros L; unfold list_at, set_list; cbn [lists]; destruct (Nat.eqb_spec a b) as [->|N].
  - apply fetch_put_same, L.
  - apply fetch_put_other, N.
Qed.
Lemma entry_at_set_list h a l e : entry_at (set_list h a l) e = entry_at h e.
Proof. reflexivity. Qed.
Lemma len_set_list h a l : length (lists (set_list h a l)) = length (lists h).
Proof. apply length_put. Qed.

Lemma own_any h : wf h -> forall e f, (e < length (entries h))%nat -> (f < length (entries h))%nat ->
  readings (entry_at h e) <> senses (entry_at h f).
Proof.
  intros W e f He Hf; destruct (Nat.eq_dec e f) as [->|N]; [apply (wf_own h W f Hf)|].
  apply (wf_sep h W e f He Hf N).
Qed.

Lemma pad_spec h e : wf h -> (e < length (entries h))%nat ->
  wf (pad h e) /\ length (entries (pad h e)) = length (entries h) /\
  (forall f, (f < length (entries h))%nat -> wd (pad h e) f = wd h f /\ sn (pad h e) f = sn h f /\
     rd (pad h e) f = if Nat.eqb e f then padded (rd h e) (sn h e) else rd h f).
Proof.
  intros W He; unfold pad.
  pose proof (wf_range h W e He) as [R1 R2].
  fold (rd h e); fold (sn h e).
  destruct (Nat.eqb (length (rd h e)) 1) eqn:E1.
  2:{ split; [exact W|split; [reflexivity|]]; intros f Hf; split; [reflexivity|split; [reflexivity|]].
      unfold padded; rewrite E1; destruct (Nat.eqb_spec e f); subst; reflexivity. }
  unfold new_list; cbv zeta.
  set (l := repeat_list (length (sn h e)) (rd h e)).
  set (h' := set_entry _ _ _).
  assert (Len : length (entries h') = length (entries h)) by (unfold h', set_entry; cbn [entries]; apply length_put).
  assert (EA : forall f, (f < length (entries h))%nat -> entry_at h' f =
    if Nat.eqb e f then {| word := word (entry_at h e); readings := length (lists h); senses := senses (entry_at h e) |}
    else entry_at h f).
  { intros f Hf; unfold h', entry_at, set_entry; cbn [entries]; destruct (Nat.eqb_spec e f) as [<-|N].
    - apply fetch_put_same, He.
    - apply fetch_put_other, N. }
  assert (LA : forall a, (a < length (lists h))%nat -> list_at h' a = list_at h a).
  { intros a Ha; unfold h', list_at, set_entry; cbn [lists]; apply fetch_app_old, Ha. }
  assert (LN : list_at h' (length (lists h)) = l) by (unfold h', list_at, set_entry; cbn [lists]; apply fetch_app_new).
  assert (LL : length (lists h') = S (length (lists h))) by (unfold h', set_entry; cbn [lists]; rewrite app_length; cbn [length]; lia).
  assert (V : forall f, (f < length (entries h))%nat -> wd h' f = wd h f /\ sn h' f = sn h f /\
     rd h' f = if Nat.eqb e f then padded (rd h e) (sn h e) else rd h f).
  { intros f Hf; unfold wd, sn, rd; rewrite (EA f Hf); destruct (Nat.eqb_spec e f) as [<-|N]; cbn [word readings senses].
    - split; [reflexivity|split]; [apply LA, R2|]; fold (rd h e); fold (sn h e); rewrite LN; unfold padded; rewrite E1; reflexivity.
    - pose proof (wf_range h W f Hf) as [Q1 Q2]; split; [reflexivity|split]; apply LA; assumption. }
  split; [|split; [exact Len|exact V]].
  split; rewrite ?Len.
  - intros f Hf; destruct (V f Hf) as [_ [-> ->]]; destruct (Nat.eqb_spec e f) as [<-|N].
    + right; apply padded_pairs, (wf_valid h W e He).
    + apply (wf_valid h W f Hf).
  - intros f Hf; rewrite (EA f Hf), LL; pose proof (wf_range h W f Hf) as [Q1 Q2].
    destruct (Nat.eqb_spec e f) as [<-|N]; cbn [readings senses]; lia.
  - intros f Hf; rewrite (EA f Hf); pose proof (wf_range h W f Hf) as [Q1 Q2].
    destruct (Nat.eqb_spec e f) as [<-|N]; cbn [readings senses]; [lia|apply (wf_own h W f Hf)].
  - intros f g Hf Hg N; rewrite (EA f Hf), (EA g Hg).
    pose proof (wf_range h W f Hf) as [Q1 Q2]; pose proof (wf_range h W g Hg) as [P1 P2].
    pose proof (wf_sep h W f g Hf Hg N) as [S1 [S2 S3]].
    destruct (Nat.eqb_spec e f) as [<-|N1], (Nat.eqb_spec e g) as [<-|N2]; cbn [readings senses]; try congruence; lia.
Qed.

Lemma extend_spec h i j : wf h -> (i < length (entries h))%nat -> (j < length (entries h))%nat ->
  length (rd h i) = length (sn h i) -> length (rd h j) = length (sn h j) ->
  let ra := readings (entry_at h i) in
  let h1 := set_list h ra (list_at h ra ++ list_at h (readings (entry_at h j))) in
  let sa := senses (entry_at h1 i) in
  let h2 := set_list h1 sa (list_at h1 sa ++ list_at h1 (senses (entry_at h1 j))) in
  wf h2 /\ length (entries h2) = length (entries h) /\
  (forall f, (f < length (entries h))%nat -> wd h2 f = wd h f /\
     (f <> i -> rd h2 f = rd h f /\ sn h2 f = sn h f)) /\
  rd h2 i = rd h i ++ rd h j /\ sn h2 i = sn h i ++ sn h j.
Proof.
  intros W Hi Hj Li Lj; cbv zeta.
  pose proof (wf_range h W i Hi) as [R1 R2].
  set (ra := readings (entry_at h i)); set (h1 := set_list h ra _).
  change (entry_at h1 i) with (entry_at h i); change (entry_at h1 j) with (entry_at h j); set (sa := senses (entry_at h i)); set (h2 := set_list h1 sa _).
  assert (L1 : forall b, list_at h1 b = if Nat.eqb ra b then rd h i ++ rd h j else list_at h b)
    by (intros b; apply list_at_set, R1).
  assert (S1 : forall f, (f < length (entries h))%nat -> list_at h1 (senses (entry_at h f)) = sn h f).
  { intros f Hf; rewrite L1; destruct (Nat.eqb_spec ra (senses (entry_at h f))) as [E|N]; [|reflexivity].
    exfalso; exact (own_any h W i f Hi Hf E). }
  assert (L2 : forall b, list_at h2 b = if Nat.eqb sa b then sn h i ++ sn h j else list_at h1 b).
  { intros b; unfold h2; rewrite list_at_set by (unfold h1; rewrite len_set_list; exact R2).
    unfold sa at 2; rewrite (S1 i Hi), (S1 j Hj); reflexivity. }
  assert (EA : forall f, entry_at h2 f = entry_at h f) by reflexivity.
  assert (RD : forall f, (f < length (entries h))%nat -> rd h2 f = if Nat.eqb i f then rd h i ++ rd h j else rd h f).
  { intros f Hf; unfold rd at 1; rewrite EA, L2.
    destruct (Nat.eqb_spec sa (readings (entry_at h f))) as [E|N]; [exfalso; exact (own_any h W f i Hf Hi (eq_sym E))|].
    rewrite L1; destruct (Nat.eqb_spec i f) as [<-|Nf].
    - unfold ra; rewrite Nat.eqb_refl; reflexivity.
    - destruct (Nat.eqb_spec ra (readings (entry_at h f))) as [E|_]; [|reflexivity].
      exfalso; exact (proj1 (wf_sep h W i f Hi Hf Nf) E). }
  assert (SN : forall f, (f < length (entries h))%nat -> sn h2 f = if Nat.eqb i f then sn h i ++ sn h j else sn h f).
  { intros f Hf; unfold sn at 1; rewrite EA, L2, (S1 f Hf); destruct (Nat.eqb_spec i f) as [<-|Nf].
    - unfold sa; rewrite Nat.eqb_refl; reflexivity.
    - destruct (Nat.eqb_spec sa (senses (entry_at h f))) as [E|_]; [|reflexivity].
      exfalso; exact (proj2 (proj2 (wf_sep h W i f Hi Hf Nf)) E). }
  assert (LL : length (lists h2) = length (lists h)) by (unfold h2; rewrite len_set_list; apply len_set_list).
  split; [|split; [reflexivity|split; [|split]]].
  - split; change (entries h2) with (entries h); [intros f Hf|intros f Hf|intros f Hf|exact (wf_sep h W)].
    + rewrite (RD f Hf), (SN f Hf); destruct (Nat.eqb i f).
      * right; rewrite !app_length; lia.
      * apply (wf_valid h W f Hf).
    + rewrite EA, LL; exact (wf_range h W f Hf).
    + exact (wf_own h W f Hf).
  - intros f Hf; split; [reflexivity|]; intros Nf; rewrite (RD f Hf), (SN f Hf).
    destruct (Nat.eqb_spec i f); [congruence|split; reflexivity].
  - rewrite (RD i Hi), Nat.eqb_refl; reflexivity.
  - rewrite (SN i Hi), Nat.eqb_refl; reflexivity.
Qed.

(** one update *)
Lemma entry_update_ok h i j : wf h -> (i < length (entries h))%nat -> (j < length (entries h))%nat -> wd h i = wd h j ->
  let h' := fst (entry_update h i j) in
  snd (entry_update h i j) = Ok tt /\ wf h' /\ length (entries h') = length (entries h) /\
  length (rd h' i) = length (sn h' i) /\
  pairs h' i = pairs h i ++ pairs h j /\
  (forall f, (f < length (entries h))%nat -> wd h' f = wd h f /\ (f <> i -> pairs h' f = pairs h f /\ sn h' f = sn h f)).
Proof.
  intros W Hi Hj E; unfold entry_update.
  replace (eqb (word (entry_at h i)) (word (entry_at h j))) with true
    by (symmetry; apply eqb_true; exact E).
  cbv zeta.
  destruct (pad_spec h i W Hi) as [W1 [L1 V1]].
  set (h1 := pad h i) in *.
  destruct (pad_spec h1 j W1) as [W2 [L2 V2]]; [lia|].
  set (h2 := pad h1 j) in *.
  assert (PD : forall f, (f < length (entries h))%nat -> wd h2 f = wd h f /\ sn h2 f = sn h f /\ pairs h2 f = pairs h f).
  { intros f Hf; destruct (V1 f Hf) as [A1 [B1 C1]]; destruct (V2 f) as [A2 [B2 C2]]; [lia|].
    split; [congruence|split; [congruence|]]; unfold pairs; rewrite B2, C2.
    assert (P1 : pairs_of (rd h1 f) (sn h1 f) = pairs_of (rd h f) (sn h f)).
    { rewrite B1, C1; destruct (Nat.eqb_spec i f) as [<-|N]; [|reflexivity]; apply padded_pairs, (wf_valid h W i Hi). }
    rewrite <- P1; destruct (Nat.eqb_spec j f) as [<-|N]; [|reflexivity].
    apply padded_pairs, (wf_valid h1 W1); lia. }
  assert (Lj : length (rd h2 j) = length (sn h2 j)).
  { destruct (V2 j) as [_ [-> ->]]; [lia|]; rewrite Nat.eqb_refl; apply padded_pairs, (wf_valid h1 W1); lia. }
  assert (Li : length (rd h2 i) = length (sn h2 i)).
  { destruct (V2 i) as [_ [-> ->]]; [lia|]; destruct (Nat.eqb_spec j i) as [->|N].
    - apply padded_pairs, (wf_valid h1 W1); lia.
    - destruct (V1 i Hi) as [_ [-> ->]]; rewrite Nat.eqb_refl; apply padded_pairs, (wf_valid h W i Hi). }
  assert (Hi2 : (i < length (entries h2))%nat) by lia.
  assert (Hj2 : (j < length (entries h2))%nat) by lia.
  pose proof (extend_spec h2 i j W2 Hi2 Hj2 Li Lj) as X; cbv zeta in X.
  set (h3 := set_list (set_list h2 _ _) _ _) in *.
  destruct X as [W3 [L3 [V3 [R3 S3]]]]; cbn [fst snd].
  split; [reflexivity|split; [exact W3|split; [lia|]]].
  destruct (PD i Hi) as [_ [_ Pi]]; destruct (PD j Hj) as [_ [_ Pj]].
  split; [rewrite R3, S3, !app_length; lia|split].
  - unfold pairs at 1; rewrite R3, S3, pairs_of_combine by (rewrite !app_length; lia).
    rewrite combine_app by exact Li; rewrite <- !pairs_of_combine by assumption.
    fold (pairs h2 i); fold (pairs h2 j); congruence.
  - intros f Hf; destruct (V3 f) as [A3 B3]; [lia|]; destruct (PD f Hf) as [A2 [B2 C2]]; split; [congruence|].
    intros N; destruct (B3 N) as [Rf Sf]; split; [|congruence]; unfold pairs at 1; rewrite Rf, Sf; exact C2.
Qed.

Lemma entry_update_reject h i j : wd h i <> wd h j -> entry_update h i j = (h, Raise PlainException).
Proof. intros N; unfold entry_update; rewrite (eqb_neq _ _ N); reflexivity. Qed.

(** any sequence *)
Lemma fetch_view h f : (f < length (entries h))%nat -> fetch ([], []) (view h) f = (wd h f, pairs h f).
Proof.
  intros Hf; unfold fetch, view.
  rewrite (nth_indep _ _ (wd h 0%nat, pairs h 0%nat)) by (rewrite map_length, seq_length; exact Hf).
  rewrite (map_nth (fun e => (wd h e, pairs h e))), seq_nth by exact Hf; reflexivity.
Qed.
Lemma view_ext h h' : length (entries h') = length (entries h) ->
  (forall f, (f < length (entries h))%nat -> wd h' f = wd h f /\ pairs h' f = pairs h f) -> view h' = view h.
Proof.
  intros L E; unfold view; rewrite L; apply map_ext_in; intros f Hf; apply in_seq in Hf.
  destruct (E f) as [-> ->]; [lia|reflexivity].
Qed.
Lemma put_view h i x : (i < length (entries h))%nat ->
  forall h', length (entries h') = length (entries h) ->
  wd h' i = fst x -> pairs h' i = snd x ->
  (forall f, (f < length (entries h))%nat -> f <> i -> wd h' f = wd h f /\ pairs h' f = pairs h f) ->
  view h' = put (view h) i x.
Proof.
  intros Hi h' L E1 E2 E; apply (nth_ext _ _ ([], []) ([], [])).
  - rewrite length_put; unfold view; rewrite !map_length, !seq_length, L; reflexivity.
  - intros f Hf; unfold view in Hf; rewrite map_length, seq_length, L in Hf.
    change (fetch ([], []) (view h') f = fetch ([], []) (put (view h) i x) f).
    rewrite fetch_view by lia; destruct (Nat.eq_dec i f) as [<-|N].
    + rewrite fetch_put_same by (unfold view; rewrite map_length, seq_length; exact Hi).
      destruct x; cbn [fst snd] in *; congruence.
    + rewrite fetch_put_other by exact N; rewrite fetch_view by exact Hf; destruct (E f Hf) as [-> ->]; congruence.
Qed.

Lemma updates_spec ops : forall h, wf h ->
  Forall (fun ij => fst ij < length (entries h) /\ snd ij < length (entries h))%nat ops ->
  wf (updates h ops) /\ view (updates h ops) = merges (view h) ops.
Proof.
  induction ops as [|[i j] ops IH]; intros h W F; cbn [updates merges]; [split; [exact W|reflexivity]|].
  inversion F as [|? ? [Hi Hj] F']; subst; cbn [fst snd] in *.
  rewrite !fetch_view by assumption; cbn [fst snd].
  destruct (eqb_spec (wd h i) (wd h j)) as [E|N].
  - destruct (entry_update_ok h i j W Hi Hj E) as [_ [W' [L [_ [P V]]]]].
    destruct (IH _ W') as [W'' Vw]; [rewrite L; exact F'|]; split; [exact W''|].
    rewrite Vw; f_equal; apply (put_view h i _ Hi _ L).
    + apply V, Hi.
    + exact P.
    + intros f Hf Nf; destruct (V f Hf) as [V1 V2]; destruct (V2 Nf) as [V3 _]; split; assumption.
  - rewrite (entry_update_reject h i j N); cbn [fst]; exact (IH h W F').
Qed.

(* ---------------- senses_by_reading ---------------- *)
Lemma group_dlist (ps : list (str * str)) : forall acc r,
  dlist r (fold_left (fun acc p => dextend (fst p) [snd p] acc) ps acc) = dlist r acc ++ senses_for r ps.
Proof.
  induction ps as [|[a b] ps IH]; intros acc r; cbn [fold_left]; [rewrite app_nil_r; reflexivity|].
  rewrite IH, dlist_dextend; unfold senses_for; cbn [filter fst snd]; rewrite (eqb_sym a r).
  destruct (eqb r a); cbn [map]; [rewrite <- app_assoc|]; reflexivity.
Qed.
Lemma group_keys (ps : list (str * str)) : forall acc,
  dkeys (fold_left (fun acc p => dextend (fst p) [snd p] acc) ps acc) = supdate (dkeys acc) (map fst ps).
Proof.
  induction ps as [|[a b] ps IH]; intros acc; cbn [fold_left map fst]; [reflexivity|].
  rewrite IH; unfold supdate at 2; cbn [fold_left]; fold (supdate (sadd a (dkeys acc)) (map fst ps)); f_equal.
  unfold dextend; rewrite dkeys_dset; unfold sadd.
  cbn [fst]; destruct (dmem a acc) eqn:E.
  - apply dmem_In, mem_In in E; rewrite E; reflexivity.
  - apply dmem_false, mem_false in E; rewrite E; reflexivity.
Qed.

Lemma filter_filter {A} (f g : A -> bool) l : filter f (filter g l) = filter (fun x => g x && f x) l.
Proof.
  induction l as [|x l IH]; cbn [filter]; [reflexivity|]; destruct (g x) eqn:G; cbn [filter andb]; [|exact IH].
  rewrite IH; reflexivity.
Qed.
Lemma supdate_distinct {A} `{EqB A} (l : list A) : forall s,
  supdate s l = s ++ filter (fun x => negb (mem x s)) (distinct l).
Proof.
  induction l as [|x l IH]; intros s; [cbn; rewrite app_nil_r; reflexivity|].
  change (supdate s (x :: l)) with (supdate (sadd x s) l); rewrite IH; cbn [distinct filter].
  rewrite filter_filter; unfold sadd; destruct (mem x s) eqn:E; cbn [negb].
  - f_equal; apply filter_ext; intros y; destruct (eqb_spec x y) as [<-|N]; cbn [negb andb]; [rewrite E|]; reflexivity.
  - rewrite <- app_assoc; cbn [app]; do 2 f_equal; apply filter_ext; intros y.
    rewrite <- negb_orb; f_equal.
    destruct (mem_spec y (s ++ [x])) as [I|I], (eqb_spec x y) as [->|N], (mem_spec y s) as [J|J]; cbn [orb]; try reflexivity; exfalso.
    + apply in_app_iff in I; destruct I as [I|[I|[]]]; contradiction.
    + apply I, in_app_iff; right; left; reflexivity.
    + apply I, in_app_iff; right; left; reflexivity.
    + apply I, in_app_iff; left; exact J.
Qed.
Lemma set_of_distinct {A} `{EqB A} (l : list A) : set_of l = distinct l.
Proof. unfold set_of; rewrite supdate_distinct; cbn [app]; induction (distinct l) as [|x r IH]; [reflexivity|].
  change (x :: filter (fun x => negb (mem x [])) r = x :: r); rewrite IH; reflexivity. Qed.

Lemma combine_fst {A B} (a : list A) (b : list B) : length a = length b -> map fst (combine a b) = a.
Proof. revert b; induction a as [|x a IH]; intros [|y b] L; try discriminate L; cbn [combine map fst]; [reflexivity|injection L as L; rewrite (IH b L); reflexivity]. Qed.

Lemma senses_by_reading_ok rs ss : valid_entry rs ss -> rs <> [] ->
  exists d, senses_by_reading rs ss = Ok d /\ dkeys d = distinct rs /\
    forall r, In r rs -> dget r d = Some (senses_for r (pairs_of rs ss)).
Proof.
  intros V N; unfold senses_by_reading.
  destruct rs as [|r1 [|r2 rs]]; [congruence| |].
  - cbn [length Nat.ltb Nat.leb]; eexists; split; [reflexivity|split; [reflexivity|]].
    intros r [<-|[]]; cbn [dget]; rewrite eqb_refl; unfold senses_for, pairs_of.
    f_equal; induction ss as [|s ss IH]; cbn [map filter fst]; [reflexivity|].
    rewrite eqb_refl; cbn [map snd]; rewrite <- IH; [reflexivity|left; reflexivity].
  - set (l := r1 :: r2 :: rs) in *.
    replace (1 <? length l)%nat with true by reflexivity.
    destruct V as [V|V]; [discriminate V|]; rewrite <- V, Nat.eqb_refl.
    eexists; split; [reflexivity|]; rewrite group_keys, combine_fst by exact V; split; [apply set_of_distinct|].
    intros r Hr; rewrite pairs_of_combine by exact V.
    pose proof (group_dlist (combine l ss) [] r) as G.
    assert (K : In r (dkeys (fold_left (fun acc p => dextend (fst p) [snd p] acc) (combine l ss) []))).
    { rewrite group_keys, combine_fst by exact V; apply In_supdate; right; exact Hr. }
    apply In_key_dget in K; destruct K as [v K]; rewrite K; f_equal.
    unfold dlist in G; rewrite K in G; exact G.
Qed.
Lemma senses_by_reading_empty ss : senses_by_reading [] ss = Raise ValueError.
Proof. reflexivity. Qed.

Lemma senses_for_app r a b : senses_for r (a ++ b) = senses_for r a ++ senses_for r b.
Proof. unfold senses_for; rewrite filter_app, map_app; reflexivity. Qed.
Lemma senses_for_absent r rs ss : ~ In r rs -> senses_for r (pairs_of rs ss) = [].
Proof.
  intros N; unfold senses_for.
  assert (F : forall p, In p (pairs_of rs ss) -> eqb (fst p) r = false).
  { intros [a b] I; apply eqb_neq; cbn [fst]; intros ->; apply N.
    destruct rs as [|r1 [|r2 rs]]; cbn [pairs_of] in I; [destruct I| |exact (in_combine_l _ _ _ _ I)].
    apply in_map_iff in I; destruct I as [s [E _]]; injection E as <- _; left; reflexivity. }
  induction (pairs_of rs ss) as [|p l IH]; cbn [filter]; [reflexivity|].
  rewrite (F p (or_introl eq_refl)); apply IH; intros q Iq; apply F; right; exact Iq.
Qed.

(** the groups of a merged entry *)
Lemma update_groups h i j : wf h -> (i < length (entries h))%nat -> (j < length (entries h))%nat -> wd h i = wd h j ->
  sn h i ++ sn h j <> [] ->
  exists d, entry_senses_by_reading (fst (entry_update h i j)) i = Ok d /\
    forall r, dlist r d = senses_for r (pairs h i) ++ senses_for r (pairs h j).
Proof.
  intros W Hi Hj E N.
  destruct (entry_update_ok h i j W Hi Hj E) as [_ [W' [L [LR [P V]]]]].
  set (h' := fst (entry_update h i j)) in *.
  assert (Pn : pairs h' i <> []).
  { rewrite P; intros X; apply app_eq_nil in X; destruct X as [X1 X2]; apply N.
    assert (Q : forall f, (f < length (entries h))%nat -> pairs h f = [] -> sn h f = []).
    { intros f Hf Pf; pose proof (wf_valid h W f Hf) as Vf; unfold pairs in Pf.
      destruct (rd h f) as [|r1 [|r2 rs]] eqn:R; cbn [pairs_of] in Pf.
      - destruct Vf as [Vf|Vf]; [discriminate|destruct (sn h f); [reflexivity|discriminate]].
      - destruct (sn h f); [reflexivity|discriminate].
      - destruct Vf as [Vf|Vf]; [discriminate|]; destruct (sn h f); [discriminate|discriminate]. }
    rewrite (Q i Hi X1), (Q j Hj X2); reflexivity. }
  assert (Rn : rd h' i <> []) by (intros X; apply Pn; unfold pairs; rewrite X; reflexivity).
  destruct (senses_by_reading_ok (rd h' i) (sn h' i)) as [d [Ed [Kd Gd]]]; [apply (wf_valid h' W'); lia|exact Rn|].
  exists d; split; [exact Ed|]; intros r; rewrite <- senses_for_app, <- P; unfold pairs.
  destruct (mem_spec r (rd h' i)) as [I|I].
  - unfold dlist; rewrite (Gd r I); reflexivity.
  - rewrite senses_for_absent by exact I; unfold dlist.
    destruct (dget r d) as [v|] eqn:D; [|reflexivity].
    apply dget_Some_key in D; rewrite Kd in D; rewrite <- set_of_distinct, In_set_of in D; contradiction.
Qed.

(* ---------------- new entries ---------------- *)
Lemma new_entry_wf h w rs ss : wf h -> valid_entry rs ss ->
  let '(h1, r) := new_list h rs in let '(h2, s) := new_list h1 ss in
  exists h3, new_entry h2 w r s = (h3, Ok (length (entries h))) /\ wf h3 /\
    length (entries h3) = S (length (entries h)) /\
    wd h3 (length (entries h)) = w /\ rd h3 (length (entries h)) = rs /\ sn h3 (length (entries h)) = ss /\
    forall f, (f < length (entries h))%nat -> wd h3 f = wd h f /\ rd h3 f = rd h f /\ sn h3 f = sn h f.
Proof.
  intros W V; unfold new_list; cbn [lists entries]; rewrite app_length; cbn [length].
  set (n := length (lists h)); set (h2 := {| lists := (lists h ++ [rs]) ++ [ss]; entries := entries h |}).
  replace (n + 1)%nat with (S n) by lia.
  assert (Lr : list_at h2 n = rs).
  { unfold list_at, h2, n; cbn [lists]; rewrite fetch_app_old by (rewrite app_length; cbn [length]; lia); apply fetch_app_new. }
  assert (Ls : list_at h2 (S n) = ss).
  { unfold list_at, h2, n; cbn [lists]; replace (S (length (lists h))) with (length (lists h ++ [rs])) by (rewrite app_length; cbn [length]; lia).
    apply fetch_app_new. }
  assert (Lo : forall a, (a < n)%nat -> list_at h2 a = list_at h a).
  { intros a Ha; unfold list_at, h2, n in *; cbn [lists]; rewrite !fetch_app_old; [reflexivity|exact Ha|rewrite app_length; lia]. }
  unfold new_entry; rewrite Lr, Ls.
  replace (Nat.eqb (length rs) 1 || Nat.eqb (length rs) (length ss)) with true
    by (symmetry; apply orb_true_iff; destruct V as [V|V]; [left|right]; apply Nat.eqb_eq; exact V).
  set (h3 := {| lists := lists h2; entries := entries h2 ++ [{| word := w; readings := n; senses := S n |}] |}).
  exists h3; split; [reflexivity|].
  assert (LE : length (entries h3) = S (length (entries h))) by (unfold h3; cbn [entries]; rewrite app_length; cbn [length]; cbn [entries h2]; lia).
  assert (EN : entry_at h3 (length (entries h)) = {| word := w; readings := n; senses := S n |}) by (unfold h3, entry_at; cbn [entries]; apply fetch_app_new).
  assert (EO : forall f, (f < length (entries h))%nat -> entry_at h3 f = entry_at h f) by (intros f Hf; unfold h3, entry_at; cbn [entries]; apply fetch_app_old, Hf).
  assert (LA : forall a, list_at h3 a = list_at h2 a) by reflexivity.
  assert (VW : forall f, (f < length (entries h))%nat -> wd h3 f = wd h f /\ rd h3 f = rd h f /\ sn h3 f = sn h f).
  { intros f Hf; pose proof (wf_range h W f Hf) as [Q1 Q2]; unfold wd, rd, sn; rewrite (EO f Hf), !LA, !Lo by assumption; repeat split. }
  assert (NW : wd h3 (length (entries h)) = w /\ rd h3 (length (entries h)) = rs /\ sn h3 (length (entries h)) = ss).
  { unfold wd, rd, sn; rewrite EN; cbn [word readings senses]; rewrite !LA, Lr, Ls; repeat split. }
  split; [|split; [exact LE|split; [apply NW|split; [apply NW|split; [apply NW|exact VW]]]]].
  assert (LL : length (lists h3) = S (S n)) by (unfold h3, h2; cbn [lists]; rewrite !app_length; cbn [length]; unfold n; lia).
  assert (CASE : forall f, (f < length (entries h3))%nat -> (f < length (entries h))%nat \/ f = length (entries h)) by (rewrite LE; lia).
  split.
  - intros f Hf; destruct (CASE f Hf) as [H| ->].
    + destruct (VW f H) as [_ [-> ->]]; apply (wf_valid h W f H).
    + destruct NW as [_ [-> ->]]; exact V.
  - intros f Hf; rewrite LL; destruct (CASE f Hf) as [H| ->].
    + rewrite (EO f H); pose proof (wf_range h W f H) as [Q1 Q2]; fold n in Q1, Q2; lia.
    + rewrite EN; cbn [readings senses]; lia.
  - intros f Hf; destruct (CASE f Hf) as [H| ->].
    + rewrite (EO f H); apply (wf_own h W f H).
    + rewrite EN; cbn [readings senses]; lia.
  - intros f g Hf Hg N; destruct (CASE f Hf) as [H| ->], (CASE g Hg) as [H'| ->].
    + rewrite (EO f H), (EO g H'); apply (wf_sep h W f g H H' N).
    + rewrite (EO f H), EN; cbn [readings senses]; pose proof (wf_range h W f H) as [Q1 Q2]; fold n in Q1, Q2; lia.
    + rewrite (EO g H'), EN; cbn [readings senses]; pose proof (wf_range h W g H') as [Q1 Q2]; fold n in Q1, Q2; lia.
    + congruence.
Qed.
Lemma wf_empty : wf {| lists := []; entries := [] |}.
Proof. split; cbn [entries length]; intros; lia. Qed.
Lemma new_entry_invalid h w r s : ~ valid_entry (list_at h r) (list_at h s) -> new_entry h w r s = (h, Raise AssertionError).
Proof.
  intros N; unfold new_entry.
  destruct (Nat.eqb_spec (length (list_at h r)) 1), (Nat.eqb_spec (length (list_at h r)) (length (list_at h s))); cbn [orb]; try reflexivity;
    exfalso; apply N; [left|left|right]; assumption.
Qed.

(* ---------------- BilingualDictionary ---------------- *)
Lemma bd_overwrite {K V} `{EqB K} (d e : dict K V) k : NoDup (dkeys e) ->
  dget k (dupdate d e) = match dget k e with Some v => Some v | None => dget k d end.
Proof.
  intros ND; rewrite dget_dupdate, (dget_perm k e (rev e) (Permutation_rev e) ND); reflexivity.
Qed.
