(* Threads_proofs.v *)
From Verif Require Import Base SmartCache_model SmartCache_spec SmartCache_proofs Threads_model Threads_spec.

Lemma nth_tupdate {O V} i (t : thread O V) : forall l j x, nth_error (tupdate i t l) j = Some x ->
  (j = i /\ x = t) \/ (j <> i /\ nth_error l j = Some x).
Proof.
  induction i as [|i IH]; intros [|y l] [|j] x E; cbn in E; try discriminate.
  - injection E as <-; left; split; reflexivity.
  - right; split; [discriminate|exact E].
  - injection E as <-; right; split; [discriminate|reflexivity].
  - destruct (IH l j x E) as [[-> ->]|[N H]]; [left; split; reflexivity|right; split; [congruence|exact H]].
Qed.
Lemma nth_tupdate_same {O V} i (t : thread O V) : forall l x, nth_error l i = Some x -> nth_error (tupdate i t l) i = Some t.
Proof. induction i as [|i IH]; intros [|y l] x E; cbn in *; try discriminate; [reflexivity|exact (IH l x E)]. Qed.
Lemma nth_tupdate_other {O V} i (t : thread O V) : forall l j, j <> i -> nth_error (tupdate i t l) j = nth_error l j.
Proof. induction i as [|i IH]; intros [|y l] [|j] N; cbn; try reflexivity; try congruence; apply IH; congruence. Qed.

Definition tkey {O V} (t : thread O V) : list O * list (str * O) :=
  match t with AtTest k | AtHit k | AtCall k | AtStore k _ | Finished k _ => k end.

Section Threads.
  Context {O V S : Type}.
  Variable oeq : O -> O -> bool.
  Variable hashable : O -> bool.
  Notation key := (list O * list (str * O))%type.
  Variable method : S -> key -> S * res V.
  Hypothesis eqv : equivalence oeq.
  Notation keq := (key_eq oeq).
  Notation mget := (mget oeq).
  Notation mset := (mset oeq).
  Notation m' := (recorded method).
  Notation tstep := (tstep oeq hashable m').
  Notation tsched := (tsched oeq hashable m').
  Notation trun := (trun oeq hashable m').
  Let keqv : equivalence keq := key_eq_equiv oeq eqv.

  Lemma mget_mset k k' v (d : list (key * V)) : mget k (mset k' v d) = if keq k k' then Some v else mget k d.
  Proof.
    induction d as [|[q w] d IH]; cbn [Threads_model.mset SmartCache_model.mget]; [reflexivity|].
    destruct (keq k' q) eqn:E; cbn [SmartCache_model.mget].
    - assert (X : keq k q = keq k k').
      { destruct (keq k k') eqn:F; [exact (e_trans _ keqv _ _ _ F E)|].
        destruct (keq k q) eqn:G; [|reflexivity]; rewrite <- F; symmetry.
        exact (e_trans _ keqv _ _ _ G (e_sym _ keqv _ _ E)). }
      rewrite X; destruct (keq k k'); reflexivity.
    - rewrite IH; destruct (keq k q) eqn:G, (keq k k') eqn:F; try reflexivity.
      rewrite (e_trans _ keqv _ _ _ (e_sym _ keqv _ _ F) G) in E; discriminate.
  Qed.

  Lemma mget_eq k k' (d : list (key * V)) : keq k k' = true -> mget k d = mget k' d.
  Proof.
    intros E; induction d as [|[q w] d IH]; cbn [SmartCache_model.mget]; [reflexivity|].
    rewrite (equiv_l _ _ _ q keqv E), IH; reflexivity.
  Qed.

  Definition came (log : list (key * res V)) (k : key) (v : V) : Prop := exists k', keq k k' = true /\ In (k', Ok v) log.

  Definition tok (log : list (key * res V)) (d : list (key * V)) (t : thread O V) : Prop :=
    match t with
    | AtHit k => key_hashable hashable k = true /\ mget k d <> None
    | AtCall k => key_hashable hashable k = true
    | AtStore k v => key_hashable hashable k = true /\ In (k, Ok v) log
    | Finished k (Ok v) => key_hashable hashable k = true /\ came log k v /\ mget k d <> None
    | Finished k (Raise e) => (key_hashable hashable k = false /\ e = TypeError) \/ (key_hashable hashable k = true /\ In (k, Raise e) log)
    | AtTest _ => True
    end.
  Definition tinv (calls : list key) (w : S * list (key * res V) * list (key * V) * list (thread O V)) : Prop :=
    let '(_, log, d, ts) := w in
    (forall k v, mget k d = Some v -> came log k v) /\
    forall i t, nth_error ts i = Some t -> nth_error calls i = Some (tkey t) /\ tok log d t.

  Lemma tok_mono log log' d d' t : (forall x, In x log -> In x log') -> (forall k, mget k d <> None -> mget k d' <> None) ->
    tok log d t -> tok log' d' t.
  Proof.
    intros L D; destruct t as [k|k|k|k v|k [v|e]]; cbn [tok]; try tauto.
    - intros [H1 H2]; split; [exact H1|apply D, H2].
    - intros [H1 H2]; split; [exact H1|apply L, H2].
    - intros [H1 [[k' [H2 H3]] H4]]; split; [exact H1|split; [exists k'; split; [exact H2|apply L, H3]|apply D, H4]].
    - intros [H|[H1 H2]]; [left; exact H|right; split; [exact H1|apply L, H2]].
  Qed.

  Lemma step_facts s log d t : (forall k v, mget k d = Some v -> came log k v) -> tok log d t ->
    let '(s', log', d', t') := tstep (s, log) d t in
    tkey t' = tkey t /\ (forall x, In x log -> In x log') /\ (forall k, mget k d <> None -> mget k d' <> None) /\
    (forall k v, mget k d' = Some v -> came log' k v) /\ tok log' d' t'.
  Proof.
    intros D T; destruct t as [k|k|k|k v|k r]; cbn [Threads_model.tstep].
    - destruct (key_hashable hashable k) eqn:H.
      + destruct (mget k d) as [v|] eqn:G; (repeat split; try tauto; try assumption; cbn [tok]); [congruence].
      + repeat split; try tauto; cbn [tok]; left; split; [exact H|reflexivity].
    - destruct T as [H T]; destruct (mget k d) as [v|] eqn:G; [|contradiction].
      do 4 (split; [tauto|]); cbn [tok]; split; [exact H|split; [exact (D _ _ G)|congruence]].
    - unfold recorded; cbn [fst snd]; destruct (method s k) as [s' [v|e]]; cbn [tkey].
      + split; [reflexivity|]; split; [intros x X; apply in_app_iff; left; exact X|]; split; [tauto|]; split.
        * intros q w G; destruct (D q w G) as [k' [E I]]; exists k'; split; [exact E|apply in_app_iff; left; exact I].
        * split; [exact T|apply in_app_iff; right; left; reflexivity].
      + split; [reflexivity|]; split; [intros x X; apply in_app_iff; left; exact X|]; split; [tauto|]; split.
        * intros q w G; destruct (D q w G) as [k' [E I]]; exists k'; split; [exact E|apply in_app_iff; left; exact I].
        * right; split; [exact T|apply in_app_iff; right; left; reflexivity].
    - destruct T as [H T]; split; [reflexivity|]; split; [tauto|]; split.
      { intros q N; rewrite mget_mset; destruct (keq q k); [discriminate|exact N]. }
      split.
      + intros q w; rewrite mget_mset; destruct (keq q k) eqn:E; [|apply D].
        intros X; injection X as <-; exists k; split; [exact E|exact T].
      + cbn [tok]; split; [exact H|split; [exists k; split; [apply (e_refl _ keqv)|exact T]|]].
        rewrite mget_mset, (e_refl _ keqv); discriminate.
    - repeat split; tauto.
  Qed.

  Lemma tsched_inv calls w i : tinv calls w -> tinv calls (tsched w i).
  Proof.
    destruct w as [[[s log] d] ts]; intros [D T]; unfold Threads_model.tsched.
    destruct (nth_error ts i) as [t|] eqn:E; [|split; assumption]; destruct (T _ _ E) as [C Q].
    pose proof (step_facts s log d t D Q) as F; destruct (tstep (s, log) d t) as [[[s' log'] d'] t'].
    destruct F as [K [L [M [D' Q']]]]; split; [exact D'|]; intros j x X.
    destruct (nth_tupdate _ _ _ _ _ X) as [[-> ->]|[N X']]; [rewrite K; split; assumption|].
    destruct (T _ _ X') as [C1 Q1]; split; [exact C1|exact (tok_mono _ _ _ _ _ L M Q1)].
  Qed.
  Lemma trun_inv calls schedule : forall w, tinv calls w -> tinv calls (trun w schedule).
  Proof. unfold Threads_model.trun; induction schedule as [|i r IH]; intros w I; [exact I|]; apply IH, tsched_inv, I. Qed.
  Lemma start_inv calls s : tinv calls (s, [], [], map (fun k => AtTest k) calls).
  Proof.
    split; [intros k v E; discriminate|]; intros i t E; rewrite nth_error_map in E.
    destruct (nth_error calls i) as [k|]; [|discriminate]; injection E as <-; split; [reflexivity|exact I].
  Qed.

  Theorem outcomes calls s schedule s' log d ts i k r : trun (s, [], [], map (fun k => AtTest k) calls) schedule = (s', log, d, ts) ->
    nth_error ts i = Some (Finished k r) -> nth_error calls i = Some k /\
    ((key_hashable hashable k = false /\ r = Raise TypeError) \/
     (key_hashable hashable k = true /\ exists k', In (k', r) log /\ keq k k' = true)).
  Proof.
    intros E X; pose proof (trun_inv calls schedule _ (start_inv calls s)) as I; rewrite E in I; destruct I as [_ T].
    destruct (T _ _ X) as [C Q]; split; [exact C|]; destruct r as [v|e]; cbn [tok] in Q.
    - right; destruct Q as [H [[k' [K I]] _]]; split; [exact H|exists k'; split; assumption].
    - destruct Q as [[H ->]|[H I]]; [left; split; [exact H|reflexivity]|right; split; [exact H|]].
      exists k; split; [exact I|apply (e_refl _ keqv)].
  Qed.

  (* everything invoked is invoked on hashable keys and answers as the method did *)
  Lemma log_sound g : (forall s k, snd (method s k) = g k) -> forall schedule w, 
    (forall k r, In (k, r) (snd (fst (fst w))) -> r = g k) -> forall k r, In (k, r) (snd (fst (fst (trun w schedule)))) -> r = g k.
  Proof.
    intros G; unfold Threads_model.trun; induction schedule as [|i sch IH]; intros w L; [exact L|]; apply IH; clear IH.
    destruct w as [[[s log] d] ts]; unfold Threads_model.tsched; destruct (nth_error ts i) as [t|]; [|exact L].
    destruct t as [k|k|k|k v|k r]; cbn [Threads_model.tstep fst snd] in *; try exact L.
    pose proof (G s k) as Gk; unfold recorded; cbn [fst snd]; destruct (method s k) as [s' [v|e]]; cbn [fst snd] in *;
      intros q r I; apply in_app_iff in I; destruct I as [I|[I|[]]]; try (exact (L _ _ I)); injection I as <- <-; exact Gk.
  Qed.

  Theorem transparent g : (forall s k, snd (method s k) = g k) -> (forall k k', keq k k' = true -> g k = g k') ->
    forall calls s schedule i k r,
    nth_error (snd (trun (s, [], [], map (fun k => AtTest k) calls) schedule)) i = Some (Finished k r) ->
    nth_error calls i = Some k /\ r = if key_hashable hashable k then g k else Raise TypeError.
  Proof.
    intros G R calls s schedule i k r X.
    pose proof (log_sound g G schedule (s, [], [], map (fun k => AtTest k) calls) (fun k r (I : In (k, r) []) => match I with end)) as L.
    destruct (trun (s, [], [], map (fun k => AtTest k) calls) schedule) as [[[s' log] d] ts] eqn:E; cbn [fst snd] in *.
    destruct (outcomes _ _ _ _ _ _ _ _ _ _ E X) as [C [[H ->]|[H [k' [I K]]]]]; (split; [exact C|]); rewrite H; [reflexivity|].
    rewrite (L _ _ I); symmetry; apply R, K.
  Qed.

  (* a call that starts after an equal one has returned *)
  Lemma served_run calls j kj : forall schedule w, tinv calls w -> key_hashable hashable kj = true ->
    (let '(_, _, d, ts) := w in mget kj d <> None /\ exists t, nth_error ts j = Some t /\ served kj t) ->
    let '(_, _, d, ts) := trun w schedule in mget kj d <> None /\ exists t, nth_error ts j = Some t /\ served kj t.
  Proof.
    unfold Threads_model.trun; induction schedule as [|i r IH]; intros w I H A; [exact A|]; cbn [fold_left].
    apply IH; [apply tsched_inv, I|exact H|]; clear IH.
    destruct w as [[[s log] d] ts]; destruct A as [M [t [E St]]], I as [D T]; unfold Threads_model.tsched.
    destruct (nth_error ts i) as [x|] eqn:X; [|split; [exact M|exists t; split; assumption]].
    destruct (T _ _ X) as [C Q]; pose proof (step_facts s log d x D Q) as F.
    destruct (tstep (s, log) d x) as [[[s' log'] d'] x'] eqn:P; destruct F as [_ [_ [MM _]]].
    split; [apply MM, M|]; destruct (Nat.eq_dec j i) as [->|N].
    - exists x'; split; [exact (nth_tupdate_same _ _ _ _ X)|]; assert (x = t) by congruence; subst x.
      destruct St as [->|[->|[v ->]]]; cbn [Threads_model.tstep] in P.
      + rewrite H in P; destruct (mget kj d) as [v|]; [|contradiction]; injection P as _ _ _ <-; right; left; reflexivity.
      + destruct (mget kj d) as [v|]; [|contradiction]; injection P as _ _ _ <-; right; right; exists v; reflexivity.
      + injection P as _ _ _ <-; right; right; exists v; reflexivity.
    - exists t; split; [rewrite nth_tupdate_other by exact N; exact E|exact St].
  Qed.

  Theorem later_served calls s before after s1 log d ts i j ki kj v :
    trun (s, [], [], map (fun k => AtTest k) calls) before = (s1, log, d, ts) ->
    nth_error ts i = Some (Finished ki (Ok v)) -> nth_error ts j = Some (AtTest kj) -> keq kj ki = true ->
    key_hashable hashable kj = true ->
    exists t, nth_error (snd (trun (s1, log, d, ts) after)) j = Some t /\ served kj t.
  Proof.
    intros E Fi Tj K H; pose proof (trun_inv calls before _ (start_inv calls s)) as I; rewrite E in I.
    assert (M : mget kj d <> None).
    { destruct I as [_ T]; destruct (T _ _ Fi) as [_ [_ [_ M]]]; rewrite (mget_eq _ _ _ K); exact M. }
    pose proof (served_run calls j kj after (s1, log, d, ts) I H) as R.
    destruct (trun (s1, log, d, ts) after) as [[[s2 log2] d2] ts2]; cbn [snd].
    apply R; split; [exact M|]; exists (AtTest kj); split; [exact Tj|left; reflexivity].
  Qed.

  (* no thread waits *)
  Definition todo (t : thread O V) : nat :=
    match t with AtTest _ => 3 | AtCall _ => 2 | AtHit _ | AtStore _ _ => 1 | Finished _ _ => 0 end.
  Lemma todo_step w t : (todo (snd (tstep (fst w) (snd w) t)) <= pred (todo t))%nat.
  Proof.
    destruct w as [s d], t as [k|k|k|k v|k r]; cbn [Threads_model.tstep fst snd todo]; try lia.
    - destruct (key_hashable hashable k); cbn [todo]; [|lia]; destruct (mget k d); cbn [todo]; lia.
    - unfold recorded; destruct (method (fst s) k) as [s' [v|e]]; cbn [snd todo]; lia.
  Qed.
  Lemma todo_run i : forall schedule w t, nth_error (snd w) i = Some t ->
    exists t', nth_error (snd (trun w schedule)) i = Some t' /\ (todo t' <= todo t - count_occ Nat.eq_dec schedule i)%nat.
  Proof.
    unfold Threads_model.trun; induction schedule as [|j r IH]; intros w t E; [exists t; split; [exact E|cbn; lia]|].
    assert (H : exists t', nth_error (snd (tsched w j)) i = Some t' /\
              (todo t' <= todo t - (if Nat.eq_dec j i then 1 else 0))%nat).
    { destruct w as [[s d] ts]; cbn [snd] in E; unfold Threads_model.tsched; destruct (Nat.eq_dec j i) as [->|N].
      - rewrite E; pose proof (todo_step (s, d) t) as L; cbn [fst snd] in L.
        destruct (tstep s d t) as [[s' d'] t']; cbn [snd] in *; exists t'; split; [exact (nth_tupdate_same _ _ _ _ E)|lia].
      - exists t; split; [|lia]; destruct (nth_error ts j) as [x|]; [|exact E].
        destruct (tstep s d x) as [[s' d'] x']; cbn [snd]; rewrite nth_tupdate_other by congruence; exact E. }
    destruct H as [t1 [E1 L1]]; destruct (IH _ _ E1) as [t2 [E2 L2]]; exists t2; split; [exact E2|].
    cbn [count_occ]; destruct (Nat.eq_dec j i); lia.
  Qed.
  Theorem all_finish calls s schedule i k : nth_error calls i = Some k -> (3 <= count_occ Nat.eq_dec schedule i)%nat ->
    exists r, nth_error (snd (trun (s, [], [], map (fun k => AtTest k) calls) schedule)) i = Some (Finished k r).
  Proof.
    intros C N; destruct (todo_run i schedule (s, [], [], map (fun k => AtTest k) calls) (AtTest k)) as [t [E L]].
    { cbn [snd]; rewrite nth_error_map, C; reflexivity. }
    destruct t as [q|q|q|q v|q r]; cbn [todo] in L; try lia; exists r; rewrite E.
    pose proof (trun_inv calls schedule _ (start_inv calls s)) as I.
    destruct (trun (s, [], [], map (fun k => AtTest k) calls) schedule) as [[[s' log] d] ts]; cbn [snd] in E.
    destruct I as [_ T]; destruct (T _ _ E) as [C' _]; cbn [tkey] in C'; congruence.
  Qed.
End Threads.

Lemma mset_absent {O V} (oeq : O -> O -> bool) k (v : V) d : mget oeq k d = None -> mset oeq k v d = d ++ [(k, v)].
Proof.
  induction d as [|[q w] d IH]; cbn [mget mset app]; [reflexivity|]; destruct (key_eq oeq k q); [discriminate|].
  intros E; rewrite (IH E); reflexivity.
Qed.
Theorem thread_alone {O V S} oeq hashable (method : S -> list O * list (str * O) -> S * res V) s d k :
  trun oeq hashable method (s, d, [AtTest k]) [0; 0; 0]%nat =
  let '(s', d', r) := memory_call oeq hashable method s d k in (s', d', [Finished k r]).
Proof.
  unfold memory_call, trun; cbn [fold_left]; unfold tsched; cbn [nth_error tstep].
  destruct (key_hashable hashable k); [|reflexivity]; destruct (mget oeq k d) as [v|] eqn:E.
  - cbn [tupdate nth_error tstep]; rewrite E; reflexivity.
  - cbn [tupdate nth_error tstep]; destruct (method s k) as [s' [v|e]]; [|reflexivity].
    cbn [tupdate nth_error tstep]; rewrite (mset_absent oeq k v d E); reflexivity.
Qed.
