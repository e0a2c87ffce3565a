(* Maps_proofs.v -- lemmas about the model of maps.py *)
From Verif Require Import Base Maps_model Maps_spec.

Lemma Forall2_len {A B} (R : A -> B -> Prop) l m : Forall2 R l m -> length l = length m.
Proof. induction 1; cbn [length]; congruence. Qed.

(* ---------------- store ---------------- *)
Lemma length_put {D} (st : list D) a x : length (put st a x) = length st.
Proof. revert a; induction st as [|y r IH]; intros [|a]; cbn [put length]; [reflexivity..|rewrite IH; reflexivity]. Qed.
Lemma fetch_put_same {D} (d0 : D) st a x : (a < length st)%nat -> fetch d0 (put st a x) a = x.
Proof.
  unfold fetch; revert a; induction st as [|y r IH]; intros [|a] L; cbn [put length nth] in *; try lia; [reflexivity|].
  apply IH; lia.
Qed.
Lemma fetch_put_other {D} (d0 : D) st a b x : a <> b -> fetch d0 (put st a x) b = fetch d0 st b.
Proof.
  unfold fetch; revert a b; induction st as [|y r IH]; intros [|a] [|b] n; cbn [put nth]; try reflexivity; [congruence|].
  apply IH; congruence.
Qed.
Lemma fetch_app_old {D} (d0 : D) st x a : (a < length st)%nat -> fetch d0 (st ++ x) a = fetch d0 st a.
Proof. intros L; unfold fetch; apply app_nth1, L. Qed.
Lemma fetch_app_new {D} (d0 : D) st x : fetch d0 (st ++ [x]) (length st) = x.
Proof. unfold fetch; rewrite app_nth2, Nat.sub_diag by lia; reflexivity. Qed.

Lemma calls_length {S A B} (f : S -> A -> S * res B) s xs bs s' : calls f s xs bs s' -> length xs = length bs.
Proof. induction 1; cbn [length]; congruence. Qed.
Lemma calls_det {S A B} (f : S -> A -> S * res B) s xs bs s' : calls f s xs bs s' ->
  forall bs' s'', calls f s xs bs' s'' -> bs = bs' /\ s' = s''.
Proof.
  induction 1 as [s|s x s1 b xs bs s2 E C IH]; intros bs' s'' C'; inversion C'; subst.
  - split; reflexivity.
  - rewrite E in *; match goal with K : (_, _) = (_, _) |- _ => injection K as <- <- end.
    destruct (IH _ _ ltac:(eassumption)) as [-> ->]; split; reflexivity.
Qed.

(* every run either completes or raises at a first item *)
Lemma calls_or_raise {S A B} (f : S -> A -> S * res B) xs : forall s,
  (exists bs s', calls f s xs bs s') \/ (exists pre bs e s', first_raise f s xs pre bs e s').
Proof.
  induction xs as [|x xs IH]; intros s.
  - left; exists [], s; constructor.
  - destruct (f s x) as [s1 [b|e]] eqn:E.
    + destruct (IH s1) as [[bs [s' C]]|[pre [bs [e [s' [y [post [s2 [-> [C R]]]]]]]]]].
      * left; exists (b :: bs), s'; econstructor; eassumption.
      * right; exists (x :: pre), (b :: bs), e, s', y, post, s2; split; [reflexivity|].
        split; [econstructor; eassumption|exact R].
    + right; exists [], [], e, s1, x, xs, s; split; [reflexivity|split; [constructor|exact E]].
Qed.

(* ---------------- procmap / partial_map / filtered_map ---------------- *)
Section SeqProofs.
  Context {S A B : Type} (f : S -> A -> S * res B) (truthy : B -> bool).

  Lemma procmap_calls s xs bs s' : calls f s xs bs s' -> procmap f s xs = (s', Ok tt).
  Proof. induction 1 as [s|s x s1 b xs bs s2 E C IH]; cbn [procmap]; [reflexivity|rewrite E; exact IH]. Qed.
  Lemma procmap_raise s xs pre bs e s' : first_raise f s xs pre bs e s' -> procmap f s xs = (s', Raise e).
  Proof.
    intros [x [post [s1 [-> [C E]]]]]; induction C as [s|s y s2 b ys bs s3 E2 C IH]; cbn [app procmap].
    - rewrite E; reflexivity.
    - rewrite E2; apply IH, E.
  Qed.
  Lemma procmap_spec s xs s' r : procmap f s xs = (s', r) <->
    (r = Ok tt /\ exists bs, calls f s xs bs s') \/
    (exists e pre bs, r = Raise e /\ first_raise f s xs pre bs e s').
  Proof.
    split.
    - intros E; destruct (calls_or_raise f xs s) as [[bs [s1 C]]|[pre [bs [e [s1 R]]]]].
      + rewrite (procmap_calls _ _ _ _ C) in E; injection E as <- <-; left; split; [reflexivity|exists bs; exact C].
      + rewrite (procmap_raise _ _ _ _ _ _ R) in E; injection E as <- <-; right; exists e, pre, bs; split; [reflexivity|exact R].
    - intros [[-> [bs C]]|[e [pre [bs [-> R]]]]]; [exact (procmap_calls _ _ _ _ C)|exact (procmap_raise _ _ _ _ _ _ R)].
  Qed.

  Definition rejected_of (xs : list A) (bs : list B) : list A :=
    map fst (filter (fun xb => negb (truthy (snd xb))) (combine xs bs)).

  Lemma partial_map_loop_calls s xs bs s' : calls f s xs bs s' -> forall m r,
    partial_map_loop f truthy s xs m r = (s', Ok (m ++ filter truthy bs, r ++ rejected_of xs bs)).
  Proof.
    unfold rejected_of; induction 1 as [s|s x s1 b xs bs s2 E C IH]; intros m r; cbn [partial_map_loop].
    - cbn; rewrite !app_nil_r; reflexivity.
    - rewrite E; cbn [filter combine map snd fst]; destruct (truthy b) eqn:T; cbn [negb]; rewrite IH.
      + rewrite <- app_assoc; reflexivity.
      + cbn [map fst]; rewrite <- app_assoc; reflexivity.
  Qed.
  Lemma partial_map_loop_raise s xs pre bs e s' : first_raise f s xs pre bs e s' -> forall m r,
    partial_map_loop f truthy s xs m r = (s', Raise e).
  Proof.
    intros [x [post [s1 [-> [C E]]]]]; induction C as [s|s y s2 b ys bs s3 E2 C IH]; intros m r; cbn [app partial_map_loop].
    - rewrite E; reflexivity.
    - rewrite E2; destruct (truthy b); apply IH, E.
  Qed.
  Lemma partial_map_spec s xs s' r : partial_map f truthy s xs = (s', r) <->
    (exists bs, calls f s xs bs s' /\ r = Ok (filter truthy bs, rejected_of xs bs)) \/
    (exists e pre bs, r = Raise e /\ first_raise f s xs pre bs e s').
  Proof.
    unfold partial_map; split.
    - intros E; destruct (calls_or_raise f xs s) as [[bs [s1 C]]|[pre [bs [e [s1 R]]]]].
      + rewrite (partial_map_loop_calls _ _ _ _ C) in E; injection E as <- <-; left; exists bs; split; [exact C|reflexivity].
      + rewrite (partial_map_loop_raise _ _ _ _ _ _ R) in E; injection E as <- <-; right; exists e, pre, bs; split; [reflexivity|exact R].
    - intros [[bs [C ->]]|[e [pre [bs [-> R]]]]]; [exact (partial_map_loop_calls _ _ _ _ C [] [])|exact (partial_map_loop_raise _ _ _ _ _ _ R [] [])].
  Qed.
  Lemma partial_map_lengths xs bs : length xs = length bs ->
    (length (filter truthy bs) + length (rejected_of xs bs) = length xs)%nat.
  Proof.
    unfold rejected_of; revert bs; induction xs as [|x xs IH]; intros [|b bs] L; try discriminate; [reflexivity|].
    cbn [filter combine map snd fst length]; injection L as L; specialize (IH bs L).
    destruct (truthy b); cbn [negb map length]; lia.
  Qed.

  Lemma filtered_map_calls s xs bs s' : calls f s xs bs s' -> filtered_map f truthy s xs = (s', Ok (filter truthy bs)).
  Proof.
    induction 1 as [s|s x s1 b xs bs s2 E C IH]; cbn [filtered_map filter]; [reflexivity|].
    rewrite E, IH; reflexivity.
  Qed.
  Lemma filtered_map_raise s xs pre bs e s' : first_raise f s xs pre bs e s' -> filtered_map f truthy s xs = (s', Raise e).
  Proof.
    intros [x [post [s1 [-> [C E]]]]]; induction C as [s|s y s2 b ys bs s3 E2 C IH]; cbn [app filtered_map].
    - rewrite E; reflexivity.
    - rewrite E2, (IH E); reflexivity.
  Qed.
  Lemma filtered_map_spec s xs s' r : filtered_map f truthy s xs = (s', r) <->
    (exists bs, calls f s xs bs s' /\ r = Ok (filter truthy bs)) \/
    (exists e pre bs, r = Raise e /\ first_raise f s xs pre bs e s').
  Proof.
    split.
    - intros E; destruct (calls_or_raise f xs s) as [[bs [s1 C]]|[pre [bs [e [s1 R]]]]].
      + rewrite (filtered_map_calls _ _ _ _ C) in E; injection E as <- <-; left; exists bs; split; [exact C|reflexivity].
      + rewrite (filtered_map_raise _ _ _ _ _ _ R) in E; injection E as <- <-; right; exists e, pre, bs; split; [reflexivity|exact R].
    - intros [[bs [C ->]]|[e [pre [bs [-> R]]]]]; [exact (filtered_map_calls _ _ _ _ C)|exact (filtered_map_raise _ _ _ _ _ _ R)].
  Qed.
End SeqProofs.

(* ---------------- map_dict ---------------- *)
Section MapDictProofs.
  Context {K W S : Type} `{EqB K} (f : S -> W -> S * res W).

  Definition set_vals (items : list (K * W)) (ws : list W) : list (K * W) := combine (map fst items) ws.

  Lemma dset_mid (pre : dict K W) k v w post : ~ In k (dkeys pre) ->
    dset k w (pre ++ (k, v) :: post) = pre ++ (k, w) :: post.
  Proof.
    induction pre as [|[a b] pre IH]; intros n; cbn [app dset].
    - rewrite eqb_refl; reflexivity.
    - cbn in n; rewrite (eqb_neq k a) by (intros ->; tauto); rewrite IH; [reflexivity|tauto].
  Qed.
  Lemma dkeys_app (d e : dict K W) : dkeys (d ++ e) = dkeys d ++ dkeys e.
  Proof. apply map_app. Qed.
  Lemma NoDup_app_mid (a b : list K) k : NoDup (a ++ k :: b) -> ~ In k a /\ NoDup ((a ++ [k]) ++ b).
  Proof.
    intros ND; split.
    - apply NoDup_remove_2 in ND; intros I; apply ND, in_app_iff; left; exact I.
    - rewrite <- app_assoc; exact ND.
  Qed.

  Lemma map_dict_loop_calls s todo ws s' : forall done,
    NoDup (dkeys (done ++ todo)) -> calls f s (map snd todo) ws s' ->
    map_dict_loop f s todo (done ++ todo) = (s', done ++ set_vals todo ws, Ok tt).
  Proof.
    revert s ws; induction todo as [|[k v] todo IH]; intros s ws done ND C; cbn [map snd] in C; inversion C; subst; cbn [map_dict_loop].
    - rewrite !app_nil_r; reflexivity.
    - match goal with E : f _ _ = _ |- _ => rewrite E end.
      rewrite dkeys_app in ND; cbn [dkeys map fst] in ND; destruct (NoDup_app_mid _ _ _ ND) as [N1 N2].
      rewrite dset_mid by exact N1.
      replace (done ++ (k, b) :: todo) with ((done ++ [(k, b)]) ++ todo) by (rewrite <- app_assoc; reflexivity).
      rewrite (IH s1 bs (done ++ [(k, b)])).
      + unfold set_vals; cbn [map fst combine]; rewrite <- app_assoc; reflexivity.
      + rewrite !dkeys_app; cbn [dkeys map fst]; exact N2.
      + assumption.
  Qed.
  Lemma map_dict_loop_raise s todo pre bs e s' : forall done,
    NoDup (dkeys (done ++ todo)) -> first_raise f s (map snd todo) pre bs e s' ->
    map_dict_loop f s todo (done ++ todo) =
      (s', done ++ set_vals (firstn (length bs) todo) bs ++ skipn (length bs) todo, Raise e).
  Proof.
    revert s pre bs; induction todo as [|[k v] todo IH]; intros s pre bs done ND [x [post [s1 [E [C R]]]]].
    - destruct pre; discriminate.
    - cbn [map snd] in E; cbn [map_dict_loop]; destruct pre as [|p pre].
      + cbn [app] in E; injection E as <- <-; inversion C; subst; rewrite R; reflexivity.
      + cbn [app] in E; injection E as <- E; inversion C; subst.
        match goal with E : f _ _ = _ |- _ => rewrite E end.
        rewrite dkeys_app in ND; cbn [dkeys map fst] in ND; destruct (NoDup_app_mid _ _ _ ND) as [N1 N2].
        rewrite dset_mid by exact N1.
        replace (done ++ (k, b) :: todo) with ((done ++ [(k, b)]) ++ todo) by (rewrite <- app_assoc; reflexivity).
        rewrite (IH s2 pre bs0 (done ++ [(k, b)])).
        * cbn [length firstn skipn]; unfold set_vals; cbn [map fst combine]; rewrite <- !app_assoc; reflexivity.
        * rewrite !dkeys_app; cbn [dkeys map fst]; exact N2.
        * exists x, post, s1; repeat split; assumption.
  Qed.

  Lemma map_dict_gen_calls s todo ws s' : forall acc,
    NoDup (dkeys (acc ++ todo)) -> calls f s (map snd todo) ws s' ->
    map_dict_gen f s todo acc = (s', Ok (acc ++ set_vals todo ws)).
  Proof.
    revert s ws; induction todo as [|[k v] todo IH]; intros s ws acc ND C; cbn [map snd] in C; inversion C; subst; cbn [map_dict_gen].
    - rewrite app_nil_r; reflexivity.
    - match goal with E : f _ _ = _ |- _ => rewrite E end.
      rewrite dkeys_app in ND; cbn [dkeys map fst] in ND; destruct (NoDup_app_mid _ _ _ ND) as [N1 N2].
      rewrite dset_absent by exact N1.
      rewrite (IH s1 bs (acc ++ [(k, b)])).
      + unfold set_vals; cbn [map fst combine]; rewrite <- app_assoc; reflexivity.
      + rewrite !dkeys_app; cbn [dkeys map fst]; exact N2.
      + assumption.
  Qed.
  Lemma map_dict_gen_raise s todo pre bs e s' : first_raise f s (map snd todo) pre bs e s' -> forall acc,
    map_dict_gen f s todo acc = (s', Raise e).
  Proof.
    revert s pre bs; induction todo as [|[k v] todo IH]; intros s pre bs [x [post [s1 [E [C R]]]]] acc.
    - destruct pre; discriminate.
    - cbn [map snd] in E; cbn [map_dict_gen]; destruct pre as [|p pre].
      + cbn [app] in E; injection E as <- <-; inversion C; subst; rewrite R; reflexivity.
      + cbn [app] in E; injection E as <- E; inversion C; subst.
        match goal with E : f _ _ = _ |- _ => rewrite E end.
        apply (IH s2 pre bs0); exists x, post, s1; repeat split; assumption.
  Qed.

  Variable st : list (dict K W).
  Variable a : addr.
  Hypothesis valid : (a < length st)%nat.
  Hypothesis wf : NoDup (dkeys (fetch [] st a)).
  Let d := fetch [] st a.

  Lemma map_dict_in_place s st' s' r : map_dict f s st a true = (s', st', r) <->
    (exists ws, calls f s (map snd d) ws s' /\ r = Ok a /\ st' = put st a (combine (dkeys d) ws)) \/
    (exists e pre bs, first_raise f s (map snd d) pre bs e s' /\ r = Raise e /\
       st' = put st a (combine (firstn (length bs) (dkeys d)) bs ++ skipn (length bs) d)).
  Proof.
    assert (FN : forall n, map fst (firstn n d) = firstn n (dkeys d)).
    { intros n; unfold dkeys; rewrite firstn_map; reflexivity. }
    unfold map_dict; fold d; split.
    - intros E; destruct (calls_or_raise f (map snd d) s) as [[bs [s1 C]]|[pre [bs [e [s1 R]]]]].
      + pose proof (map_dict_loop_calls s d bs s1 [] wf C) as L; cbn [app] in L; rewrite L in E.
        injection E as <- <- <-; left; exists bs; split; [exact C|split; reflexivity].
      + pose proof (map_dict_loop_raise s d pre bs e s1 [] wf R) as L; cbn [app] in L; rewrite L in E.
        injection E as <- <- <-; right; exists e, pre, bs; split; [exact R|split; [reflexivity|]].
        unfold set_vals; rewrite FN; reflexivity.
    - intros [[ws [C [-> ->]]]|[e [pre [bs [R [-> ->]]]]]].
      + pose proof (map_dict_loop_calls s d ws s' [] wf C) as L; cbn [app] in L; rewrite L; reflexivity.
      + pose proof (map_dict_loop_raise s d pre bs e s' [] wf R) as L; cbn [app] in L; rewrite L.
        unfold set_vals; rewrite FN; reflexivity.
  Qed.
  Lemma map_dict_copy s st' s' r : map_dict f s st a false = (s', st', r) <->
    (exists ws, calls f s (map snd d) ws s' /\ r = Ok (length st) /\ st' = st ++ [combine (dkeys d) ws]) \/
    (exists e pre bs, first_raise f s (map snd d) pre bs e s' /\ r = Raise e /\ st' = st).
  Proof.
    unfold map_dict; fold d; split.
    - intros E; destruct (calls_or_raise f (map snd d) s) as [[bs [s1 C]]|[pre [bs [e [s1 R]]]]].
      + pose proof (map_dict_gen_calls s d bs s1 [] wf C) as L; cbn [app] in L; rewrite L in E.
        injection E as <- <- <-; left; exists bs; split; [exact C|split; reflexivity].
      + rewrite (map_dict_gen_raise s d pre bs e s1 R []) in E.
        injection E as <- <- <-; right; exists e, pre, bs; split; [exact R|split; reflexivity].
    - intros [[ws [C [-> ->]]]|[e [pre [bs [R [-> ->]]]]]].
      + pose proof (map_dict_gen_calls s d ws s' [] wf C) as L; cbn [app] in L; rewrite L; reflexivity.
      + rewrite (map_dict_gen_raise s d pre bs e s' R []); reflexivity.
  Qed.
End MapDictProofs.

(* ---------------- chain_mapping ---------------- *)
Section ChainProofs.
  Context {V : Type} `{EqB V}.

  Lemma calls_getitem (d : dict V V) vs ws s s' : calls (getitem_method d) s vs ws s' <->
    s = s' /\ Forall2 (fun v w => dget v d = Some w) vs ws.
  Proof.
    split.
    - induction 1 as [s|s x s1 b xs bs s2 E C [IH1 IH2]]; [split; [reflexivity|constructor]|].
      unfold getitem_method, dgetitem in E; destruct (dget x d) as [w|] eqn:Ex; cbn [of_option] in E; [|discriminate].
      injection E as -> ->; split; [exact IH1|constructor; assumption].
    - intros [<- F]; induction F as [|v w vs ws E F IH]; [constructor|].
      econstructor; [unfold getitem_method, dgetitem; rewrite E; reflexivity|exact IH].
  Qed.
  Lemma raise_getitem (d : dict V V) vs pre bs e s s' : first_raise (getitem_method d) s vs pre bs e s' ->
    e = KeyError /\ exists v, In v vs /\ dget v d = None.
  Proof.
    intros [x [post [s1 [-> [C E]]]]]; unfold getitem_method, dgetitem in E.
    destruct (dget x d) eqn:Ex; cbn [of_option] in E; [discriminate|]; injection E as _ <-.
    split; [reflexivity|exists x; split; [apply in_app_iff; right; left; reflexivity|exact Ex]].
  Qed.

  (* the arguments are older than the result *)
  Lemma chain_loop_spec rest : forall st base,
    (base < length st)%nat -> Forall (fun a => (a < base)%nat) rest -> NoDup (dkeys (fetch [] st base)) ->
    let d := fetch [] st base in
    let ds := map (fetch [] st) rest in
    let '(st', r) := chain_loop st base rest in
    length st' = length st /\ (forall x, x <> base -> fetch [] st' x = fetch [] st x) /\
    ((r = Ok base /\ dkeys (fetch [] st' base) = dkeys d /\
      Forall2 (fun kv kw => fst kv = fst kw /\ follow ds (snd kv) = Some (snd kw)) d (fetch [] st' base))
     \/ (r = Raise KeyError /\ exists kv, In kv d /\ follow ds (snd kv) = None)).
  Proof.
    induction rest as [|a rest IH]; intros st base L F ND; cbn [chain_loop map follow].
    - split; [reflexivity|split; [reflexivity|left; split; [reflexivity|split; [reflexivity|]]]].
      induction (fetch [] st base) as [|kv d IHd]; constructor; [split; reflexivity|].
      cbn in ND; inversion ND; subst; apply IHd; assumption.
    - inversion F as [|x l La F']; subst.
      destruct (map_dict (getitem_method (fetch [] st a)) tt st base true) as [[s' st1] r] eqn:E.
      apply (map_dict_in_place _ st base ND) in E.
      destruct E as [[ws [C [-> ->]]]|[e [pre [bs [R [-> ->]]]]]].
      + apply calls_getitem in C; destruct C as [_ C].
        cbv zeta; cbn beta iota.
        set (st1 := put st base (combine (dkeys (fetch [] st base)) ws)).
        assert (LW : length (dkeys (fetch [] st base)) = length ws).
        { apply Forall2_len in C; rewrite map_length in C; unfold dkeys; rewrite map_length; exact C. }
        assert (K1 : fetch [] st1 base = combine (dkeys (fetch [] st base)) ws) by (apply fetch_put_same, L).
        assert (K2 : dkeys (fetch [] st1 base) = dkeys (fetch [] st base)).
        { rewrite K1; unfold dkeys at 1; clear - LW; revert ws LW; induction (dkeys (fetch [] st base)) as [|k ks IHk];
            intros [|w ws] LW; try discriminate; [reflexivity|]; cbn [combine map fst]; f_equal; apply IHk; injection LW as LW; exact LW. }
        assert (K3 : forall x, x <> base -> fetch [] st1 x = fetch [] st x)
          by (intros x n; apply fetch_put_other; congruence).
        change (put st base (combine (dkeys (fetch [] st base)) ws)) with st1.
        specialize (IH st1 base).
        assert (L1 : (base < length st1)%nat) by (unfold st1; rewrite length_put; exact L).
        specialize (IH L1 F'). rewrite K2 in IH; specialize (IH ND).
        destruct (chain_loop st1 base rest) as [st' r] eqn:EL; cbv zeta in IH |- *; cbn beta iota in IH |- *.
        destruct IH as [I1 [I2 I3]]; split; [rewrite I1; unfold st1; apply length_put|].
        split; [intros x n; rewrite I2, K3 by exact n; reflexivity|].
        assert (DS : map (fetch [] st1) rest = map (fetch [] st) rest).
        { apply map_ext_in; intros x Hx; apply K3; rewrite Forall_forall in F'; specialize (F' x Hx); lia. }
        rewrite DS in I3; rewrite K1 in I3.
        destruct I3 as [[-> [I3 I4]]|[-> [kv [Hin I4]]]].
        * left; split; [reflexivity|split; [rewrite I3, <- K1; exact K2|]].
          clear - C I4.
          set (d := fetch [] st base) in *; clearbody d.
          set (e := fetch [] st' base) in *; clearbody e.
          revert ws e C I4; induction d as [|[k v] d IHd]; intros ws e C I4; cbn [map snd] in C; inversion C; subst; cbn in I4; inversion I4; subst.
          -- constructor.
          -- constructor; [|eapply IHd; eassumption]. cbn [fst snd] in *.
             match goal with E : dget v _ = Some _ |- _ => rewrite E end; assumption.
        * right; split; [reflexivity|].
          assert (G : forall (d' : dict V V) (ws' : list V), Forall2 (fun v w => dget v (fetch [] st a) = Some w) (map snd d') ws' ->
                       forall kv, In kv (combine (dkeys d') ws') -> follow (map (fetch [] st) rest) (snd kv) = None ->
                       exists kv', In kv' d' /\ match dget (snd kv') (fetch [] st a) with
                                   | Some w => follow (map (fetch [] st) rest) w | None => None end = None).
          { clear; induction d' as [|[k v] d' IHd]; intros ws' C kv Hin N; cbn [map snd] in C; inversion C; subst; cbn [dkeys map fst combine In] in Hin; [contradiction|].
            destruct Hin as [<-|Hin].
            - exists (k, v); split; [left; reflexivity|]; cbn [snd] in *.
              match goal with E : dget v _ = Some _ |- _ => rewrite E end; exact N.
            - destruct (IHd _ ltac:(eassumption) kv Hin N) as [kv' [P1 P2]]; exists kv'; split; [right; exact P1|exact P2]. }
          destruct (G _ _ C kv Hin I4) as [kv' [H1 H2]]; exists kv'; split; assumption.
      + destruct (raise_getitem _ _ _ _ _ _ _ R) as [-> [v [Hv N]]].
        split; [apply length_put|split; [intros x n; apply fetch_put_other; congruence|]].
        right; split; [reflexivity|].
        apply in_map_iff in Hv; destruct Hv as [kv [<- Hin]]; exists kv; split; [exact Hin|rewrite N; reflexivity].
  Qed.

  Lemma chain_mapping_spec st a0 rest :
    Forall (fun a => (a < length st)%nat) (a0 :: rest) -> NoDup (dkeys (fetch [] st a0)) ->
    let d := fetch [] st a0 in
    let ds := map (fetch [] st) rest in
    let '(st', r) := chain_mapping st (a0 :: rest) in
    (forall x, (x < length st)%nat -> fetch [] st' x = fetch [] st x) /\
    ((r = Ok (length st) /\
      Forall2 (fun kv kw => fst kv = fst kw /\ follow ds (snd kv) = Some (snd kw)) d (fetch [] st' (length st)))
     \/ (r = Raise KeyError /\ exists kv, In kv d /\ follow ds (snd kv) = None)).
  Proof.
    intros F ND; inversion F as [|x l L0 F']; subst; cbn [chain_mapping].
    cbv zeta.
    match goal with |- context [chain_loop ?x _ _] => set (st0 := x) end.
    assert (B : fetch [] st0 (length st) = fetch [] st a0) by apply fetch_app_new.
    pose proof (chain_loop_spec rest st0 (length st)) as C.
    assert (L : (length st < length st0)%nat) by (unfold st0; rewrite app_length; cbn; lia).
    specialize (C L F'); rewrite B in C; specialize (C ND); cbn zeta in *.
    destruct (chain_loop st0 (length st) rest) as [st' r].
    destruct C as [C1 [C2 C3]].
    assert (DS : map (fetch [] st0) rest = map (fetch [] st) rest).
    { apply map_ext_in; intros x Hx; rewrite Forall_forall in F'; apply fetch_app_old, F', Hx. }
    rewrite DS in C3; split.
    - intros x Lx; rewrite C2 by lia; apply fetch_app_old, Lx.
    - destruct C3 as [[-> [_ C3]]|C3]; [left; split; [reflexivity|exact C3]|right; exact C3].
  Qed.
  Lemma chain_mapping_empty (st : list (dict V V)) : chain_mapping st [] = (st, Raise IndexError).
  Proof. reflexivity. Qed.
End ChainProofs.

(* ---------------- invert_mapping ---------------- *)
Section InvertProofs.
  Context {K V : Type} `{EqB K} `{EqB V}.

  Lemma inner_dlist (v : V) (k : K) vs : forall acc,
    dlist v (fold_left (fun acc w => dextend w [k] acc) vs acc) = dlist v acc ++ repeat k (count v vs).
  Proof.
    induction vs as [|w vs IH]; intros acc; cbn [fold_left count repeat]; [rewrite app_nil_r; reflexivity|].
    rewrite IH, dlist_dextend; destruct (eqb v w); [|reflexivity].
    rewrite <- app_assoc; reflexivity.
  Qed.
  Definition occurrences (v : V) (d : dict K (list V)) : list K :=
    flat_map (fun kvs => repeat (fst kvs) (count v (snd kvs))) d.
  Lemma invert_dlist (v : V) (d : dict K (list V)) : dlist v (invert_mapping d) = occurrences v d.
  Proof.
    unfold invert_mapping, occurrences.
    assert (G : forall acc, dlist v (fold_left (fun acc kvs => fold_left (fun acc v => dextend v [fst kvs] acc) (snd kvs) acc) d acc)
               = dlist v acc ++ flat_map (fun kvs => repeat (fst kvs) (count v (snd kvs))) d).
    { induction d as [|[k vs] d IH]; intros acc; cbn [fold_left flat_map fst snd]; [rewrite app_nil_r; reflexivity|].
      rewrite IH, inner_dlist, app_assoc; reflexivity. }
    rewrite G; reflexivity.
  Qed.
  Lemma In_inner_keys (v : V) (k : K) vs : forall acc,
    In v (dkeys (fold_left (fun acc w => dextend w [k] acc) vs acc)) <-> In v (dkeys acc) \/ In v vs.
  Proof.
    induction vs as [|w vs IH]; intros acc; cbn [fold_left In]; [tauto|].
    rewrite IH; unfold dextend; rewrite In_dkeys_dset; intuition.
  Qed.
  Lemma invert_keys (v : V) (d : dict K (list V)) : In v (dkeys (invert_mapping d)) <-> exists k vs, In (k, vs) d /\ In v vs.
  Proof.
    unfold invert_mapping.
    assert (G : forall acc, In v (dkeys (fold_left (fun acc kvs => fold_left (fun acc v => dextend v [fst kvs] acc) (snd kvs) acc) d acc))
               <-> In v (dkeys acc) \/ exists k vs, In (k, vs) d /\ In v vs).
    { induction d as [|[k vs] d IH]; intros acc; cbn [fold_left In fst snd].
      - split; [tauto|intros [E|[k [vs [[] _]]]]; exact E].
      - rewrite IH, In_inner_keys; split.
        + intros [[E|E]|[k' [vs' [E1 E2]]]]; [tauto|right; exists k, vs; tauto|right; exists k', vs'; tauto].
        + intros [E|[k' [vs' [[E1|E1] E2]]]]; [tauto|injection E1 as <- <-; tauto|right; exists k', vs'; tauto]. }
    rewrite G; cbn; tauto.
  Qed.
  Lemma invert_nodup (d : dict K (list V)) : NoDup (dkeys (invert_mapping d)).
  Proof.
    unfold invert_mapping.
    assert (I : forall k vs acc, NoDup (dkeys acc) -> NoDup (dkeys (fold_left (fun acc (w : V) => dextend w [k] acc) vs acc : dict V (list K)))).
    { intros k; induction vs as [|w vs IH]; intros acc ND; cbn [fold_left]; [exact ND|apply IH, NoDup_dset, ND]. }
    assert (G : forall acc, NoDup (dkeys acc) -> NoDup (dkeys (fold_left (fun acc kvs => fold_left (fun acc v => dextend v [fst kvs] acc) (snd kvs) acc) d acc))).
    { induction d as [|[k vs] d IH]; intros acc ND; cbn [fold_left fst snd]; [exact ND|apply IH, I, ND]. }
    apply G; constructor.
  Qed.

  Lemma count_repeat (x y : K) n : count x (repeat y n) = if eqb x y then n else O.
  Proof. induction n as [|n IH]; cbn [repeat count]; [destruct (eqb x y); reflexivity|rewrite IH; destruct (eqb x y); reflexivity]. Qed.

  Lemma occurrences_count (v : V) (k : K) (d : dict K (list V)) : NoDup (dkeys d) ->
    count k (occurrences v d) = count v (dlist k d).
  Proof.
    unfold occurrences, dlist, dkeys; induction d as [|[a vs] d IH]; intros ND; cbn [flat_map dget]; [reflexivity|].
    cbn [map fst] in ND; inversion ND as [|x l Nx ND']; subst.
    rewrite count_app, count_repeat; cbn [fst snd]; specialize (IH ND').
    destruct (eqb_spec k a) as [->|n]; [|exact IH].
    assert (Z : dget a d = None) by (apply dget_None; exact Nx).
    rewrite Z in IH; cbn [count] in IH; rewrite IH; lia.
  Qed.
  Lemma invert_count (v : V) (k : K) (d : dict K (list V)) : NoDup (dkeys d) ->
    count k (dlist v (invert_mapping d)) = count v (dlist k d).
  Proof. intros ND; rewrite invert_dlist; apply occurrences_count, ND. Qed.
End InvertProofs.

Lemma invert_twice {K V} `{EqB K} `{EqB V} (d : dict K (list V)) : NoDup (dkeys d) ->
  forall k v, count v (dlist k (invert_mapping (invert_mapping d))) = count v (dlist k d).
Proof. intros ND k v; rewrite invert_count by apply invert_nodup; apply invert_count, ND. Qed.

(* ---------------- injective ---------------- *)
Section InjProofs.
  Context {K V : Type} `{EqB K} `{EqB V}.

  Lemma is_injective_loop_spec (items : list (K * V)) : forall covered,
    is_injective_loop items covered = true <-> NoDup (map snd items) /\ forall v, In v (map snd items) -> ~ In v covered.
  Proof.
    induction items as [|[k v] items IH]; intros covered; cbn [is_injective_loop map snd In].
    - split; [intros _; split; [constructor|intros v []]|reflexivity].
    - destruct (mem_spec v covered) as [I|I].
      + split; [discriminate|intros [_ F]; exfalso; apply (F v); [left; reflexivity|exact I]].
      + rewrite IH; split.
        * intros [ND F]; split.
          -- constructor; [|exact ND]; intros J; apply (F v J), In_sadd; left; reflexivity.
          -- intros w [<-|J]; [exact I|intros C; apply (F w J), In_sadd; right; exact C].
        * intros [ND F]; inversion ND as [|x l N ND']; subst; split; [exact ND'|].
          intros w J C; apply In_sadd in C; destruct C as [->|C]; [contradiction|].
          apply (F w); [right; exact J|exact C].
  Qed.
  Lemma is_injective_spec (d : dict K V) : is_injective d = true <-> NoDup (dvals d).
  Proof. unfold is_injective; rewrite is_injective_loop_spec; split; [intros [ND _]; exact ND|intros ND; split; [exact ND|intros v _ []]]. Qed.

  Lemma nodup_vals_inj (d : dict K V) : NoDup (dkeys d) ->
    (NoDup (dvals d) <-> forall k k' v, dget k d = Some v -> dget k' d = Some v -> k = k').
  Proof.
    unfold dkeys, dvals; induction d as [|[a b] d IH]; cbn [map fst snd]; intros ND.
    - split; [intros _ k k' v E; discriminate|intros _; constructor].
    - inversion ND as [|x l N ND']; subst; specialize (IH ND'); cbn [dget]; split.
      + intros NV; inversion NV as [|x l N2 NV']; subst; intros k k' v E1 E2.
        destruct (eqb_spec k a) as [Ka|Ka], (eqb_spec k' a) as [Kb|Kb].
        * congruence.
        * injection E1 as ->; exfalso; apply N2; apply dget_In in E2; apply (in_map snd) in E2; exact E2.
        * injection E2 as ->; exfalso; apply N2; apply dget_In in E1; apply (in_map snd) in E1; exact E1.
        * apply (proj1 IH NV' _ _ v); assumption.
      + intros I; constructor.
        * intros J; apply in_map_iff in J; destruct J as [[k v] [Ev J]]; cbn [snd] in Ev; subst v.
          assert (Hk : k <> a) by (intros ->; apply N; apply (in_map fst) in J; exact J).
          apply Hk, (I k a b); [rewrite (eqb_neq _ _ Hk); apply In_dget; assumption|rewrite eqb_refl; reflexivity].
        * apply IH; intros k k' v E1 E2; apply (I k k' v).
          -- rewrite (eqb_neq k a); [exact E1|intros ->; apply N; apply dget_Some_key in E1; exact E1].
          -- rewrite (eqb_neq k' a); [exact E2|intros ->; apply N; apply dget_Some_key in E2; exact E2].
  Qed.

  Definition swap (kv : K * V) : V * K := (snd kv, fst kv).

  Lemma invert_injective_loop_spec (items : list (K * V)) : forall inv,
    invert_injective_loop items inv =
      if is_injective_loop items (dkeys inv) then Ok (inv ++ map swap items) else Raise AssertionError.
  Proof.
    induction items as [|[k v] items IH]; intros inv; cbn [invert_injective_loop is_injective_loop map].
    - rewrite app_nil_r; reflexivity.
    - destruct (dmem v inv) eqn:E.
      + apply dmem_In, mem_In in E; rewrite E; reflexivity.
      + apply dmem_false in E; rewrite (proj2 (mem_false _ _) E).
        rewrite (dset_absent _ _ _ E), IH.
        unfold sadd; rewrite (proj2 (mem_false _ _) E).
        unfold dkeys; rewrite map_app; cbn [map fst].
        rewrite <- app_assoc; reflexivity.
  Qed.
  Lemma invert_injective_eq (d : dict K V) : invert_injective_mapping d =
    if is_injective d then Ok (map swap d) else Raise AssertionError.
  Proof. unfold invert_injective_mapping, is_injective; rewrite invert_injective_loop_spec; reflexivity. Qed.
  Lemma dkeys_swap (d : dict K V) : dkeys (map swap d) = dvals d.
  Proof. unfold dkeys, dvals; rewrite map_map; reflexivity. Qed.
  Lemma invert_injective_get (d : dict K V) e : NoDup (dkeys d) -> invert_injective_mapping d = Ok e ->
    forall k v, dget v e = Some k <-> dget k d = Some v.
  Proof.
    intros ND; rewrite invert_injective_eq; destruct (is_injective d) eqn:E; [|discriminate].
    intros F; injection F as <-; apply is_injective_spec in E; intros k v; split; intros G.
    - apply dget_In, in_map_iff in G; destruct G as [[a b] [G Hin]]; cbn in G; injection G as -> ->.
      apply In_dget; assumption.
    - apply In_dget; [rewrite dkeys_swap; exact E|].
      apply dget_In in G; apply (in_map swap) in G; exact G.
  Qed.
End InjProofs.

Lemma invert_injective_twice {K V} `{EqB K} `{EqB V} (d : dict K V) e : NoDup (dkeys d) ->
  invert_injective_mapping d = Ok e -> invert_injective_mapping e = Ok d.
Proof.
  intros ND; rewrite invert_injective_eq; destruct (is_injective d) eqn:E; [|discriminate].
  intros F; injection F as <-; rewrite invert_injective_eq.
  replace (is_injective (map swap d)) with true.
  - rewrite map_map; f_equal; rewrite <- (map_id d) at 2; apply map_ext; intros [a b]; reflexivity.
  - symmetry; apply is_injective_spec; unfold dvals; rewrite map_map; exact ND.
Qed.

(* ---------------- multi_dict ---------------- *)
Section MultiProofs.
  Context {K V : Type} `{EqB K}.
  Lemma multi_fold (pairs : list (K * V)) : forall acc,
    let r := fold_left (fun acc kv =>
                 let existing := match dget (fst kv) acc with Some l => l | None => [] end in
                 dset (fst kv) (existing ++ [snd kv]) acc) pairs acc in
    (forall k, dlist k r = dlist k acc ++ values_for k pairs) /\
    dkeys r = dkeys acc ++ filter (fun k => negb (mem k (dkeys acc))) (firsts (map fst pairs)) /\
    (forall k, In k (dkeys acc) -> dlist k acc <> [] -> dlist k r <> []).
  Proof.
    induction pairs as [|[k v] pairs IH]; intros acc; cbn [fold_left map fst snd firsts].
    - repeat split; [intros k; cbn; rewrite app_nil_r; reflexivity|cbn; rewrite app_nil_r; reflexivity|intros k _ E; exact E].
    - set (acc' := dset k _ acc).
      assert (L : forall x, dlist x acc' = if eqb x k then dlist x acc ++ [v] else dlist x acc).
      { intros x; unfold dlist, acc'; rewrite dget_dset; destruct (eqb_spec x k) as [->|n]; reflexivity. }
      destruct (IH acc') as [I1 [I2 I3]]; cbn zeta in *; split; [|split].
      + intros x; rewrite I1, L; unfold values_for; cbn [filter fst].
        destruct (eqb x k); [cbn [map snd]; rewrite <- app_assoc; reflexivity|reflexivity].
      + rewrite I2; unfold acc'; rewrite dkeys_dset; cbn [filter].
        destruct (dmem k acc) eqn:M.
        * apply dmem_In, mem_In in M; rewrite M; cbn [negb]; f_equal.
          rewrite <- (filter_ext (fun y => negb (mem y (dkeys acc)) && negb (eqb k y)) (fun y => negb (mem y (dkeys acc)))).
          -- generalize (firsts (map fst pairs)); intros l; induction l as [|y l IHl]; [reflexivity|].
             cbn [filter]; destruct (eqb k y) eqn:Eky; cbn [negb].
             ++ rewrite andb_false_r; exact IHl.
             ++ rewrite andb_true_r; cbn [filter]; destruct (negb (mem y (dkeys acc))); [rewrite IHl; reflexivity|exact IHl].
          -- intros y; destruct (eqb_spec k y) as [<-|n]; [rewrite M; reflexivity|apply andb_true_r].
        * apply dmem_false in M; rewrite (proj2 (mem_false _ _) M); cbn [negb].
          rewrite <- app_assoc; cbn [app]; f_equal; f_equal.
          generalize (firsts (map fst pairs)); intros l; induction l as [|y l IHl]; [reflexivity|].
          cbn [filter].
          assert (Q : mem y (dkeys acc ++ [k]) = mem y (dkeys acc) || eqb k y).
          { destruct (mem_spec y (dkeys acc ++ [k])) as [I|I]; rewrite in_app_iff in I; cbn [In] in I.
            - destruct I as [I|[->|[]]]; [rewrite (proj2 (mem_In _ _) I); reflexivity|rewrite eqb_refl; symmetry; apply orb_true_r].
            - destruct (mem_spec y (dkeys acc)) as [J|J]; [tauto|]; rewrite eqb_neq; [reflexivity|intros ->; tauto]. }
          rewrite Q; destruct (eqb k y); cbn [negb].
          -- rewrite orb_true_r; exact IHl.
          -- rewrite orb_false_r; cbn [filter]; destruct (mem y (dkeys acc)); cbn [negb]; [exact IHl|rewrite IHl; reflexivity].
      + intros x Hx Ex; apply I3; [apply In_dkeys_dset; right; exact Hx|].
        rewrite L; destruct (eqb x k); [intros C; apply app_eq_nil in C; destruct C; discriminate|exact Ex].
  Qed.
  Lemma firsts_NoDup (l : list K) : NoDup (firsts l).
  Proof.
    induction l as [|x l IH]; cbn [firsts]; [constructor|constructor; [|apply NoDup_filter, IH]].
    intros I; apply filter_In in I; destruct I as [_ I]; rewrite eqb_refl in I; discriminate.
  Qed.
  Lemma In_firsts (l : list K) x : In x (firsts l) <-> In x l.
  Proof.
    induction l as [|y l IH]; cbn [firsts In]; [tauto|].
    rewrite filter_In, IH; destruct (eqb_spec y x) as [->|n]; cbn [negb]; intuition.
  Qed.
  Lemma multi_dict_spec (pairs : list (K * V)) :
    dkeys (multi_dict pairs) = firsts (map fst pairs) /\
    forall k, dget k (multi_dict pairs) = if mem k (map fst pairs) then Some (values_for k pairs) else None.
  Proof.
    destruct (multi_fold pairs []) as [I1 [I2 _]]; cbn zeta in *; fold (multi_dict pairs) in *.
    assert (KS : dkeys (multi_dict pairs) = firsts (map fst pairs)).
    { rewrite I2; cbn; generalize (firsts (map fst pairs)); intros l; induction l as [|y l IH]; [reflexivity|cbn; rewrite IH; reflexivity]. }
    split; [exact KS|intros k].
    destruct (mem_spec k (map fst pairs)) as [I|I].
    - rewrite <- In_firsts, <- KS, In_key_dget in I; destruct I as [l E].
      specialize (I1 k); unfold dlist in I1; rewrite E in I1; rewrite E, I1; reflexivity.
    - apply dget_None; rewrite KS, In_firsts; exact I.
  Qed.
End MultiProofs.

(* ---------------- merge_dicts ---------------- *)
Section MergeProofs.
  Context {K V : Type} `{EqB K} `{EqB V}.
  Variable heap0 : list (list V).

  (* what the result owns: distinct fresh references *)
  Definition minv (seen : list (K * addr)) (hp : list (list V)) (un : dict K addr) : Prop :=
    (length heap0 <= length hp)%nat /\
    (forall r, (r < length heap0)%nat -> fetch [] hp r = fetch [] heap0 r) /\
    NoDup (dkeys un) /\ NoDup (dvals un) /\
    (forall k r, dget k un = Some r -> (length heap0 <= r < length hp)%nat) /\
    (forall k, In k (dkeys un) <-> In k (map fst seen)) /\
    (forall k r, dget k un = Some r -> NoDup (fetch [] hp r) /\
       forall x, In x (fetch [] hp r) <-> exists items, In (k, items) seen /\ In x (fetch [] heap0 items)).

  Lemma dvals_fresh (un : dict K addr) n : NoDup (dkeys un) -> (forall k r, dget k un = Some r -> (r < n)%nat) -> ~ In n (dvals un).
  Proof.
    intros ND B I; unfold dvals in I; apply in_map_iff in I; destruct I as [[k r] [E I]]; cbn in E; subst r.
    apply (In_dget _ _ _ ND) in I; specialize (B _ _ I); lia.
  Qed.

  Lemma merge_step_inv seen hp un item :
    (snd item < length heap0)%nat -> minv seen hp un ->
    let '(hp', un') := merge_step (hp, un) item in minv (seen ++ [item]) hp' un'.
  Proof.
    destruct item as [key items]; cbn [snd]; intros Li [I1 [I2 [I3 [I4 [I5 [I6 I7]]]]]].
    unfold merge_step; destruct (dget key un) as [r|] eqn:E.
    - destruct (I5 _ _ E) as [R1 R2].
      assert (UNQ : forall k r', dget k un = Some r' -> r' = r -> k = key).
      { intros k r' E' ->. destruct (nodup_vals_inj un I3) as [J _]; apply (J I4 k key r); assumption. }
      unfold minv; rewrite length_put; split; [exact I1|].
      split; [intros x Lx; rewrite fetch_put_other by lia; apply I2, Lx|].
      split; [exact I3|split; [exact I4|split; [exact I5|split]]].
      + intros k; rewrite I6, map_app, in_app_iff; cbn [map fst In].
        split; [tauto|intros [J|[<-|[]]]; [exact J|apply I6, (dget_Some_key _ _ _ E)]].
      + intros k r' E'; destruct (Nat.eq_dec r' r) as [->|n].
        * rewrite (UNQ _ _ E' eq_refl) in *; rewrite fetch_put_same by exact R2.
          destruct (I7 _ _ E) as [N1 N2]; split; [apply NoDup_supdate, N1|].
          intros x; rewrite In_supdate, N2, (I2 items Li); split.
          -- intros [[it [J1 J2]]|J]; [exists it; rewrite in_app_iff; tauto|exists items; rewrite in_app_iff; cbn; tauto].
          -- intros [it [J1 J2]]; rewrite in_app_iff in J1; cbn [In] in J1.
             destruct J1 as [J1|[J1|[]]]; [left; exists it; tauto|injection J1 as <-; right; exact J2].
        * rewrite fetch_put_other by congruence; destruct (I7 _ _ E') as [N1 N2]; split; [exact N1|].
          intros x; rewrite N2; split; intros [it [J1 J2]]; exists it; rewrite in_app_iff in *; cbn [In] in *; [tauto|].
          destruct J1 as [J1|[J1|[]]]; [tauto|injection J1 as <- <-; congruence].
    - apply dget_None in E; unfold minv; rewrite app_length; cbn [length].
      split; [lia|split; [intros x Lx; rewrite fetch_app_old by lia; apply I2, Lx|]].
      split; [apply NoDup_dset, I3|split; [|split; [|split]]].
      + rewrite (dset_absent _ _ _ E); unfold dvals; rewrite map_app; cbn [map snd].
        apply Permutation_NoDup with (l := length hp :: map snd un); [apply Permutation_cons_append|].
        constructor; [apply (dvals_fresh un); [exact I3|intros k r E'; destruct (I5 _ _ E'); lia]|exact I4].
      + intros k r; rewrite dget_dset; destruct (eqb k key); [intros F; injection F as <-; lia|].
        intros F; destruct (I5 _ _ F); lia.
      + intros k; rewrite In_dkeys_dset, I6, map_app, in_app_iff; cbn [map fst In]; intuition congruence.
      + intros k r; rewrite dget_dset; destruct (eqb_spec k key) as [->|n].
        * intros F; injection F as <-; rewrite fetch_app_new; split; [apply NoDup_set_of|].
          intros x; rewrite In_set_of, (I2 items Li); split.
          -- intros J; exists items; rewrite in_app_iff; cbn; tauto.
          -- intros [it [J1 J2]]; rewrite in_app_iff in J1; cbn [In] in J1.
             destruct J1 as [J1|[J1|[]]]; [|injection J1 as <-; exact J2].
             exfalso; apply E, I6; apply (in_map fst) in J1; exact J1.
        * intros F; destruct (I5 _ _ F); rewrite fetch_app_old by lia.
          destruct (I7 _ _ F) as [N1 N2]; split; [exact N1|].
          intros x; rewrite N2; split; intros [it [J1 J2]]; exists it; rewrite in_app_iff in *; cbn [In] in *; [tauto|].
          destruct J1 as [J1|[J1|[]]]; [tauto|injection J1 as <- <-; congruence].
  Qed.

  Lemma merge_fold items : forall seen hp un,
    Forall (fun it => (snd it < length heap0)%nat) items -> minv seen hp un ->
    let '(hp', un') := fold_left merge_step items (hp, un) in minv (seen ++ items) hp' un'.
  Proof.
    induction items as [|it items IH]; intros seen hp un F I; cbn [fold_left].
    - rewrite app_nil_r; exact I.
    - inversion F as [|x l L F']; subst.
      pose proof (merge_step_inv seen hp un it L I) as M.
      destruct (merge_step (hp, un) it) as [hp1 un1] eqn:E.
      specialize (IH (seen ++ [it]) hp1 un1 F' M); rewrite <- app_assoc in IH; exact IH.
  Qed.

  Lemma merge_dicts_spec (args : list (dict K addr)) :
    Forall (fun d => Forall (fun it => (snd it < length heap0)%nat) d) args ->
    let '(hp, un) := merge_dicts heap0 args in
    (forall r, (r < length heap0)%nat -> fetch [] hp r = fetch [] heap0 r) /\
    NoDup (dkeys un) /\
    (forall k, In k (dkeys un) <-> exists d, In d args /\ In k (dkeys d)) /\
    (forall k r, dget k un = Some r -> (length heap0 <= r)%nat /\ NoDup (fetch [] hp r) /\
       forall x, In x (fetch [] hp r) <->
         exists d items, In d args /\ In (k, items) d /\ In x (fetch [] heap0 items)) /\
    (forall k k' r, dget k un = Some r -> dget k' un = Some r -> k = k').
  Proof.
    intros F; unfold merge_dicts.
    pose proof (merge_fold (concat args) [] heap0 []) as M.
    assert (F' : Forall (fun it => (snd it < length heap0)%nat) (concat args)) by (apply Forall_concat; exact F).
    assert (I0 : minv [] heap0 []).
    { unfold minv; repeat split; try (constructor); try reflexivity; cbn; try discriminate; intros; try contradiction; try discriminate. }
    specialize (M F' I0); destruct (fold_left merge_step (concat args) (heap0, [])) as [hp un].
    destruct M as [I1 [I2 [I3 [I4 [I5 [I6 I7]]]]]]; cbn [app] in *.
    split; [exact I2|split; [exact I3|split; [|split]]].
    - intros k; rewrite I6, in_map_iff; split.
      + intros [[k' it] [<- J]]; apply in_concat in J; destruct J as [d [J1 J2]]; exists d; split; [exact J1|].
        apply (in_map fst) in J2; exact J2.
      + intros [d [J1 J2]]; apply in_map_iff in J2; destruct J2 as [[k' it] [<- J2]].
        exists (k', it); split; [reflexivity|apply in_concat; exists d; split; assumption].
    - intros k r E; destruct (I5 _ _ E) as [L _]; destruct (I7 _ _ E) as [N1 N2]; split; [exact L|split; [exact N1|]].
      intros x; rewrite N2; split.
      + intros [it [J1 J2]]; apply in_concat in J1; destruct J1 as [d [J0 J1]]; exists d, it; tauto.
      + intros [d [it [J0 [J1 J2]]]]; exists it; split; [apply in_concat; exists d; tauto|exact J2].
    - apply (proj1 (nodup_vals_inj un I3) I4).
  Qed.
End MergeProofs.

Lemma invert_injective_total {K V} `{EqB K} `{EqB V} (d : dict K V) :
  if is_injective d then exists e, invert_injective_mapping d = Ok e
  else invert_injective_mapping d = Raise AssertionError.
Proof. rewrite invert_injective_eq; destruct (is_injective d); [eexists; reflexivity|reflexivity]. Qed.

Lemma put_spec {D} (d0 : D) (st : list D) (a b : addr) x : (a < length st)%nat ->
  fetch d0 (put st a x) b = (if Nat.eqb a b then x else fetch d0 st b) /\ length (put st a x) = length st.
Proof.
  intros L; split; [|apply length_put].
  destruct (Nat.eqb_spec a b) as [<-|n]; [apply fetch_put_same, L|apply fetch_put_other, n].
Qed.

Lemma partial_map_total {S A B} (f : S -> A -> S * res B) truthy s xs s' mapped rejected :
  partial_map f truthy s xs = (s', Ok (mapped, rejected)) ->
  (length mapped + length rejected = length xs)%nat.
Proof.
  intros E; apply partial_map_spec in E; destruct E as [[bs [C E]]|[e [pre [bs [E _]]]]]; [|discriminate].
  injection E as -> ->; apply partial_map_lengths, (calls_length _ _ _ _ _ C).
Qed.

Lemma filtered_partial {S A B} (f : S -> A -> S * res B) truthy s xs :
  filtered_map f truthy s xs = (fst (partial_map f truthy s xs), rmap fst (snd (partial_map f truthy s xs))).
Proof.
  destruct (calls_or_raise f xs s) as [[bs [s' C]]|[pre [bs [e [s' R]]]]]; unfold partial_map.
  - rewrite (filtered_map_calls f truthy _ _ _ _ C), (partial_map_loop_calls f truthy _ _ _ _ C); reflexivity.
  - rewrite (filtered_map_raise f truthy _ _ _ _ _ _ R), (partial_map_loop_raise f truthy _ _ _ _ _ _ R); reflexivity.
Qed.
