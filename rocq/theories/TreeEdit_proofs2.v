(* TreeEdit_proofs2.v -- the loops of the code as walks with a changing store *)
From Verif Require Import Base PyText Rose Maps_model TreeEdit_model TreeEdit_spec TreeEdit_proofs.
From Verif Require Tree_model Tree_spec Place_model Place_spec Place_proofs.
From Coq Require Import Permutation Sorted.

Definition bare (v : Z * addr * list addr) : addr * list addr := (who v, snd v).

Section Tree.
  Import Tree_model.
  Definition TK (h : list node) (n : addr) : list addr := rev (below h n).

  Lemma for_preorder_gpre {S A} (body : list node -> S -> addr -> list node * S * res (option A)) fuel :
    forall h s stack todo, rev stack = map snd todo ->
    for_preorder body fuel h s stack = gpre TK (fun h s (_ : Z) n => body h s n) fuel h s todo.
  Proof.
    induction fuel as [|f IH]; intros h s stack todo E; [reflexivity|].
    cbn [for_preorder gpre]; destruct todo as [|[d n] todo]; cbn [map snd] in E.
    - apply (f_equal (@rev addr)) in E; rewrite rev_involutive in E; cbn in E; subst; reflexivity.
    - apply (f_equal (@rev addr)) in E; rewrite rev_involutive in E; cbn [rev] in E; subst stack; rewrite pop_last_snoc.
      destruct (body h s n) as [[h1 s1] [[a|]|e]]; try reflexivity.
      apply IH; rewrite rev_app_distr, rev_involutive, map_app, map_map; cbn [snd]; rewrite map_id; reflexivity.
  Qed.
  Lemma noted_gnoted {S A} (body : list node -> S -> addr -> list node * S * res (option A)) fuel : forall h s log todo,
    gpre TK (fun h s (_ : Z) n => logged body h s n) fuel h (s, map bare log) todo =
    let '(h', (s', log'), r) := gpre TK (gnoted TK (fun h s (_ : Z) n => body h s n)) fuel h (s, log) todo in (h', (s', map bare log'), r).
  Proof.
    induction fuel as [|f IH]; intros h s log todo; [reflexivity|].
    cbn [gpre]; destruct todo as [|[d n] todo]; [reflexivity|].
    replace (logged body h (s, map bare log) n) with (let '(h', s', r) := body h s n in (h', (s', map bare log ++ [(n, rev (below h' n))]), r)) by reflexivity.
    replace (gnoted TK (fun h s (_ : Z) n => body h s n) h (s, log) d n) with (let '(h', s', r) := body h s n in (h', (s', log ++ [(d, n, TK h' n)]), r)) by reflexivity.
    destruct (body h s n) as [[h1 s1] r1].
    replace (map bare log ++ [(n, rev (below h1 n))]) with (map bare (log ++ [(d, n, TK h1 n)])) by (rewrite map_app; reflexivity).
    destruct r1 as [[a|]|e]; try reflexivity; apply IH.
  Qed.
  Lemma for_preorder_noted {S A} (body : list node -> S -> addr -> list node * S * res (option A)) fuel h s a h' s' log r :
    for_preorder (logged body) fuel h (s, []) [a] = (h', (s', log), r) ->
    exists glog, gpre TK (gnoted TK (fun h s (_ : Z) n => body h s n)) fuel h (s, []) [(0, a)] = (h', (s', glog), r) /\ log = map bare glog.
  Proof.
    intros E; rewrite (for_preorder_gpre _ _ _ _ _ [(0, a)]) in E by reflexivity.
    pose proof (noted_gnoted body fuel h s [] [(0, a)]) as X; cbn [map] in X; rewrite X in E; clear X.
    destruct (gpre TK (gnoted TK (fun h s (_ : Z) n => body h s n)) fuel h (s, []) [(0, a)]) as [[h1 [s1 g]] r1].
    injection E as <- <- <- <-; exists g; split; reflexivity.
  Qed.
  Lemma walk_preorder_gpre fuel h a ns :
    walk_preorder fuel h a = Ok ns -> exists t, root t = a /\ gtree TK h t /\ ns = nodes t /\ (rsize t < fuel)%nat.
  Proof.
    unfold walk_preorder; rewrite (for_preorder_gpre _ _ _ _ _ [(0, a)]) by reflexivity; intros E.
    change (fun (h : list node) (s : list addr) (_ : Z) (n : addr) => collect h s n) with (@gcollect (list node)) in E.
    destruct (gpre TK gcollect fuel h [] [(0, a)]) as [[h1 s1] [o|e]] eqn:G; cbn [listed] in E; [|discriminate]; injection E as ->.
    assert (o = None) as ->.
    { clear - G; revert h G; generalize ([] : list addr), [(0, a)]; induction fuel as [|f IH]; intros acc todo h G; [discriminate|].
      cbn [gpre] in G; destruct todo as [|[d n] todo]; [injection G as <- <- <-; reflexivity | exact (IH _ _ _ G)]. }
    apply gpre_collect_inv in G; destruct G as [F [Hd [Gt [-> Len]]]].
    destruct F as [|[d t] [|? ?]]; try discriminate; cbn [heads map fst snd] in Hd; injection Hd as _ <-.
    exists t; split; [reflexivity|split; [inversion Gt; assumption|]].
    cbn [fn flat_map snd app] in *; rewrite app_nil_r in *; split; [reflexivity | exact Len].
  Qed.
  Lemma walk_preorder_of fuel h t : gtree TK h t -> (rsize t < fuel)%nat -> walk_preorder fuel h (root t) = Ok (nodes t).
  Proof.
    intros G L; unfold walk_preorder; rewrite (for_preorder_gpre _ _ _ _ _ (heads [(0, t)])) by reflexivity.
    change (fun (h : list node) (s : list addr) (_ : Z) (n : addr) => collect h s n) with (@gcollect (list node)).
    rewrite (gpre_collect TK fuel h [] [(0, t)]).
    - cbn [listed fn flat_map snd app]; rewrite app_nil_r; reflexivity.
    - constructor; [exact G | constructor].
    - cbn [fn flat_map snd]; rewrite app_nil_r; exact L.
  Qed.

  Lemma for_postorder_gpost {S A} (body : list node -> S -> addr -> list node * S * res (option A)) fuel :
    forall h s stack, for_postorder body fuel h s stack = gpost TK body fuel h s (rev stack).
  Proof.
    induction fuel as [|f IH]; intros h s stack; [reflexivity|].
    cbn [for_postorder gpost]; destruct (rev stack) as [|[n v] todo] eqn:E.
    - apply (f_equal (@rev (addr * bool))) in E; rewrite rev_involutive in E; cbn in E; subst; reflexivity.
    - apply (f_equal (@rev (addr * bool))) in E; rewrite rev_involutive in E; cbn [rev] in E; subst stack; rewrite pop_last_snoc.
      replace (negb (truth h n)) with (match TK h n with [] => true | _ => false end).
      2:{ unfold truth, TK, below; destruct (children (at_ h n)) as [|[k c] l]; [reflexivity|].
          cbn [dvals map snd rev]; destruct (rev (map snd l)); reflexivity. }
      destruct (v || match TK h n with [] => true | _ => false end).
      + destruct (body h s n) as [[h1 s1] [[a|]|e]]; try reflexivity; rewrite IH, rev_involutive; reflexivity.
      + rewrite IH; f_equal; rewrite !rev_app_distr, rev_involutive, <- map_rev; reflexivity.
  Qed.
  Lemma walk_postorder_gpost fuel h a ns :
    walk_postorder fuel h a = Ok ns -> exists t, root t = a /\ gtree TK h t /\ ns = post t /\ (cost t < fuel)%nat.
  Proof.
    unfold walk_postorder; rewrite for_postorder_gpost; cbn [rev app]; intros E.
    change (@collect) with (@ncollect (list node)) in E.
    destruct (gpost TK ncollect fuel h [] [(a, false)]) as [[h1 s1] [o|e]] eqn:G; cbn [listed] in E; [|discriminate]; injection E as ->.
    assert (o = None) as ->.
    { clear - G; revert h G; generalize ([] : list addr), [(a, false)]; induction fuel as [|f IH]; intros acc todo h G; [discriminate|].
      cbn [gpost] in G; destruct todo as [|[n v] todo]; [injection G as <- <- <-; reflexivity|].
      destruct (v || match TK h n with [] => true | _ => false end); exact (IH _ _ _ G). }
    apply gpost_collect_inv in G; destruct G as [l [Hd [Gt [-> Len]]]].
    destruct l as [|[t b] [|? ?]]; try discriminate; cbn [map] in Hd; unfold ihead in Hd; cbn [fst snd] in Hd; injection Hd as <- ->.
    exists t; split; [reflexivity|split; [apply Gt; left; reflexivity|]].
    unfold pcost in Len; cbn [map list_sum fold_right icost fst snd plist flat_map yields app] in *; rewrite app_nil_r.
    split; [reflexivity | unfold list_sum in Len; cbn [fold_right] in Len; lia].
  Qed.

  (* ---------------- breadth first ---------------- *)
  Definition deep (v : Z * addr * list addr) : Z := fst (fst v).
  Section Breadth.
    Context {S A : Type}.
    Variable body : list node -> S -> addr -> list node * S * res (option A).
    Variable shuffle : nat -> list addr -> list addr.
    Hypothesis shuffles : forall k l, Permutation (shuffle k l) l.

    Lemma breadth_visits fuel : forall k h s log frontier next h' s' log' (r : res (option A)) d,
      for_breadth (logged body) shuffle fuel k h (s, log) frontier next = (h', (s', log'), r) ->
      (frontier = [] -> next = []) ->
      exists Ff Fn ps rest, map root Ff = frontier /\ map root Fn = next /\
        Permutation (ps ++ rest) (flat_map (visits d) Ff ++ flat_map (visits (d + 1)) Fn) /\
        log' = log ++ map bare ps /\ StronglySorted (fun v w => deep v <= deep w) (ps ++ rest) /\
        Forall (fun v => d <= deep v) (ps ++ rest) /\ (r = Ok None -> rest = []).
    Proof.
      set (le := fun v w : Z * addr * list addr => deep v <= deep w).
      assert (Rest : forall frontier next d, let Ff := map (fun n => Rose n []) frontier in let Fn := map (fun n => Rose n []) next in
        map root Ff = frontier /\ map root Fn = next /\
        StronglySorted le (flat_map (visits d) Ff ++ flat_map (visits (d + 1)) Fn) /\
        Forall (fun v => d <= deep v) (flat_map (visits d) Ff ++ flat_map (visits (d + 1)) Fn)).
      { intros frontier next d Ff Fn.
        assert (X : forall e l, Forall (fun v => deep v = e) (flat_map (visits e) (map (fun n => Rose n []) l))).
        { intros e l; induction l as [|y l IHl]; [constructor | cbn [map flat_map visits app]; constructor; [reflexivity | exact IHl]]. }
        assert (Y : forall e l, StronglySorted le (flat_map (visits e) (map (fun n => Rose n []) l))).
        { intros e l; induction l as [|y l IHl]; [constructor|]; cbn [map flat_map visits app]; constructor; [exact IHl|].
          eapply Forall_impl; [|apply (X e l)]; unfold le, deep; cbn [fst]; intros; lia. }
        unfold Ff, Fn; rewrite !map_map; cbn [root]; rewrite !map_id; split; [reflexivity|split; [reflexivity|split]].
        - induction frontier as [|y l IHl]; [apply Y|]; cbn [map flat_map visits app]; constructor; [exact IHl|].
          apply Forall_app; split; (eapply Forall_impl; [|apply X]); unfold le, deep; cbn [fst]; intros; lia.
        - apply Forall_app; split; (eapply Forall_impl; [|apply X]); cbn beta; intros; lia. }
      induction fuel as [|f IH]; intros k h s log frontier next h' s' log' r d E Em; cbn [for_breadth] in E.
      - injection E as <- <- <- <-; destruct (Rest frontier next d) as [R1 [R2 [R3 R4]]].
        eexists _, _, [], _; split; [exact R1|split; [exact R2|split; [apply Permutation_refl|]]].
        split; [cbn; rewrite app_nil_r; reflexivity|split; [exact R3|split; [exact R4|discriminate]]].
      - destruct (pop_last frontier) as [[n fr]|] eqn:P.
        2:{ apply pop_last_None in P; subst; rewrite (Em eq_refl); injection E as <- <- <- <-.
            exists [], [], [], []; repeat split; try constructor; rewrite app_nil_r; reflexivity. }
        apply pop_last_inv in P; subst frontier; unfold logged in E at 1; cbn [fst snd] in E.
        destruct (body h s n) as [[h1 s1] r1] eqn:B.
        assert (Stop : r1 <> Ok None -> (h1, (s1, log ++ [(n, rev (below h1 n))]), r1) = (h', (s', log'), r) ->
          exists Ff Fn ps rest, map root Ff = fr ++ [n] /\ map root Fn = next /\
            Permutation (ps ++ rest) (flat_map (visits d) Ff ++ flat_map (visits (d + 1)) Fn) /\
            log' = log ++ map bare ps /\ StronglySorted le (ps ++ rest) /\
            Forall (fun v => d <= deep v) (ps ++ rest) /\ (r = Ok None -> rest = [])).
        { intros NR X; injection X as <- <- <- <-.
          destruct (Rest fr (rev (below h1 n) ++ next) d) as [R1 [R2 [R3 R4]]].
          set (Ff := map (fun n => Rose n []) fr) in *.
          exists (Ff ++ [Rose n (map (fun n => Rose n []) (rev (below h1 n)))]), (map (fun n => Rose n []) next),
            [(d, n, rev (below h1 n))], (flat_map (visits d) Ff ++ flat_map (visits (d + 1)) (map (fun n => Rose n []) (rev (below h1 n) ++ next))).
          split; [rewrite map_app, R1; reflexivity|split; [rewrite map_map; apply map_id|split; [|split; [reflexivity|split; [|split; [|contradiction]]]]]].
          - rewrite flat_map_app; cbn [flat_map visits app]; rewrite map_map; cbn [root]; rewrite map_id.
            rewrite map_app, flat_map_app, app_nil_r.
            rewrite <- app_assoc; cbn [app]; rewrite <- Permutation_middle; apply Permutation_refl.
          - cbn [app]; constructor; [exact R3|]; eapply Forall_impl; [|exact R4]; unfold le, deep; cbn [fst]; intros; assumption.
          - cbn [app]; constructor; [unfold deep; cbn; lia | exact R4]. }
        destruct r1 as [[a|]|e]; try (apply Stop; [discriminate | exact E]); clear Stop.
        change (dvals (children (at_ h1 n))) with (below h1 n) in E.
        assert (Ext : forall Ff0 Fn0 ps rest, map root Ff0 = fr -> map root Fn0 = next ++ below h1 n ->
          Permutation (ps ++ rest) (flat_map (visits d) Ff0 ++ flat_map (visits (d + 1)) Fn0) ->
          log' = (log ++ [(n, rev (below h1 n))]) ++ map bare ps -> StronglySorted le (ps ++ rest) ->
          Forall (fun v => d <= deep v) (ps ++ rest) -> (r = Ok None -> rest = []) ->
          exists Ff Fn ps rest, map root Ff = fr ++ [n] /\ map root Fn = next /\
            Permutation (ps ++ rest) (flat_map (visits d) Ff ++ flat_map (visits (d + 1)) Fn) /\
            log' = log ++ map bare ps /\ StronglySorted le (ps ++ rest) /\
            Forall (fun v => d <= deep v) (ps ++ rest) /\ (r = Ok None -> rest = [])).
        { intros Ff0 Fn0 ps rest Rf Rn Pm EL Ss Fd Dn; apply map_eq_app in Rn; destruct Rn as [Fn1 [Fk [-> [Rn Rk]]]].
          exists (Ff0 ++ [Rose n (rev Fk)]), Fn1, ((d, n, rev (below h1 n)) :: ps), rest.
          split; [rewrite map_app, Rf; reflexivity|split; [exact Rn|split; [|split; [|split; [|split; [|exact Dn]]]]]].
          - rewrite flat_map_app; cbn [flat_map visits app]; rewrite map_rev, Rk, app_nil_r, <- app_assoc; cbn [app].
            rewrite <- Permutation_middle; constructor; rewrite Pm; apply Permutation_app_head; rewrite flat_map_app.
            rewrite Permutation_app_comm; apply Permutation_app_tail; apply Permutation_flat_map, Permutation_rev.
          - rewrite EL, <- app_assoc; reflexivity.
          - cbn [app]; constructor; [exact Ss|]; eapply Forall_impl; [|exact Fd]; unfold le, deep; cbn [fst]; intros; assumption.
          - cbn [app]; constructor; [unfold deep; cbn; lia | exact Fd]. }
        destruct fr as [|x fr].
        + destruct (shuffle k (next ++ below h1 n)) as [|y ys] eqn:Sh.
          * pose proof (shuffles k (next ++ below h1 n)) as Q; rewrite Sh in Q; apply Permutation_nil in Q.
            apply (IH _ _ _ _ _ _ _ _ _ _ (d + 1)) in E; [|reflexivity].
            destruct E as [Ff [Fn [ps [rest [Rf [Rn [Pm [EL [Ss [Fd Dn]]]]]]]]]].
            destruct Ff; [|discriminate]; destruct Fn; [|discriminate]; cbn [flat_map app] in Pm.
            apply (Ext [] [] ps rest); [reflexivity | rewrite Q; reflexivity | exact Pm | exact EL | exact Ss | | exact Dn].
            apply Permutation_sym, Permutation_nil in Pm; rewrite Pm; constructor.
          * apply (IH _ _ _ _ _ _ _ _ _ _ (d + 1)) in E; [|discriminate].
            destruct E as [Ff [Fn [ps [rest [Rf [Rn [Pm [EL [Ss [Fd Dn]]]]]]]]]].
            destruct Fn; [|discriminate]; cbn [flat_map] in Pm; rewrite app_nil_r in Pm.
            pose proof (shuffles k (next ++ below h1 n)) as Q; rewrite Sh, <- Rf in Q.
            apply Permutation_sym, Permutation_map_inv in Q; destruct Q as [Fn0 [Q1 Q2]].
            apply (Ext [] Fn0 ps rest); [reflexivity | symmetry; exact Q1 | | exact EL | exact Ss | | exact Dn].
            -- cbn [flat_map app]; rewrite Pm; apply Permutation_flat_map; exact Q2.
            -- eapply Forall_impl; [|exact Fd]; cbn beta; intros; lia.
        + apply (IH _ _ _ _ _ _ _ _ _ _ d) in E; [|discriminate].
          destruct E as [Ff [Fn [ps [rest [Rf [Rn [Pm [EL [Ss [Fd Dn]]]]]]]]]].
          apply (Ext Ff Fn ps rest); assumption.
    Qed.

    Lemma breadth_endless (Q : list node -> addr -> Prop) :
      (forall h s n h' s' r, Q h n -> body h s n = (h', s', r) ->
         r = Ok None /\ below h' n <> [] /\ (forall m, Q h m -> Q h' m) /\ (forall m, In m (below h' n) -> Q h' m)) ->
      forall fuel k h s frontier next, frontier <> [] -> Forall (Q h) frontier -> Forall (Q h) next ->
      snd (for_breadth body shuffle fuel k h s frontier next) = Raise OutOfFuel.
    Proof.
      intros B; induction fuel as [|f IH]; intros k h s frontier next NE Qf Qn; [reflexivity|].
      cbn [for_breadth]; destruct (pop_last frontier) as [[n fr]|] eqn:P; [|apply pop_last_None in P; congruence].
      apply pop_last_inv in P; subst frontier; apply Forall_app in Qf; destruct Qf as [Qf Q0]; inversion Q0 as [|? ? Q0' _]; subst.
      destruct (body h s n) as [[h1 s1] r1] eqn:Bn; destruct (B _ _ _ _ _ _ Q0' Bn) as [-> [NK [Q1 Q2]]].
      assert (Qx : Forall (Q h1) (next ++ dvals (children (at_ h1 n)))).
      { apply Forall_app; split; [eapply Forall_impl; [apply Q1 | exact Qn] | apply Forall_forall; exact Q2]. }
      assert (Qf' : Forall (Q h1) fr) by (eapply Forall_impl; [apply Q1 | exact Qf]).
      destruct fr as [|x fr]; apply IH; [| |constructor|discriminate|exact Qf'|exact Qx].
      - intros X; pose proof (shuffles k (next ++ dvals (children (at_ h1 n)))) as Y; rewrite X in Y; apply Permutation_nil in Y.
        apply app_eq_nil in Y; destruct Y as [_ Y]; exact (NK Y).
      - rewrite Forall_forall in Qx |- *; intros m I; apply Qx; exact (Permutation_in m (shuffles k _) I).
    Qed.

    (** nothing is added *)
    Definition FK (h : list node) (n : addr) : list addr := below h n.
    Lemma breadth_removals : (forall h s n h' s' r m, body h s n = (h', s', r) -> thinned (below h' m) (below h m)) ->
      forall fuel k h s log Ff Fn h' s' log' (r : res (option A)),
      for_breadth (logged body) shuffle fuel k h (s, log) (map root Ff) (map root Fn) = (h', (s', log'), r) ->
      Forall (gtree FK h) Ff -> Forall (gtree FK h) Fn -> (fsize Ff + fsize Fn < fuel)%nat ->
      exists L rest, log' = log ++ L /\ Permutation (map fst L ++ rest) (flat_map nodes Ff ++ flat_map nodes Fn) /\
        (r = Raise OutOfFuel -> exists h s n, snd (body h s n) = Raise OutOfFuel).
    Proof.
      intros B; induction fuel as [|f IH]; intros k h s log Ff Fn h' s' log' r E Gf Gn Len; [lia|].
      cbn [for_breadth] in E; destruct (pop_last (map root Ff)) as [[n fr]|] eqn:P.
      2:{ injection E as <- <- <- <-; exists [], (flat_map nodes Ff ++ flat_map nodes Fn); repeat split; [rewrite app_nil_r; reflexivity | cbn; apply Permutation_refl | discriminate]. }
      apply pop_last_inv in P; apply map_eq_app in P; destruct P as [Ff0 [[|t [|? ?]] [-> [<- Rt]]]]; try discriminate.
      cbn [map] in Rt; injection Rt as Rt; apply Forall_app in Gf; destruct Gf as [Gf Gt]; inversion Gt as [|? ? Gt0 _]; subst; clear Gt.
      unfold logged in E at 1; cbn [fst snd] in E; destruct (body h s (root t)) as [[h1 s1] r1] eqn:Bn.
      assert (Stop : r1 <> Ok None -> (h1, (s1, log ++ [(root t, rev (below h1 (root t)))]), r1) = (h', (s', log'), r) ->
        exists L rest, log' = log ++ L /\ Permutation (map fst L ++ rest) (flat_map nodes (Ff0 ++ [t]) ++ flat_map nodes Fn) /\
          (r = Raise OutOfFuel -> exists h s n, snd (body h s n) = Raise OutOfFuel)).
      { intros NR X; injection X as <- <- <- <-.
        exists [(root t, rev (below h1 (root t)))], (flat_map nodes Ff0 ++ flat_map nodes (branches t) ++ flat_map nodes Fn); repeat split.
        - destruct t as [n ks]; rewrite flat_map_app; cbn [flat_map nodes root branches map fst app]; rewrite app_nil_r, <- app_assoc; cbn [app].
          rewrite <- Permutation_middle; apply Permutation_refl.
        - intros X; exists h, s, (root t); rewrite Bn; exact X. }
      destruct r1 as [[a|]|e]; try (apply Stop; [discriminate | exact E]); clear Stop.
      assert (T : forall m, thinned (FK h1 m) (FK h m)) by (intros m; exact (B _ _ _ _ _ _ m Bn)).
      destruct (gtree_thinned FK h h1 t T Gt0) as [t' [Rt' [Gt' [Tt _]]]].
      destruct (gforest_thinned FK h h1 Ff0 T Gf) as [Ff' [Rf' [Gf' [Tf _]]]].
      destruct (gforest_thinned FK h h1 Fn T Gn) as [Fn' [Rn' [Gn' [Tn _]]]].
      destruct t' as [n ks]; cbn [root] in Rt'; subst n; cbn [flat_map] in Tt; rewrite !app_nil_r in Tt.
      inversion Gt' as [x y Kn Gk]; subst x y; change (dvals (children (at_ h1 (root t)))) with (FK h1 (root t)) in E.
      rewrite Kn, <- Rn', <- map_app, <- Rf' in E.
      assert (TT : thinned (flat_map nodes Ff' ++ (root t :: flat_map nodes ks) ++ flat_map nodes Fn') (flat_map nodes (Ff0 ++ [t]) ++ flat_map nodes Fn)).
      { rewrite flat_map_app; cbn [flat_map]; rewrite app_nil_r, <- app_assoc; apply thinned_app; [exact Tf | apply thinned_app; [exact Tt | exact Tn]]. }
      assert (Len' : (Datatypes.S (fsize Ff' + (fsize Fn' + fsize ks)) <= f)%nat).
      { apply thinned_length in TT; rewrite !app_length in TT; cbn [length] in TT; unfold fsize in *; lia. }
      destruct (thinned_Permutation _ _ TT) as [drop PT].
      assert (Fin : forall Gf Gn, Permutation (flat_map nodes Gf ++ flat_map nodes Gn) (flat_map nodes Ff' ++ flat_map nodes (Fn' ++ ks)) ->
        (exists L rest, log' = (log ++ [(root t, rev (below h1 (root t)))]) ++ L /\ Permutation (map fst L ++ rest) (flat_map nodes Gf ++ flat_map nodes Gn) /\
           (r = Raise OutOfFuel -> exists h s n, snd (body h s n) = Raise OutOfFuel)) ->
        exists L rest, log' = log ++ L /\ Permutation (map fst L ++ rest) (flat_map nodes (Ff0 ++ [t]) ++ flat_map nodes Fn) /\
          (r = Raise OutOfFuel -> exists h s n, snd (body h s n) = Raise OutOfFuel)).
      { intros Xf Xn PX [L [rest [-> [PL Fu]]]]; exists ((root t, rev (below h1 (root t))) :: L), (rest ++ drop); repeat split; [rewrite <- app_assoc; reflexivity | | exact Fu].
        rewrite <- PT; cbn [map fst app]; rewrite app_assoc, PL, PX, flat_map_app.
        change (root t :: (flat_map nodes Ff' ++ flat_map nodes Fn' ++ flat_map nodes ks) ++ drop)
          with ((root t :: (flat_map nodes Ff' ++ flat_map nodes Fn' ++ flat_map nodes ks)) ++ drop).
        apply Permutation_app_tail; rewrite Permutation_middle; apply Permutation_app_head; cbn [app]; constructor; apply Permutation_app_comm. }
      destruct (map root Ff') as [|x fr] eqn:Ef.
      - destruct Ff'; [|discriminate].
        pose proof (shuffles k (map root (Fn' ++ ks))) as Q; apply Permutation_sym, Permutation_sym, Permutation_map_inv in Q.
        destruct Q as [Fs [Q1 Q2]]; rewrite Q1 in E.
        apply (IH _ _ _ _ Fs []) in E.
        + apply (Fin Fs []); [|exact E]; cbn [flat_map app]; rewrite app_nil_r; apply Permutation_flat_map, Permutation_sym; exact Q2.
        + apply Forall_forall; intros u Iu; apply (Permutation_in u (Permutation_sym Q2)) in Iu.
          assert (Fa : Forall (gtree FK h1) (Fn' ++ ks)) by (apply Forall_app; split; assumption).
          rewrite Forall_forall in Fa; apply Fa; exact Iu.
        + constructor.
        + rewrite <- (fsize_perm _ _ Q2), fsize_app; unfold fsize in *; cbn [flat_map length] in *; lia.
      - rewrite <- Ef in E; apply IH in E.
        + apply (Fin Ff' (Fn' ++ ks)); [apply Permutation_refl | exact E].
        + exact Gf'.
        + apply Forall_app; split; assumption.
        + rewrite fsize_app; lia.
    Qed.
  End Breadth.
End Tree.

Section Place.
  Import Place_model.
  Lemma for_walk_gpre {S A} (body : list place -> S -> Z -> addr -> list place * S * res (option A)) fuel :
    forall h s stack, for_walk body fuel h s stack = gpre inside body fuel h s (rev stack).
  Proof.
    induction fuel as [|f IH]; intros h s stack; [reflexivity|].
    cbn [for_walk gpre]; destruct (rev stack) as [|[d n] todo] eqn:E.
    - apply (f_equal (@rev (Z * addr))) in E; rewrite rev_involutive in E; cbn in E; subst; reflexivity.
    - apply (f_equal (@rev (Z * addr))) in E; rewrite rev_involutive in E; cbn [rev] in E; subst stack; rewrite pop_last_snoc.
      destruct (body h s d n) as [[h1 s1] [[a|]|e]]; try reflexivity.
      rewrite IH; f_equal; rewrite rev_app_distr, !rev_involutive; reflexivity.
  Qed.

  Definition text_node (v : str * addr * list addr) : str * addr := fst v.
  Definition node_kids (v : str * addr * list addr) : addr * list addr := (snd (fst v), snd v).
  Section Paths.
    Context {S A : Type}.
    Variable body : list place -> S -> str -> addr -> list place * S * res (option A).

    Lemma for_paths_visits : (forall h s p n h' s' r m, body h s p n = (h', s', r) -> label (at_ h' m) = label (at_ h m)) ->
      forall h0 fuel h s log path ld ln stack h' s' log' (r : res (option A)),
      (forall m, label (at_ h m) = label (at_ h0 m)) ->
      for_paths (logged_path body) fuel h (s, log) path ld ln stack = (h', (s', log'), r) ->
      exists F L rest T, heads F = rev stack /\ fv F = L ++ rest /\ log' = log ++ T /\ map bare L = map node_kids T /\
        with_path h0 path ld ln (map fst L) = Ok (map text_node T) /\ (r = Ok None -> rest = []).
    Proof.
      intros Lab h0; induction fuel as [|f IH]; intros h s log path ld ln stack h' s' log' r Hl E; cbn [for_paths] in E.
      { injection E as <- <- <- <-; exists (leaves (rev stack)), [], (fv (leaves (rev stack))), []; repeat split;
          [apply heads_leaves | rewrite app_nil_r; reflexivity | discriminate]. }
      destruct (pop_last stack) as [[[d n] st]|] eqn:P.
      2:{ apply pop_last_None in P; subst; injection E as <- <- <- <-; exists [], [], [], []; repeat split; rewrite app_nil_r; reflexivity. }
      apply pop_last_inv in P; subst stack; rewrite rev_app_distr; cbn [rev app].
      set (step := fun h => if d =? ld + 1 then match ln with Some n => Ok (path ++ [label (at_ h n)]) | None => Raise AttributeError end
        else if d =? ld then Ok path else if d <? ld then Ok (but_last (ld - d) path) else Raise PlainException).
      change (if d =? ld + 1 then match ln with Some n => Ok (path ++ [label (at_ h n)]) | None => Raise AttributeError end
        else if d =? ld then Ok path else if d <? ld then Ok (but_last (ld - d) path) else Raise PlainException) with (step h) in E.
      assert (Es : step h = step h0) by (unfold step; destruct (d =? ld + 1); [destruct ln; [rewrite Hl|]|]; reflexivity).
      rewrite Es in E; destruct (step h0) as [path'|e] eqn:St.
      2:{ injection E as <- <- <- <-; exists (leaves ((d, n) :: rev st)), [], (fv (leaves ((d, n) :: rev st))), []; repeat split;
          [apply heads_leaves | rewrite app_nil_r; reflexivity | discriminate]. }
      unfold logged_path in E at 1; cbn [fst snd] in E; destruct (body h s (join (u "/") path') n) as [[h1 s1] r1] eqn:B.
      assert (One : with_path h0 path ld ln (map fst [(d, n, inside h1 n)]) = Ok (map text_node [(join (u "/") path', n, inside h1 n)])).
      { cbn [map fst with_path]; fold (step h0); rewrite St; reflexivity. }
      assert (Stop : r1 <> Ok None -> (h1, (s1, log ++ [(join (u "/") path', n, inside h1 n)]), r1) = (h', (s', log'), r) ->
        exists F L rest T, heads F = (d, n) :: rev st /\ fv F = L ++ rest /\ log' = log ++ T /\ map bare L = map node_kids T /\
          with_path h0 path ld ln (map fst L) = Ok (map text_node T) /\ (r = Ok None -> rest = [])).
      { intros NR X; injection X as <- <- <- <-; set (ks := map (fun m => Rose m []) (inside h1 n)).
        exists ((d, Rose n ks) :: leaves (rev st)), [(d, n, inside h1 n)], (flat_map (visits (d + 1)) ks ++ fv (leaves (rev st))), [(join (u "/") path', n, inside h1 n)].
        repeat split.
        - cbn [heads map fst snd root]; f_equal; apply heads_leaves.
        - cbn [fv flat_map visits fst snd app]; f_equal; unfold ks; rewrite map_map; cbn [root]; rewrite map_id; reflexivity.
        - exact One.
        - contradiction. }
      destruct r1 as [[a|]|e]; try (apply Stop; [discriminate | exact E]); clear Stop.
      apply IH in E; [|intros m; rewrite (Lab _ _ _ _ _ _ _ m B); apply Hl].
      destruct E as [F [L [rest [T [Hd [V [-> [EL [W Dn]]]]]]]]].
      rewrite rev_app_distr, !rev_involutive in Hd.
      apply heads_split in Hd; destruct Hd as [F1 [F2 [-> [Hd1 Hd2]]]].
      apply heads_deep_inv in Hd1; destruct Hd1 as [ks [-> Rk]].
      exists ((d, Rose n ks) :: F2), ((d, n, inside h1 n) :: L), rest, ((join (u "/") path', n, inside h1 n) :: T); repeat split.
      - cbn [heads map fst snd root]; f_equal; exact Hd2.
      - rewrite fv_app, fv_deep in V; cbn [fv flat_map visits fst snd app]; rewrite Rk; f_equal; exact V.
      - rewrite <- app_assoc; reflexivity.
      - cbn [map]; rewrite EL; reflexivity.
      - cbn [map fst with_path]; fold (step h0); rewrite St; cbn [bind]; rewrite W; reflexivity.
      - exact Dn.
    Qed.

    Lemma with_path_prefix h : forall a b path ld ln w, with_path h path ld ln (a ++ b) = Ok w ->
      with_path h path ld ln a = Ok (firstn (length a) w).
    Proof.
      induction a as [|[d n] a IH]; intros b path ld ln w E; [reflexivity|].
      cbn [app with_path length] in *.
      destruct (if d =? ld + 1 then match ln with Some n => Ok (path ++ [label (at_ h n)]) | None => Raise AttributeError end
        else if d =? ld then Ok path else if d <? ld then Ok (but_last (ld - d) path) else Raise PlainException) as [p|e]; cbn [bind] in *; [|discriminate].
      destruct (with_path h p d (Some n) (a ++ b)) as [w'|e] eqn:W; cbn [rmap] in E; [|discriminate]; injection E as <-.
      rewrite (IH _ _ _ _ _ W); reflexivity.
    Qed.
    Lemma visits_pre t : forall d, map fst (visits d t) = pre d t.
    Proof.
      induction t as [x ks IH] using rose_rec_ind; intros d; cbn [visits pre map fst]; f_equal.
      rewrite map_flat_map; apply flat_map_ext_Forall; eapply Forall_impl; [|exact IH]; intros k X; apply X.
    Qed.

    (** the depths never skip a level *)
    Lemma for_paths_fine : (forall h s p n, exists h' s' o, body h s p n = (h', s', Ok o)) ->
      forall fuel h s path ld ln stack,
      (ln = None -> forall d n, In (d, n) stack -> d = ld) -> (forall d n, In (d, n) stack -> d <= ld + 1) ->
      StronglySorted (fun p q : Z * addr => fst q <= fst p) (rev stack) ->
      (exists o, snd (for_paths body fuel h s path ld ln stack) = Ok o) \/ snd (for_paths body fuel h s path ld ln stack) = Raise OutOfFuel.
    Proof.
      intros B; induction fuel as [|f IH]; intros h s path ld ln stack N0 N1 Ss; [right; reflexivity|].
      cbn [for_paths]; destruct (pop_last stack) as [[[d n] st]|] eqn:P; [|left; exists None; reflexivity].
      apply pop_last_inv in P; subst stack; rewrite rev_app_distr in Ss; cbn [rev app] in Ss; inversion Ss as [|? ? Ss' Fd]; subst.
      assert (Id : In (d, n) (st ++ [(d, n)])) by (apply in_or_app; right; left; reflexivity).
      pose proof (N1 d n Id) as D1.
      match goal with |- context [match ?x with Ok _ => _ | Raise _ => _ end] => assert (exists p, x = Ok p) as [path' ->] end.
      { destruct (Z.eqb_spec d (ld + 1)) as [X|X].
        - destruct ln as [m|]; [eexists; reflexivity|]; pose proof (N0 eq_refl d n Id); lia.
        - destruct (Z.eqb_spec d ld) as [Y|Y]; [eexists; reflexivity|].
          destruct (Z.ltb_spec d ld); [eexists; reflexivity | lia]. }
      destruct (B h s (join (u "/") path') n) as [h1 [s1 [o Bn]]]; rewrite Bn.
      destruct o as [o|]; [left; exists (Some o); reflexivity|].
      apply IH.
      - discriminate.
      - intros e m I; apply in_app_or in I; destruct I as [I|I].
        + rewrite Forall_forall in Fd; apply in_rev in I; apply Fd in I; cbn [fst] in I; lia.
        + apply in_rev, in_map_iff in I; destruct I as [c [X _]]; injection X as <- _; lia.
      - rewrite rev_app_distr, rev_involutive.
        induction (dvals (kids (at_ h1 n))) as [|c l IHl]; [exact Ss'|]; cbn [map app]; constructor; [exact IHl|].
        apply Forall_app; split.
        + apply Forall_map, Forall_forall; intros c' _; cbn [fst]; lia.
        + eapply Forall_impl; [|exact Fd]; cbn [fst]; intros; lia.
    Qed.
  End Paths.
End Place.
