(* TreeEdit_proofs.v -- lemmas on loops whose body changes the tree *)
From Verif Require Import Base PyText Rose Maps_model TreeEdit_model TreeEdit_spec.
From Verif Require Tree_model Tree_spec Place_model Place_spec Place_proofs.
From Coq Require Import Permutation Sorted.

(* ---------------- lists ---------------- *)
Lemma thinned_refl {A} (l : list A) : thinned l l.
Proof. induction l; constructor; assumption. Qed.
Lemma thinned_nil {A} (l : list A) : thinned [] l.
Proof. induction l; constructor; assumption. Qed.
Lemma thinned_trans {A} (l1 l2 l3 : list A) : thinned l1 l2 -> thinned l2 l3 -> thinned l1 l3.
Proof.
  intros T12 T23; revert l1 T12; induction T23 as [|x l l' T IH|x l l' T IH]; intros l1 T12.
  - exact T12.
  - inversion T12; subst; constructor; apply IH; assumption.
  - constructor; apply IH; assumption.
Qed.
Lemma thinned_app {A} (a a' b b' : list A) : thinned a a' -> thinned b b' -> thinned (a ++ b) (a' ++ b').
Proof. intros T T'; induction T; cbn [app]; [exact T' | constructor; assumption | constructor; assumption]. Qed.
Lemma thinned_rev {A} (l l' : list A) : thinned l l' -> thinned (rev l) (rev l').
Proof.
  induction 1 as [|x l l' T IH|x l l' T IH]; cbn [rev]; [constructor | apply thinned_app; [exact IH | apply thinned_refl]|].
  rewrite <- (app_nil_r (rev l)); apply thinned_app; [exact IH | apply thinned_nil].
Qed.
Lemma thinned_length {A} (l l' : list A) : thinned l l' -> (length l <= length l')%nat.
Proof. induction 1; cbn [length]; lia. Qed.
Lemma thinned_In {A} (l l' : list A) x : thinned l l' -> In x l -> In x l'.
Proof. induction 1; cbn [In]; intuition. Qed.
Lemma thinned_Permutation {A} (l l' : list A) : thinned l l' -> exists r, Permutation (l ++ r) l'.
Proof.
  induction 1 as [|x l l' T [r P]|x l l' T [r P]].
  - exists []; constructor.
  - exists r; cbn [app]; constructor; exact P.
  - exists (x :: r); rewrite <- Permutation_middle; constructor; exact P.
Qed.
Lemma thinned_map {A B} (f : A -> B) l l' : thinned l (map f l') -> exists k, l = map f k /\ thinned k l'.
Proof.
  revert l; induction l' as [|y l' IH]; intros l T; cbn [map] in T; inversion T; subst.
  - exists []; split; [reflexivity | constructor].
  - destruct (IH _ H1) as [k [-> K]]; exists (y :: k); split; [reflexivity | constructor; exact K].
  - destruct (IH _ H1) as [k [-> K]]; exists k; split; [reflexivity | constructor; exact K].
Qed.

(* ---------------- trees of a store ---------------- *)
Section Gen.
  Context {H : Type}.
  Variable K : H -> addr -> list addr.   (* what is below a node, in the order visited *)

  Inductive gtree (h : H) : rose addr -> Prop :=
  | Gtree x ks : K h x = map root ks -> Forall (gtree h) ks -> gtree h (Rose x ks).

  Definition heads (F : list (Z * rose addr)) : list (Z * addr) := map (fun p => (fst p, root (snd p))) F.
  Definition fv (F : list (Z * rose addr)) : list (Z * addr * list addr) := flat_map (fun p => visits (fst p) (snd p)) F.
  Definition fn (F : list (Z * rose addr)) : list addr := flat_map (fun p => nodes (snd p)) F.
  Lemma visits_who t : forall d, map who (visits d t) = nodes t.
  Proof.
    induction t as [x ks IH] using rose_rec_ind; intros d; cbn [visits nodes map]; f_equal.
    rewrite map_flat_map; apply flat_map_ext_Forall; eapply Forall_impl; [|exact IH]; intros k E; apply E.
  Qed.
  Lemma fv_who F : map who (fv F) = fn F.
  Proof. unfold fv, fn; rewrite map_flat_map; apply flat_map_ext; intros p; apply visits_who. Qed.
  Lemma heads_deep d ks : heads (map (pair d) ks) = map (pair d) (map root ks).
  Proof. unfold heads; rewrite !map_map; reflexivity. Qed.
  Lemma fv_deep d ks : fv (map (pair d) ks) = flat_map (visits d) ks.
  Proof. unfold fv; rewrite flat_map_map; reflexivity. Qed.
  Lemma fn_deep d ks : fn (map (pair d) ks) = flat_map nodes ks.
  Proof. unfold fn; rewrite flat_map_map; reflexivity. Qed.
  Lemma heads_app F G : heads (F ++ G) = heads F ++ heads G.
  Proof. apply map_app. Qed.
  Lemma fv_app F G : fv (F ++ G) = fv F ++ fv G.
  Proof. apply flat_map_app. Qed.
  Lemma fn_app F G : fn (F ++ G) = fn F ++ fn G.
  Proof. apply flat_map_app. Qed.
  Lemma heads_split F a b : heads F = a ++ b -> exists F1 F2, F = F1 ++ F2 /\ heads F1 = a /\ heads F2 = b.
  Proof.
    revert a; induction F as [|p F IH]; intros a E.
    - destruct a, b; try discriminate; exists [], []; repeat split.
    - destruct a as [|q a]; cbn [app] in E.
      + exists [], (p :: F); repeat split; exact E.
      + cbn [heads map] in E; injection E as <- E; destruct (IH a E) as [F1 [F2 [-> [<- <-]]]].
        exists (p :: F1), F2; repeat split.
  Qed.
  Lemma heads_deep_inv d l F : heads F = map (pair d) l -> exists ks, F = map (pair d) ks /\ map root ks = l.
  Proof.
    revert l; induction F as [|[e t] F IH]; intros [|x l] E; try discriminate.
    - exists []; repeat split.
    - cbn [heads map fst snd] in E; injection E as -> <- E; destruct (IH l E) as [ks [-> <-]].
      exists (t :: ks); repeat split.
  Qed.
  Definition leaves (l : list (Z * addr)) : list (Z * rose addr) := map (fun p => (fst p, Rose (snd p) [])) l.
  Lemma heads_leaves l : heads (leaves l) = l.
  Proof. unfold heads, leaves; rewrite map_map; cbn; rewrite <- (map_id l) at 2; apply map_ext; intros [d n]; reflexivity. Qed.

  (** the same tree in another store *)
  Lemma gtree_same h h' t : (forall m, In m (nodes t) -> K h' m = K h m) -> gtree h t -> gtree h' t.
  Proof.
    induction t as [x ks IH] using rose_rec_ind; intros E G; inversion G; subst; constructor.
    - rewrite E by (left; reflexivity); assumption.
    - rewrite Forall_forall in *; intros k I; apply IH; [exact I | | auto].
      intros m J; apply E; right; apply in_flat_map; exists k; split; assumption.
  Qed.
  Lemma gtree_visits h t d : (forall v, In v (visits d t) -> K h (who v) = snd v) -> gtree h t.
  Proof.
    revert d; induction t as [x ks IH] using rose_rec_ind; intros d E; constructor.
    - exact (E _ (or_introl eq_refl)).
    - rewrite Forall_forall in *; intros k I; apply (IH k I (d + 1)).
      intros v J; apply E; right; apply in_flat_map; exists k; split; assumption.
  Qed.
  (** children first, and the steps the walk takes *)
  Fixpoint post (t : rose addr) : list addr := match t with Rose x ks => flat_map post ks ++ [x] end.
  Fixpoint cost (t : rose addr) : nat := match t with Rose x ks => match ks with [] => 1 | _ => 2 + list_sum (map cost ks) end end.
  Lemma post_nodes t : Permutation (post t) (nodes t).
  Proof.
    induction t as [x ks IH] using rose_rec_ind; cbn [post nodes].
    rewrite <- Permutation_cons_append; constructor; induction IH as [|k ks P _ IHk]; [constructor|].
    cbn [flat_map]; apply Permutation_app; assumption.
  Qed.
  Lemma posts_nodes ts : Permutation (flat_map post ts) (flat_map nodes ts).
  Proof. induction ts as [|t ts IH]; [constructor|]; cbn [flat_map]; apply Permutation_app; [apply post_nodes | exact IH]. Qed.

  (** dropping what lies below nodes *)
  Definition smaller (ts' ts : list (rose addr)) : Prop :=
    thinned (flat_map nodes ts') (flat_map nodes ts) /\ thinned (flat_map post ts') (flat_map post ts) /\
    (list_sum (map cost ts') <= list_sum (map cost ts))%nat.
  Lemma smaller_cons t' t ts' ts : smaller [t'] [t] -> smaller ts' ts -> smaller (t' :: ts') (t :: ts).
  Proof.
    intros [A [B C]] [A' [B' C']]; unfold smaller; cbn [flat_map map list_sum fold_right] in *; rewrite !app_nil_r in *.
    repeat split; [apply thinned_app; assumption | apply thinned_app; assumption | unfold list_sum in *; cbn [fold_right] in *; lia].
  Qed.
  Lemma smaller_drop t ts' ts : smaller ts' ts -> smaller ts' (t :: ts).
  Proof.
    intros [A' [B' C']]; unfold smaller; cbn [flat_map map]; repeat split.
    - apply (thinned_app [] (nodes t)); [apply thinned_nil | exact A'].
    - apply (thinned_app [] (post t)); [apply thinned_nil | exact B'].
    - unfold list_sum in *; cbn [fold_right]; lia.
  Qed.
  Lemma smaller_rose x js ks : (ks = [] -> js = []) -> smaller js ks -> smaller [Rose x js] [Rose x ks].
  Proof.
    intros N [A [B C]]; unfold smaller; cbn [flat_map map nodes post]; rewrite !app_nil_r; repeat split.
    - constructor; exact A.
    - apply thinned_app; [exact B | apply thinned_refl].
    - unfold list_sum in *; cbn [fold_right cost]; destruct ks as [|k ks]; [rewrite (N eq_refl); cbn; lia|].
      destruct js as [|j js]; cbn [map list_sum fold_right] in *; unfold list_sum in *; lia.
  Qed.
  Lemma smaller_nil : smaller [] [].
  Proof. repeat split; try constructor. Qed.

  Lemma gtree_thinned h h' t : (forall m, thinned (K h' m) (K h m)) -> gtree h t ->
    exists t', root t' = root t /\ gtree h' t' /\ smaller [t'] [t].
  Proof.
    intros T; induction t as [x ks IH] using rose_rec_ind; intros G; inversion G; subst.
    pose proof (T x) as Tx; rewrite H2 in Tx; apply thinned_map in Tx; destruct Tx as [js [E J]].
    assert (Q : exists js', map root js' = map root js /\ Forall (gtree h') js' /\ smaller js' ks).
    { clear G H2 E; revert IH H3; induction J as [|k js ks J IHJ|k js ks J IHJ]; intros IH G.
      - exists []; split; [reflexivity | split; [constructor | apply smaller_nil]].
      - inversion IH; subst; inversion G; subst.
        destruct (H2 H4) as [k' [Rk [Gk Tk]]]; destruct (IHJ H3 H5) as [js' [R [Gs Ts]]].
        exists (k' :: js'); split; [cbn [map]; rewrite Rk, R; reflexivity | split; [constructor; assumption | apply smaller_cons; assumption]].
      - inversion IH; subst; inversion G; subst.
        destruct (IHJ H3 H5) as [js' [R [Gs Ts]]]; exists js'; split; [exact R | split; [exact Gs | apply smaller_drop; exact Ts]]. }
    destruct Q as [js' [R [Gs Ts]]]; exists (Rose x js'); split; [reflexivity | split].
    - constructor; [rewrite E, R; reflexivity | exact Gs].
    - apply smaller_rose; [|exact Ts].
      intros ->; inversion J; subst; cbn in R; destruct js'; [reflexivity | discriminate].
  Qed.
  Lemma gforest_thinned h h' ts : (forall m, thinned (K h' m) (K h m)) -> Forall (gtree h) ts ->
    exists ts', map root ts' = map root ts /\ Forall (gtree h') ts' /\ smaller ts' ts.
  Proof.
    intros T; induction 1 as [|t ts G Gs [ts' [R [Gs' Ts]]]].
    - exists []; split; [reflexivity | split; [constructor | apply smaller_nil]].
    - destruct (gtree_thinned h h' t T G) as [t' [Rt [Gt Tt]]]; exists (t' :: ts'); split; [|split].
      + cbn [map]; rewrite Rt, R; reflexivity.
      + constructor; assumption.
      + apply smaller_cons; assumption.
  Qed.

  (* ---------------- parents first ---------------- *)
  Section Pre.
    Context {S A : Type}.
    Variable body : H -> S -> Z -> addr -> H * S * res (option A).
    Fixpoint gpre (fuel : nat) (h : H) (s : S) (todo : list (Z * addr)) : H * S * res (option A) :=
      match fuel with
      | O => (h, s, Raise OutOfFuel)
      | Datatypes.S f =>
          match todo with
          | [] => (h, s, Ok None)
          | (d, n) :: todo =>
              match body h s d n with
              | (h, s, Ok None) => gpre f h s (map (pair (d + 1)) (K h n) ++ todo)
              | out => out
              end
          end
      end.
  End Pre.
  Definition gnoted {S A} (body : H -> S -> Z -> addr -> H * S * res (option A))
      (h : H) (s : S * list (Z * addr * list addr)) (d : Z) (n : addr) : H * (S * list (Z * addr * list addr)) * res (option A) :=
    let '(h', s', r) := body h (fst s) d n in (h', (s', snd s ++ [(d, n, K h' n)]), r).
  Definition gcollect (h : H) (s : list addr) (d : Z) (n : addr) : H * list addr * res (option unit) := (h, s ++ [n], Ok None).

  Section PreRuns.
    Context {S A : Type}.
    Variable body : H -> S -> Z -> addr -> H * S * res (option A).

    Lemma gpre_visits fuel : forall h s log todo h' s' log' (r : res (option A)),
      gpre (gnoted body) fuel h (s, log) todo = (h', (s', log'), r) ->
      exists F L rest, heads F = todo /\ fv F = L ++ rest /\ log' = log ++ L /\ (length L <= fuel)%nat /\
        (r = Ok None -> rest = [] /\ (length L < fuel)%nat).
    Proof.
      induction fuel as [|f IH]; intros h s log todo h' s' log' r E; cbn [gpre] in E.
      - injection E as <- <- <- <-; exists (leaves todo), [], (fv (leaves todo)); repeat split.
        + apply heads_leaves.
        + rewrite app_nil_r; reflexivity.
        + cbn; lia.
        + discriminate.
        + discriminate.
      - destruct todo as [|[d n] todo].
        + injection E as <- <- <- <-; exists [], [], []; repeat split; cbn; [rewrite app_nil_r; reflexivity | lia | lia].
        + unfold gnoted in E at 1; cbn [fst snd] in E; destruct (body h s d n) as [[h1 s1] r1] eqn:B.
          assert (Stop : r1 <> Ok None -> (h1, (s1, log ++ [(d, n, K h1 n)]), r1) = (h', (s', log'), r) ->
            exists F L rest, heads F = (d, n) :: todo /\ fv F = L ++ rest /\ log' = log ++ L /\ (length L <= Datatypes.S f)%nat /\
              (r = Ok None -> rest = [] /\ (length L < Datatypes.S f)%nat)).
          { intros NR X; injection X as <- <- <- <-.
            set (ks := map (fun m => Rose m []) (K h1 n)).
            exists ((d, Rose n ks) :: leaves todo), [(d, n, K h1 n)], (flat_map (visits (d + 1)) ks ++ fv (leaves todo)).
            repeat split.
            - cbn [heads map fst snd root]; f_equal; apply heads_leaves.
            - cbn [fv flat_map visits fst snd app]; f_equal; unfold ks; rewrite map_map; cbn [root]; rewrite map_id; reflexivity.
            - cbn; lia.
            - contradiction.
            - contradiction. }
          destruct r1 as [[a|]|e]; try (apply Stop; [discriminate | exact E]).
          clear Stop; apply IH in E; destruct E as [F [L [rest [Hd [V [-> [Len Done]]]]]]].
          apply heads_split in Hd; destruct Hd as [F1 [F2 [-> [Hd1 Hd2]]]].
          apply heads_deep_inv in Hd1; destruct Hd1 as [ks [-> Rk]].
          exists ((d, Rose n ks) :: F2), ((d, n, K h1 n) :: L), rest; repeat split.
          * cbn [heads map fst snd root]; f_equal; exact Hd2.
          * rewrite fv_app, fv_deep in V; cbn [fv flat_map visits fst snd app]; rewrite Rk; f_equal; exact V.
          * rewrite <- app_assoc; reflexivity.
          * cbn [length]; lia.
          * apply Done; assumption.
          * cbn [length]; destruct (Done H0); lia.
    Qed.

    (** only what is below the current node changes *)
    Lemma gpre_local fuel : (forall h s d n h' s' r m, body h s d n = (h', s', r) -> m <> n -> K h' m = K h m) ->
      forall h s log todo h' s' log' (r : res (option A)),
      gpre (gnoted body) fuel h (s, log) todo = (h', (s', log'), r) ->
      (forall v, In v log -> K h (who v) = snd v) -> NoDup (map who log') ->
      forall v, In v log' -> K h' (who v) = snd v.
    Proof.
      intros Loc; induction fuel as [|f IH]; intros h s log todo h' s' log' r E J N; cbn [gpre] in E.
      - injection E as <- <- <- <-; exact J.
      - destruct todo as [|[d n] todo]; [injection E as <- <- <- <-; exact J|].
        unfold gnoted in E at 1; cbn [fst snd] in E; destruct (body h s d n) as [[h1 s1] r1] eqn:B.
        assert (Step : NoDup (map who (log ++ [(d, n, K h1 n)])) -> forall v, In v (log ++ [(d, n, K h1 n)]) -> K h1 (who v) = snd v).
        { intros N1 v I; apply in_app_or in I; destruct I as [I|[<-|[]]]; [|reflexivity].
          rewrite (Loc _ _ _ _ _ _ _ (who v) B); [apply J; exact I|].
          intros X; rewrite map_app in N1; cbn [map who fst snd] in N1; apply NoDup_remove_2 in N1.
          apply N1; rewrite app_nil_r, <- X; apply in_map; exact I. }
        destruct r1 as [[a|]|e]; try (injection E as <- <- <- <-; exact (Step N)).
        pose proof (gpre_visits _ _ _ _ _ _ _ _ _ E) as [F [L [rest [_ [_ [EL _]]]]]].
        apply (IH _ _ _ _ _ _ _ _ E); [|exact N].
        apply Step; rewrite EL, map_app in N; clear - N; induction (map who (log ++ [(d, n, K h1 n)])) as [|x l IHl];
          [constructor | cbn [app] in N; inversion N; subst; constructor;
            [intros I; apply H2; apply in_or_app; left; exact I | apply IHl; assumption]].
    Qed.

    (** what is below the nodes still to be visited stays *)
    Lemma gpre_past (I : list addr -> H -> S -> Prop) NS :
      (forall past n rest h s d h' s' r, NS = past ++ n :: rest -> I past h s -> body h s d n = (h', s', r) ->
         I (past ++ [n]) h' s' /\ (forall m, In m (n :: rest) -> K h' m = K h m)) ->
      forall fuel h s log F past h' s' log' (r : res (option A)),
      gpre (gnoted body) fuel h (s, log) (heads F) = (h', (s', log'), r) ->
      I past h s -> NS = past ++ fn F -> Forall (fun p => gtree h (snd p)) F -> (length (fn F) < fuel)%nat ->
      exists L rest, log' = log ++ L /\ fn F = map who L ++ rest /\ I (past ++ map who L) h' s' /\ (r = Ok None /\ rest = [] \/
          r <> Ok None /\ exists past n rest h s d, NS = past ++ n :: rest /\ I past h s /\ snd (body h s d n) = r).
    Proof.
      intros B; induction fuel as [|f IH]; intros h s log F past h' s' log' r E Ih EN G Len; [lia|].
      cbn [gpre] in E; destruct F as [|[d [n ks]] F]; cbn [heads map fst snd root] in E.
      - injection E as <- <- <- <-; exists [], []; repeat split; [rewrite app_nil_r; reflexivity | rewrite app_nil_r; exact Ih | left; split; reflexivity].
      - unfold gnoted in E at 1; cbn [fst snd] in E; destruct (body h s d n) as [[h1 s1] r1] eqn:Bn.
        destruct (B past n (flat_map nodes ks ++ fn F) _ _ _ _ _ _ EN Ih Bn) as [Ih1 Same].
        assert (Stop : r1 <> Ok None -> (h1, (s1, log ++ [(d, n, K h1 n)]), r1) = (h', (s', log'), r) ->
          exists L rest, log' = log ++ L /\ fn ((d, Rose n ks) :: F) = map who L ++ rest /\ I (past ++ map who L) h' s' /\ (r = Ok None /\ rest = [] \/
          r <> Ok None /\ exists past n rest h s d, NS = past ++ n :: rest /\ I past h s /\ snd (body h s d n) = r)).
        { intros NR X; injection X as <- <- <- <-; exists [(d, n, K h1 n)], (flat_map nodes ks ++ fn F); repeat split.
          - exact Ih1.
          - right; split; [exact NR|]; exists past, n, (flat_map nodes ks ++ fn F), h, s, d; split; [exact EN | split; [exact Ih | rewrite Bn; reflexivity]]. }
        destruct r1 as [[a|]|e]; try (apply Stop; [discriminate | exact E]); clear Stop.
        inversion G as [|p q Gn GF]; subst p q; cbn [snd] in Gn; inversion Gn as [x y Kn Gk]; subst x y.
        rewrite (Same n (or_introl eq_refl)), Kn, <- heads_deep in E.
        replace (heads (map (pair (d + 1)) ks) ++ map (fun p : Z * rose addr => (fst p, root (snd p))) F)
          with (heads (map (pair (d + 1)) ks ++ F)) in E by apply heads_app.
        assert (Efn : fn (map (pair (d + 1)) ks ++ F) = flat_map nodes ks ++ fn F) by (rewrite fn_app, fn_deep; reflexivity).
        apply IH with (past := past ++ [n]) in E.
        + destruct E as [L [rest [-> [EL [IL Dn]]]]]; exists ((d, n, map root ks) :: L), rest; repeat split.
          * rewrite <- app_assoc; reflexivity.
          * cbn [map who fst snd app]; rewrite <- EL, Efn; reflexivity.
          * rewrite <- app_assoc in IL; exact IL.
          * exact Dn.
        + exact Ih1.
        + rewrite Efn, <- app_assoc; exact EN.
        + apply Forall_app; split.
          * apply Forall_map; cbn [snd]; rewrite Forall_forall in *; intros k Ik.
            apply (gtree_same h h1); [|apply Gk; exact Ik].
            intros m Im; apply Same; right; apply in_or_app; left; apply in_flat_map; exists k; split; assumption.
          * rewrite Forall_forall in *; intros p Ip; apply (gtree_same h h1); [|apply GF; exact Ip].
            intros m Im; apply Same; right; apply in_or_app; right; apply in_flat_map; exists p; split; assumption.
        + rewrite Efn; exact (proj2 (Nat.succ_lt_mono _ _) Len).
    Qed.

    (** nothing is added *)
    Lemma gpre_removals : (forall h s d n h' s' r m, body h s d n = (h', s', r) -> thinned (K h' m) (K h m)) ->
      forall fuel h s log F h' s' log' (r : res (option A)),
      gpre (gnoted body) fuel h (s, log) (heads F) = (h', (s', log'), r) ->
      Forall (fun p => gtree h (snd p)) F -> (length (fn F) < fuel)%nat ->
      exists L, log' = log ++ L /\ thinned (map who L) (fn F) /\
        (r = Raise OutOfFuel -> exists h s d n, snd (body h s d n) = Raise OutOfFuel).
    Proof.
      intros B; induction fuel as [|f IH]; intros h s log F h' s' log' r E G Len; [lia|].
      cbn [gpre] in E; destruct F as [|[d [n ks]] F]; cbn [heads map fst snd root] in E.
      - injection E as <- <- <- <-; exists []; repeat split; [rewrite app_nil_r; reflexivity | constructor | discriminate].
      - unfold gnoted in E at 1; cbn [fst snd] in E; destruct (body h s d n) as [[h1 s1] r1] eqn:Bn.
        assert (Stop : r1 <> Ok None -> (h1, (s1, log ++ [(d, n, K h1 n)]), r1) = (h', (s', log'), r) ->
          exists L, log' = log ++ L /\ thinned (map who L) (fn ((d, Rose n ks) :: F)) /\
            (r = Raise OutOfFuel -> exists h s d n, snd (body h s d n) = Raise OutOfFuel)).
        { intros NR X; injection X as <- <- <- <-; exists [(d, n, K h1 n)]; repeat split.
          - cbn [map who fst snd fn flat_map nodes app]; constructor; apply thinned_nil.
          - intros X; exists h, s, d, n; rewrite Bn; exact X. }
        destruct r1 as [[a|]|e]; try (apply Stop; [discriminate | exact E]); clear Stop.
        inversion G as [|p q Gn GF]; subst p q; cbn [snd] in Gn.
        assert (T : forall m, thinned (K h1 m) (K h m)) by (intros m; exact (B _ _ _ _ _ _ _ m Bn)).
        destruct (gtree_thinned h h1 _ T Gn) as [[n' ks'] [Rt [Gt [Tt _]]]]; cbn [root] in Rt; subst n'; cbn [flat_map] in Tt; rewrite !app_nil_r in Tt.
        assert (GFs : Forall (gtree h) (map snd F)) by (apply Forall_map; exact GF).
        destruct (gforest_thinned h h1 _ T GFs) as [ts [Rs [Gs [Ts _]]]].
        inversion Gt as [x y Kn Gk]; subst x y.
        set (F' := map (pair (d + 1)) ks' ++ combine (map fst F) ts).
        assert (LenF : length (map fst F) = length ts).
        { rewrite map_length, <- (map_length snd), <- (map_length root), <- Rs, map_length; reflexivity. }
        assert (EF : fn F' = flat_map nodes ks' ++ flat_map nodes ts).
        { unfold F'; rewrite fn_app, fn_deep; f_equal; clear - LenF; revert ts LenF.
          induction (map fst F) as [|z l IHl]; intros [|t ts] L; try discriminate; [reflexivity|].
          cbn [combine fn flat_map snd]; f_equal; apply IHl; cbn in L; lia. }
        assert (TF : thinned (n :: fn F') (fn ((d, Rose n ks) :: F))).
        { rewrite EF; change (n :: flat_map nodes ks' ++ flat_map nodes ts) with (nodes (Rose n ks') ++ flat_map nodes ts).
          cbn [fn flat_map snd]; apply thinned_app; [exact Tt|].
          rewrite flat_map_map in Ts; exact Ts. }
        assert (EH : map (pair (d + 1)) (K h1 n) ++ map (fun p : Z * rose addr => (fst p, root (snd p))) F = heads F').
        { unfold F'; rewrite heads_app, heads_deep, Kn; f_equal; clear - Rs LenF; revert ts Rs LenF.
          induction F as [|[z t] F IHF]; intros [|t' ts] R L; try discriminate; [reflexivity|].
          cbn [map fst snd combine heads] in *; injection R as <- R; f_equal; apply IHF; [exact R | cbn in L; lia]. }
        rewrite EH in E; apply IH in E.
        + destruct E as [L [-> [TL Fu]]]; exists ((d, n, K h1 n) :: L); repeat split.
          * rewrite <- app_assoc; reflexivity.
          * cbn [map who fst snd]; eapply thinned_trans; [apply Thin_keep; exact TL | exact TF].
          * exact Fu.
        + unfold F'; apply Forall_app; split.
          * apply Forall_map; exact Gk.
          * clear - Gs LenF; revert ts Gs LenF; induction (map fst F) as [|z l IHl]; intros [|t ts] Gs L; try discriminate; [constructor|].
            inversion Gs; subst; constructor; [assumption | apply IHl; [assumption | cbn in L; lia]].
        + apply thinned_length in TF; cbn [length] in TF; lia.
    Qed.

    (** a body that always leaves something below the node *)
    Lemma gpre_endless (Q : H -> addr -> Prop) :
      (forall h s d n h' s' r, Q h n -> body h s d n = (h', s', r) ->
         r = Ok None /\ K h' n <> [] /\ (forall m, Q h m -> Q h' m) /\ (forall m, In m (K h' n) -> Q h' m)) ->
      forall fuel h s todo, todo <> [] -> Forall (fun p => Q h (snd p)) todo -> snd (gpre body fuel h s todo) = Raise OutOfFuel.
    Proof.
      intros B; induction fuel as [|f IH]; intros h s todo NE FQ; [reflexivity|].
      cbn [gpre]; destruct todo as [|[d n] todo]; [congruence|]; inversion FQ as [|? ? Qn FQ']; subst; cbn [snd] in Qn.
      destruct (body h s d n) as [[h1 s1] r1] eqn:Bn; destruct (B _ _ _ _ _ _ _ Qn Bn) as [-> [NK [Q1 Q2]]].
      apply IH; [destruct (K h1 n); [congruence | discriminate]|].
      apply Forall_app; split; [apply Forall_map, Forall_forall; exact Q2 | eapply Forall_impl; [|exact FQ']; intros p; apply Q1].
    Qed.
  End PreRuns.

  (** the walk of a tree that is left alone *)
  Lemma gpre_collect fuel : forall h acc F, Forall (fun p => gtree h (snd p)) F -> (length (fn F) < fuel)%nat ->
    gpre gcollect fuel h acc (heads F) = (h, acc ++ fn F, Ok None).
  Proof.
    induction fuel as [|f IH]; intros h acc F G Len; [lia|].
    destruct F as [|[d [n ks]] F]; cbn [gpre heads map fst snd root]; [cbn; rewrite app_nil_r; reflexivity|].
    unfold gcollect at 1; inversion G as [|p q Gn GF]; subst p q; cbn [snd] in Gn; inversion Gn as [x y Kn Gk]; subst x y.
    rewrite Kn, <- heads_deep.
    replace (heads (map (pair (d + 1)) ks) ++ map (fun p : Z * rose addr => (fst p, root (snd p))) F)
      with (heads (map (pair (d + 1)) ks ++ F)) by apply heads_app.
    rewrite IH.
    - rewrite fn_app, fn_deep, <- app_assoc; reflexivity.
    - apply Forall_app; split; [apply Forall_map; exact Gk | exact GF].
    - rewrite fn_app, fn_deep; cbn [fn flat_map snd nodes app length] in Len; exact (proj2 (Nat.succ_lt_mono _ _) Len).
  Qed.
  Lemma gpre_collect_inv fuel : forall h acc todo h' out,
    gpre gcollect fuel h acc todo = (h', out, Ok None) ->
    exists F, heads F = todo /\ Forall (fun p => gtree h (snd p)) F /\ out = acc ++ fn F /\ (length (fn F) < fuel)%nat.
  Proof.
    induction fuel as [|f IH]; intros h acc todo h' out E; cbn [gpre] in E; [discriminate|].
    destruct todo as [|[d n] todo].
    - injection E as <- <-; exists []; repeat split; [constructor | rewrite app_nil_r; reflexivity | cbn; lia].
    - unfold gcollect at 1 in E; apply IH in E; destruct E as [F [Hd [G [-> Len]]]].
      apply heads_split in Hd; destruct Hd as [F1 [F2 [-> [Hd1 Hd2]]]].
      apply heads_deep_inv in Hd1; destruct Hd1 as [ks [-> Rk]].
      apply Forall_app in G; destruct G as [G1 G2]; rewrite fn_app, fn_deep in *.
      exists ((d, Rose n ks) :: F2); repeat split.
      + cbn [heads map fst snd root]; f_equal; exact Hd2.
      + constructor; [|exact G2]; cbn [snd]; constructor; [symmetry; exact Rk|].
        rewrite Forall_map in G1; exact G1.
      + cbn [fn flat_map snd nodes app]; rewrite <- app_assoc; reflexivity.
      + cbn [fn flat_map snd nodes app length]; fold (fn F2); lia.
  Qed.

  (* ---------------- children first ---------------- *)
  Inductive greach (h : H) (a : addr) : addr -> Prop :=
  | Greach_root : greach h a a
  | Greach_kid b c : greach h a b -> In c (K h b) -> greach h a c.
  Lemma gtree_closed h t : gtree h t -> forall b c, In b (nodes t) -> In c (K h b) -> In c (nodes t).
  Proof.
    induction t as [x ks IH] using rose_rec_ind; intros G b c Ib Ic; inversion G as [y z Kx Gk]; subst y z.
    cbn [nodes] in *; destruct Ib as [<-|Ib].
    - right; rewrite Kx in Ic; apply in_map_iff in Ic; destruct Ic as [k [<- Ik]].
      apply in_flat_map; exists k; split; [exact Ik | destruct k; left; reflexivity].
    - right; apply in_flat_map in Ib; destruct Ib as [k [Ik Ib]]; apply in_flat_map; exists k; split; [exact Ik|].
      rewrite Forall_forall in IH, Gk; exact (IH k Ik (Gk k Ik) b c Ib Ic).
  Qed.
  Lemma gtree_greach h t a b : gtree h t -> In a (nodes t) -> greach h a b -> In b (nodes t).
  Proof. intros G Ia R; induction R as [|b c R IH I]; [exact Ia | exact (gtree_closed h t G b c IH I)]. Qed.

  Section Post.
    Context {S A : Type}.
    Variable body : H -> S -> addr -> H * S * res (option A).
    Fixpoint gpost (fuel : nat) (h : H) (s : S) (todo : list (addr * bool)) : H * S * res (option A) :=
      match fuel with
      | O => (h, s, Raise OutOfFuel)
      | Datatypes.S f =>
          match todo with
          | [] => (h, s, Ok None)
          | (n, visited) :: todo =>
              if visited || match K h n with [] => true | _ => false end then
                match body h s n with
                | (h, s, Ok None) => gpost f h s todo
                | out => out
                end
              else gpost f h s (map (fun c => (c, false)) (K h n) ++ (n, true) :: todo)
          end
      end.
  End Post.
  Definition nnoted {S A} (body : H -> S -> addr -> H * S * res (option A))
      (h : H) (s : S * list (addr * list addr)) (n : addr) : H * (S * list (addr * list addr)) * res (option A) :=
    let '(h', s', r) := body h (fst s) n in (h', (s', snd s ++ [(n, K h' n)]), r).
  Definition ncollect (h : H) (s : list addr) (n : addr) : H * list addr * res (option unit) := (h, s ++ [n], Ok None).

  Notation item := (rose addr * bool)%type (only parsing).
  Definition ihead (i : item) : addr * bool := (root (fst i), snd i).
  Definition yields (i : item) : list addr := if snd i then [root (fst i)] else post (fst i).
  Definition plist (l : list item) : list addr := flat_map yields l.
  Definition icost (i : item) : nat := if snd i then 1%nat else cost (fst i).
  Definition pcost (l : list item) : nat := list_sum (map icost l).
  Definition fresh (ks : list (rose addr)) : list item := map (fun k => (k, false)) ks.
  Lemma plist_app a b : plist (a ++ b) = plist a ++ plist b.
  Proof. apply flat_map_app. Qed.
  Lemma plist_fresh ks : plist (fresh ks) = flat_map post ks.
  Proof. unfold plist, fresh; rewrite flat_map_map; reflexivity. Qed.
  Lemma pcost_app a b : pcost (a ++ b) = (pcost a + pcost b)%nat.
  Proof. unfold pcost; rewrite map_app; apply list_sum_app. Qed.
  Lemma pcost_cons i l : pcost (i :: l) = (icost i + pcost l)%nat.
  Proof. reflexivity. Qed.
  Lemma pcost_fresh ks : pcost (fresh ks) = list_sum (map cost ks).
  Proof. unfold pcost, fresh; rewrite map_map; reflexivity. Qed.
  Lemma heads_fresh ks : map ihead (fresh ks) = map (fun c => (c, false)) (map root ks).
  Proof. unfold fresh; rewrite !map_map; reflexivity. Qed.
  Lemma cost_rose n k ks : cost (Rose n (k :: ks)) = (2 + list_sum (map cost (k :: ks)))%nat.
  Proof. reflexivity. Qed.
  Lemma open_plist n ks l : plist (fresh ks ++ (Rose n ks, true) :: l) = plist ((Rose n ks, false) :: l).
  Proof. rewrite plist_app, plist_fresh; cbn [plist flat_map yields fst snd root post]; rewrite <- app_assoc; reflexivity. Qed.
  Lemma open_pcost n ks l : ks <> [] -> pcost ((Rose n ks, false) :: l) = Datatypes.S (pcost (fresh ks ++ (Rose n ks, true) :: l)).
  Proof.
    intros NE; destruct ks as [|k ks]; [congruence|].
    rewrite pcost_app, !pcost_cons, pcost_fresh; unfold icost; cbn [fst snd]; rewrite cost_rose; lia.
  Qed.
  Lemma open_heads h n ks l : K h n = map root ks ->
    map (fun c => (c, false)) (K h n) ++ (n, true) :: map ihead l = map ihead (fresh ks ++ (Rose n ks, true) :: l).
  Proof. intros ->; rewrite map_app, heads_fresh; reflexivity. Qed.

  Section PostRuns.
    Context {S A : Type}.
    Variable body : H -> S -> addr -> H * S * res (option A).

    Lemma gpost_past (I : list addr -> H -> S -> Prop) h0 NS :
      (forall past n rest h s h' s' r, NS = past ++ n :: rest -> I past h s -> body h s n = (h', s', r) ->
         I (past ++ [n]) h' s' /\ (forall m, In m rest -> K h' m <> K h m -> greach h0 m n)) ->
      NoDup NS ->
      forall fuel h s log l past h' s' log' (r : res (option A)),
      gpost (nnoted body) fuel h (s, log) (map ihead l) = (h', (s', log'), r) ->
      I past h s -> NS = past ++ plist l ->
      (forall t, In (t, false) l -> gtree h0 t /\ (forall m, In m (nodes t) -> K h m = K h0 m)) -> (pcost l < fuel)%nat ->
      exists L rest, log' = log ++ L /\ plist l = map fst L ++ rest /\ I (past ++ map fst L) h' s' /\ (r = Ok None /\ rest = [] \/
          r <> Ok None /\ exists past n rest h s, NS = past ++ n :: rest /\ I past h s /\ snd (body h s n) = r).
    Proof.
      intros B N; induction fuel as [|f IH]; intros h s log l past h' s' log' r E Ih EN G Len; [lia|].
      cbn [gpost] in E; destruct l as [|[[n ks] v] l]; cbn [map ihead fst snd root] in E.
      { injection E as <- <- <- <-; exists [], []; repeat split; [rewrite app_nil_r; reflexivity | rewrite app_nil_r; exact Ih | left; split; reflexivity]. }
      assert (Visit : plist ((Rose n ks, v) :: l) = n :: plist l -> (0 < icost (Rose n ks, v))%nat ->
        (match nnoted body h (s, log) n with
         | (h, s, Ok None) => gpost (nnoted body) f h s (map ihead l)
         | out => out end) = (h', (s', log'), r) ->
        exists L rest, log' = log ++ L /\ plist ((Rose n ks, v) :: l) = map fst L ++ rest /\ I (past ++ map fst L) h' s' /\ (r = Ok None /\ rest = [] \/
          r <> Ok None /\ exists past n rest h s, NS = past ++ n :: rest /\ I past h s /\ snd (body h s n) = r)).
      { clear E; intros EP Pos E; unfold nnoted in E at 1; cbn [fst snd] in E; destruct (body h s n) as [[h1 s1] r1] eqn:Bn.
        rewrite EP in EN |- *.
        destruct (B _ _ _ _ _ _ _ _ EN Ih Bn) as [Ih1 Ch].
        assert (Stop : r1 <> Ok None -> (h1, (s1, log ++ [(n, K h1 n)]), r1) = (h', (s', log'), r) ->
          exists L rest, log' = log ++ L /\ n :: plist l = map fst L ++ rest /\ I (past ++ map fst L) h' s' /\ (r = Ok None /\ rest = [] \/
          r <> Ok None /\ exists past n rest h s, NS = past ++ n :: rest /\ I past h s /\ snd (body h s n) = r)).
        { intros NR X; injection X as <- <- <- <-; exists [(n, K h1 n)], (plist l); repeat split.
          - exact Ih1.
          - right; split; [exact NR|]; exists past, n, (plist l), h, s; split; [exact EN | split; [exact Ih | rewrite Bn; reflexivity]]. }
        destruct r1 as [[a|]|e]; try (apply Stop; [discriminate | exact E]); clear Stop.
        apply IH with (past := past ++ [n]) in E.
        - destruct E as [L [rest [-> [EL [IL Dn]]]]]; exists ((n, K h1 n) :: L), rest; repeat split.
          + rewrite <- app_assoc; reflexivity.
          + cbn [map fst app]; rewrite <- EL; reflexivity.
          + rewrite <- app_assoc in IL; exact IL.
          + exact Dn.
        - exact Ih1.
        - rewrite <- app_assoc; exact EN.
        - intros t It; destruct (G t (or_intror It)) as [Gt St]; split; [exact Gt|].
          assert (Sub : forall m, In m (nodes t) -> In m (plist l)).
          { intros m Im; apply in_flat_map; exists (t, false); split; [exact It|].
            cbn [yields fst snd]; apply (Permutation_in m (Permutation_sym (post_nodes t))); exact Im. }
          intros m Im; rewrite <- (St m Im).
          destruct (list_eq_dec Nat.eq_dec (K h1 m) (K h m)) as [X|X]; [exact X|exfalso].
          pose proof (Sub n (gtree_greach h0 t m n Gt Im (Ch m (Sub m Im) X))) as D.
          rewrite EN in N; apply NoDup_remove_2 in N; apply N; apply in_or_app; right; exact D.
        - rewrite pcost_cons in Len; lia. }
      destruct v; [apply Visit; [reflexivity | cbn; lia | exact E]|].
      destruct (G (Rose n ks) (or_introl eq_refl)) as [Gt St]; inversion Gt as [x y Kn Gk]; subst x y.
      assert (Kh : K h n = map root ks) by (rewrite St by (left; reflexivity); exact Kn).
      destruct ks as [|k ks]; cbn [map orb] in E; [rewrite Kh in E; apply Visit; [reflexivity | cbn; lia | exact E]|].
      destruct (K h n) as [|z zs] eqn:Ez; [discriminate|]; rewrite <- Ez in E, Kh.
      rewrite (open_heads h n (k :: ks) l Kh) in E.
      apply IH with (past := past) in E.
      - rewrite open_plist in E; exact E.
      - exact Ih.
      - rewrite open_plist; exact EN.
      - intros t It; apply in_app_or in It; destruct It as [It|[X|It]]; [|discriminate|apply G; right; exact It].
        apply in_map_iff in It; destruct It as [j [X Ij]]; injection X as <-; split.
        + rewrite Forall_forall in Gk; apply Gk; exact Ij.
        + intros m Im; apply St; cbn [nodes]; right; apply in_flat_map; exists j; split; assumption.
      - rewrite open_pcost in Len by discriminate; lia.
    Qed.

    Lemma items_thinned h h' l : (forall m, thinned (K h' m) (K h m)) -> (forall t, In (t, false) l -> gtree h t) ->
      exists l', map ihead l' = map ihead l /\ (forall t, In (t, false) l' -> gtree h' t) /\
        thinned (plist l') (plist l) /\ (pcost l' <= pcost l)%nat.
    Proof.
      intros T; induction l as [|[t b] l IH]; intros G.
      - exists []; repeat split; [intros t [] | constructor | lia].
      - destruct (IH (fun t I => G t (or_intror I))) as [l' [R [G' [Tl Cl]]]]; destruct b.
        + exists ((t, true) :: l'); split; [|split; [|split]].
          * cbn [map ihead fst snd]; rewrite R; reflexivity.
          * intros t' [X|I']; [discriminate | apply G'; exact I'].
          * cbn [plist flat_map yields fst snd app]; constructor; exact Tl.
          * rewrite !pcost_cons; cbn [icost snd]; lia.
        + destruct (gtree_thinned h h' t T (G t (or_introl eq_refl))) as [t' [Rt [Gt [_ [Tt Ct]]]]].
          cbn [flat_map map] in Tt, Ct; rewrite !app_nil_r in Tt; unfold list_sum in Ct; cbn [fold_right] in Ct.
          exists ((t', false) :: l'); split; [|split; [|split]].
          * cbn [map]; f_equal; [unfold ihead; cbn [fst snd]; rewrite Rt; reflexivity | exact R].
          * intros t2 [X|I']; [injection X as <-; exact Gt | apply G'; exact I'].
          * cbn [plist flat_map yields fst snd]; apply thinned_app; assumption.
          * rewrite !pcost_cons; cbn [icost fst snd]; lia.
    Qed.

    Lemma gpost_removals : (forall h s n h' s' r m, body h s n = (h', s', r) -> thinned (K h' m) (K h m)) ->
      forall fuel h s log l h' s' log' (r : res (option A)),
      gpost (nnoted body) fuel h (s, log) (map ihead l) = (h', (s', log'), r) ->
      (forall t, In (t, false) l -> gtree h t) -> (pcost l < fuel)%nat ->
      exists L, log' = log ++ L /\ thinned (map fst L) (plist l) /\
        (r = Raise OutOfFuel -> exists h s n, snd (body h s n) = Raise OutOfFuel).
    Proof.
      intros B; induction fuel as [|f IH]; intros h s log l h' s' log' r E G Len; [lia|].
      cbn [gpost] in E; destruct l as [|[[n ks] v] l]; cbn [map ihead fst snd root] in E.
      { injection E as <- <- <- <-; exists []; repeat split; [rewrite app_nil_r; reflexivity | constructor | discriminate]. }
      assert (Visit : plist ((Rose n ks, v) :: l) = n :: plist l -> (0 < icost (Rose n ks, v))%nat ->
        (match nnoted body h (s, log) n with
         | (h, s, Ok None) => gpost (nnoted body) f h s (map ihead l)
         | out => out end) = (h', (s', log'), r) ->
        exists L, log' = log ++ L /\ thinned (map fst L) (plist ((Rose n ks, v) :: l)) /\
          (r = Raise OutOfFuel -> exists h s n, snd (body h s n) = Raise OutOfFuel)).
      { clear E; intros EP Pos E; unfold nnoted in E at 1; cbn [fst snd] in E; destruct (body h s n) as [[h1 s1] r1] eqn:Bn.
        rewrite EP.
        assert (Stop : r1 <> Ok None -> (h1, (s1, log ++ [(n, K h1 n)]), r1) = (h', (s', log'), r) ->
          exists L, log' = log ++ L /\ thinned (map fst L) (n :: plist l) /\
            (r = Raise OutOfFuel -> exists h s n, snd (body h s n) = Raise OutOfFuel)).
        { intros NR X; injection X as <- <- <- <-; exists [(n, K h1 n)]; repeat split.
          - cbn [map fst]; constructor; apply thinned_nil.
          - intros X; exists h, s, n; rewrite Bn; exact X. }
        destruct r1 as [[a|]|e]; try (apply Stop; [discriminate | exact E]); clear Stop.
        assert (T : forall m, thinned (K h1 m) (K h m)) by (intros m; exact (B _ _ _ _ _ _ m Bn)).
        destruct (items_thinned h h1 l T (fun t I => G t (or_intror I))) as [l' [R [G' [Tl Cl]]]].
        rewrite <- R in E; apply IH in E; [|exact G'|rewrite pcost_cons in Len; lia].
        destruct E as [L [-> [TL Fu]]]; exists ((n, K h1 n) :: L); repeat split.
        - rewrite <- app_assoc; reflexivity.
        - cbn [map fst]; constructor; eapply thinned_trans; eassumption.
        - exact Fu. }
      destruct v; [apply Visit; [reflexivity | cbn; lia | exact E]|].
      pose proof (G (Rose n ks) (or_introl eq_refl)) as Gt; inversion Gt as [x y Kn Gk]; subst x y.
      destruct ks as [|k ks]; cbn [map orb] in E; [rewrite Kn in E; apply Visit; [reflexivity | cbn; lia | exact E]|].
      destruct (K h n) as [|z zs] eqn:Ez; [discriminate|]; rewrite <- Ez in E, Kn.
      rewrite (open_heads h n (k :: ks) l Kn) in E.
      apply IH in E.
      - rewrite open_plist in E; exact E.
      - intros t It; apply in_app_or in It; destruct It as [It|[X|It]]; [|discriminate|apply G; right; exact It].
        apply in_map_iff in It; destruct It as [j [X Ij]]; injection X as <-.
        rewrite Forall_forall in Gk; apply Gk; exact Ij.
      - rewrite open_pcost in Len by discriminate; lia.
    Qed.
  End PostRuns.
  Lemma gpost_collect_inv fuel : forall h acc todo h' out,
    gpost ncollect fuel h acc todo = (h', out, Ok None) ->
    exists l, map ihead l = todo /\ (forall t, In (t, false) l -> gtree h t) /\ out = acc ++ plist l /\ (pcost l < fuel)%nat.
  Proof.
    induction fuel as [|f IH]; intros h acc todo h' out E; cbn [gpost] in E; [discriminate|].
    destruct todo as [|[n v] todo].
    { injection E as <- <-; exists []; repeat split; [intros t [] | rewrite app_nil_r; reflexivity | cbn; lia]. }
    assert (Visit : (v = true \/ K h n = []) -> gpost ncollect f h (acc ++ [n]) todo = (h', out, Ok None) ->
      exists l, map ihead l = (n, v) :: todo /\ (forall t, In (t, false) l -> gtree h t) /\ out = acc ++ plist l /\ (pcost l < Datatypes.S f)%nat).
    { clear E; intros C E; apply IH in E; destruct E as [l [<- [G [-> Len]]]].
      exists ((Rose n [], v) :: l); split; [reflexivity|split; [|split]].
      - intros t [X|I]; [|apply G; exact I]; injection X as <- ->; destruct C as [C|C]; [discriminate|].
        constructor; [exact C | constructor].
      - cbn [plist flat_map yields fst snd root post app]; rewrite <- app_assoc; destruct v; reflexivity.
      - rewrite pcost_cons; unfold icost; cbn [fst snd cost]; destruct v; lia. }
    destruct v; cbn [orb] in E; [unfold ncollect at 1 in E; apply Visit; [left; reflexivity | exact E]|].
    destruct (K h n) as [|z zs] eqn:Ez; [unfold ncollect at 1 in E; apply Visit; [right; reflexivity | exact E]|].
    clear Visit; apply IH in E; destruct E as [l [Hd [G [-> Len]]]].
    assert (Sp : exists l1 l2, l = l1 ++ l2 /\ map ihead l1 = map (fun c => (c, false)) (z :: zs) /\ map ihead l2 = (n, true) :: todo).
    { apply map_eq_app in Hd; exact Hd. }
    destruct Sp as [l1 [l2 [-> [Hd1 Hd2]]]].
    destruct l2 as [|[t b] l2]; [discriminate|]; cbn [map ihead fst snd] in Hd2; injection Hd2 as Et -> Hd2.
    assert (Fr : exists ks, l1 = fresh ks /\ map root ks = z :: zs).
    { clear - Hd1; revert Hd1; generalize (z :: zs); induction l1 as [|[t b] l1 IHl]; intros [|y ys] E; try discriminate.
      - exists []; split; reflexivity.
      - cbn [map ihead fst snd] in E; injection E as <- -> E; destruct (IHl _ E) as [ks [-> <-]]; exists (t :: ks); split; reflexivity. }
    destruct Fr as [ks [-> Rk]].
    exists ((Rose n ks, false) :: l2); split; [cbn [map ihead fst snd root]; rewrite Hd2; reflexivity|split; [|split]].
    - intros t' [X|I]; [|apply G; apply in_or_app; right; right; exact I]; injection X as <-.
      constructor; [rewrite Ez, Rk; reflexivity|]; apply Forall_forall; intros k Ik; apply G, in_or_app; left.
      apply in_map_iff; exists k; split; [reflexivity | exact Ik].
    - rewrite plist_app, plist_fresh; cbn [plist flat_map yields fst snd post]; rewrite Et, <- app_assoc; reflexivity.
    - rewrite open_pcost by (intros ->; discriminate); rewrite pcost_app, pcost_cons in *; unfold icost in *; cbn [fst snd] in *; lia.
  Qed.
End Gen.
