(* SmartCache_proofs.v *)
From Verif Require Import Base PyStr Common_model SmartCache_model SmartCache_spec.

(* ---------------- == of keys ---------------- *)
Lemma list_eqb_equiv {A} (e : A -> A -> bool) : equivalence e -> equivalence (list_eqb e).
Proof.
  intros [R S T]; split.
  - induction x as [|a x IH]; cbn [list_eqb]; [reflexivity|]; rewrite R, IH; reflexivity.
  - induction x as [|a x IH]; intros [|b y]; cbn [list_eqb]; try (intros; congruence).
    intros E; apply andb_true_iff in E; destruct E as [E1 E2]; rewrite (S _ _ E1), (IH _ E2); reflexivity.
  - induction x as [|a x IH]; intros [|b y] [|c z]; cbn [list_eqb]; try (intros; congruence).
    intros E F; apply andb_true_iff in E; destruct E as [E1 E2]; apply andb_true_iff in F; destruct F as [F1 F2].
    rewrite (T _ _ _ E1 F1), (IH _ _ E2 F2); reflexivity.
Qed.

Lemma key_eq_equiv {O} (oeq : O -> O -> bool) : equivalence oeq -> equivalence (key_eq oeq).
Proof.
  intros E.
  pose proof (list_eqb_equiv _ E) as [R S T].
  assert (E2 : equivalence (fun x y : str * O => eqb (fst x) (fst y) && oeq (snd x) (snd y))).
  { destruct E as [R' S' T']; split.
    - intros x; rewrite eqb_refl, R'; reflexivity.
    - intros x y X; apply andb_true_iff in X; destruct X as [X1 X2]; rewrite eqb_sym, X1, (S' _ _ X2); reflexivity.
    - intros x y z X Y; apply andb_true_iff in X; destruct X as [X1 X2]; apply andb_true_iff in Y; destruct Y as [Y1 Y2].
      rewrite (eqb_eq X1), Y1, (T' _ _ _ X2 Y2); reflexivity. }
  pose proof (list_eqb_equiv _ E2) as [R2 S2 T2].
  unfold key_eq, args_eq, items_eq; split.
  - intros x; rewrite R, R2; reflexivity.
  - intros x y X; apply andb_true_iff in X; destruct X as [X1 X2]; rewrite (S _ _ X1), (S2 _ _ X2); reflexivity.
  - intros x y z X Y; apply andb_true_iff in X; destruct X as [X1 X2]; apply andb_true_iff in Y; destruct Y as [Y1 Y2].
    rewrite (T _ _ _ X1 Y1), (T2 _ _ _ X2 Y2); reflexivity.
Qed.

(** left-substitution in an equivalence *)
Lemma equiv_l {A} (e : A -> A -> bool) x y z : equivalence e -> e x y = true -> e x z = e y z.
Proof.
  intros [R S T] E; destruct (e y z) eqn:F; [exact (T _ _ _ E F)|].
  destruct (e x z) eqn:G; [|reflexivity]; rewrite (T y x z (S _ _ E) G) in F; discriminate.
Qed.

(* ---------------- memory_proxy ---------------- *)
Section Memory.
  Context {O V S : Type}.
  Variable oeq : O -> O -> bool.
  Variable hashable : O -> bool.
  Notation key := (list O * list (str * O))%type (only parsing).
  Variable method : S -> list O * list (str * O) -> S * res V.
  Hypothesis eqv : equivalence oeq.
  Notation keq := (key_eq oeq).
  Notation call := (memory_call oeq hashable method).
  Notation mrun := (memory_run oeq hashable method).

  Fixpoint fo (k : key) (calls : list key) (outs : list (res V)) : option V :=
    match calls, outs with
    | k' :: cs, r :: os => match r with Ok v => if keq k k' then Some v else fo k cs os | Raise _ => fo k cs os end
    | _, _ => None
    end.

  Lemma fo_eq k k' calls outs : keq k k' = true -> fo k calls outs = fo k' calls outs.
  Proof.
    intros E; revert outs; induction calls as [|c cs IH]; intros [|r os]; cbn [fo]; try reflexivity.
    rewrite (equiv_l keq k k' c (key_eq_equiv _ eqv) E); destruct r; rewrite IH; reflexivity.
  Qed.

  Lemma fo_app k calls outs k0 r : length outs = length calls ->
    fo k (calls ++ [k0]) (outs ++ [r]) =
    match fo k calls outs with
    | Some v => Some v
    | None => match r with Ok v => if keq k k0 then Some v else None | Raise _ => None end
    end.
  Proof.
    revert outs; induction calls as [|c cs IH]; intros [|o os] L; try discriminate L; cbn [app fo].
    - destruct r; reflexivity.
    - injection L as L; destruct o as [v|e]; rewrite IH by exact L; [destruct (keq k c); reflexivity|reflexivity].
  Qed.

  Lemma fo_Some k calls outs v : fo k calls outs = Some v -> first_value keq calls outs k v.
  Proof.
    revert outs; induction calls as [|c cs IH]; intros [|o os]; cbn [fo]; try discriminate.
    assert (N : (exists i ki, nth_error cs i = Some ki /\ keq k ki = true /\ nth_error os i = Some (Ok v) /\
      forall j kj w, (j < i)%nat -> nth_error cs j = Some kj -> keq k kj = true -> nth_error os j <> Some (Ok w)) ->
      (forall w, keq k c = true -> o <> Ok w) -> first_value keq (c :: cs) (o :: os) k v).
    { intros [i [ki [H1 [H2 [H3 H4]]]]] N; exists (Datatypes.S i), ki; repeat split; try assumption.
      intros [|j] kj w Lj Ej Kj; cbn [nth_error] in *.
      - injection Ej as <-; intros X; injection X as X; exact (N w Kj X).
      - apply (H4 j kj w); [lia|exact Ej|exact Kj]. }
    destruct o as [w|e].
    - destruct (keq k c) eqn:E.
      + intros X; injection X as ->; exists 0%nat, c; cbn [nth_error]; repeat split; try assumption; intros; lia.
      + intros X; apply N; [exact (IH os X)|intros w0 Y Z0; congruence].
    - intros X; apply N; [exact (IH os X)|intros w0 Y Z0; congruence].
  Qed.
  Lemma fo_None k calls outs : fo k calls outs = None ->
    forall i ki, nth_error calls i = Some ki -> keq k ki = true -> forall v, nth_error outs i <> Some (Ok v).
  Proof.
    revert outs; induction calls as [|c cs IH]; intros [|o os] E [|i] ki Ei Ki v; cbn [nth_error] in *; try discriminate; cbn [fo] in E.
    - injection Ei as ->; rewrite Ki in E; destruct o; [discriminate|intros X; discriminate].
    - destruct o as [w|e]; [destruct (keq k c); [discriminate|]|]; exact (IH os E i ki Ei Ki v).
  Qed.
  Lemma first_value_fo k calls outs v : first_value keq calls outs k v -> fo k calls outs = Some v.
  Proof.
    intros [i [ki [H1 [H2 [H3 H4]]]]].
    destruct (fo k calls outs) as [w|] eqn:E.
    - destruct (fo_Some _ _ _ _ E) as [i' [ki' [G1 [G2 [G3 G4]]]]].
      assert (i = i') by (destruct (Nat.lt_trichotomy i i') as [L|[L|L]]; [exfalso; exact (G4 i ki v L H1 H2 H3)|exact L|exfalso; exact (H4 i' ki' w L G1 G2 G3)]).
      subst; rewrite H3 in G3; injection G3 as ->; reflexivity.
    - exfalso; exact (fo_None _ _ _ E i ki H1 H2 v H3).
  Qed.

  Lemma mget_app (k : key) (d : list (key * V)) (k0 : key) v : mget oeq k (d ++ [(k0, v)]) =
    match mget oeq k d with Some w => Some w | None => if keq k k0 then Some v else None end.
  Proof. induction d as [|[k1 v1] d IH]; cbn [app mget]; [reflexivity|]; destruct (keq k k1); [reflexivity|exact IH]. Qed.

  Lemma mrun_app s d a b :
    mrun s d (a ++ b) = let '(s1, d1, o1) := mrun s d a in let '(s2, d2, o2) := mrun s1 d1 b in (s2, d2, o1 ++ o2).
  Proof.
    revert s d; induction a as [|k a IH]; intros s d; cbn [app memory_run].
    - destruct (mrun s d b) as [[s2 d2] o2]; reflexivity.
    - destruct (call s d k) as [[s1 d1] v]; rewrite IH.
      destruct (mrun s1 d1 a) as [[s2 d2] o2]; destruct (mrun s2 d2 b) as [[s3 d3] o3]; reflexivity.
  Qed.

  Lemma mrun_inv s0 calls : let '(s, d, outs) := mrun s0 [] calls in
    length outs = length calls /\ forall k, mget oeq k d = fo k calls outs.
  Proof.
    induction calls as [|k0 calls IH] using rev_ind; [cbn; split; reflexivity|].
    rewrite mrun_app; destruct (mrun s0 [] calls) as [[s d] outs]; destruct IH as [L I].
    cbn [memory_run]; destruct (call s d k0) as [[s1 d1] r] eqn:C.
    rewrite !app_length, L; split; [reflexivity|]; intros k; rewrite (fo_app _ _ _ _ _ L), <- I.
    unfold memory_call in C.
    destruct (key_hashable hashable k0).
    - destruct (mget oeq k0 d) as [v|] eqn:M.
      + injection C as <- <- <-; destruct (mget oeq k d) as [w|] eqn:Mk; [reflexivity|].
        destruct (keq k k0) eqn:E; [|reflexivity].
        rewrite I, (fo_eq _ _ _ _ E), <- I, M in Mk; discriminate.
      + destruct (method s k0) as [s' [v|e]]; injection C as <- <- <-.
        * apply mget_app.
        * destruct (mget oeq k d); reflexivity.
    - injection C as <- <- <-; destruct (mget oeq k d); reflexivity.
  Qed.

  (** every call, after every history *)
  Lemma memory_call_spec s0 calls s d outs k : mrun s0 [] calls = (s, d, outs) ->
    (key_hashable hashable k = false -> call s d k = (s, d, Raise TypeError)) /\
    (key_hashable hashable k = true ->
      (forall v, first_value keq calls outs k v -> call s d k = (s, d, Ok v)) /\
      ((forall v, ~ first_value keq calls outs k v) ->
         fst (fst (call s d k)) = fst (method s k) /\ snd (call s d k) = snd (method s k) /\
         snd (fst (call s d k)) = match snd (method s k) with Ok v => d ++ [(k, v)] | Raise _ => d end)).
  Proof.
    intros R; pose proof (mrun_inv s0 calls) as I; rewrite R in I; destruct I as [L I].
    unfold memory_call; split; intros Hh; rewrite Hh; [reflexivity|split].
    - intros v F; rewrite I, (first_value_fo _ _ _ _ F); reflexivity.
    - intros N; destruct (mget oeq k d) as [v|] eqn:M.
      + exfalso; apply (N v), fo_Some; rewrite <- I; exact M.
      + destruct (method s k) as [s' [v|e]]; cbn [fst snd]; repeat split.
  Qed.

  (** deterministic methods *)
  Lemma memory_transparent g : (forall s k, snd (method s k) = g k) ->
    (forall k k', keq k k' = true -> g k = g k') ->
    forall s0 calls, Forall (fun k => key_hashable hashable k = true) calls ->
    snd (mrun s0 [] calls) = map g calls.
  Proof.
    intros D G s0 calls; induction calls as [|k calls IH] using rev_ind; intros F; [reflexivity|].
    apply Forall_app in F; destruct F as [F Fk]; inversion Fk as [|? ? Hk _]; subst; specialize (IH F).
    rewrite mrun_app; destruct (mrun s0 [] calls) as [[s d] outs] eqn:R; cbn [memory_run snd] in *.
    destruct (memory_call_spec _ _ _ _ _ k R) as [_ M]; destruct (M Hk) as [M1 M2].
    destruct (call s d k) as [[s1 d1] r] eqn:C; cbn [snd] in *.
    rewrite map_app, IH; f_equal; cbn [map]; f_equal.
    destruct (fo k calls outs) as [v|] eqn:E.
    - pose proof (fo_Some _ _ _ _ E) as FV; specialize (M1 v FV); injection M1 as -> -> ->.
      destruct FV as [i [ki [H1 [H2 [H3 _]]]]].
      rewrite IH in H3; rewrite nth_error_map, H1 in H3; cbn [option_map] in H3; injection H3 as H3.
      rewrite (G k ki H2); congruence.
    - destruct M2 as [_ [M2 _]]; [intros v FV; apply first_value_fo in FV; congruence|].
      cbn [fst snd] in M2; rewrite M2; apply D.
  Qed.
End Memory.

(** each key is completed at most once *)
Section Once.
  Context {O V S : Type}.
  Variable oeq : O -> O -> bool.
  Variable hashable : O -> bool.
  Variable method : S -> list O * list (str * O) -> S * res V.
  Hypothesis eqv : equivalence oeq.
  Notation keq := (key_eq oeq).
  Notation mrun := (memory_run oeq hashable (traced method)).
  Variable g : list O * list (str * O) -> res V.
  Hypothesis det : forall s k, snd (method s k) = g k.

  Definition once (trace : list (list O * list (str * O))) :=
    forall i j ki kj, (i < j)%nat -> nth_error trace i = Some ki -> nth_error trace j = Some kj -> keq ki kj = true ->
    exists e, g ki = Raise e.

  Lemma trace_inv s0 calls : let '(s, d, outs) := mrun (s0, []) [] calls in
    once (snd s) /\ forall ki v, In ki (snd s) -> g ki = Ok v -> exists w, mget oeq ki d = Some w.
  Proof.
    induction calls as [|k0 calls IH] using rev_ind.
    - cbn; split; [intros i j ki kj _ X; destruct i; discriminate|intros ki v []].
    - rewrite mrun_app; destruct (mrun (s0, []) [] calls) as [[s d] outs]; destruct IH as [I1 I2].
      cbn [memory_run]; destruct (memory_call oeq hashable (traced method) s d k0) as [[s1 d1] r] eqn:C.
      unfold memory_call in C; destruct (key_hashable hashable k0); [|injection C as <- <- <-; split; assumption].
      destruct (mget oeq k0 d) as [v|] eqn:M; [injection C as <- <- <-; split; assumption|].
      unfold traced in C; pose proof (det (fst s) k0) as D.
      assert (I3 : once (snd s ++ [k0])).
      { intros i j ki kj L Ei Ej E.
        destruct (Nat.lt_ge_cases j (length (snd s))) as [Lj|Lj].
        - rewrite nth_error_app1 in Ei, Ej by lia; exact (I1 i j ki kj L Ei Ej E).
        - assert (i < length (snd s))%nat.
          { assert (j < length (snd s ++ [k0]))%nat by (apply nth_error_Some; congruence); rewrite app_length in *; cbn [length] in *; lia. }
          rewrite nth_error_app1 in Ei by assumption; rewrite nth_error_app2 in Ej by assumption.
          destruct (j - length (snd s))%nat as [|x]; [|destruct x; discriminate]; injection Ej as <-.
          destruct (g ki) as [v|e] eqn:G; [|exists e; reflexivity].
          destruct (I2 ki v (nth_error_In _ _ Ei) G) as [w Mw]; exfalso.
          assert (X : forall d' : list (list O * list (str * O) * V), mget oeq ki d' = mget oeq k0 d').
          { intros d'; induction d' as [|[k1 v1] d' IH']; cbn [mget]; [reflexivity|].
            rewrite (equiv_l keq ki k0 k1 (key_eq_equiv _ eqv) E), IH'; reflexivity. }
          rewrite X, M in Mw; discriminate. }
      destruct (method (fst s) k0) as [s' r'] eqn:Em; cbn [snd] in D; subst r'.
      destruct (g k0) as [v|e] eqn:G; injection C as <- <- <-; cbn [snd]; (split; [exact I3|]); intros ki v' Ii Gi.
      + apply in_app_iff in Ii; destruct Ii as [Ii|[<- |[]]].
        * destruct (I2 ki v' Ii Gi) as [w Mw]; exists w; rewrite mget_app, Mw; reflexivity.
        * exists v; rewrite mget_app, M, (e_refl _ (key_eq_equiv _ eqv)); reflexivity.
      + apply in_app_iff in Ii; destruct Ii as [Ii|[<- |[]]]; [exact (I2 ki v' Ii Gi)|congruence].
  Qed.
  Lemma memory_once s0 calls : once (snd (fst (fst (mrun (s0, []) [] calls)))).
  Proof. pose proof (trace_inv s0 calls) as I; destruct (mrun (s0, []) [] calls) as [[s d] outs]; exact (proj1 I). Qed.
End Once.

(* ---------------- needs_update ---------------- *)
Lemma verdict_app_ok st t l m r : verdict st t l (Ok false) -> verdict st t m r -> verdict st t (l ++ m) r.
Proof.
  intros L M; inversion L as [l' F E| |]; subst.
  destruct M as [m F'|a x b F' N|a x b e F' N].
  - apply v_fresh, Forall_app; split; assumption.
  - rewrite app_assoc; apply v_newer; [apply Forall_app; split|]; assumption.
  - rewrite app_assoc; apply v_fails; [apply Forall_app; split|]; assumption.
Qed.
Lemma verdict_app_stop st t l m r : verdict st t l r -> r <> Ok false -> verdict st t (l ++ m) r.
Proof.
  intros [l' F|a x b F N|a x b e F N] D; [congruence| |]; rewrite <- app_assoc; cbn [app]; [apply v_newer|apply v_fails]; assumption.
Qed.

Section Verdict.
  Variables (st : fs) (t : Z).
  (** the same as a function, for uniqueness *)
  Fixpoint judge (l : list looked) : res bool :=
    match l with
    | [] => Ok false
    | LBadType :: _ => Raise TypeError
    | LNoFile :: _ => Raise AttributeError
    | LFile None :: _ => Raise TypeError
    | LFile (Some p) :: r =>
        match dget p st with
        | None => Raise OSError
        | Some f => if t <? mtime f then Ok true else judge r
        end
    end.
  Lemma judge_fresh a l : Forall (fresh st t) a -> judge (a ++ l) = judge l.
  Proof.
    induction 1 as [|x a [p [f [-> [D L]]]] F IH]; cbn [app judge]; [reflexivity|].
    rewrite D; destruct (Z.ltb_spec t (mtime f)); [lia|exact IH].
  Qed.
  Lemma verdict_judge l r : verdict st t l r -> r = judge l.
  Proof.
    intros [l' F|a x b F [p [f [-> [D L]]]]|a x b e F N].
    - rewrite <- (app_nil_r l'), (judge_fresh _ _ F); reflexivity.
    - rewrite (judge_fresh _ _ F); cbn [judge]; rewrite D; destruct (Z.ltb_spec t (mtime f)); [reflexivity|lia].
    - rewrite (judge_fresh _ _ F); destruct N as [| | |p D]; cbn [judge]; try rewrite D; reflexivity.
  Qed.
  Lemma judge_verdict l : verdict st t l (judge l).
  Proof.
    induction l as [|x l IH]; cbn [judge]; [apply v_fresh; constructor|].
    destruct x as [[p|]| |]; try (apply (v_fails st t [] _ l); constructor).
    destruct (dget p st) as [f|] eqn:D; [|apply (v_fails st t [] _ l); constructor; exact D].
    destruct (Z.ltb_spec t (mtime f)) as [L|L].
    - apply (v_newer st t [] _ l); [constructor|exists p, f; repeat split; assumption].
    - apply (verdict_app_ok st t [LFile (Some p)] l); [|exact IH].
      apply v_fresh; constructor; [exists p, f; repeat split; assumption|constructor].
  Qed.
  Lemma verdict_unique l r r' : verdict st t l r -> verdict st t l r' -> r = r'.
  Proof. intros V V'; rewrite (verdict_judge _ _ V), (verdict_judge _ _ V'); reflexivity. Qed.

  Lemma any_newer_judge files l : any_newer st t files = Ok false -> judge (map LFile files ++ l) = judge l.
  Proof.
    induction files as [|[p|] r IH]; cbn [any_newer getmtime map app judge bind]; intros E; [reflexivity| |discriminate].
    destruct (dget p st) as [f|]; cbn [bind] in E; [|discriminate].
    destruct (t <? mtime f); [discriminate|apply IH, E].
  Qed.
  Lemma any_newer_stop files l r : any_newer st t files = r -> r <> Ok false -> judge (map LFile files ++ l) = r.
  Proof.
    induction files as [|[p|] rest IH]; cbn [any_newer getmtime map app judge bind]; intros E N; [congruence| |congruence].
    destruct (dget p st) as [f|]; cbn [bind] in E; [|exact E].
    destruct (t <? mtime f); [exact E|apply IH; assumption].
  Qed.
End Verdict.

Section NeedsUpdate.
  Variable set_order : list (option path) -> list (option path).
  Hypothesis order_ok : forall l, Permutation (set_order l) l.

  Lemma module_set items : forall acc, NoDup acc ->
    NoDup (fold_left (fun acc item => match item with ModuleItem (FileIs g) => sadd g acc | _ => acc end) items acc) /\
    forall g, In g (fold_left (fun acc item => match item with ModuleItem (FileIs g) => sadd g acc | _ => acc end) items acc)
              <-> In g acc \/ In (ModuleItem (FileIs g)) items.
  Proof.
    induction items as [|x items IH]; intros acc ND; cbn [fold_left]; [split; [exact ND|intros g; cbn [In]; tauto]|].
    destruct x as [[|f]|].
    - destruct (IH acc ND) as [N I]; split; [exact N|intros g; rewrite I; cbn [In]; split; [tauto|]].
      intros [H|[H|H]]; [tauto|discriminate|tauto].
    - destruct (IH (sadd f acc) (NoDup_sadd f acc ND)) as [N I]; split; [exact N|intros g; rewrite I, In_sadd; cbn [In]; split].
      + intros [[->|H]|H]; tauto.
      + intros [H|[H|H]]; [tauto|injection H as ->; tauto|tauto].
    - destruct (IH acc ND) as [N I]; split; [exact N|intros g; rewrite I; cbn [In]; split; [tauto|]].
      intros [H|[H|H]]; [tauto|discriminate|tauto].
  Qed.

  Lemma module_deps m f : m_file m = FileIs f ->
    exists files, get_module_dependencies set_order m = Ok files /\ NoDup files /\ forall g, In g files <-> module_file m g.
  Proof.
    intros E; unfold get_module_dependencies; rewrite E; eexists; split; [reflexivity|].
    destruct (module_set (m_dict m) [f]) as [N I]; [constructor; [intros []|constructor]|].
    split.
    - apply (Permutation_NoDup (Permutation_sym (order_ok _))), N.
    - intros g; split.
      + intros X; apply (Permutation_in _ (order_ok _)), I in X; unfold module_file; rewrite E.
        destruct X as [[->|[]]|X]; [left; reflexivity|right; exact X].
      + intros X; apply (Permutation_in _ (Permutation_sym (order_ok _))), I; unfold module_file in X; rewrite E in X.
        destruct X as [X|X]; [injection X as ->; left; left; reflexivity|right; exact X].
  Qed.

  Lemma looks_total deps : exists l, looks deps l.
  Proof.
    induction deps as [|d deps [l IH]]; [exists []; constructor|].
    destruct d as [p|m|].
    - exists (LFile (Some p) :: l); constructor; exact IH.
    - destruct (m_file m) as [|f] eqn:E; [exists (LNoFile :: l); constructor; assumption|].
      destruct (module_deps m f E) as [files [_ [ND I]]]; exists (map LFile files ++ l).
      constructor; try assumption; congruence.
    - exists (LBadType :: l); constructor; exact IH.
  Qed.

  Lemma check_judge st t deps : exists l, looks deps l /\ check_dependencies set_order st t deps = judge st t l.
  Proof.
    induction deps as [|d deps [l [K IH]]]; [exists []; split; [constructor|reflexivity]|].
    destruct d as [p|m|].
    - exists (LFile (Some p) :: l); split; [constructor; exact K|].
      cbn [check_dependencies any_newer getmtime bind judge]; destruct (dget p st) as [f|]; cbn [bind]; [|reflexivity].
      destruct (t <? mtime f); [reflexivity|exact IH].
    - destruct (m_file m) as [|f] eqn:E.
      + exists (LNoFile :: l); split; [constructor; assumption|].
        cbn [check_dependencies]; unfold get_module_dependencies; rewrite E; reflexivity.
      + destruct (module_deps m f E) as [files [G [ND I]]]; exists (map LFile files ++ l); split.
        * constructor; try assumption; congruence.
        * cbn [check_dependencies]; rewrite G; cbn [bind].
          destruct (any_newer st t files) as [[|]|e] eqn:A; cbn [bind].
          -- rewrite (any_newer_stop st t files l _ A); [reflexivity|congruence].
          -- rewrite (any_newer_judge st t files l A); exact IH.
          -- rewrite (any_newer_stop st t files l _ A); [reflexivity|congruence].
    - exists (LBadType :: l); split; [constructor; exact K|reflexivity].
  Qed.

  Lemma needs_update_spec st target deps f : dget target st = Some f ->
    exists l, looks deps l /\ verdict st (mtime f) l (needs_update set_order st target deps).
  Proof.
    intros E; unfold needs_update; rewrite E.
    destruct (check_judge st (mtime f) deps) as [l [K ->]]; exists l; split; [exact K|apply judge_verdict].
  Qed.
  Lemma needs_update_missing st target deps : dget target st = None -> needs_update set_order st target deps = Ok true.
  Proof. intros E; unfold needs_update; rewrite E; reflexivity. Qed.

  Lemma watched_looks deps l q : looks deps l -> watched deps q ->
    (forall m, In (DepModule m) deps -> m_file m <> NoFile) -> In (LFile (Some q)) l.
  Proof.
    intros K; induction K as [|p r l K IH|r l K IH|m r l E K IH|m files r l E ND I K IH]; intros W M.
    - destruct W as [[]|[m [[] _]]].
    - destruct W as [[W|W]|[m [[W|W] X]]]; try discriminate.
      + injection W as ->; left; reflexivity.
      + right; apply IH; [left; exact W|intros m' Im; apply M; right; exact Im].
      + right; apply IH; [right; exists m; split; assumption|intros m' Im; apply M; right; exact Im].
    - destruct W as [[W|W]|[m [[W|W] X]]]; try discriminate.
      + right; apply IH; [left; exact W|intros m' Im; apply M; right; exact Im].
      + right; apply IH; [right; exists m; split; assumption|intros m' Im; apply M; right; exact Im].
    - exfalso; apply (M m (or_introl eq_refl)), E.
    - apply in_app_iff; destruct W as [[W|W]|[m' [[W|W] X]]]; try discriminate.
      + right; apply IH; [left; exact W|intros m'' Im; apply M; right; exact Im].
      + injection W as <-; left; apply in_map, I, X.
      + right; apply IH; [right; exists m'; split; assumption|intros m'' Im; apply M; right; exact Im].
  Qed.
  Lemma looks_watched deps l q : looks deps l -> In (LFile (Some q)) l -> watched deps q.
  Proof.
    assert (up : forall d r q', watched r q' -> watched (d :: r) q').
    { intros d r q' [W|[m [W X]]]; [left; right; exact W|right; exists m; split; [right; exact W|exact X]]. }
    induction 1 as [|p r l K IH|r l K IH|m r l E K IH|m files r l E ND I K IH].
    - intros [].
    - intros [X|X]; [injection X as ->; left; left; reflexivity|apply up, IH, X].
    - intros [X|X]; [discriminate|apply up, IH, X].
    - intros [X|X]; [discriminate|apply up, IH, X].
    - intros X; apply in_app_iff in X; destruct X as [X|X]; [|apply up, IH, X].
      apply in_map_iff in X; destruct X as [g [Eg Ig]]; injection Eg as ->.
      right; exists m; split; [left; reflexivity|apply I, Ig].
  Qed.

  (** fresh: every watched file exists and is not newer *)
  Lemma needs_update_false st target deps : needs_update set_order st target deps = Ok false ->
    exists f, dget target st = Some f /\
    forall q, watched deps q -> exists g, dget q st = Some g /\ mtime g <= mtime f.
  Proof.
    intros E; destruct (dget target st) as [f|] eqn:D; [|rewrite needs_update_missing in E by exact D; discriminate].
    exists f; split; [reflexivity|]; intros q W.
    destruct (needs_update_spec st target deps f D) as [l [K V]]; rewrite E in V.
    inversion V as [l' F| |]; subst; rewrite Forall_forall in F.
    assert (M : forall m, In (DepModule m) deps -> m_file m <> NoFile).
    { clear W V; induction K as [|p r l K IH|r l K IH|m' r l E' K IH|m' files r l E' ND I K IH]; intros m Im.
      - destruct Im.
      - destruct Im as [Im|Im]; [discriminate|]; revert m Im; apply IH; [|intros x Ix; apply F; right; exact Ix].
        cbn [needs_update] in E; unfold needs_update in E; rewrite D in E; cbn [check_dependencies any_newer getmtime bind] in E.
        unfold needs_update; rewrite D; destruct (dget p st); cbn [bind] in E; [|discriminate].
        destruct (mtime f <? mtime f0); [discriminate|exact E].
      - destruct (F LBadType (or_introl eq_refl)) as [? [? [X _]]]; discriminate.
      - destruct (F LNoFile (or_introl eq_refl)) as [? [? [X _]]]; discriminate.
      - destruct Im as [Im|Im]; [injection Im as <-; exact E'|]; revert m Im; apply IH; [|intros x Ix; apply F, in_app_iff; right; exact Ix].
        unfold needs_update in E |- *; rewrite D in E |- *; cbn [check_dependencies] in E.
        destruct (get_module_dependencies set_order m') as [fl|e]; cbn [bind] in E; [|discriminate].
        destruct (any_newer st (mtime f) fl) as [[|]|]; cbn [bind] in E; try discriminate; exact E. }
    destruct (F _ (watched_looks _ _ _ K W M)) as [p [g [X [Dg L]]]]; injection X as <-; exists g; split; assumption.
  Qed.

  Lemma needs_update_iff st target deps f : dget target st = Some f ->
    (forall d, In d deps -> valid_dep d) -> (forall q, watched deps q -> exists g, dget q st = Some g) ->
    exists b, needs_update set_order st target deps = Ok b /\
      (b = true <-> exists q g, watched deps q /\ dget q st = Some g /\ mtime f < mtime g).
  Proof.
    intros D VD WD; destruct (needs_update_spec st target deps f D) as [l [K V]].
    assert (M : forall m, In (DepModule m) deps -> m_file m <> NoFile) by (intros m Im; exact (proj1 (VD _ Im))).
    assert (B : forall x e, In x l -> ~ fails st x e).
    { intros x e Ix X.
      assert (LX : x = LBadType \/ x = LNoFile \/ x = LFile None \/ exists p, x = LFile (Some p) /\ dget p st = None)
        by (destruct X as [| | |p Dp]; [tauto|tauto|tauto|right; right; right; exists p; split; [reflexivity|exact Dp]]).
      clear X V; destruct LX as [->|[->|[->|[p [-> Dp]]]]].
      - induction K as [|p r l K IH|r l K IH|m r l E K IH|m files r l E ND I K IH].
        + destruct Ix. 
        + destruct Ix as [Ix|Ix]; [discriminate|]; apply IH; [intros d Id; apply VD; right; exact Id|intros q [Wq|[m [Wq X]]]; apply WD; [left; right; exact Wq|right; exists m; split; [right; exact Wq|exact X]]|intros m Im; apply M; right; exact Im|exact Ix].
        + exact (VD DepOther (or_introl eq_refl)).
        + exact (M m (or_introl eq_refl) E).
        + apply in_app_iff in Ix; destruct Ix as [Ix|Ix]; [apply in_map_iff in Ix; destruct Ix as [? [? _]]; discriminate|].
          apply IH; [intros d Id; apply VD; right; exact Id|intros q [Wq|[m' [Wq X]]]; apply WD; [left; right; exact Wq|right; exists m'; split; [right; exact Wq|exact X]]|intros m' Im; apply M; right; exact Im|exact Ix].
      - induction K as [|p r l K IH|r l K IH|m r l E K IH|m files r l E ND I K IH].
        + destruct Ix. 
        + destruct Ix as [Ix|Ix]; [discriminate|]; apply IH; [intros d Id; apply VD; right; exact Id|intros q [Wq|[m [Wq X]]]; apply WD; [left; right; exact Wq|right; exists m; split; [right; exact Wq|exact X]]|intros m Im; apply M; right; exact Im|exact Ix].
        + exact (VD DepOther (or_introl eq_refl)).
        + exact (M m (or_introl eq_refl) E).
        + apply in_app_iff in Ix; destruct Ix as [Ix|Ix]; [apply in_map_iff in Ix; destruct Ix as [? [? _]]; discriminate|].
          apply IH; [intros d Id; apply VD; right; exact Id|intros q [Wq|[m' [Wq X]]]; apply WD; [left; right; exact Wq|right; exists m'; split; [right; exact Wq|exact X]]|intros m' Im; apply M; right; exact Im|exact Ix].
      - induction K as [|p r l K IH|r l K IH|m r l E K IH|m files r l E ND I K IH].
        + destruct Ix. 
        + destruct Ix as [Ix|Ix]; [discriminate|]; apply IH; [intros d Id; apply VD; right; exact Id|intros q [Wq|[m [Wq X]]]; apply WD; [left; right; exact Wq|right; exists m; split; [right; exact Wq|exact X]]|intros m Im; apply M; right; exact Im|exact Ix].
        + exact (VD DepOther (or_introl eq_refl)).
        + exact (M m (or_introl eq_refl) E).
        + apply in_app_iff in Ix; destruct Ix as [Ix|Ix].
          * apply in_map_iff in Ix; destruct Ix as [g [Eg Ig]]; injection Eg as ->.
            apply (proj2 (VD (DepModule m) (or_introl eq_refl))), I, Ig.
          * apply IH; [intros d Id; apply VD; right; exact Id|intros q [Wq|[m' [Wq X]]]; apply WD; [left; right; exact Wq|right; exists m'; split; [right; exact Wq|exact X]]|intros m' Im; apply M; right; exact Im|exact Ix].
      - destruct (WD p (looks_watched _ _ _ K Ix)) as [g Dg]; congruence. }
    destruct (needs_update set_order st target deps) as [b|e] eqn:E.
    - exists b; split; [reflexivity|]; inversion V as [l' F|a x c F N|]; subst.
      + split; [discriminate|]; intros [q [g [W [Dg L]]]]; rewrite Forall_forall in F.
        destruct (F _ (watched_looks _ _ _ K W M)) as [p [g' [X [Dg' L']]]]; injection X as <-; rewrite Dg in Dg'; injection Dg' as <-; lia.
      + split; [|reflexivity]; intros _; destruct N as [p [g [-> [Dg L]]]]; exists p, g; split; [|split; assumption].
        apply (looks_watched _ _ _ K), in_app_iff; right; left; reflexivity.
    - inversion V as [| |a x c e' F N]; subst; exfalso; refine (B x e _ N); apply in_app_iff; right; left; reflexivity.
  Qed.
End NeedsUpdate.

(* ---------------- the disk cache ---------------- *)
Lemma prefix_split {A} (b1 rest q t : list A) : b1 ++ rest = q ++ t ->
  (exists x t', b1 = q ++ x :: t') \/ (exists q', q = b1 ++ q' /\ rest = q' ++ t).
Proof.
  revert q; induction b1 as [|x b1 IH]; intros q E; cbn [app] in *.
  - right; exists q; split; [reflexivity|exact E].
  - destruct q as [|y q]; cbn [app] in *.
    + left; exists x, b1; reflexivity.
    + injection E as <- E; destruct (IH q E) as [[z [t' ->]]|[q' [-> ->]]].
      * left; exists z, t'; reflexivity.
      * right; exists q'; split; reflexivity.
Qed.

Section Disk.
  Variable set_order : list (option path) -> list (option path).
  Hypothesis order_ok : forall l, Permutation (set_order l) l.
  Context {O : Type}.
  Variable oeq : O -> O -> bool.
  Variable none : O.
  Variable is_none : O -> bool.
  Variable dump : O -> list Z * option exn.
  Variable load : list Z -> option (O * list Z).
  Variable encode decode : path -> list Z -> list Z.
  Variable readable writable : path -> bool.
  Hypothesis pok : pickle_ok oeq none is_none dump load encode decode.
  Notation needs_update := (needs_update set_order).
  Notation read_cache := (read_cache oeq none load decode readable).
  Notation try_cache := (try_cache set_order oeq none load decode readable).
  Notation dump3 := (dump3 dump).
  Notation store := (store_cache_object dump encode writable).

  Definition load3 (bytes : list Z) (args params : O) : option O :=
    match load bytes with
    | None => None
    | Some (stored_args, r1) =>
        match load r1 with
        | None => None
        | Some (stored_params, r2) =>
            if oeq stored_args args && oeq stored_params params then
              match load r2 with Some (obj, _) => Some obj | None => None end
            else Some none
        end
    end.
  Lemma read_cache_load3 st f a p : read_cache st f a p =
    if sopen_std f (u "rb") then None
    else if readable f then match dget f st with None => None | Some x => load3 (decode f (content x)) a p end else None.
  Proof. reflexivity. Qed.

  Lemma oeq_l x y z : oeq x y = true -> oeq x z = oeq y z.
  Proof. apply equiv_l, (ok_eq _ _ _ _ _ _ _ pok). Qed.
  Lemma oeq_s x y : oeq x y = true -> oeq y x = true.
  Proof. apply (e_sym _ (ok_eq _ _ _ _ _ _ _ pok)). Qed.
  Lemma oeq_t x y z : oeq x y = true -> oeq y z = true -> oeq x z = true.
  Proof. apply (e_trans _ (ok_eq _ _ _ _ _ _ _ pok)). Qed.
  Lemma oeq_r x : oeq x x = true.
  Proof. apply (e_refl _ (ok_eq _ _ _ _ _ _ _ pok)). Qed.

  Lemma load3_torn a p v b e q t : dump3 a p v = (b, e) -> b = q ++ t -> forall a' p',
    load3 q a' p' = None \/ load3 q a' p' = Some none \/
    exists v', load3 q a' p' = Some v' /\ oeq v' v = true /\ oeq a a' = true /\ oeq p p' = true /\ e = None.
  Proof.
    intros D Eb a' p'; unfold SmartCache_model.dump3 in D; unfold load3.
    destruct (dump a) as [b1 [ea|]] eqn:Da.
    { injection D as <- <-; rewrite (ok_failed _ _ _ _ _ _ _ pok a b1 ea Da q t Eb); left; reflexivity. }
    destruct (dump p) as [b2 ep] eqn:Dp.
    assert (Eb' : exists rest, b = b1 ++ rest) by (destruct ep; [|destruct (dump v)]; injection D as <- _; eexists; reflexivity).
    destruct Eb' as [rest Er]; rewrite Er in Eb.
    destruct (prefix_split _ _ _ _ Eb) as [[x [t' E1]]|[q1 [-> E1]]].
    { rewrite (ok_prefix _ _ _ _ _ _ _ pok a b1 Da q x t' E1); left; reflexivity. }
    destruct (ok_load _ _ _ _ _ _ _ pok a b1 Da q1) as [sa [-> Ea]].
    destruct ep as [ep|].
    { injection D as <- <-; apply app_inv_head in Er; subst rest.
      rewrite (ok_failed _ _ _ _ _ _ _ pok p b2 ep Dp q1 t E1); left; reflexivity. }
    destruct (dump v) as [b3 ev] eqn:Dv; injection D as <- <-; apply app_inv_head in Er; subst rest.
    destruct (prefix_split _ _ _ _ E1) as [[x [t' E2]]|[q2 [-> E2]]].
    { rewrite (ok_prefix _ _ _ _ _ _ _ pok p b2 Dp q1 x t' E2); left; reflexivity. }
    destruct (ok_load _ _ _ _ _ _ _ pok p b2 Dp q2) as [sp [-> Ep]].
    rewrite (oeq_l _ _ a' Ea), (oeq_l _ _ p' Ep).
    destruct (oeq a a' && oeq p p') eqn:Q; [|right; left; reflexivity].
    apply andb_true_iff in Q; destruct Q as [Qa Qp].
    destruct ev as [ev|].
    { rewrite (ok_failed _ _ _ _ _ _ _ pok v b3 ev Dv q2 t E2); left; reflexivity. }
    destruct t as [|x t].
    - rewrite app_nil_r in E2; subst q2; rewrite <- (app_nil_r b3).
      destruct (ok_load _ _ _ _ _ _ _ pok v b3 Dv []) as [v' [-> Ev]].
      right; right; exists v'; repeat split; assumption.
    - rewrite (ok_prefix _ _ _ _ _ _ _ pok v b3 Dv q2 x t E2); left; reflexivity.
  Qed.

  Lemma load3_full a p v b : dump3 a p v = (b, None) ->
    exists v', oeq v' v = true /\ forall a' p', load3 b a' p' = Some (if oeq a a' && oeq p p' then v' else none).
  Proof.
    intros D; unfold SmartCache_model.dump3 in D.
    destruct (dump a) as [b1 [ea|]] eqn:Da; [discriminate|].
    destruct (dump p) as [b2 [ep|]] eqn:Dp; [discriminate|].
    destruct (dump v) as [b3 ev] eqn:Dv; injection D as <- ->.
    destruct (ok_load _ _ _ _ _ _ _ pok a b1 Da (b2 ++ b3)) as [sa [La Ea]].
    destruct (ok_load _ _ _ _ _ _ _ pok p b2 Dp b3) as [sp [Lp Ep]].
    destruct (ok_load _ _ _ _ _ _ _ pok v b3 Dv []) as [v' [Lv Ev]]; rewrite app_nil_r in Lv.
    exists v'; split; [exact Ev|]; intros a' p'; unfold load3; rewrite La, Lp, Lv, (oeq_l _ _ a' Ea), (oeq_l _ _ p' Ep).
    destruct (oeq a a' && oeq p p'); reflexivity.
  Qed.

  Lemma load3_eq b a p a' p' : oeq a a' = true -> oeq p p' = true -> load3 b a p = load3 b a' p'.
  Proof.
    intros Ea Ep; unfold load3; destruct (load b) as [[sa r1]|]; [|reflexivity]; destruct (load r1) as [[sp r2]|]; [|reflexivity].
    assert (X : forall s x y, oeq x y = true -> oeq s x = oeq s y).
    { intros s x y E; destruct (oeq s y) eqn:F; [apply (oeq_t s y x F), oeq_s, E|].
      destruct (oeq s x) eqn:G; [rewrite (oeq_t _ _ _ G E) in F; discriminate|reflexivity]. }
    rewrite (X sa a a' Ea), (X sp p p' Ep); reflexivity.
  Qed.

  (* a store that succeeds *)
  Lemma store_inv st now obj f a p st' : store st now obj f a p = (st', Ok tt) ->
    sopen_std f (u "wb") = false /\ writable f = true /\ exists b, dump3 a p obj = (b, None) /\
    st' = dset f {| content := encode f b; mtime := now |} st.
  Proof.
    unfold store_cache_object; destruct (sopen_std f (u "wb")); [discriminate|].
    destruct (writable f); [|discriminate].
    destruct (dump3 a p obj) as [b [e|]]; [discriminate|]; intros E; injection E as <-.
    split; [reflexivity|split; [reflexivity|exists b; split; reflexivity]].
  Qed.
  Lemma sopen_std_mode f : sopen_std f (u "wb") = sopen_std f (u "rb").
  Proof.
    unfold sopen_std, sopen; cbn [mem andb]; cbv zeta.
    replace (mem (u1 "r") (u "wb")) with false by reflexivity.
    replace (mem (u1 "r") (u "rb")) with true by reflexivity.
    replace (mem (u1 "w") (u "rb")) with false by reflexivity.
    cbn [andb]; destruct (endswith (u ".bz2") f), (endswith (u ".gz") f), (eqb f (u "-")); reflexivity.
  Qed.

  Lemma store_try st now obj f a p st' : store st now obj f a p = (st', Ok tt) -> readable f = true ->
    (forall q, q <> f -> dget q st' = dget q st) /\
    exists obj', oeq obj' obj = true /\ forall a' p' deps,
      try_cache st' f a' p' deps =
      match needs_update st' f deps with
      | Raise e => Raise e
      | Ok true => Ok none
      | Ok false => Ok (if oeq a a' && oeq p p' then obj' else none)
      end.
  Proof.
    intros S R; destruct (store_inv _ _ _ _ _ _ _ S) as [Sd [W [b [D ->]]]]; split.
    - intros q N; apply dget_dset_other, N.
    - destruct (load3_full _ _ _ _ D) as [v' [Ev L]]; exists v'; split; [exact Ev|]; intros a' p' deps.
      unfold SmartCache_model.try_cache; destruct (needs_update _ f deps) as [[|]|e]; cbn [bind]; try reflexivity.
      rewrite read_cache_load3, <- sopen_std_mode, Sd, R, dget_dset_same; cbn [content].
      rewrite (ok_decode _ _ _ _ _ _ _ pok), L; reflexivity.
  Qed.

  (* a torn file *)
  Lemma torn_try st f a p obj n m : dget f st = Some {| content := firstn n (encode f (fst (dump3 a p obj))); mtime := m |} ->
    forall a' p' deps r, try_cache st f a' p' deps = Ok r ->
    r = none \/ (oeq r obj = true /\ oeq a a' = true /\ oeq p p' = true).
  Proof.
    intros D a' p' deps r; unfold SmartCache_model.try_cache.
    destruct (needs_update st f deps) as [[|]|e]; cbn [bind]; [intros E; injection E as <-; left; reflexivity| |discriminate].
    rewrite read_cache_load3, D; cbn [content].
    destruct (sopen_std f (u "rb")); [intros E; injection E as <-; left; reflexivity|].
    destruct (readable f); [|intros E; injection E as <-; left; reflexivity].
    destruct (dump3 a p obj) as [b e] eqn:E3; cbn [fst] in *.
    destruct (ok_torn _ _ _ _ _ _ _ pok f b (firstn n (encode f b)) (skipn n (encode f b))) as [t Et];
      [symmetry; apply firstn_skipn|].
    destruct (load3_torn _ _ _ _ _ _ _ E3 Et a' p') as [->|[->|[v' [-> [H1 [H2 [H3 _]]]]]]]; intros E; injection E as <-.
    - left; reflexivity.
    - left; reflexivity.
    - right; repeat split; assumption.
  Qed.

  Context {W : Type}.
  Variable method : W * fs -> O -> O -> (W * fs) * res O.
  Notation disk_call := (disk_call set_order oeq none is_none dump load encode decode readable writable method).
  Notation disk_call_crash := (disk_call_crash set_order oeq none is_none dump load encode decode readable writable method).
  Notation run := (run set_order oeq none is_none dump load encode decode readable writable method).

  (* ---------------- C28 ---------------- *)
  Lemma disk_call_repeat f deps now w a p w1 v : disk_call f deps now w a p = (w1, Ok v) ->
    is_none v = false -> readable f = true -> needs_update (snd w1) f deps = Ok false ->
    exists v', oeq v' v = true /\
    forall now' a' p', oeq a a' = true -> oeq p p' = true -> disk_call f deps now' w1 a' p' = (w1, Ok v').
  Proof.
    unfold SmartCache_model.disk_call; intros E N R NU.
    destruct (try_cache (snd w) f a p deps) as [c|e] eqn:T; [|discriminate].
    destruct (is_none c) eqn:Nc.
    - destruct (method w a p) as [[x st'] [result|e]]; [|discriminate].
      destruct (store st' now result f a p) as [st'' [[]|e]] eqn:S; injection E as <- E; [|discriminate]; subst result.
      destruct (store_try _ _ _ _ _ _ _ S R) as [_ [v' [Ev TC]]]; exists v'; split; [exact Ev|]; intros now' a' p' Ea Ep.
      cbn [snd] in *; rewrite TC, NU, Ea, Ep; cbn [andb].
      rewrite (ok_is_none _ _ _ _ _ _ _ pok v' v Ev), N; reflexivity.
    - injection E as <- ->; exists v; split; [apply oeq_r|]; intros now' a' p' Ea Ep.
      unfold SmartCache_model.try_cache in *; rewrite NU in *; cbn [bind] in *.
      rewrite read_cache_load3 in *.
      destruct (sopen_std f (u "rb")); [injection T as <-; rewrite (ok_none _ _ _ _ _ _ _ pok) in Nc; discriminate|].
      rewrite R in *; destruct (dget f (snd w)) as [x|]; [|injection T as <-; rewrite (ok_none _ _ _ _ _ _ _ pok) in Nc; discriminate].
      rewrite <- (load3_eq _ a p a' p' Ea Ep), T, N; reflexivity.
  Qed.

  (* ---------------- C26 ---------------- *)
  Variable cache_file : path.
  Variable deps : list dependency.
  Variable g : O -> O -> (path -> option (list Z)) -> res O.
  Hypothesis dok : depends_on oeq deps method g.
  Hypothesis not_self : ~ watched deps cache_file.

  Definition good (st : fs) : Prop := forall a p obj, read_cache st cache_file a p = Some obj -> is_none obj = false ->
    exists v, g a p (contents st) = Ok v /\ oeq obj v = true.
  Definition inv (T : list Z) (st : fs) : Prop :=
    NoDup (dkeys st) /\
    forall f, dget cache_file st = Some f -> In (mtime f) T /\
      ((forall q, watched deps q -> exists x, dget q st = Some x /\ mtime x <= mtime f) -> good st).

  Lemma inv_mono T t st : inv T st -> inv (t :: T) st.
  Proof. intros [N I]; split; [exact N|]; intros f D; destruct (I f D) as [I1 I2]; split; [right; exact I1|exact I2]. Qed.

  (* whatever prefix of a store reaches the file, the invariant holds *)
  Lemma inv_store T st now a p v q t : inv T st -> g a p (contents st) = Ok v ->
    fst (dump3 a p v) = decode cache_file q ++ t ->
    inv (now :: T) (dset cache_file {| content := q; mtime := now |} st).
  Proof.
    intros [N I] G E; split; [apply NoDup_dset, N|]; intros f D; rewrite dget_dset_same in D; injection D as <-; cbn [mtime].
    split; [left; reflexivity|]; intros _ a' p' obj RC NN.
    rewrite read_cache_load3, dget_dset_same in RC; cbn [content] in RC.
    destruct (sopen_std cache_file (u "rb")); [discriminate|]; destruct (readable cache_file); [|discriminate].
    destruct (dump3 a p v) as [b e] eqn:D3; cbn [fst] in E.
    destruct (load3_torn _ _ _ _ _ _ _ D3 E a' p') as [L|[L|[v' [L [H1 [H2 [H3 _]]]]]]]; rewrite L in RC.
    - discriminate.
    - injection RC as <-; rewrite (ok_none _ _ _ _ _ _ _ pok) in NN; discriminate.
    - injection RC as <-.
      rewrite (d_contents _ _ _ _ dok a' p' _ (contents st)).
      2:{ intros x Wx; unfold contents; rewrite dget_dset_other; [reflexivity|intros ->; contradiction]. }
      pose proof (d_args _ _ _ _ dok a a' p p' (contents st) H2 H3) as RE; rewrite G in RE.
      inversion RE as [x y XY Ex Ey|]; subst; exists y; split; [reflexivity|exact (oeq_t _ _ _ H1 XY)].
  Qed.

  Lemma try_cache_right T st a p c : inv T st -> try_cache st cache_file a p deps = Ok c -> is_none c = false ->
    exists v, g a p (contents st) = Ok v /\ oeq c v = true.
  Proof.
    intros [N I] E NN; unfold SmartCache_model.try_cache in E.
    destruct (needs_update st cache_file deps) as [[|]|e] eqn:NU; cbn [bind] in E; [|  |discriminate].
    - injection E as <-; rewrite (ok_none _ _ _ _ _ _ _ pok) in NN; discriminate.
    - destruct (needs_update_false set_order order_ok _ _ _ NU) as [f [D F]].
      destruct (I f D) as [_ GD]; specialize (GD F).
      destruct (read_cache st cache_file a p) as [obj|] eqn:RC.
      + injection E as <-; exact (GD a p obj RC NN).
      + injection E as <-; rewrite (ok_none _ _ _ _ _ _ _ pok) in NN; discriminate.
  Qed.

  Definition right (c : path -> option (list Z)) (a p : O) (r : res O) : Prop :=
    forall v, r = Ok v -> exists v', g a p c = Ok v' /\ oeq v v' = true.

  Lemma disk_call_right T now w a p : inv T (snd w) ->
    right (contents (snd w)) a p (snd (disk_call cache_file deps now w a p)) /\
    inv (now :: T) (snd (fst (disk_call cache_file deps now w a p))).
  Proof.
    intros I; unfold SmartCache_model.disk_call.
    destruct (try_cache (snd w) cache_file a p deps) as [c|e] eqn:TC; cbn [fst snd]; [|split; [intros v X; discriminate|apply inv_mono, I]].
    destruct (is_none c) eqn:NC; cbn [fst snd].
    - destruct (d_method _ _ _ _ dok w a p) as [x M]; rewrite M.
      destruct (g a p (contents (snd w))) as [v|e] eqn:G; cbn [fst snd]; [|split; [intros v X; discriminate|apply inv_mono, I]].
      unfold store_cache_object.
      assert (RV : forall r : res unit, right (contents (snd w)) a p (match r with Ok _ => Ok v | Raise e => Raise e end)).
      { intros [[]|e] y Y; [injection Y as <-; exists v; split; [exact G|apply oeq_r]|discriminate]. }
      destruct (sopen_std cache_file (u "wb")); cbn [fst snd]; [split; [intros y Y; discriminate|apply inv_mono, I]|].
      destruct (writable cache_file); cbn [fst snd]; [|split; [intros y Y; discriminate|apply inv_mono, I]].
      destruct (dump3 a p v) as [b e] eqn:D3; cbn [fst snd]; split; [apply RV|].
      refine (inv_store T (snd w) now a p v (encode cache_file b) [] I G _).
      rewrite D3, (ok_decode _ _ _ _ _ _ _ pok), app_nil_r; reflexivity.
    - split; [|apply inv_mono, I]; intros v X; injection X as <-; exact (try_cache_right T _ _ _ _ I TC NC).
  Qed.

  Lemma disk_crash_inv T now w a p n : inv T (snd w) -> inv (now :: T) (snd (disk_call_crash cache_file deps now w a p n)).
  Proof.
    intros I; unfold SmartCache_model.disk_call_crash.
    destruct (try_cache (snd w) cache_file a p deps) as [c|e]; [|apply inv_mono, I].
    destruct (is_none c); [|apply inv_mono, I].
    destruct (d_method _ _ _ _ dok w a p) as [x M]; rewrite M.
    destruct (g a p (contents (snd w))) as [v|e] eqn:G; [|apply inv_mono, I].
    destruct (sopen_std cache_file (u "wb")); [apply inv_mono, I|].
    destruct (writable cache_file); [|apply inv_mono, I]; cbn [snd].
    destruct (ok_torn _ _ _ _ _ _ _ pok cache_file (fst (dump3 a p v)) (firstn n (encode cache_file (fst (dump3 a p v))))
                (skipn n (encode cache_file (fst (dump3 a p v))))) as [t Et]; [symmetry; apply firstn_skipn|].
    exact (inv_store T (snd w) now a p v _ t I G Et).
  Qed.

  Lemma inv_write T st q f : inv T st -> q <> cache_file -> (watched deps q -> Forall (fun t => t < mtime f) T) ->
    inv T (dset q f st).
  Proof.
    intros [N I] NE L; split; [apply NoDup_dset, N|]; intros c D; rewrite dget_dset_other in D by congruence.
    destruct (I c D) as [I1 I2]; split; [exact I1|]; intros F.
    assert (NQ : forall x, watched deps x -> x <> q).
    { intros x Wx ->; destruct (F q Wx) as [y [Dy Ly]]; rewrite dget_dset_same in Dy; injection Dy as <-.
      specialize (L Wx); rewrite Forall_forall in L; specialize (L _ I1); lia. }
    assert (GD : good st).
    { apply I2; intros x Wx; destruct (F x Wx) as [y [Dy Ly]]; rewrite dget_dset_other in Dy by (apply NQ, Wx).
      exists y; split; assumption. }
    intros a p obj RC NN; rewrite read_cache_load3, dget_dset_other in RC by congruence; rewrite <- read_cache_load3 in RC.
    destruct (GD a p obj RC NN) as [v [G Ev]]; exists v; split; [|exact Ev].
    rewrite <- G; apply (d_contents _ _ _ _ dok); intros x Wx; unfold contents.
    rewrite dget_dset_other by (apply NQ, Wx); reflexivity.
  Qed.

  Lemma inv_remove T st q : inv T st -> inv T (ddel q st).
  Proof.
    intros [N I]; split; [apply NoDup_ddel, N|]; intros c D; rewrite dget_ddel in D by exact N.
    destruct (eqb_spec cache_file q) as [->|NE]; [discriminate|].
    destruct (I c D) as [I1 I2]; split; [exact I1|]; intros F.
    assert (NQ : forall x, watched deps x -> dget x (ddel q st) = dget x st).
    { intros x Wx; destruct (F x Wx) as [y [Dy Ly]]; rewrite dget_ddel in Dy |- * by exact N.
      destruct (eqb x q); [discriminate|reflexivity]. }
    assert (GD : good st).
    { apply I2; intros x Wx; destruct (F x Wx) as [y [Dy Ly]]; rewrite NQ in Dy by exact Wx; exists y; split; assumption. }
    intros a p obj RC NN; rewrite read_cache_load3, dget_ddel, (eqb_neq _ _ NE) in RC by exact N; rewrite <- read_cache_load3 in RC.
    destruct (GD a p obj RC NN) as [v [G Ev]]; exists v; split; [|exact Ev].
    rewrite <- G; apply (d_contents _ _ _ _ dok); intros x Wx; unfold contents; rewrite (NQ x Wx); reflexivity.
  Qed.

  Lemma run_inv h : forall T w, inv T (snd w) -> late_writes cache_file deps T h ->
    exists T', inv T' (snd (fst (run cache_file deps w h))).
  Proof.
    induction h as [|[now a p|now a p n|q f|q] h IH]; intros T w I L; cbn [SmartCache_model.run late_writes] in *.
    - exists T; exact I.
    - pose proof (disk_call_right T now w a p I) as [_ I'].
      destruct (disk_call cache_file deps now w a p) as [w' r]; cbn [fst snd] in *.
      destruct (IH _ w' I' L) as [T' I'']; exists T'; destruct (run cache_file deps w' h); exact I''.
    - exact (IH _ _ (disk_crash_inv T now w a p n I) L).
    - destruct L as [NE [L1 L2]]; exact (IH T (fst w, dset q f (snd w)) (inv_write T (snd w) q f I NE L1) L2).
    - exact (IH T (fst w, ddel q (snd w)) (inv_remove T (snd w) q I) L).
  Qed.

  (** after every history, every call is right *)
  Lemma history_right w h : NoDup (dkeys (snd w)) -> dget cache_file (snd w) = None -> late_writes cache_file deps [] h ->
    forall now a p, let w1 := fst (run cache_file deps w h) in
    right (contents (snd w1)) a p (snd (disk_call cache_file deps now w1 a p)).
  Proof.
    intros N D L now a p; cbv zeta.
    assert (I0 : inv [] (snd w)) by (split; [exact N|intros f X; congruence]).
    destruct (run_inv h [] w I0 L) as [T' I]; exact (proj1 (disk_call_right T' now _ a p I)).
  Qed.

  (** and it fails only if the method fails, a dependency cannot be checked, or
      the result cannot be stored *)
  Lemma disk_call_total now w a p e : snd (disk_call cache_file deps now w a p) = Raise e ->
    needs_update (snd w) cache_file deps = Raise e \/ g a p (contents (snd w)) = Raise e \/
    exists v, g a p (contents (snd w)) = Ok v /\ snd (store (snd w) now v cache_file a p) = Raise e.
  Proof.
    unfold SmartCache_model.disk_call, SmartCache_model.try_cache.
    destruct (needs_update (snd w) cache_file deps) as [b|e'] eqn:NU; cbn [bind]; [|cbn [snd]; intros E; injection E as ->; left; reflexivity].
    assert (K : snd (match method w a p with
          | (w', Raise e) => (w', Raise e)
          | ((x, st'), Ok result) =>
              let '(st'', r) := store st' now result cache_file a p in
              ((x, st''), match r with Ok _ => Ok result | Raise e => Raise e end)
          end) = Raise e -> g a p (contents (snd w)) = Raise e \/
          exists v, g a p (contents (snd w)) = Ok v /\ snd (store (snd w) now v cache_file a p) = Raise e).
    { destruct (d_method _ _ _ _ dok w a p) as [x ->].
      destruct (g a p (contents (snd w))) as [v|e']; [|cbn [snd]; intros E; injection E as ->; left; reflexivity].
      intros E; right; exists v; split; [reflexivity|].
      destruct (store (snd w) now v cache_file a p) as [st'' [[]|e'']]; cbn [snd] in *; [discriminate|injection E as ->; reflexivity]. }
    destruct b.
    - rewrite (ok_none _ _ _ _ _ _ _ pok); intros E; right; exact (K E).
    - destruct (read_cache (snd w) cache_file a p) as [obj|].
      + destruct (is_none obj); [intros E; right; exact (K E)|cbn [snd]; discriminate].
      + rewrite (ok_none _ _ _ _ _ _ _ pok); intros E; right; exact (K E).
  Qed.
End Disk.

(* ---------------- a concrete instance ---------------- *)
(* objects are integers, -1 is None; a pickle is the integer and a stop byte;
   2 cannot be pickled *)
Definition zdump (v : Z) : list Z * option exn := if v =? 2 then ([v], Some PicklingError) else ([v; 0], None).
Definition zload (b : list Z) : option (Z * list Z) :=
  match b with v :: 0 :: r => Some (v, r) | _ => None end.
Definition zid (p b : list Z) : list Z := b.
Definition any (p : list Z) : bool := true.
Definition znone (v : Z) : bool := v =? -1.

Lemma zpickle_ok : pickle_ok Z.eqb (-1) znone zdump zload zid zid.
Proof.
  split.
  - split; [apply Z.eqb_refl|intros x y; rewrite !Z.eqb_eq; congruence|intros x y z; rewrite !Z.eqb_eq; congruence].
  - reflexivity.
  - intros x y E; apply Z.eqb_eq in E; subst; reflexivity.
  - intros v b; unfold zdump; destruct (v =? 2); [discriminate|]; intros E r; injection E as <-.
    exists v; split; [reflexivity|apply Z.eqb_refl].
  - intros v b; unfold zdump; destruct (v =? 2); [discriminate|]; intros E q x t Eq; injection E as <-.
    destruct q as [|y [|z q]]; [reflexivity|reflexivity|].
    apply (f_equal (@length Z)) in Eq; cbn [length app] in Eq; rewrite app_length in Eq; cbn [length] in Eq; lia.
  - intros v b e; unfold zdump; destruct (v =? 2); [|discriminate]; intros E q t Eq; injection E as <- <-.
    destruct q as [|y [|z q]]; [reflexivity|reflexivity|discriminate].
  - reflexivity.
  - intros p b q t E; exists t; exact E.
Qed.

Definition dep_f : path := u "d".
Definition cache_f : path := u "c".
(* adds its argument to the first byte of the dependency, counting its calls *)
Definition zg (a p : Z) (c : path -> option (list Z)) : res Z :=
  match c dep_f with Some (b :: _) => Ok (a + b) | _ => Raise ValueError end.
Definition zmethod (w : nat * fs) (a p : Z) : (nat * fs) * res Z :=
  ((S (fst w), snd w), zg a p (contents (snd w))).
Lemma zdepends : depends_on Z.eqb [DepPath dep_f] zmethod zg.
Proof.
  split.
  - intros w a p; exists (S (fst w)); reflexivity.
  - intros a p c c' E; unfold zg; rewrite (E dep_f); [reflexivity|left; left; reflexivity].
  - intros a a' p p' c Ea Ep; apply Z.eqb_eq in Ea; subst; unfold zg.
    destruct (c dep_f) as [[|b l]|]; constructor; apply Z.eqb_refl.
Qed.
Definition zfs (b t : Z) : fs := [(dep_f, {| content := [b]; mtime := t |})].
Notation zcall := (disk_call (fun l => l) Z.eqb (-1) znone zdump zload zid zid any any zmethod cache_f [DepPath dep_f]).
Notation zrun := (run (fun l => l) Z.eqb (-1) znone zdump zload zid zid any any zmethod cache_f [DepPath dep_f]).

(* the dependency is modified in the same clock tick as the store, or gets an
   older time stamp *)
Lemma same_tick : exists h, snd (zrun (0%nat, zfs 5 1) h) = [Ok 8; Ok 8] /\
  zg 3 0 (contents (snd (fst (zrun (0%nat, zfs 5 1) h)))) = Ok 10 /\
  h = [ECall 10 3 0; EWrite dep_f {| content := [7]; mtime := 10 |}; ECall 11 3 0].
Proof. eexists; split; [|split; [|reflexivity]]; vm_compute; reflexivity. Qed.

(* another process modifies the dependency while the method runs *)
Definition raced (w : nat * fs) (a p : Z) : (nat * fs) * res Z :=
  ((S (fst w), dset dep_f {| content := [7]; mtime := 9 |} (snd w)), zg a p (contents (snd w))).
Lemma race : let h := [ECall 10 3 0; ECall 11 3 0] in
  let out := run (fun l => l) Z.eqb (-1) znone zdump zload zid zid any any raced cache_f [DepPath dep_f] (0%nat, zfs 5 1) h in
  snd out = [Ok 8; Ok 8] /\ zg 3 0 (contents (snd (fst out))) = Ok 10.
Proof. split; vm_compute; reflexivity. Qed.

(* None is computed again every time *)
Lemma none_recomputed : let out := zrun (0%nat, zfs 5 1) [ECall 10 (-6) 0; ECall 11 (-6) 0; ECall 12 (-6) 0] in
  snd out = [Ok (-1); Ok (-1); Ok (-1)] /\ fst (fst out) = 3%nat.
Proof. split; vm_compute; reflexivity. Qed.
